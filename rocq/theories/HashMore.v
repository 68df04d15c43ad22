(** The directory path of a hash. *)
From Coq Require Import Lia ZifyBool ZifyNat ZifyN.
From Verif Require Import Base BaseFacts Sha512 HashModel HashSpec HashProofs.

Lemma cut_folder : forall (l : bytes) n m, length l = n + m -> exists a b, l = a ++ b /\ length a = n /\ length b = m.
Proof.
  intros l n m H. exists (firstn n l), (skipn n l). rewrite firstn_skipn, firstn_length, skipn_length, H.
  repeat split; lia.
Qed.
Lemma sixteen : forall l : bytes, length l = 16 -> exists a b c d e f g h i j k m n o p q, l = [a;b;c;d;e;f;g;h;i;j;k;m;n;o;p;q].
Proof.
  intros l H. do 16 (destruct l as [|? l]; [discriminate H|]). destruct l; [|discriminate H]. repeat eexists.
Qed.
(** one folder of the loop of Path *)
Lemma path_loop_folder : forall f s k out cur, length f = 16 -> length cur = 16 ->
  path_loop (f ++ s) (16 * k) out cur = path_loop s (16 * S k) (join out cur) f.
Proof.
  intros f s k out cur Hf Hc.
  destruct (sixteen f Hf) as (a & b & c & d & e & f' & g & h & i & j & l & m & n & o & p & q & ->).
  destruct cur as [|x cur]; [discriminate|].
  cbn [app path_loop].
  assert (E : (16 * k) mod 16 = 0) by (rewrite Nat.mul_comm; apply Nat.mod_mul; discriminate).
  assert (R : forall r, 0 < r < 16 -> ((r + 16 * k) mod 16 =? 0) = false).
  { intros r Hr. apply Nat.eqb_neq. rewrite (Nat.mul_comm 16 k), Nat.mod_add by discriminate.
    rewrite Nat.mod_small by lia. lia. }
  rewrite E. change (0 =? 0) with true. cbv iota. cbn [app].
  assert (R' : forall r, 0 < r < 16 -> Nat.modulo (r + 16 * k) 16 =? 0 = false) by exact R. clear R E.
  change (S (16 * k)) with (1 + 16 * k).
  repeat match goal with |- context [S (?r + 16 * k)] => change (S (r + 16 * k)) with (S r + 16 * k) end.
  rewrite !R' by (split; [apply Nat.lt_0_succ|apply Nat.ltb_lt; reflexivity]). cbv iota.
  replace (16 + 16 * k) with (16 * S k) by (rewrite Nat.mul_succ_r; apply Nat.add_comm). reflexivity.
Qed.
Lemma path_loop_first : forall f s, length f = 16 -> path_loop (f ++ s) 0 [] [] = path_loop s 16 [] f.
Proof.
  intros f s Hf.
  destruct (sixteen f Hf) as (a & b & c & d & e & f' & g & h & i & j & l & m & n & o & p & q & ->). reflexivity.
Qed.
Lemma path_loop_folders : forall fs k out cur, Forall (fun f => length f = 16) fs -> length cur = 16 ->
  path_loop (concat fs) (16 * k) out cur = (fold_left join (removelast (cur :: fs)) out, last (cur :: fs) []).
Proof.
  induction fs as [|f fs IH]; intros k out cur H Hc; [reflexivity|].
  inversion H; subst. cbn [concat]. rewrite path_loop_folder by assumption. rewrite IH by assumption. reflexivity.
Qed.

Lemma hash_path_exact : forall h, length h = 64 ->
  exists folders, length folders = 8 /\ Forall (fun f => length f = 16) folders /\
    concat folders = hash_string h /\ hash_path h = concat (map (fun f => f ++ [x2f]) folders) ++ hash_string h.
Proof.
  intros h H. pose proof (hash_string_length h H) as L. unfold hash_path. set (s := hash_string h) in *. clearbody s.
  destruct (cut_folder s 16 112 L) as (f1 & s1 & -> & L1 & K1).
  destruct (cut_folder s1 16 96 K1) as (f2 & s2 & -> & L2 & K2).
  destruct (cut_folder s2 16 80 K2) as (f3 & s3 & -> & L3 & K3).
  destruct (cut_folder s3 16 64 K3) as (f4 & s4 & -> & L4 & K4).
  destruct (cut_folder s4 16 48 K4) as (f5 & s5 & -> & L5 & K5).
  destruct (cut_folder s5 16 32 K5) as (f6 & s6 & -> & L6 & K6).
  destruct (cut_folder s6 16 16 K6) as (f7 & f8 & -> & L7 & L8).
  exists [f1; f2; f3; f4; f5; f6; f7; f8].
  assert (F : Forall (fun f : bytes => length f = 16) [f2; f3; f4; f5; f6; f7; f8]) by (repeat constructor; assumption).
  split; [reflexivity|]. split; [constructor; assumption|].
  split; [cbn [concat]; rewrite app_nil_r; reflexivity|].
  rewrite path_loop_first by assumption.
  replace (f2 ++ f3 ++ f4 ++ f5 ++ f6 ++ f7 ++ f8) with (concat [f2; f3; f4; f5; f6; f7; f8]) by (cbn [concat]; rewrite app_nil_r; reflexivity).
  change 16 with (16 * 1). rewrite path_loop_folders by assumption. cbn [removelast last fold_left].
  destruct f1 as [|x1 f1]; [discriminate|]. destruct f8 as [|x8 f8]; [discriminate|].
  cbn [join]. cbn [concat map app]. rewrite <- !app_assoc. cbn [app]. rewrite <- ?app_assoc. cbn [app]. rewrite <- ?app_assoc. cbn [app].
  repeat (rewrite <- ?app_assoc; cbn [app join]). reflexivity.
Qed.
