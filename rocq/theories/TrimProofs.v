From Coq Require Import Lia ZifyBool ZifyNat ZifyN.
From Verif Require Import Base BaseFacts JsonModel UnicodeSpec PeersModel PeersSpec.

(** ** The runes *)
Definition white_numbers : list N :=
  map N.of_nat (seq 9 5) ++ [0x20; 0x85; 0xA0; 0x1680]%N ++ map (fun k => 0x2000 + N.of_nat k)%N (seq 0 11) ++ [0x2028; 0x2029; 0x202F; 0x205F; 0x3000]%N.
Lemma white_iff : forall n, white n <-> In n white_numbers.
Proof.
  intro n. unfold white, white_numbers. rewrite !in_app_iff, !in_map_iff. split.
  - intros [H|[H|[H|[H|[H|[H|H]]]]]].
    + left. exists (N.to_nat n). rewrite in_seq. lia.
    + right. left. left. auto.
    + right. left. right. left. auto.
    + right. left. do 2 right. left. auto.
    + right. left. do 3 right. left. auto.
    + right. right. left. exists (N.to_nat (n - 0x2000)). rewrite in_seq. lia.
    + do 3 right. cbn [In]. intuition auto.
  - intros [(k & <- & K)|[K|[(k & <- & K)|K]]]; try (apply in_seq in K); cbn [In] in *; lia.
Qed.
Lemma white_runes_are : white_runes = map rune_bytes white_numbers.
Proof. vm_compute. reflexivity. Qed.
Lemma white_rune : forall p, In p white_runes <-> exists n, white n /\ p = rune_bytes n.
Proof.
  intro p. rewrite white_runes_are, in_map_iff. split; intros (n & H); exists n; rewrite white_iff in *; intuition auto.
Qed.
Lemma white_concat : forall ws, Forall (fun p => In p white_runes) ws -> white_text (concat ws).
Proof.
  intros ws F. induction F as [|p ws H F IH]; [exists []; split; [constructor|reflexivity]|].
  apply white_rune in H as (n & W & ->). destruct IH as (ns & Fn & E). exists (n :: ns). split; [constructor; assumption|].
  cbn [concat map]. rewrite E. reflexivity.
Qed.
Lemma white_app : forall a b, white_text a -> white_text b -> white_text (a ++ b).
Proof.
  intros a b (ns & F & ->) (ms & G & ->). exists (ns ++ ms). split; [apply Forall_app; auto|]. rewrite map_app, concat_app. reflexivity.
Qed.

(** ** Dropping them *)
Lemma prefix_of_iff : forall p s r, prefix_of p s = Some r <-> s = p ++ r.
Proof.
  induction p as [|a p IH]; intros s r; cbn [prefix_of app]; [split; congruence|]. destruct s as [|b s]; [split; discriminate|].
  destruct (beq a b) eqn:E.
  - apply beq_eq in E as ->. rewrite IH. split; [intros ->; reflexivity|intro H; injection H; auto].
  - split; [discriminate|]. intro H. injection H as -> _. rewrite beq_refl in E. discriminate.
Qed.
Lemma drop_one_some : forall ps s r, drop_one ps s = Some r -> exists p, In p ps /\ s = p ++ r.
Proof.
  induction ps as [|p ps IH]; intros s r H; [discriminate|]. cbn [drop_one] in H. destruct (prefix_of p s) as [r'|] eqn:E.
  - injection H as <-. apply prefix_of_iff in E. exists p. split; [left; reflexivity|exact E].
  - destruct (IH s r H) as (q & I & K). exists q. split; [right; exact I|exact K].
Qed.
Lemma drop_one_none : forall ps s, drop_one ps s = None -> forall p r, In p ps -> s <> p ++ r.
Proof.
  induction ps as [|p ps IH]; intros s H q r I; [destruct I|]. cbn [drop_one] in H. destruct (prefix_of p s) as [r'|] eqn:E; [discriminate|].
  destruct I as [<-|I]; [|exact (IH s H q r I)]. intro K. apply prefix_of_iff in K. congruence.
Qed.
Lemma drop_all_spec : forall ps, Forall (fun p => p <> []) ps -> forall n s, length s <= n ->
  exists ws, Forall (fun p => In p ps) ws /\ s = concat ws ++ drop_all ps n s /\ forall p r, In p ps -> drop_all ps n s <> p ++ r.
Proof.
  intros ps NE. rewrite Forall_forall in NE. induction n as [|n IH]; intros s L.
  - destruct s; [|cbn in L; lia]. exists []. split; [constructor|]. split; [reflexivity|]. cbn [drop_all]. intros p r I E. apply (NE p I).
    symmetry in E. apply app_eq_nil in E. tauto.
  - cbn [drop_all]. destruct (drop_one ps s) as [r|] eqn:E.
    + apply drop_one_some in E as (p & I & ->). destruct (IH r) as (ws & F & Er & K).
      { rewrite app_length in L. destruct p; [exfalso; exact (NE [] I eq_refl)|]. cbn in L. lia. }
      exists (p :: ws). split; [constructor; assumption|]. split; [|exact K]. cbn [concat]. rewrite <- app_assoc, <- Er. reflexivity.
    + exists []. split; [constructor|]. split; [reflexivity|]. apply drop_one_none. exact E.
Qed.
Lemma runes_nonempty : Forall (fun p : bytes => p <> []) white_runes.
Proof. repeat constructor; discriminate. Qed.
Lemma runes_rev_nonempty : Forall (fun p : bytes => p <> []) (map (@rev byte) white_runes).
Proof. repeat constructor; discriminate. Qed.
Lemma concat_rev : forall ws : list bytes, rev (concat ws) = concat (map (@rev byte) (rev ws)).
Proof.
  induction ws as [|w ws IH]; [reflexivity|]. cbn [concat rev]. rewrite rev_app_distr, map_app, concat_app, IH. cbn [map concat]. rewrite app_nil_r. reflexivity.
Qed.
(** the text without white space on the right still begins as before *)
Lemma trim_func_spec : forall s, trimmed_to s (trim_func s).
Proof.
  intro s. unfold trim_func. destruct (drop_all_spec white_runes runes_nonempty (length s) s (le_n _)) as (ws & F & E & K).
  set (l := drop_all white_runes (length s) s) in *.
  destruct (drop_all_spec _ runes_rev_nonempty (length l) (rev l)) as (vs & G & E' & K'); [rewrite rev_length; lia|].
  set (t := drop_all _ (length l) (rev l)) in *.
  assert (El : l = rev t ++ concat (map (@rev byte) (rev vs))) by (rewrite <- concat_rev, <- rev_app_distr, <- E', rev_involutive; reflexivity).
  assert (G' : Forall (fun p => In p white_runes) (map (@rev byte) (rev vs))).
  { apply Forall_forall. intros p I. apply in_map_iff in I as (q & <- & I). apply in_rev in I. rewrite Forall_forall in G. specialize (G q I).
    apply in_map_iff in G as (p & <- & Ip). rewrite rev_involutive. exact Ip. }
  exists (concat ws), (concat (map (@rev byte) (rev vs))). split; [apply white_concat; exact F|]. split; [apply white_concat; exact G'|].
  split; [rewrite <- El; exact E|]. split.
  - intros n r W H. apply (K (rune_bytes n) (r ++ concat (map (@rev byte) (rev vs)))); [apply white_rune; eauto|]. rewrite El, H, <- app_assoc. reflexivity.
  - intros n r W H. apply (K' (rev (rune_bytes n)) (rev r)); [apply in_map; apply white_rune; eauto|]. rewrite <- rev_app_distr, <- H, rev_involutive. reflexivity.
Qed.

(** ** The ASCII part *)
Lemma ascii_white : forall c, ascii_space c = true -> exists n, white n /\ [c] = rune_bytes n.
Proof.
  intros c H. apply white_rune. unfold ascii_space in H. rewrite !orb_true_iff, !beq_eq in H. unfold white_runes. cbn [In].
  intuition (subst; auto 8).
Qed.
Lemma trim_left_spec : forall s, exists a, white_text a /\ white_text (rev a) /\ s = a ++ trim_left s /\ (forall c r, trim_left s = c :: r -> ascii_space c = false).
Proof.
  induction s as [|c s IH]; cbn [trim_left].
  - exists []. repeat split; try (exists []; split; [constructor|reflexivity]). discriminate.
  - destruct (ascii_space c) eqn:A.
    + destruct IH as (a & W & W' & E & K). destruct (ascii_white c A) as (n & Wn & En). exists (c :: a).
      assert (Wc : white_text [c]) by (exists [n]; split; [constructor; [exact Wn|constructor]|cbn [map concat]; rewrite app_nil_r; exact En]).
      split; [exact (white_app [c] a Wc W)|]. split; [exact (white_app (rev a) [c] W' Wc)|]. split; [cbn [app]; rewrite <- E; reflexivity|exact K].
    + exists []. split; [exists []; split; [constructor|reflexivity]|]. split; [exists []; split; [constructor|reflexivity]|].
      split; [reflexivity|]. intros c' r H. injection H as <- _. exact A.
Qed.
(** the first and the last byte of a rune of white space *)
Lemma white_ends : forall n, white n -> exists c, rune_bytes n = [c] /\ ascii_space c = true \/
  exists c m d, rune_bytes n = c :: m ++ [d] /\ (128 <= b2n c)%N /\ (128 <= b2n d)%N.
Proof.
  intros n W. assert (I : In (rune_bytes n) white_runes) by (apply white_rune; eauto). remember (rune_bytes n) as p eqn:E. clear E W.
  unfold white_runes in I. cbn [In] in I.
  repeat match type of I with _ \/ _ => destruct I as [<-|I] end; [..|destruct I];
  (eexists; left; split; reflexivity) || (exists x00; right; eexists; (exists [] + eexists [_]); eexists; split; [cbn [app]; reflexivity|split; vm_compute; discriminate]).
Qed.
Lemma trim_space_spec : forall s, trimmed_to s (trim_space s).
Proof.
  intro s. unfold trim_space. destruct (trim_left_spec s) as (a & Wa & _ & Ea & Ka). set (l := trim_left s) in *.
  destruct (trim_left_spec (rev l)) as (b & _ & Wb & Eb & Kb). set (t := trim_left (rev l)) in *.
  assert (El : l = rev t ++ rev b) by (rewrite <- rev_app_distr, <- Eb, rev_involutive; reflexivity). rewrite El in Ea.
  assert (First : forall c r, rev t = c :: r -> ascii_space c = false) by (intros c r H; apply (Ka c (r ++ rev b)); rewrite El, H; reflexivity).
  assert (Last : forall r c, rev t = r ++ [c] -> ascii_space c = false).
  { intros r c H. apply (Kb c (rev r)). rewrite <- (rev_involutive t), H, rev_app_distr. reflexivity. }
  destruct (rev t) as [|c r] eqn:Et.
  - exists a, (rev b). split; [exact Wa|]. split; [exact Wb|]. split; [exact Ea|].
    split; intros n q W H; destruct (white_ends n W) as (x & [[E _]|(y & m & d & E & _)]); rewrite E in H; try discriminate H;
      symmetry in H; apply app_eq_nil in H as [_ H]; discriminate H.
  - destruct (_ || _) eqn:O.
    + destruct (trim_func_spec (c :: r)) as (a' & b' & Wa' & Wb' & E & K1 & K2). exists (a ++ a'), (b' ++ rev b).
      split; [apply white_app; assumption|]. split; [apply white_app; assumption|]. split; [|split; assumption].
      rewrite Ea. rewrite E at 1. rewrite <- !app_assoc. reflexivity.
    + apply orb_false_iff in O as [O1 O2]. exists a, (rev b). split; [exact Wa|]. split; [exact Wb|]. split; [exact Ea|]. split.
      * intros n q W H. destruct (white_ends n W) as (x & [[E A]|(y & m & d & E & L & _)]); rewrite E in H; injection H as -> H.
        -- rewrite (First _ _ eq_refl) in A. discriminate.
        -- lia.
      * intros n q W H. destruct (white_ends n W) as (x & [[E A]|(y & m & d & E & _ & L)]); rewrite E in H.
        -- rewrite (Last _ _ H) in A. discriminate.
        -- rewrite H in O2. replace (q ++ y :: m ++ [d]) with ((q ++ y :: m) ++ [d]) in O2 by (rewrite <- app_assoc; reflexivity).
           rewrite last_last in O2. lia.
Qed.
(** ** Lines *)
Lemma split_lines : forall data, lines_of data (split x0a data).
Proof.
  induction data as [|c data IH]; cbn [split].
  - split; [repeat constructor; auto|]. exists [], []. split; reflexivity.
  - destruct IH as (F & l & ls & E & D). rewrite E in *. destruct (beq c x0a) eqn:B.
    + apply beq_eq in B as ->. split; [constructor; [auto|exact F]|]. exists [], (l :: ls). split; [reflexivity|]. cbn [map concat app]. rewrite D. reflexivity.
    + inversion F as [|? ? F1 F2]; subst. split.
      * constructor; [|exact F2]. intros [->|I]; [rewrite beq_refl in B; discriminate|exact (F1 I)].
      * exists (c :: l), ls. split; reflexivity.
Qed.
Lemma peer_lines_spec : forall data, exists ls ts, lines_of data ls /\ Forall2 trimmed_to ls ts /\ peer_lines data = filter (fun t => negb (bseq t [])) ts.
Proof.
  intro data. exists (split x0a data), (map trim_space (split x0a data)). split; [apply split_lines|]. split; [|reflexivity].
  induction (split x0a data) as [|l ls IH]; constructor; [apply trim_space_spec|exact IH].
Qed.
