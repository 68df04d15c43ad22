From Coq Require Import ZArith Lia ZifyBool ZifyNat ZifyN.
From Verif Require Import Base BaseFacts Sha256 HashModel SignModel Primes25519 Edwards25519Model LittleEndian Ed25519Curve CurveSpec CurveProofs CurveLedger KeygenModel KeygenSpec.
Local Open Scope Z_scope.

(** ** Lengths *)
Lemma finalize_length : forall d, length (finalize d) = 64%nat.
Proof.
  intro d. unfold finalize. destruct (dg_c d) as [c0 c1]. unfold hash_block. cbn [fst].
  match goal with |- context [map ?f (seq 0 8)] => generalize f as w end. intro w. cbn [seq map concat]. rewrite !app_length. unfold put64. rewrite !le_bytes_length. reflexivity.
Qed.
Lemma output_length : forall d, length (output d) = 32%nat.
Proof. intro d. unfold output, xof_read, xof_block. rewrite firstn_length, finalize_length. reflexivity. Qed.
Lemma zeros_xor : forall l, map (fun p => n2b (N.lxor (b2n (fst p)) (b2n (snd p)))) (combine (repeat x00 (length l)) l) = l.
Proof.
  induction l as [|c l IH]; [reflexivity|]. cbn [length repeat combine map fst snd]. rewrite IH. f_equal. change (b2n x00) with 0%N. rewrite N.lxor_0_l. apply n2b_b2n.
Qed.
Lemma stream_is : forall d, key_stream d 32 = output d.
Proof. intro d. unfold key_stream. fold (output d). rewrite <- (output_length d) at 1. apply zeros_xor. Qed.
Lemma bits_is : forall d, bits (bit_len l25519) d = mask_first 5 (output d).
Proof. intro d. unfold bits. change (bit_len l25519) with 253%N. change (N.land 253 7) with 5%N. change (N.to_nat ((253 + 7) / 8)) with 32%nat. rewrite stream_is. reflexivity. Qed.

(** ** The number *)
Lemma be_val_app : forall a b n, fold_left (fun n c => n * 256 + b2z c) (a ++ b) n = fold_left (fun n c => n * 256 + b2z c) b (fold_left (fun n c => n * 256 + b2z c) a n).
Proof. intros. apply fold_left_app. Qed.
Lemma be_val_rev : forall b, be_val b = le_val (rev b).
Proof.
  intro b. rewrite <- (rev_involutive b) at 1. induction (rev b) as [|c l IH]; [reflexivity|]. cbn [rev le_val]. unfold be_val in *. rewrite be_val_app, IH. cbn [fold_left]. lia.
Qed.
Lemma mask_number : forall t, length t = 32%nat -> be_val (mask_first 5 t) = number_in t.
Proof.
  intros [|c t] L; [discriminate L|]. injection L as L. rewrite be_val_rev. unfold number_in, mask_first. change (5 =? 0)%N with false. cbv iota.
  change (N.lxor 255 (N.shiftl 255 5 mod 256)) with (N.ones 5). rewrite N.land_ones. cbn [rev]. rewrite !le_val_app, rev_length, L. cbn [le_val].
  pose proof (le_val_range (rev t)) as B. rewrite rev_length, L in B. change (p256 31) with (2 ^ 248) in *.
  assert (E : b2z (n2b (b2n c mod 2 ^ 5)) = b2z c mod 2 ^ 5).
  { unfold b2z. rewrite b2n_n2b. pose proof (b2n_lt c). change (2 ^ 5)%N with 32%N. change (2 ^ 5) with 32. lia. }
  rewrite E. set (lo := le_val (rev t)) in *. assert (C0 : 0 <= b2z c < 256) by (unfold b2z; pose proof (b2n_lt c); lia).
  pose proof (Z.div_mod (b2z c) (2 ^ 5) ltac:(lia)) as D. pose proof (Z.mod_pos_bound (b2z c) (2 ^ 5) ltac:(lia)) as M.
  apply (Z.mod_unique_pos _ _ (b2z c / 2 ^ 5)); clearbody lo; change (2 ^ 5) with 32 in *; change (2 ^ 253) with (32 * 2 ^ 248); set (P := 2 ^ 248) in *; clearbody P; nia.
Qed.
Lemma drawn_number : forall d, be_val (bits (bit_len l25519) d) = number_in (output d).
Proof. intro d. rewrite bits_is. apply mask_number. apply output_length. Qed.

(** ** The loop *)
Lemma random_int_cases : forall reads,
  match random_int l25519 reads with
  | Some (Ok i) => exists bad d rest, reads = map Some bad ++ Some d :: rest /\ wasted bad /\ accepted d /\ i = number_in (output d)
  | Some Panic => exists bad rest, reads = map Some bad ++ None :: rest /\ wasted bad
  | Some Err => False
  | None => exists bad, reads = map Some bad /\ wasted bad
  end.
Proof.
  induction reads as [|[d|] reads IH]; cbn [random_int].
  - exists []. split; [reflexivity|constructor].
  - rewrite drawn_number. destruct ((0 <? number_in (output d)) && (number_in (output d) <? l25519)) eqn:E.
    + exists [], d, reads. split; [reflexivity|]. split; [constructor|]. split; [unfold accepted; lia|reflexivity].
    + assert (W : ~ accepted d) by (unfold accepted; lia). destruct (random_int l25519 reads) as [[i| |]|]; [|contradiction| |].
      * destruct IH as (bad & d' & rest & -> & H & R). exists (d :: bad), d', rest. split; [reflexivity|]. split; [constructor; assumption|exact R].
      * destruct IH as (bad & rest & -> & H). exists (d :: bad), rest. split; [reflexivity|]. constructor; assumption.
      * destruct IH as (bad & -> & H). exists (d :: bad). split; [reflexivity|]. constructor; assumption.
  - exists [], reads. split; [reflexivity|constructor].
Qed.

Local Opaque accepted output.
Lemma wasted_inv : forall d bad, wasted (d :: bad) -> ~ accepted d /\ wasted bad.
Proof. intros d bad W. split; [exact (Forall_inv W)|exact (Forall_inv_tail W)]. Qed.
Lemma wasted_first : forall bad d rest bad' d' rest', wasted bad -> wasted bad' -> accepted d -> accepted d' ->
  map Some bad ++ Some d :: rest = map Some bad' ++ Some d' :: rest' -> bad = bad' /\ d = d' /\ rest = rest'.
Proof.
  induction bad as [|b bad IH]; intros d rest [|b' bad'] d' rest' W W' A A' E; cbn [map app] in E; injection E as E E'.
  - auto.
  - apply wasted_inv in W'. destruct W' as [N _]. rewrite <- E in N. destruct (N A).
  - apply wasted_inv in W. destruct W as [N _]. rewrite E in N. destruct (N A').
  - apply wasted_inv in W. apply wasted_inv in W'. destruct (IH _ _ _ _ _ (proj2 W) (proj2 W') A A' E') as (-> & -> & ->). rewrite E. auto.
Qed.
Lemma wasted_stop : forall bad d rest bad' rest', wasted bad' -> accepted d ->
  map Some bad ++ Some d :: rest <> map Some bad' ++ None :: rest'.
Proof.
  induction bad as [|b bad IH]; intros d rest [|b' bad'] rest' W A E; cbn [map app] in E.
  - discriminate E.
  - injection E as E _. apply wasted_inv in W. destruct W as [N _]. rewrite <- E in N. exact (N A).
  - discriminate E.
  - injection E as _ E. apply wasted_inv in W. exact (IH _ _ _ _ (proj2 W) A E).
Qed.
Lemma wasted_all : forall bad d rest bad', wasted bad' -> accepted d ->
  map Some bad ++ Some d :: rest <> map Some bad'.
Proof.
  induction bad as [|b bad IH]; intros d rest [|b' bad'] W A E; cbn [map app] in E; try discriminate E; injection E as E E'; apply wasted_inv in W.
  - destruct W as [N _]. rewrite <- E in N. exact (N A).
  - exact (IH _ _ _ (proj2 W) A E').
Qed.
Lemma failed_all : forall (bad : list bytes) rest bad', map Some bad ++ None :: rest <> map Some bad'.
Proof.
  induction bad as [|b bad IH]; intros rest [|b' bad'] E; cbn [map app] in E; try discriminate E; injection E; intros. eapply IH; eauto.
Qed.

Definition made (d : bytes) : bytes := le_bytes 32 (number_in (output d)).
Lemma create_cases : forall reads,
  match private_key_create reads with
  | Some (Ok k) => exists bad d rest, reads = map Some bad ++ Some d :: rest /\ wasted bad /\ accepted d /\ k = made d
  | Some Panic => exists bad rest, reads = map Some bad ++ None :: rest /\ wasted bad
  | Some Err => False
  | None => exists bad, reads = map Some bad /\ wasted bad
  end.
Proof.
  intro reads. pose proof (random_int_cases reads) as H. unfold private_key_create, scalar_pick.
  destruct (random_int l25519 reads) as [[i| |]|]; cbn [option_map rbind]; try exact H.
  destruct H as (bad & d & rest & E & W & A & ->). exists bad, d, rest. split; [exact E|]. split; [exact W|]. split; [exact A|].
  unfold made. rewrite Z.mod_small; [reflexivity|]. destruct A. split; [apply Z.lt_le_incl; assumption|assumption].
Qed.
Lemma number_range : forall t, 0 <= number_in t < 2 ^ 253.
Proof. intro. apply Z.mod_pos_bound. reflexivity. Qed.
Lemma below_p256 : forall n, 0 <= n < 2 ^ 253 -> 0 <= n < p256 32.
Proof. intros n H. change (p256 32) with (8 * 2 ^ 253). lia. Qed.
Lemma le_val_made : forall d, le_val (made d) = number_in (output d).
Proof. intro d. unfold made. rewrite le_val_bytes. apply Z.mod_small. apply below_p256, number_range. Qed.
Lemma made_iff : forall d k, (length k = 32%nat /\ le_val k = number_in (output d)) <-> k = made d.
Proof.
  intros d k. split.
  - intros [L V]. apply le_val_inj; [unfold made; rewrite le_bytes_length; exact L|]. rewrite le_val_made. exact V.
  - intros ->. split; [apply le_bytes_length|apply le_val_made].
Qed.

Theorem create_key : forall reads k, private_key_create reads = Some (Ok k) <->
  exists bad d rest, reads = map Some bad ++ Some d :: rest /\ wasted bad /\ accepted d /\
    length k = 32%nat /\ le_val k = number_in (output d).
Proof.
  intros reads k. pose proof (create_cases reads) as H. split.
  - intro E. rewrite E in H. destruct H as (bad & d & rest & R & W & A & K). exists bad, d, rest. apply made_iff in K. tauto.
  - intros (bad & d & rest & R & W & A & K). apply made_iff in K. destruct (private_key_create reads) as [[k'| |]|]; [|contradiction| |].
    + destruct H as (bad' & d' & rest' & R' & W' & A' & ->). rewrite R in R'. destruct (wasted_first _ _ _ _ _ _ W W' A A' R') as (_ & -> & _). rewrite K. reflexivity.
    + destruct H as (bad' & rest' & R' & W'). rewrite R in R'. destruct (wasted_stop _ _ _ _ _ W' A R').
    + destruct H as (bad' & R' & W'). rewrite R in R'. destruct (wasted_all _ _ _ _ W' A R').
Qed.
Theorem create_panic : forall reads, private_key_create reads = Some Panic <->
  exists bad rest, reads = map Some bad ++ None :: rest /\ wasted bad.
Proof.
  intro reads. pose proof (create_cases reads) as H. split.
  - intro E. rewrite E in H. exact H.
  - intros (bad & rest & R & W). destruct (private_key_create reads) as [[k'| |]|]; [|contradiction|reflexivity|].
    + destruct H as (bad' & d' & rest' & R' & W' & A' & _). rewrite R in R'. symmetry in R'. destruct (wasted_stop _ _ _ _ _ W A' R').
    + destruct H as (bad' & R' & W'). rewrite R in R'. destruct (failed_all _ _ _ R').
Qed.
Theorem create_waits : forall reads, private_key_create reads = None <-> exists bad, reads = map Some bad /\ wasted bad.
Proof.
  intro reads. pose proof (create_cases reads) as H. split.
  - intro E. rewrite E in H. exact H.
  - intros (bad & R & W). destruct (private_key_create reads) as [[k'| |]|]; [|contradiction| |reflexivity].
    + destruct H as (bad' & d' & rest' & R' & W' & A' & _). rewrite R in R'. symmetry in R'. destruct (wasted_all _ _ _ _ W A' R').
    + destruct H as (bad' & rest' & R' & W'). rewrite R in R'. symmetry in R'. destruct (failed_all _ _ _ R').
Qed.
Theorem create_no_err : forall reads, private_key_create reads <> Some Err.
Proof. intros reads E. pose proof (create_cases reads) as H. rewrite E in H. exact H. Qed.

(** ** Every key equally often *)
Theorem number_outputs : forall t n, length t = 32%nat -> 0 <= n < 2 ^ 253 ->
  (number_in t = n <-> exists j, 0 <= j < 8 /\ t = rev (le_bytes 32 (n + j * 2 ^ 253))).
Proof.
  intros t n L B. unfold number_in. pose proof (le_val_range (rev t)) as R. rewrite rev_length, L in R. change (p256 32) with (8 * 2 ^ 253) in R. split.
  - intros <-. exists (le_val (rev t) / 2 ^ 253). split.
    + split; [apply Z.div_pos; [apply R|reflexivity]|]. apply Z.div_lt_upper_bound; [reflexivity|]. rewrite Z.mul_comm. apply R.
    + rewrite <- (rev_involutive t) at 1. f_equal.
      replace (le_val (rev t) mod 2 ^ 253 + le_val (rev t) / 2 ^ 253 * 2 ^ 253) with (le_val (rev t)).
      * symmetry. apply le_bytes_val_n. rewrite rev_length. exact L.
      * rewrite (Z.div_mod (le_val (rev t)) (2 ^ 253)) at 1 by discriminate. rewrite Z.mul_comm. apply Z.add_comm.
  - intros (j & J & ->). rewrite rev_involutive, le_val_bytes. rewrite (Z.mod_small (n + j * 2 ^ 253)).
    + rewrite Z_mod_plus_full. apply Z.mod_small. exact B.
    + change (p256 32) with (8 * 2 ^ 253). revert B. set (P := 2 ^ 253). clearbody P. nia.
Qed.

(** ** What a created key can do *)
Lemma create_generated : forall reads k, private_key_create reads = Some (Ok k) -> generated k /\ 0 < le_val k.
Proof.
  intros reads k E. apply create_key in E. destruct E as (bad & d & rest & _ & _ & [A A'] & L & V). unfold generated. rewrite V. auto.
Qed.

Lemma create_not_null : forall reads k, private_key_create reads = Some (Ok k) -> public_key ed25519 k <> point_null.
Proof.
  intros reads k E N. apply create_generated in E. destruct E as [G P].
  assert (Z0 : k = scalar_zero).
  { apply public_injective; [exact G|split; reflexivity|]. rewrite N. symmetry. exact zero_public. }
  apply (Z.lt_irrefl 0). rewrite Z0 in P. exact P.
Qed.
Lemma create_twice : forall reads reads' k k', private_key_create reads = Some (Ok k) -> private_key_create reads' = Some (Ok k') ->
  public_key ed25519 k = public_key ed25519 k' ->
  k = k' /\ exists d d', In (Some d) reads /\ In (Some d') reads' /\ number_in (output d) = number_in (output d').
Proof.
  intros reads reads' k k' E E' P. assert (K : k = k') by (apply public_injective; [apply create_generated in E; apply E|apply create_generated in E'; apply E'|exact P]).
  split; [exact K|]. apply create_key in E. apply create_key in E'.
  destruct E as (bad & d & rest & -> & _ & _ & _ & V), E' as (bad' & d' & rest' & -> & _ & _ & _ & V').
  exists d, d'. split; [apply in_or_app; right; left; reflexivity|]. split; [apply in_or_app; right; left; reflexivity|].
  rewrite <- V, <- V', K. reflexivity.
Qed.
Lemma create_signs : forall reads k msg ring, private_key_create reads = Some (Ok k) -> In (public_key ed25519 k) ring ->
  exists sig, ring_sign ed25519 k msg ring = Ok sig /\ ring_verify ed25519 sig msg = Ok true.
Proof.
  intros reads k msg ring E I. apply create_generated in E. destruct E as [G _]. pose proof (ring_sign_ed25519 k msg ring G) as H.
  destruct (ring_sign ed25519 k msg ring) as [sig| |]; [|destruct (H I)|destruct H]. exists sig. split; [reflexivity|apply H].
Qed.
Lemma more_than_half : 2 ^ 252 < l25519 - 1 < 2 ^ 253.
Proof. split; reflexivity. Qed.
