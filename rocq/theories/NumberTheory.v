(** Number theory over the integers that the curve of
    vendor/go.dedis.ch/kyber/v3/group/edwards25519 stands on: Fermat's little
    theorem and Pocklington's criterion.  Nothing in this file is a model of
    code of /repo. *)
From Coq Require Import ZArith Znumtheory List Permutation Bool Lia ZifyBool ZifyNat ZifyN.
Import ListNotations.
Local Open Scope Z_scope.

(** ** Powers modulo a number *)

(** [a ^ e mod n], by squaring. *)
Fixpoint powmod_pos (a : Z) (e : positive) (n : Z) : Z :=
  match e with
  | xH => a mod n
  | xO e' => let r := powmod_pos a e' n in (r * r) mod n
  | xI e' => let r := powmod_pos a e' n in ((r * r) mod n * a) mod n
  end.

Definition powmod (a e n : Z) : Z :=
  match e with
  | Z0 => 1 mod n
  | Zpos e' => powmod_pos a e' n
  | Zneg _ => 0
  end.

Lemma powmod_pos_eq a e n : n <> 0 -> powmod_pos a e n = (a ^ Zpos e) mod n.
Proof.
  intro N. induction e; cbn [powmod_pos].
  - rewrite IHe. rewrite Pos2Z.inj_xI.
    rewrite Z.pow_add_r, Z.pow_1_r, Z.pow_twice_r by lia.
    rewrite Z.mul_mod_idemp_l by assumption.
    rewrite Z.mul_mod by assumption. rewrite <- Z.mul_mod by assumption.
    rewrite (Z.mul_mod (a ^ Zpos e mod n * (a ^ Zpos e mod n)) a) by assumption.
    rewrite <- (Z.mul_mod (a ^ Zpos e) (a ^ Zpos e)) by assumption.
    rewrite <- Z.mul_mod by assumption. reflexivity.
  - rewrite IHe. rewrite Pos2Z.inj_xO. rewrite Z.pow_twice_r.
    rewrite <- Z.mul_mod by assumption. reflexivity.
  - rewrite Z.pow_1_r. reflexivity.
Qed.

Lemma powmod_eq a e n : n <> 0 -> 0 <= e -> powmod a e n = (a ^ e) mod n.
Proof.
  intros N E. destruct e; cbn [powmod].
  - rewrite Z.pow_0_r. reflexivity.
  - apply powmod_pos_eq. assumption.
  - lia.
Qed.

Lemma pow_mod_idemp a e n : n <> 0 -> 0 <= e -> ((a mod n) ^ e) mod n = (a ^ e) mod n.
Proof.
  intros N E. revert e E. apply natlike_ind.
  - reflexivity.
  - intros e E IH. rewrite !Z.pow_succ_r by assumption.
    rewrite Z.mul_mod, IH by assumption. rewrite Z.mod_mod by assumption.
    rewrite <- Z.mul_mod by assumption. reflexivity.
Qed.

(** ** Fermat's little theorem *)

Definition zprod (l : list Z) : Z := fold_right Z.mul 1 l.

Lemma zprod_perm l l' : Permutation l l' -> zprod l = zprod l'.
Proof.
  induction 1; cbn [zprod fold_right]; unfold zprod in *; lia.
Qed.

Lemma zprod_scaled r a l : r <> 0 ->
  zprod (map (fun i => (a * i) mod r) l) mod r = (a ^ Z.of_nat (length l) * zprod l) mod r.
Proof.
  intro R. induction l as [|x l IH].
  - reflexivity.
  - cbn [map zprod fold_right length]. fold (zprod l).
    fold (zprod (map (fun i => (a * i) mod r) l)).
    rewrite Z.mul_mod, IH by assumption. rewrite Z.mod_mod by assumption.
    rewrite <- Z.mul_mod by assumption. f_equal.
    rewrite Nat2Z.inj_succ, Z.pow_succ_r by lia. ring.
Qed.

Definition residues (r : Z) : list Z := map Z.of_nat (seq 1 (Z.to_nat (r - 1))).

Lemma in_residues r x : In x (residues r) <-> 1 <= x < r.
Proof.
  unfold residues. rewrite in_map_iff. split.
  - intros [n [E I]]. apply in_seq in I. lia.
  - intro B. exists (Z.to_nat x). split; [lia|]. apply in_seq. lia.
Qed.

Lemma residues_nodup r : NoDup (residues r).
Proof.
  unfold residues. apply FinFun.Injective_map_NoDup.
  - intros x y E. lia.
  - apply seq_NoDup.
Qed.

Lemma residues_length r : 1 <= r -> Z.of_nat (length (residues r)) = r - 1.
Proof. intro R. unfold residues. rewrite map_length, seq_length. lia. Qed.

Lemma prime_pos r : prime r -> 1 < r.
Proof. intros [H _]. exact H. Qed.

Lemma prime_zprod r l : prime r -> Forall (fun x => ~ (r | x)) l -> ~ (r | zprod l).
Proof.
  intros P F. induction F; cbn [zprod fold_right].
  - intro D. apply Z.divide_1_r_nonneg in D; [|apply prime_pos in P; lia].
    apply prime_pos in P; lia.
  - intro D. apply prime_mult in D; [|exact P]. tauto.
Qed.

Lemma small_not_divided r x : 1 <= x < r -> ~ (r | x).
Proof. intros B D. apply Z.divide_pos_le in D; lia. Qed.

Theorem fermat r a : prime r -> ~ (r | a) -> (a ^ (r - 1)) mod r = 1.
Proof.
  intros P A. pose proof (prime_pos r P) as R.
  set (f := fun i => (a * i) mod r).
  assert (PERM : Permutation (map f (residues r)) (residues r)).
  { apply NoDup_Permutation_bis.
    - assert (INJ : forall x y, In x (residues r) -> In y (residues r) -> f x = f y -> x = y).
      { intros x y X Y E. apply in_residues in X. apply in_residues in Y. unfold f in E.
        assert (D : (r | a * (x - y))).
        { apply Z.mod_divide; [lia|]. rewrite Z.mul_sub_distr_l, Zminus_mod, E, Z.sub_diag.
          apply Z.mod_0_l. lia. }
        apply prime_mult in D; [|exact P]. destruct D as [D|D]; [tauto|].
        destruct (Z.eq_dec x y) as [|NE]; [assumption|exfalso].
        destruct D as [k K]. assert (k = 0 \/ 1 <= k \/ k <= -1) by lia. nia. }
      revert INJ. generalize (residues_nodup r). generalize (residues r) as l.
      induction 1 as [|x l NI ND IH]; intro INJ; cbn [map]; constructor.
      + rewrite in_map_iff. intros [y [E I]]. apply NI.
        rewrite (INJ x y); [exact I| left; reflexivity | right; exact I | symmetry; exact E].
      + apply IH. intros u v U V. apply INJ; right; assumption.
    - rewrite map_length. lia.
    - intros y Y. apply in_map_iff in Y. destruct Y as [x [E X]]. apply in_residues in X.
      apply in_residues. subst y. unfold f. pose proof (Z.mod_pos_bound (a * x) r).
      assert ((a * x) mod r <> 0); [|lia]. intro Z0.
      apply Z.mod_divide in Z0; [|lia]. apply prime_mult in Z0; [|exact P].
      destruct Z0 as [D|D]; [tauto|]. exact (small_not_divided r x X D). }
  pose proof (zprod_scaled r a (residues r) ltac:(lia)) as E.
  rewrite residues_length in E by lia. fold f in E.
  rewrite (zprod_perm _ _ PERM) in E.
  set (w := zprod (residues r)) in *.
  assert (W : ~ (r | w)).
  { apply prime_zprod; [exact P|]. apply Forall_forall. intros x X.
    apply in_residues in X. apply small_not_divided. exact X. }
  assert (D : (r | w * (a ^ (r - 1) - 1))).
  { apply Z.mod_divide; [lia|].
    replace (w * (a ^ (r - 1) - 1)) with (a ^ (r - 1) * w - w) by ring.
    rewrite Zminus_mod, <- E, Z.sub_diag. apply Z.mod_0_l. lia. }
  apply prime_mult in D; [|exact P]. destruct D as [D|D]; [tauto|].
  destruct D as [k K]. replace (a ^ (r - 1)) with (1 + k * r) by lia.
  rewrite Z.mod_add by lia. apply Z.mod_1_l. lia.
Qed.

(** ** Pocklington's criterion *)

Lemma prime_divisor_exists n : 1 < n -> exists r, prime r /\ (r | n).
Proof.
  intro N. assert (H : 0 <= n) by lia. revert N. revert n H.
  apply (Z_lt_induction (fun n => 1 < n -> exists r, prime r /\ (r | n))).
  intros n IH N. destruct (prime_dec n) as [P|P].
  - exists n. split; [exact P|apply Z.divide_refl].
  - destruct (not_prime_divide n N P) as [m [[M1 M2] D]].
    destruct (IH m ltac:(lia) M1) as [r [R1 R2]]. exists r. split; [exact R1|].
    eapply Z.divide_trans; eassumption.
Qed.

Lemma pow_1_mod b r k : 1 < r -> b mod r = 1 -> 0 <= k -> (b ^ k) mod r = 1.
Proof.
  intros R B K. rewrite <- pow_mod_idemp by lia. rewrite B, Z.pow_1_l by assumption.
  apply Z.mod_1_l. exact R.
Qed.

(** an element with [b ^ q = 1] and [b <> 1] modulo a prime [r] has order [q] *)
Lemma order_divides r q b : prime r -> prime q ->
  (b ^ q) mod r = 1 -> b mod r <> 1 -> (q | r - 1).
Proof.
  intros R Q BQ B1. pose proof (prime_pos r R) as R1. pose proof (prime_pos q Q) as Q1.
  destruct (Zdivide_dec q (r - 1)) as [D|D]; [exact D|exfalso].
  assert (NB : ~ (r | b)).
  { intro X. assert (Y : (r | b ^ q)).
    { replace q with (Z.succ (q - 1)) by lia. rewrite Z.pow_succ_r by lia.
      apply Z.divide_mul_l. exact X. }
    apply Z.mod_divide in Y; [|lia]. lia. }
  pose proof (fermat r b R NB) as F.
  pose proof (prime_rel_prime q Q (r - 1) D) as RP.
  apply rel_prime_bezout in RP. destruct RP as [u v UV].
  (* u q + v (r - 1) = 1: make the first coefficient non negative *)
  set (t := Z.abs u + 1). set (u' := u + t * (r - 1)). set (m := t * q - v).
  assert (E : u' * q = 1 + m * (r - 1)).
  { unfold u', m. replace ((u + t * (r - 1)) * q) with (u * q + v * (r - 1) - v * (r - 1) + t * q * (r - 1)) by ring.
    rewrite UV. ring. }
  assert (U : 1 <= u').
  { unfold u'. assert (t * 1 <= t * (r - 1)) by (apply Z.mul_le_mono_nonneg_l; unfold t; lia).
    unfold t in *. lia. }
  assert (M : 0 <= m).
  { assert (1 * q <= u' * q) by (apply Z.mul_le_mono_nonneg_r; lia).
    assert (0 < m * (r - 1)) by lia. apply Z.mul_pos_cancel_r in H0; lia. }
  clearbody u' m. clear UV u v t.
  apply B1.
  assert (U0 : 0 <= u') by lia. assert (Q0 : 0 <= q) by lia. assert (R0 : 0 <= r - 1) by lia.
  assert (MR : 0 <= m * (r - 1)) by (apply Z.mul_nonneg_nonneg; assumption).
  assert (NZ : r <> 0) by lia.
  pose proof (pow_1_mod (b ^ q) r u' R1 BQ U0) as G.
  rewrite <- Z.pow_mul_r in G by assumption. rewrite (Z.mul_comm q u'), E in G.
  rewrite Z.pow_add_r, Z.pow_1_r in G by (assumption || discriminate).
  rewrite (Z.mul_comm m) in G. rewrite Z.pow_mul_r in G by assumption.
  rewrite Z.mul_mod in G by assumption.
  rewrite (pow_1_mod (b ^ (r - 1)) r m R1 F M) in G.
  rewrite Z.mul_1_r, Z.mod_mod in G by assumption. exact G.
Qed.

Lemma primes_product_divides (qs : list Z) n :
  NoDup qs -> Forall prime qs -> Forall (fun q => (q | n)) qs -> (zprod qs | n).
Proof.
  intros ND P D. induction ND as [|q qs NI ND IH]; cbn [zprod fold_right].
  - apply Z.divide_1_l.
  - inversion P; subst. inversion D; subst. specialize (IH H2 H4). fold (zprod qs).
    destruct IH as [k K]. subst n.
    apply prime_mult in H3; [|assumption]. destruct H3 as [X|X].
    + destruct X as [j J]. exists j. subst k. ring.
    + exfalso. revert X. apply prime_zprod; [assumption|]. apply Forall_forall.
      intros x X Y. rewrite Forall_forall in H2. specialize (H2 x X).
      apply prime_div_prime in Y; [|assumption|assumption]. subst x. tauto.
Qed.

(** Powers by squaring with any function that keeps the remainder modulo [n].
    The certificates below are checked without division. *)
Fixpoint powred (red : Z -> Z) (a : Z) (e : positive) : Z :=
  match e with
  | xH => red a
  | xO e' => let r := powred red a e' in red (r * r)
  | xI e' => let r := powred red a e' in red (red (r * r) * a)
  end.

Definition keeps (n : Z) (red : Z -> Z) : Prop := forall x, exists k, red x = x + k * n.

Lemma keeps_mod n red x : keeps n red -> red x mod n = x mod n.
Proof. intro K. destruct (K x) as [k ->]. apply Z_mod_plus_full. Qed.

Lemma powred_eq n red a e : n <> 0 -> keeps n red -> powred red a e mod n = (a ^ Zpos e) mod n.
Proof.
  intros N K. rewrite <- powmod_pos_eq by exact N.
  induction e; cbn [powred powmod_pos]; rewrite keeps_mod by exact K.
  - rewrite Z.mul_mod, (keeps_mod n red) by assumption.
    rewrite (Z.mul_mod (powred red a e)), IHe by exact N.
    rewrite (Z.mul_mod _ a) by exact N. rewrite !Z.mod_mod by exact N.
    rewrite (Z.mul_mod (powmod_pos a e n) (powmod_pos a e n)) by exact N. reflexivity.
  - rewrite Z.mul_mod, IHe by exact N. reflexivity.
  - reflexivity.
Qed.

(** Barrett's reduction: the quotient estimated by a product, [mu] is about [4 ^ k / n] *)
Definition barrett (n k mu x : Z) : Z := x - Z.shiftr (Z.shiftr x (k - 1) * mu) (k + 1) * n.
Lemma barrett_keeps n k mu : keeps n (barrett n k mu).
Proof. intro x. exists (- Z.shiftr (Z.shiftr x (k - 1) * mu) (k + 1)). unfold barrett. lia. Qed.

(** for [n = 2 ^ k + c]: what is above the bit [k], folded twice *)
Definition fold_once (n k c u x : Z) : Z := Z.land x (Z.ones k) + u * n - c * Z.shiftr x k.
Definition fold_twice (n k c u x : Z) : Z := fold_once n k c 1 (fold_once n k c u x).
Lemma fold_keeps n k c u : 0 <= k -> n = 2 ^ k + c -> keeps n (fold_once n k c u).
Proof.
  intros K N x. exists (u - Z.shiftr x k). unfold fold_once. rewrite Z.land_ones by exact K.
  rewrite Z.shiftr_div_pow2 by exact K.
  assert (P : 2 ^ k <> 0) by (apply Z.pow_nonzero; lia).
  pose proof (Z.div_mod x (2 ^ k) P) as E. subst n.
  set (q := x / 2 ^ k) in *. set (r := x mod 2 ^ k) in *. clearbody q r. subst x. ring.
Qed.
Lemma fold_twice_keeps n k c u : 0 <= k -> n = 2 ^ k + c -> keeps n (fold_twice n k c u).
Proof.
  intros K N x. destruct (fold_keeps n k c u K N x) as [j J].
  destruct (fold_keeps n k c 1 K N (fold_once n k c u x)) as [i I].
  exists (j + i). unfold fold_twice. rewrite I, J. ring.
Qed.

(** The test a certificate is checked with: of every pair [(q, b)] the number [b]
    has order [q] modulo every factor of [n], and the product of the [q] exceeds the
    root of [n]. *)
Definition pocklington_test (red : Z -> Z) (n : Z) (qs : list (Z * Z)) : bool :=
  (1 <? n) && (n <? zprod (map fst qs) * zprod (map fst qs)) &&
  forallb (fun qb => let '(q, b) := qb in
             (0 <? q) && (powred red b (Z.to_pos q) mod n =? 1) && (Z.gcd (b - 1) n =? 1)) qs.

Theorem pocklington red n qs : keeps n red ->
  NoDup (map fst qs) -> Forall prime (map fst qs) -> pocklington_test red n qs = true -> prime n.
Proof.
  intros KR ND PQ T. unfold pocklington_test in T.
  apply andb_true_iff in T. destruct T as [T H]. apply andb_true_iff in T. destruct T as [N1 BIG].
  assert (N : 1 < n) by lia. clear N1. rename N into N1.
  rewrite forallb_forall in H.
  destruct (prime_dec n) as [P|P]; [exact P|exfalso].
  destruct (not_prime_divide n N1 P) as [m [[M1 M2] [k K]]].
  assert (SMALL : exists s, 1 < s /\ (s | n) /\ s * s <= n).
  { assert (1 < k) by nia. destruct (Z_le_gt_dec m k).
    - exists m. repeat split; [assumption|exists k; assumption|nia].
    - exists k. repeat split; [assumption|exists m; lia|nia]. }
  destruct SMALL as [s [S1 [S2 S3]]].
  destruct (prime_divisor_exists s S1) as [r [R1 R2]].
  pose proof (prime_pos r R1) as R0.
  assert (RN : (r | n)) by (eapply Z.divide_trans; eassumption).
  assert (RS : r <= s) by (apply Z.divide_pos_le; [lia|exact R2]).
  assert (MODR : forall x, (x mod n) mod r = x mod r).
  { intro x. symmetry. apply Zmod_div_mod; [lia|lia|exact RN]. }
  set (ps := map fst qs) in *.
  assert (D : (zprod ps | r - 1)).
  { apply primes_product_divides; [exact ND|exact PQ|]. apply Forall_forall. intros q Q.
    rewrite Forall_forall in PQ. specialize (PQ q Q).
    apply in_map_iff in Q. destruct Q as ([q' b] & Q1 & Q2). cbn [fst] in Q1. subst q'.
    specialize (H _ Q2). cbn beta iota in H.
    apply andb_true_iff in H. destruct H as [H G]. apply andb_true_iff in H. destruct H as [Q0 E].
    apply Z.ltb_lt in Q0. apply Z.eqb_eq in E. apply Z.eqb_eq in G.
    rewrite powred_eq in E by (lia || assumption). rewrite Z2Pos.id in E by exact Q0.
    apply (order_divides r q b R1 PQ).
    - rewrite <- MODR, E. apply Z.mod_1_l. lia.
    - intro B.
      assert (X : (r | b - 1)).
      { apply Z.mod_divide; [lia|]. rewrite Zminus_mod, B, (Z.mod_1_l r), Z.sub_diag by lia. apply Z.mod_0_l. lia. }
      assert (Y : (r | 1)) by (rewrite <- G; apply Z.gcd_greatest; assumption).
      apply Z.divide_1_r_nonneg in Y; lia. }
  assert (zprod ps <= r - 1) by (apply Z.divide_pos_le; [lia|exact D]).
  assert (0 < zprod ps).
  { clear - PQ. induction PQ; cbn [zprod fold_right]; [lia|]. fold (zprod l).
    apply prime_pos in H. nia. }
  nia.
Qed.

(** Trial division, for the small primes at the ends of the certificates. *)
Definition trial_test (n : Z) : bool :=
  (1 <? n) && forallb (fun m => negb (n mod m =? 0))
                (map Z.of_nat (seq 2 (Z.to_nat (Z.sqrt n) - 1))).

Lemma trial_prime n : trial_test n = true -> prime n.
Proof.
  intro T. unfold trial_test in T. apply andb_true_iff in T. destruct T as [N1 T].
  destruct (prime_dec n) as [P|P]; [exact P|exfalso].
  assert (N : 1 < n) by lia. destruct (not_prime_divide n N P) as [m [[M1 M2] [k K]]].
  assert (SMALL : exists s, 1 < s /\ (s | n) /\ s * s <= n).
  { assert (1 < k) by nia. destruct (Z_le_gt_dec m k).
    - exists m. repeat split; [assumption|exists k; assumption|nia].
    - exists k. repeat split; [assumption|exists m; lia|nia]. }
  destruct SMALL as [s [S1 [S2 S3]]].
  assert (s <= Z.sqrt n) by (apply Z.sqrt_le_square; lia).
  rewrite forallb_forall in T. specialize (T s). 
  assert (I : In s (map Z.of_nat (seq 2 (Z.to_nat (Z.sqrt n) - 1)))).
  { apply in_map_iff. exists (Z.to_nat s). split; [lia|]. apply in_seq. lia. }
  specialize (T I). apply Z.mod_divide in S2; lia.
Qed.
