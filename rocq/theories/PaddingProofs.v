From Coq Require Import QArith Qabs ZArith Lia Lqa ZifyBool ZifyNat ZifyN SpecFloat.
From Verif Require Import Base FloatModel FloatFacts FloatRound FloatSpec FloatValue HashModel HashTreeModel HashTreeProofs MinerProofs PaddingModel PaddingSpec.
Local Open Scope Z_scope.

(** ** Powers *)
Lemma bernoulli : forall m j, 0 <= m -> 0 <= j -> m ^ (j + 1) + (j + 1) * m ^ j <= (m + 1) ^ (j + 1).
Proof.
  intros m j Hm Hj. pattern j. apply natlike_ind; [rewrite !Z.add_0_l, Z.pow_0_r, !Z.pow_1_r; lia| |exact Hj]. clear j Hj. intros j Hj IH.
  rewrite <- (Z.add_1_r j) in *. rewrite (Z.pow_add_r (m + 1) (j + 1) 1), (Z.pow_1_r (m + 1)) by lia.
  pose proof (Z.pow_nonneg m j Hm). pose proof (Z.pow_nonneg m (j + 1) Hm).
  assert (E1 : m ^ (j + 1 + 1) = m ^ (j + 1) * m) by (rewrite Z.pow_add_r by lia; rewrite Z.pow_1_r; reflexivity).
  assert (E0 : m ^ (j + 1) = m ^ j * m) by (rewrite Z.pow_add_r by lia; rewrite Z.pow_1_r; reflexivity).
  rewrite E1. nia.
Qed.
(** (1 + 1/m)^m >= 2 *)
Lemma above_two : forall m, 0 < m -> 2 * m ^ m <= (m + 1) ^ m.
Proof.
  intros m H. pose proof (bernoulli m (m - 1) ltac:(lia) ltac:(lia)) as B. replace (m - 1 + 1) with m in B by lia.
  assert (E : m ^ m = m * m ^ (m - 1)) by (rewrite <- Z.pow_succ_r by lia; f_equal; lia). rewrite <- E in B. lia.
Qed.
Lemma below_half : forall m, 0 < m -> 2 * (m - 1) ^ m <= m ^ m.
Proof.
  intros m H. pose proof (bernoulli (m - 1) (m - 1) ltac:(lia) ltac:(lia)) as B. replace (m - 1 + 1) with m in B by lia.
  assert (E : (m - 1) ^ m = (m - 1) * (m - 1) ^ (m - 1)).
  { rewrite <- Z.pow_succ_r by lia. f_equal. lia. }
  pose proof (Z.pow_nonneg (m - 1) (m - 1) ltac:(lia)). rewrite E in *. nia.
Qed.
(** compared with fractions *)
Lemma more_than : forall n k, 0 <= k -> 2 ^ k < n -> 2 ^ (k * 2 ^ k + 1) <= n ^ (2 ^ k).
Proof.
  intros n k Hk H. pose proof (pow_pos' k Hk) as P. rewrite Z.pow_add_r by nia. rewrite Z.pow_mul_r by lia. change (2 ^ 1) with 2.
  rewrite Z.mul_comm. eapply Z.le_trans; [apply above_two; exact P|]. apply Z.pow_le_mono_l. lia.
Qed.
Lemma less_than : forall n k, 0 <= k -> 0 < n < 2 ^ k -> n ^ (2 ^ k) <= 2 ^ (k * 2 ^ k - 1).
Proof.
  intros n k Hk H. pose proof (pow_pos' k Hk) as P. assert (K : 0 < k) by (destruct (Z.eq_dec k 0) as [->|]; [change (2 ^ 0) with 1 in H; lia|lia]).
  assert (E : 2 * 2 ^ (k * 2 ^ k - 1) = (2 ^ k) ^ (2 ^ k)) by (rewrite <- Z.pow_succ_r by nia; rewrite <- Z.pow_mul_r by lia; f_equal; lia).
  pose proof (below_half (2 ^ k) P) as B. rewrite <- E in B.
  assert (n ^ 2 ^ k <= (2 ^ k - 1) ^ 2 ^ k) by (apply Z.pow_le_mono_l; lia). lia.
Qed.

(** ** The quotient of two float64 numbers *)
Lemma div_round_gen : forall p d e1 e2, -1074 <= e1 - e2 ->
  let x := SFdiv 53 1024 (S754_finite false p e1) (S754_finite false d e2) in
  let r := rndq (Z.pos p * 2 ^ (1074 + (e1 - e2))) (Z.pos d) in
  (x = S754_infinity false /\ limit <= r) \/ holds x r.
Proof.
  intros p d e1 e2 Hg x r. unfold x. clear x. cbn [SFdiv xorb]. unfold SFdiv_core_binary. rewrite !Zdigits2_size by lia.
  set (d1 := size (Z.pos p)). set (d2 := size (Z.pos d)). replace (d1 + e1 - (d2 + e2)) with (d1 - d2 + (e1 - e2)) by lia. unfold r. clear r. generalize dependent (e1 - e2). clear e1 e2. intros g Hg. set (r := rndq (Z.pos p * 2 ^ (1074 + g)) (Z.pos d)).
  set (e := Z.min (fexp 53 1024 (d1 - d2 + g)) g).
  assert (Ee : e = Z.min (Z.max (d1 - d2 + g - 53) (-1074)) g) by reflexivity.
  pose proof (size_pos (Z.pos p) ltac:(lia)) as P1. pose proof (size_pos (Z.pos d) ltac:(lia)) as P2. fold d1 in P1. fold d2 in P2.
  pose proof (size_spec (Z.pos p) ltac:(lia)) as S1. pose proof (size_spec (Z.pos d) ltac:(lia)) as S2. fold d1 in S1. fold d2 in S2.
  clearbody e. replace (match g - e with 0 => Z.pos p | Z.pos _ => Z.shiftl (Z.pos p) (g - e) | Z.neg _ => 0 end) with (Z.pos p * 2 ^ (g - e)).
  2:{ destruct (g - e) as [|k|k] eqn:K; [rewrite ?K; change (2 ^ 0) with 1; lia| |lia]. rewrite Z.shiftl_mul_pow2 by lia. reflexivity. }
  set (M := Z.pos p * 2 ^ (g - e)). assert (Pe : 0 < 2 ^ (g - e)) by (apply pow_pos'; lia). assert (HM : 0 < M) by (unfold M; apply Z.mul_pos_pos; [lia|exact Pe]).
  destruct (Z.div_eucl M (Z.pos d)) as [q0 r0] eqn:Eq. assert (q0 = M / Z.pos d) as -> by (unfold Z.div; rewrite Eq; reflexivity).
  assert (r0 = M mod Z.pos d) as -> by (unfold Z.modulo; rewrite Eq; reflexivity). clear Eq.
  pose proof (located_div M (Z.pos d) ltac:(lia) ltac:(lia)) as Loc.
  assert (Pw : 0 < 2 ^ (1074 + e)) by (apply pow_pos'; lia).
  assert (ME : Z.pos p * 2 ^ (1074 + g) = M * 2 ^ (1074 + e)) by (unfold M; rewrite <- Z.mul_assoc, <- Z.pow_add_r by lia; do 2 f_equal; lia).
  assert (Big : e <> -1074 -> 2 ^ 52 <= M / Z.pos d).
  { intro Ne. apply Z.div_le_lower_bound; [lia|]. unfold M.
    assert (A : Z.pos d <= 2 ^ d2) by lia.
    transitivity (2 ^ d2 * 2 ^ 52); [apply Z.mul_le_mono_nonneg_r; [apply Z.lt_le_incl, pow_pos'; lia|exact A]|].
    transitivity (2 ^ (d1 - 1) * 2 ^ (g - e)); [|apply Z.mul_le_mono_nonneg_r; lia].
    rewrite <- !Z.pow_add_r by lia. apply Z.pow_le_mono_r; lia. }
  pose proof (Z.div_pos M (Z.pos d) ltac:(lia) ltac:(lia)) as Q0.
  destruct (M / Z.pos d) as [|q|q] eqn:Eq; [| |lia].
  - assert (E1 : e = -1074) by (destruct (Z.eq_dec e (-1074)); [assumption|specialize (Big n); lia]).
    assert (Er : r = round_half_even M (Z.pos d)).
    { unfold r. rewrite ME, E1. change (2 ^ (1074 + -1074)) with 1. rewrite Z.mul_1_r. unfold rndq. rewrite Eq. change (drop 0) with 0. change (2 ^ 0) with 1.
      rewrite !Z.mul_1_r. reflexivity. }
    pose proof (rhe_bounds M (Z.pos d) ltac:(lia)) as Rb. rewrite Eq in Rb. rewrite <- Er in Rb.
    rewrite E1. unfold binary_round_aux.
    assert (X : forall l, shr_fexp 53 1024 0 (-1074) l = (shr_record_of_loc 0 l, -1074)) by (intro l; reflexivity). rewrite X.
    rewrite (located_round _ _ _ Loc). rewrite <- Er. clearbody r.
    assert (C : r = 0 \/ r = 1) by lia. destruct C as [->| ->]; right; [apply (holds_zero false)|].
    change (holds (S754_finite false 1 (-1074)) (units 1 (-1074))). constructor. reflexivity.
  - set (fe := fexp 53 1024 (size (Z.pos q) + e)).
    assert (Fe : fe = Z.max (size (Z.pos q) + e - 53) (-1074)) by reflexivity.
    assert (Hn : 0 <= fe - e).
    { destruct (Z.eq_dec e (-1074)) as [?|N]; [lia|]. specialize (Big N). pose proof (size_ge (Z.pos q) 52 ltac:(lia) Big). lia. }
    destruct (round_aux_gen M (Z.pos d) q _ e Loc Hn) as (q' & Eq' & R). fold fe in Eq', R. cbv zeta in R.
    assert (Sv : size (Z.pos p * 2 ^ (1074 + g) / Z.pos d) = size (Z.pos q) + (1074 + e)).
    { set (v := Z.pos p * 2 ^ (1074 + g) / Z.pos d).
      assert (V1 : Z.pos q * 2 ^ (1074 + e) <= v).
      { unfold v. apply Z.div_le_lower_bound; [lia|]. rewrite ME, Z.mul_assoc. apply Z.mul_le_mono_nonneg_r; [lia|].
        rewrite <- Eq. apply Z.mul_div_le. lia. }
      assert (V2 : v < (Z.pos q + 1) * 2 ^ (1074 + e)).
      { unfold v. apply Z.div_lt_upper_bound; [lia|]. rewrite ME, Z.mul_assoc. apply Z.mul_lt_mono_pos_r; [exact Pw|].
        rewrite <- Eq. apply Z.mul_succ_div_gt. lia. }
      pose proof (size_spec (Z.pos q) ltac:(lia)) as [Sl Su]. pose proof (size_pos (Z.pos q) ltac:(lia)) as S0.
      apply Z.le_antisymm.
      - apply size_le; [eapply Z.lt_le_trans; [|exact V1]; apply Z.mul_pos_pos; [lia|exact Pw]|]. rewrite Z.pow_add_r by lia.
        eapply Z.lt_le_trans; [exact V2|]. apply Z.mul_le_mono_nonneg_r; lia.
      - replace (size (Z.pos q) + (1074 + e)) with (size (Z.pos q) - 1 + (1074 + e) + 1) by lia. apply size_ge; [lia|]. rewrite Z.pow_add_r by lia.
        eapply Z.le_trans; [|exact V1]. apply Z.mul_le_mono_nonneg_r; [lia|exact Sl]. }
    assert (D : drop (Z.pos p * 2 ^ (1074 + g) / Z.pos d) = fe + 1074) by (unfold drop; rewrite Sv; lia).
    assert (Er : r = q' * 2 ^ (fe + 1074)).
    { unfold r, rndq. rewrite D. f_equal. rewrite Eq', ME.
      replace (Z.pos d * 2 ^ (fe + 1074)) with (2 ^ (1074 + e) * (Z.pos d * 2 ^ (fe - e))).
      - rewrite (Z.mul_comm M). apply rhe_scale; [exact Pw|]. apply Z.mul_pos_pos; [lia|]. apply pow_pos'. exact Hn.
      - replace (fe + 1074) with ((1074 + e) + (fe - e)) by lia. rewrite (Z.pow_add_r 2 (1074 + e)) by lia. ring. }
    rewrite Er. clearbody fe. destruct R as [(-> & ->)|(m' & e' & V & Lf & Z1 & Z2 & L1 & ->)].
    { right. rewrite Z.mul_0_l. apply (holds_zero false). }
    assert (U : q' * 2 ^ (fe + 1074) = units m' e').
    { rewrite <- V. unfold units. rewrite <- Z.mul_assoc, <- Z.pow_add_r by lia. do 2 f_equal. lia. }
    rewrite U. destruct (Zle_bool e' 971) eqn:B.
    + right. apply Zle_is_le_bool in B. constructor. apply bounded_spec. lia.
    + left. split; [reflexivity|]. apply Z.leb_gt in B. unfold limit, units.
      assert (S53 : size (Z.pos m') = 53) by lia. pose proof (size_spec (Z.pos m') ltac:(lia)) as [Sl _].
      transitivity (2 ^ 52 * 2 ^ (e' + 1074)).
      * rewrite <- Z.pow_add_r by lia. apply Z.pow_le_mono_r; lia.
      * apply Z.mul_le_mono_nonneg_r; [apply Z.lt_le_incl, pow_pos'; lia|]. rewrite S53 in Sl. exact Sl.
Qed.
Lemma div_holds : forall x y a b, holds x a -> holds y b -> 0 < b -> b <= a ->
  let r := rndq (a * 2 ^ 1074) b in (f_div x y = S754_infinity false /\ limit <= r) \/ holds (f_div x y) r.
Proof.
  intros x y a b Hx Hy Hb L r. destruct Hx as [s|m e B]; [lia|]. destruct Hy as [s|m' e' B']; [lia|].
  apply bounded_iff in B as (U & E & _). apply bounded_iff in B' as (U' & E' & _).
  assert (G : -1074 <= e - e').
  { destruct (Z.le_gt_cases (-53) (e - e')) as [G|G]; [lia|]. exfalso. unfold units in L.
    assert (X : 2 ^ 53 * 2 ^ (e + 1074) <= 2 ^ (e' + 1074)) by (rewrite <- Z.pow_add_r by lia; apply Z.pow_le_mono_r; lia).
    pose proof (pow_pos' (e + 1074) ltac:(lia)). assert (Z.pos m * 2 ^ (e + 1074) < 2 ^ 53 * 2 ^ (e + 1074)) by (apply Z.mul_lt_mono_pos_r; lia).
    assert (1 * 2 ^ (e' + 1074) <= Z.pos m' * 2 ^ (e' + 1074)) by (apply Z.mul_le_mono_nonneg_r; lia). lia. }
  pose proof (div_round_gen m m' e e' G) as D. cbv zeta in D.
  assert (R : rndq (Z.pos m * 2 ^ (1074 + (e - e'))) (Z.pos m') = r).
  { unfold r. apply rndq_eq; [lia|exact Hb|]. unfold units. rewrite <- !Z.mul_assoc. f_equal.
    rewrite !(Z.mul_comm (Z.pos m')), !Z.mul_assoc. f_equal. rewrite <- !Z.pow_add_r by lia. f_equal. lia. }
  rewrite R in D. exact D.
Qed.

(** ** Rounded up *)
Lemma ceil_holds : forall x v k, holds x v -> 0 <= k < 2 ^ 53 -> k * 2 ^ 1074 < v <= (k + 1) * 2 ^ 1074 -> f_ceil x = f_of_Z (k + 1).
Proof.
  intros x v k H Hk R. assert (P : 0 < 2 ^ 1074) by (apply pow_pos'; lia).
  assert (W : holds (f_of_Z (k + 1)) ((k + 1) * 2 ^ 1074)).
  { pose proof (of_Z_holds (k + 1) ltac:(lia)) as W. rewrite of_Z_exact in W by lia. exact W. }
  destruct H as [s|m e B]; [lia|]. pose proof B as B'. apply bounded_iff in B' as (U & E & _). cbn [f_ceil].
  destruct (Z.leb_spec 0 e) as [L|L].
  - apply (holds_inj _ _ ((k + 1) * 2 ^ 1074)); [|exact W|nia].
    assert (V : units m e = (Z.pos m * 2 ^ e) * 2 ^ 1074) by (unfold units; rewrite Z.pow_add_r by lia; ring).
    assert (Z.pos m * 2 ^ e = k + 1) as <-.
    { rewrite V in R. assert (k < Z.pos m * 2 ^ e <= k + 1) by nia. lia. }
    rewrite <- V. constructor. exact B.
  - assert (S : 2 ^ 1074 = 2 ^ (- e) * 2 ^ (e + 1074)) by (rewrite <- Z.pow_add_r by lia; f_equal; lia).
    pose proof (pow_pos' (- e) ltac:(lia)) as P1. pose proof (pow_pos' (e + 1074) ltac:(lia)) as P2.
    assert (M : k * 2 ^ (- e) < Z.pos m <= (k + 1) * 2 ^ (- e)) by (unfold units in R; rewrite S, !Z.mul_assoc in R; nia).
    assert (T : Z.neg m / 2 ^ (- e) = - (k + 1)).
    { change (Z.neg m) with (- Z.pos m). symmetry. apply (Z.div_unique _ _ _ ((k + 1) * 2 ^ (- e) - Z.pos m)); [left; nia|ring]. }
    rewrite T, Z.opp_involutive. destruct (Z.eqb_spec (k + 1) 0); [lia|reflexivity].
Qed.

(** ** The logarithms *)
Lemma margins : forall k l L, 1 <= k < 40 -> 0 < L ->
  (k * 2 ^ k + 1) * L * (2 ^ 46 - 1) <= 2 ^ k * l * 2 ^ 46 ->
  2 ^ (k + 1) * l * 2 ^ 46 <= ((k + 1) * 2 ^ (k + 1) - 1) * L * (2 ^ 46 + 1) ->
  (k * 2 ^ 40 + 1) * L <= 2 ^ 40 * l /\ l <= (k + 1) * L.
Proof.
  intros k l L Hk HL A B.
  assert (P : 0 < 2 ^ k <= 2 ^ 39) by (split; [apply pow_pos'; lia|apply Z.pow_le_mono_r; lia]).
  assert (E : 2 ^ (k + 1) = 2 * 2 ^ k) by (rewrite Z.pow_add_r by lia; change (2 ^ 1) with 2; lia). rewrite E in B.
  set (w := 2 ^ k) in *. clearbody w.
  change (2 ^ 46) with 70368744177664 in *. change (2 ^ 40) with 1099511627776 in *. change (2 ^ 39) with 549755813888 in *.
  split.
  - apply (Z.mul_le_mono_pos_l _ _ (w * 64)); [lia|].
    assert (X : w * 64 * (k * 1099511627776 + 1) <= (k * w + 1) * (70368744177664 - 1)) by nia.
    assert (X' : w * 64 * (k * 1099511627776 + 1) * L <= (k * w + 1) * (70368744177664 - 1) * L) by (apply Z.mul_le_mono_nonneg_r; lia). lia.
  - apply (Z.mul_le_mono_pos_l _ _ (2 * w * 70368744177664)); [lia|].
    assert (X : ((k + 1) * (2 * w) - 1) * (70368744177664 + 1) <= (k + 1) * (2 * w * 70368744177664)) by nia.
    assert (X' : ((k + 1) * (2 * w) - 1) * (70368744177664 + 1) * L <= (k + 1) * (2 * w * 70368744177664) * L) by (apply Z.mul_le_mono_nonneg_r; lia). lia.
Qed.
Lemma log_units : forall log, accurate_log log -> forall n, 2 <= n <= 2 ^ 40 -> exists l L,
  holds (log (f_of_Z n)) l /\ holds (log (f_of_Z 2)) L /\ 0 < l /\ 0 < L /\
  forall a b, 0 <= a -> 0 < b ->
    (2 ^ a <= n ^ b -> a * L * (2 ^ 46 - 1) <= b * l * 2 ^ 46) /\ (n ^ b <= 2 ^ a -> b * l * 2 ^ 46 <= a * L * (2 ^ 46 + 1)).
Proof.
  intros log H n Hn.
  assert (Get : forall x, float_number x -> (0 < fvalue x)%Q -> exists v, holds x v /\ 0 < v /\ (fvalue x * inject_Z unit == inject_Z v)%Q).
  { intros x Nx Px. assert (Ng : negative x = false).
    { pose proof (magnitude_nonneg x) as M. unfold fvalue in Px. destruct (negative x); [|reflexivity]. cbn [signed] in Px. lra. }
    destruct (holds_number x Ng Nx) as [v Hv]. exists v. split; [exact Hv|]. destruct (holds_frac x v Hv) as (V0 & _ & F). rewrite Z.mul_1_l in F.
    rewrite <- (holds_fvalue x v Hv) in F. split; [|exact F]. pose proof (inject_pos unit unit_pos) as U.
    assert (G : (0 < fvalue x * inject_Z unit)%Q) by (apply Qmult_lt_0_compat; assumption). rewrite F in G. change 0%Q with (inject_Z 0) in G. rewrite <- Zlt_Qlt in G. exact G. }
  destruct (H n Hn) as (N1 & P1 & _). destruct (H 2 ltac:(lia)) as (N2 & P2 & _).
  destruct (Get _ N1 P1) as (l & H1 & L1 & F1). destruct (Get _ N2 P2) as (L & H2 & L2 & F2).
  exists l, L. split; [exact H1|]. split; [exact H2|]. split; [exact L1|]. split; [exact L2|].
  intros a b Ha Hb. destruct (H n Hn) as (_ & _ & K). destruct (K a b Ha Hb) as [KA KB]. clear H K.
  assert (C : (0 < inject_Z unit * inject_Z (2 ^ 46))%Q) by (apply Qmult_lt_0_compat; [exact (inject_pos unit unit_pos)|reflexivity]).
  set (x := fvalue (log (f_of_Z n))) in *. set (y := fvalue (log (f_of_Z 2))) in *. set (u := inject_Z unit) in *. clearbody x y u.
  assert (D1 : ((1 - 1 / 2 ^ 46) * inject_Z (2 ^ 46) == inject_Z (2 ^ 46 - 1))%Q) by reflexivity.
  assert (D2 : ((1 + 1 / 2 ^ 46) * inject_Z (2 ^ 46) == inject_Z (2 ^ 46 + 1))%Q) by reflexivity.
  set (c1 := (1 - 1 / 2 ^ 46)%Q) in *. set (c2 := (1 + 1 / 2 ^ 46)%Q) in *. set (t := inject_Z (2 ^ 46)) in *. 
  set (z1 := inject_Z (2 ^ 46 - 1)) in *. set (z2 := inject_Z (2 ^ 46 + 1)) in *.
  assert (T1 : (inject_Z (a * L * (2 ^ 46 - 1)) == inject_Z a * y * c1 * (u * t))%Q).
  { rewrite !inject_Z_mult. fold z1. rewrite <- F2, <- D1. ring. }
  assert (T2 : (inject_Z (a * L * (2 ^ 46 + 1)) == inject_Z a * y * c2 * (u * t))%Q).
  { rewrite !inject_Z_mult. fold z2. rewrite <- F2, <- D2. ring. }
  assert (T3 : (inject_Z (b * l * 2 ^ 46) == inject_Z b * x * (u * t))%Q).
  { rewrite !inject_Z_mult. fold t. rewrite <- F1. ring. }
  split; intro X; apply inject_le; rewrite T3; [rewrite T1|rewrite T2]; apply Qmult_le_r; auto.
Qed.

Lemma padding_exponent : forall log, accurate_log log -> forall n k, 1 <= k < 40 -> 2 ^ k < n < 2 ^ (k + 1) ->
  f_ceil (f_div (log (f_of_Z n)) (log (f_of_Z 2))) = f_of_Z (k + 1).
Proof.
  intros log H n k Hk Hn. pose proof (pow_pos' k ltac:(lia)) as P.
  assert (U : 2 ^ (k + 1) <= 2 ^ 40) by (apply Z.pow_le_mono_r; lia).
  assert (L2 : 2 ^ 1 <= 2 ^ k) by (apply Z.pow_le_mono_r; lia). change (2 ^ 1) with 2 in L2.
  destruct (log_units log H n ltac:(lia)) as (l & L & H1 & H2 & Pl & PL & K).
  destruct (K (k * 2 ^ k + 1) (2 ^ k) ltac:(nia) P) as [A _]. specialize (A (more_than n k ltac:(lia) ltac:(lia))).
  pose proof (pow_pos' (k + 1) ltac:(lia)) as P1.
  destruct (K ((k + 1) * 2 ^ (k + 1) - 1) (2 ^ (k + 1)) ltac:(nia) P1) as [_ B]. specialize (B (less_than n (k + 1) ltac:(lia) ltac:(lia))).
  destruct (margins k l L Hk PL A B) as [M1 M2]. clear K A B.
  assert (LL : L <= l) by (change (2 ^ 40) with 1099511627776 in M1; nia).
  set (r := rndq (l * 2 ^ 1074) L).
  assert (E34 : 2 ^ 1074 = 2 ^ 40 * 2 ^ 1034) by (rewrite <- Z.pow_add_r by lia; reflexivity).
  assert (P34 : 0 < 2 ^ 1034) by (apply pow_pos'; lia). assert (P74 : 0 < 2 ^ 1074) by (apply pow_pos'; lia).
  assert (R1 : (k * 2 ^ 40 + 1) * 2 ^ 1034 <= r).
  { rewrite <- (rndq_fixed ((k * 2 ^ 40 + 1) * 2 ^ 1034) L); [|exists (k * 2 ^ 40 + 1), 1034; split; [change (2 ^ 40) with 1099511627776; lia|split; [lia|reflexivity]]|exact PL].
    unfold r. apply rndq_mono; [|exact PL|exact PL|].
    - apply Z.mul_nonneg_nonneg; [apply Z.mul_nonneg_nonneg|]; lia.
    - apply Z.mul_le_mono_nonneg_r; [lia|]. rewrite E34. rewrite (Z.mul_assoc l). replace ((k * 2 ^ 40 + 1) * 2 ^ 1034 * L) with ((k * 2 ^ 40 + 1) * L * 2 ^ 1034) by ring.
      apply Z.mul_le_mono_nonneg_r; lia. }
  assert (R2 : r <= (k + 1) * 2 ^ 1074).
  { rewrite <- (rndq_fixed ((k + 1) * 2 ^ 1074) L); [|exists (k + 1), 1074; split; [lia|split; [lia|reflexivity]]|exact PL].
    unfold r. apply rndq_mono; [|exact PL|exact PL|].
    - apply Z.mul_nonneg_nonneg; lia.
    - apply Z.mul_le_mono_nonneg_r; [lia|]. replace ((k + 1) * 2 ^ 1074 * L) with ((k + 1) * L * 2 ^ 1074) by ring. apply Z.mul_le_mono_nonneg_r; lia. }
  destruct (div_holds _ _ l L H1 H2 PL LL) as [[_ X]|X]; fold r in X.
  - exfalso. assert (2 ^ 6 * 2 ^ 1074 < limit) by (unfold limit; rewrite <- Z.pow_add_r by lia; apply Z.pow_lt_mono_r; lia). change (2 ^ 6) with 64 in *. nia.
  - apply (ceil_holds _ r); [exact X|lia|]. split; [|exact R2]. eapply Z.lt_le_trans; [|exact R1]. rewrite E34. nia.
Qed.

Lemma next_exact : forall log pow wild, accurate_log log -> exact_pow pow -> forall k n, 1 <= k < 40 -> 2 ^ k < Z.of_N n < 2 ^ (k + 1) ->
  next_float log pow wild n = Z.to_N (2 ^ (k + 1)).
Proof.
  intros log pow wild H He k n Hk Hn. unfold next_float. cbv zeta. rewrite (padding_exponent log H _ k Hk Hn). rewrite He by lia.
  assert (U : 2 ^ (k + 1) <= 2 ^ 40) by (apply Z.pow_le_mono_r; lia). pose proof (pow_pos' (k + 1) ltac:(lia)) as P.
  pose proof (of_Z_holds (2 ^ (k + 1)) ltac:(lia)) as W. rewrite of_Z_exact in W by lia. rewrite (f_to_uint_holds _ _ W).
  rewrite Z.div_mul by (apply Z.pow_nonzero; lia). destruct (Z.ltb_spec (2 ^ (k + 1)) (2 ^ 64)); [reflexivity|lia].
Qed.
Lemma bracket : forall n, 2 <= n <= 2 ^ 40 -> (forall k, 0 <= k -> n <> 2 ^ k) -> exists k, 1 <= k < 40 /\ 2 ^ k < n < 2 ^ (k + 1).
Proof.
  intros n Hn Np. pose proof (Z.log2_spec n ltac:(lia)) as [S1 S2]. exists (Z.log2 n).
  assert (L1 : 1 <= Z.log2 n) by (change 1 with (Z.log2 2); apply Z.log2_le_mono; lia).
  assert (L40 : Z.log2 n <= 40) by (rewrite <- (Z.log2_pow2 40) by lia; apply Z.log2_le_mono; lia).
  pose proof (Np (Z.log2 n) ltac:(lia)) as N1. rewrite Z.add_1_r. split; [|lia]. split; [lia|].
  destruct (Z.eq_dec (Z.log2 n) 40) as [E|]; [exfalso; rewrite E in *; lia|lia].
Qed.
Lemma resize_float_exact : forall log pow wild, accurate_log log -> exact_pow pow -> forall l, 1 <= Z.of_nat (length l) <= 2 ^ 40 ->
  resize_float log pow wild l = resize l.
Proof.
  intros log pow wild H He l Hl. unfold resize_float, resize. destruct (is_pow2 (length l)) eqn:E; [reflexivity|]. f_equal. f_equal.
  assert (Np : forall k, 0 <= k -> Z.of_nat (length l) <> 2 ^ k).
  { intros k Hk Q. assert (T : is_pow2 (length l) = true); [|congruence]. apply is_pow2_spec. exists (Z.to_nat k). apply Nat2Z.inj. rewrite Q, Nat2Z.inj_pow, Z2Nat.id by exact Hk. reflexivity. }
  assert (N1 : Z.of_nat (length l) <> 1) by exact (Np 0 ltac:(lia)).
  destruct (bracket _ (conj (ltac:(lia) : 2 <= Z.of_nat (length l)) (proj2 Hl)) Np) as (k & Hk & Hb).
  rewrite (next_exact log pow wild H He k) by (try rewrite nat_N_Z; assumption).
  assert (U : 2 ^ (k + 1) <= 2 ^ 40) by (apply Z.pow_le_mono_r; lia). pose proof (pow_pos' (k + 1) ltac:(lia)) as P.
  assert (V : int_of_u64 (Z.to_N (2 ^ (k + 1))) = 2 ^ (k + 1)).
  { unfold int_of_u64. destruct (N.ltb_spec (Z.to_N (2 ^ (k + 1))) (2 ^ 63)); [apply Z2N.id; lia|exfalso; lia]. }
  rewrite V. assert (W : Z.of_nat (next_pow2 (length l)) = 2 ^ (k + 1)).
  { unfold next_pow2. rewrite Nat2Z.inj_pow. change (Z.of_nat 2) with 2. f_equal.
    assert (Lu : Nat.log2_up (length l) = S (Z.to_nat k)).
    { apply Nat.log2_up_unique; [lia|]. cbn [Nat.pred]. split.
      - apply Nat2Z.inj_lt. rewrite Nat2Z.inj_pow, Z2Nat.id by lia. exact (proj1 Hb).
      - apply Nat2Z.inj_le. rewrite Nat2Z.inj_pow. change (Z.of_nat 2) with 2. rewrite Nat2Z.inj_succ, Z2Nat.id by lia. rewrite <- Z.add_1_r. lia. }
    rewrite Lu. lia. }
  lia.
Qed.
Lemma hashtree_float_exact : forall log pow wild, accurate_log log -> exact_pow pow -> forall data, Z.of_nat (length data) <= 2 ^ 40 ->
  hashtree_float log pow wild data = hashtree_of_blocks data.
Proof.
  intros log pow wild H He data Hl. unfold hashtree_float, hashtree_of_blocks, block_of_data. cbv zeta. do 2 f_equal. apply resize_float_exact; [exact H|exact He|].
  rewrite map_length. destruct (Nat.leb_spec (length data) 1); [rewrite app_length; cbn [length]; lia|lia].
Qed.

(** ** A logarithm and a power that are accurate *)
Definition log2_scaled (x : float64) : float64 :=
  match f_floor_int x with Some n => f_of_Z (Z.log2 (n ^ (2 ^ 47))) | None => x end.
Definition pow2_of (x y : float64) : float64 :=
  match f_floor_int y with Some k => f_of_Z (2 ^ k) | None => y end.
Lemma floor_of_Z : forall n, 0 <= n < 2 ^ 53 -> f_floor_int (f_of_Z n) = Some n.
Proof.
  intros n H. pose proof (floor_div n 1 ltac:(lia) ltac:(lia)) as F. rewrite Z.div_1_r in F.
  assert (E : f_div (f_of_Z n) (f_of_Z 1) = f_of_Z n); [|rewrite <- E; exact F].
  destruct (Z.eq_dec n 0) as [->|N]; [reflexivity|].
  pose proof (of_Z_holds n ltac:(lia)) as W. rewrite of_Z_exact in W by lia.
  pose proof (of_Z_holds 1 ltac:(lia)) as W1. rewrite of_Z_exact in W1 by lia.
  assert (P : 0 < 2 ^ 1074) by (apply pow_pos'; lia).
  pose proof (div_holds _ _ _ _ W W1 ltac:(lia) ltac:(nia)) as D. cbv zeta in D. rewrite Z.mul_1_l in D. rewrite rndq_fixed in D; [|exact (holds_rep _ _ W)|exact P].
  destruct D as [[_ D]|D]; [exfalso; pose proof (holds_below _ _ W); lia|]. apply (holds_inj _ _ (n * 2 ^ 1074)); [exact D|exact W|nia].
Qed.
Lemma fvalue_of_Z : forall n, 0 <= n < 2 ^ 53 -> float_number (f_of_Z n) /\ (fvalue (f_of_Z n) == inject_Z n)%Q.
Proof.
  intros n H. pose proof (of_Z_holds n ltac:(lia)) as W. rewrite of_Z_exact in W by lia. split; [exact (number_holds _ _ W)|].
  rewrite (holds_fvalue _ _ W). destruct (holds_frac _ _ W) as (_ & _ & F). rewrite Z.mul_1_l, inject_Z_mult, <- unit_def in F.
  apply (Qmult_inj_r _ _ (inject_Z unit)); [|exact F]. pose proof (inject_pos unit unit_pos). intro Q. rewrite Q in H0. discriminate H0.
Qed.
Lemma scaled_bounds : forall n s, 2 <= n -> 0 < s -> let T := Z.log2 (n ^ s) in s <= T /\
  forall a b, 0 <= a -> 0 < b -> (2 ^ a <= n ^ b -> a * s < b * (T + 1)) /\ (n ^ b <= 2 ^ a -> b * T <= a * s).
Proof.
  intros n s Hn Hs T. assert (P : 0 < n ^ s) by (apply Z.pow_pos_nonneg; lia). destruct (Z.log2_spec (n ^ s) P) as [S1 S2]. fold T in S1, S2.
  assert (T0 : 0 <= T) by apply Z.log2_nonneg. split.
  - rewrite <- (Z.log2_pow2 s) by lia. apply Z.log2_le_mono. apply Z.pow_le_mono_l. lia.
  - intros a b Ha Hb. split; intro X.
    + apply (Z.pow_lt_mono_r_iff 2); [lia|nia|]. rewrite Z.pow_mul_r by lia.
      eapply Z.le_lt_trans; [apply (Z.pow_le_mono_l (2 ^ a) (n ^ b) s); split; [apply Z.lt_le_incl, pow_pos'; lia|exact X]|]. rewrite <- Z.pow_mul_r by lia. rewrite (Z.mul_comm b s), Z.pow_mul_r by lia.
      rewrite (Z.mul_comm b), Z.pow_mul_r by lia. apply Z.pow_lt_mono_l; lia.
    + apply (Z.pow_le_mono_r_iff 2); [lia|nia|]. rewrite (Z.mul_comm b T), Z.pow_mul_r by lia.
      eapply Z.le_trans; [apply Z.pow_le_mono_l; split; [apply Z.lt_le_incl, pow_pos'; lia|exact S1]|].
      rewrite <- Z.pow_mul_r by lia. rewrite (Z.mul_comm s b), !Z.pow_mul_r by lia. apply Z.pow_le_mono_l. split; [apply Z.pow_nonneg; lia|exact X].
Qed.
Lemma scaled_log : accurate_log log2_scaled.
Proof.
  intros n Hn. unfold log2_scaled. rewrite (floor_of_Z n), (floor_of_Z 2) by lia.
  assert (Ps : 0 < 2 ^ 47) by reflexivity. remember (2 ^ 47) as s eqn:Es.
  rewrite Z.log2_pow2 by lia. destruct (scaled_bounds n s ltac:(lia) Ps) as [T1 B]. cbv zeta in B. set (T := Z.log2 (n ^ s)) in *.
  assert (T2 : T < 2 ^ 53).
  { destruct (B 40 1 ltac:(lia) ltac:(lia)) as [_ K]. specialize (K ltac:(rewrite Z.pow_1_r; lia)). rewrite Z.mul_1_l in K.
    assert (40 * s < 2 ^ 53) by (rewrite Es; reflexivity). lia. }
  clearbody T. assert (S53 : s < 2 ^ 53) by lia.
  destruct (fvalue_of_Z T ltac:(lia)) as [N F]. destruct (fvalue_of_Z s ltac:(lia)) as [_ F2].
  split; [exact N|]. split; [rewrite F; change 0%Q with (inject_Z 0); rewrite <- Zlt_Qlt; lia|].
  intros a b Ha Hb. rewrite F, F2. destruct (B a b Ha Hb) as [B1 B2]. clear F F2 N.
  assert (D1 : ((1 - 1 / 2 ^ 46) == inject_Z (2 ^ 46 - 1) / inject_Z (2 ^ 46))%Q) by reflexivity.
  assert (D2 : ((1 + 1 / 2 ^ 46) == inject_Z (2 ^ 46 + 1) / inject_Z (2 ^ 46))%Q) by reflexivity.
  assert (C : (0 < inject_Z (2 ^ 46))%Q) by reflexivity.
  split; intro X.
  - rewrite D1. unfold Qdiv. rewrite Qmult_assoc. apply Qle_shift_div_r; [exact C|]. rewrite <- !inject_Z_mult. apply inject_le. specialize (B1 X).
    assert (E : s = 2 * 2 ^ 46) by (rewrite Es; reflexivity). revert B1 T1 E Ps. clear - Ha Hb. generalize (2 ^ 46). intros c B1 T1 E Ps. subst s.
    destruct (Z.le_gt_cases a b) as [L|L]; [|nia].
    assert (a * (2 * c) * (c - 1) <= b * (2 * c) * c) by nia. nia.
  - rewrite D2. unfold Qdiv. rewrite Qmult_assoc. apply Qle_shift_div_l; [exact C|]. rewrite <- !inject_Z_mult. apply inject_le. specialize (B2 X).
    revert B2 T1 Ps. clear - Ha Hb. assert (G : 0 < 2 ^ 46) by reflexivity. revert G. generalize (2 ^ 46). intros c G B2 T1 Ps. nia.
Qed.
Lemma pow2_exact : exact_pow pow2_of.
Proof. intros k H. unfold pow2_of. rewrite floor_of_Z by lia. reflexivity. Qed.
