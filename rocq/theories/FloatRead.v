(** Decimal fractions become the nearest float64: what [float_of_dec] computes. *)
From Coq Require Import ZArith Lia ZifyBool ZifyNat ZifyN SpecFloat.
From Verif Require Import Base FloatModel FloatFacts FloatRound FloatText.
Local Open Scope Z_scope.

(** the quotient of two integers *)
Lemma div_round : forall p d,
  let x := SFdiv 53 1024 (S754_finite false p 0) (S754_finite false d 0) in
  let r := rndq (Z.pos p * 2 ^ 1074) (Z.pos d) in
  (x = S754_infinity false /\ limit <= r) \/ holds x r.
Proof.
  intros p d x r. unfold x. clear x. cbn [SFdiv xorb]. unfold SFdiv_core_binary. rewrite !Zdigits2_size by lia.
  set (d1 := size (Z.pos p)). set (d2 := size (Z.pos d)). rewrite !Z.add_0_r, Z.sub_0_r.
  set (e := Z.min (fexp 53 1024 (d1 - d2)) 0).
  assert (Ee : e = Z.min (Z.max (d1 - d2 - 53) (-1074)) 0) by reflexivity.
  pose proof (size_pos (Z.pos p) ltac:(lia)) as P1. pose proof (size_pos (Z.pos d) ltac:(lia)) as P2. fold d1 in P1. fold d2 in P2.
  pose proof (size_spec (Z.pos p) ltac:(lia)) as S1. pose proof (size_spec (Z.pos d) ltac:(lia)) as S2. fold d1 in S1. fold d2 in S2.
  clearbody e. replace (match 0 - e with 0 => Z.pos p | Z.pos _ => Z.shiftl (Z.pos p) (0 - e) | Z.neg _ => 0 end) with (Z.pos p * 2 ^ (- e)).
  2:{ destruct (0 - e) as [|k|k] eqn:K; [replace (- e) with 0 by lia; change (2 ^ 0) with 1; lia| |lia]. rewrite Z.shiftl_mul_pow2 by lia. do 2 f_equal. lia. }
  set (M := Z.pos p * 2 ^ (- e)). assert (Pe : 0 < 2 ^ (- e)) by (apply pow_pos'; lia). assert (HM : 0 < M) by (unfold M; apply Z.mul_pos_pos; [lia|exact Pe]).
  destruct (Z.div_eucl M (Z.pos d)) as [q0 r0] eqn:Eq. assert (q0 = M / Z.pos d) as -> by (unfold Z.div; rewrite Eq; reflexivity).
  assert (r0 = M mod Z.pos d) as -> by (unfold Z.modulo; rewrite Eq; reflexivity). clear Eq.
  pose proof (located_div M (Z.pos d) ltac:(lia) ltac:(lia)) as Loc.
  assert (Pw : 0 < 2 ^ (1074 + e)) by (apply pow_pos'; lia).
  assert (ME : Z.pos p * 2 ^ 1074 = M * 2 ^ (1074 + e)) by (unfold M; rewrite <- Z.mul_assoc, <- Z.pow_add_r by lia; do 2 f_equal; lia).
  assert (Big : e <> -1074 -> 2 ^ 52 <= M / Z.pos d).
  { intro Ne. apply Z.div_le_lower_bound; [lia|]. unfold M.
    assert (A : Z.pos d <= 2 ^ d2) by lia.
    transitivity (2 ^ d2 * 2 ^ 52); [apply Z.mul_le_mono_nonneg_r; [apply Z.lt_le_incl, pow_pos'; lia|exact A]|].
    transitivity (2 ^ (d1 - 1) * 2 ^ (- e)); [|apply Z.mul_le_mono_nonneg_r; lia].
    rewrite <- !Z.pow_add_r by lia. apply Z.pow_le_mono_r; lia. }
  pose proof (Z.div_pos M (Z.pos d) ltac:(lia) ltac:(lia)) as Q0.
  destruct (M / Z.pos d) as [|q|q] eqn:Eq; [| |lia].
  - assert (E1 : e = -1074) by (destruct (Z.eq_dec e (-1074)); [assumption|specialize (Big n); lia]).
    assert (Er : r = round_half_even M (Z.pos d)).
    { unfold r. rewrite ME, E1. change (2 ^ (1074 + -1074)) with 1. rewrite Z.mul_1_r. unfold rndq. rewrite Eq. change (drop 0) with 0. change (2 ^ 0) with 1.
      rewrite !Z.mul_1_r. reflexivity. }
    pose proof (rhe_bounds M (Z.pos d) ltac:(lia)) as Rb. rewrite Eq in Rb. rewrite <- Er in Rb.
    rewrite E1. unfold binary_round_aux.
    assert (X : forall l, shr_fexp 53 1024 0 (-1074) l = (shr_record_of_loc 0 l, -1074)) by (intro l; reflexivity). rewrite X.
    rewrite (located_round _ _ _ Loc). rewrite <- Er. clearbody r.
    assert (C : r = 0 \/ r = 1) by lia. destruct C as [->| ->]; right; [apply (holds_zero false)|].
    change (holds (S754_finite false 1 (-1074)) (units 1 (-1074))). constructor. reflexivity.
  - set (fe := fexp 53 1024 (size (Z.pos q) + e)).
    assert (Fe : fe = Z.max (size (Z.pos q) + e - 53) (-1074)) by reflexivity.
    assert (Hn : 0 <= fe - e).
    { destruct (Z.eq_dec e (-1074)) as [?|N]; [lia|]. specialize (Big N). pose proof (size_ge (Z.pos q) 52 ltac:(lia) Big). lia. }
    destruct (round_aux_gen M (Z.pos d) q _ e Loc Hn) as (q' & Eq' & R). fold fe in Eq', R. cbv zeta in R.
    assert (Sv : size (Z.pos p * 2 ^ 1074 / Z.pos d) = size (Z.pos q) + (1074 + e)).
    { set (v := Z.pos p * 2 ^ 1074 / Z.pos d).
      assert (V1 : Z.pos q * 2 ^ (1074 + e) <= v).
      { unfold v. apply Z.div_le_lower_bound; [lia|]. rewrite ME, Z.mul_assoc. apply Z.mul_le_mono_nonneg_r; [lia|].
        rewrite <- Eq. apply Z.mul_div_le. lia. }
      assert (V2 : v < (Z.pos q + 1) * 2 ^ (1074 + e)).
      { unfold v. apply Z.div_lt_upper_bound; [lia|]. rewrite ME, Z.mul_assoc. apply Z.mul_lt_mono_pos_r; [exact Pw|].
        rewrite <- Eq. apply Z.mul_succ_div_gt. lia. }
      pose proof (size_spec (Z.pos q) ltac:(lia)) as [Sl Su]. pose proof (size_pos (Z.pos q) ltac:(lia)) as S0.
      apply Z.le_antisymm.
      - apply size_le; [eapply Z.lt_le_trans; [|exact V1]; apply Z.mul_pos_pos; [lia|exact Pw]|]. rewrite Z.pow_add_r by lia.
        eapply Z.lt_le_trans; [exact V2|]. apply Z.mul_le_mono_nonneg_r; lia.
      - replace (size (Z.pos q) + (1074 + e)) with (size (Z.pos q) - 1 + (1074 + e) + 1) by lia. apply size_ge; [lia|]. rewrite Z.pow_add_r by lia.
        eapply Z.le_trans; [|exact V1]. apply Z.mul_le_mono_nonneg_r; [lia|exact Sl]. }
    assert (D : drop (Z.pos p * 2 ^ 1074 / Z.pos d) = fe + 1074) by (unfold drop; rewrite Sv; lia).
    assert (Er : r = q' * 2 ^ (fe + 1074)).
    { unfold r, rndq. rewrite D. f_equal. rewrite Eq', ME.
      replace (Z.pos d * 2 ^ (fe + 1074)) with (2 ^ (1074 + e) * (Z.pos d * 2 ^ (fe - e))).
      - rewrite (Z.mul_comm M). apply rhe_scale; [exact Pw|]. apply Z.mul_pos_pos; [lia|]. apply pow_pos'. exact Hn.
      - replace (fe + 1074) with ((1074 + e) + (fe - e)) by lia. rewrite (Z.pow_add_r 2 (1074 + e)) by lia. ring. }
    rewrite Er. clearbody fe. destruct R as [(-> & ->)|(m' & e' & V & Lf & Z1 & Z2 & L1 & ->)].
    { right. rewrite Z.mul_0_l. apply (holds_zero false). }
    assert (U : q' * 2 ^ (fe + 1074) = units m' e').
    { rewrite <- V. unfold units. rewrite <- Z.mul_assoc, <- Z.pow_add_r by lia. do 2 f_equal. lia. }
    rewrite U. destruct (Zle_bool e' 971) eqn:B.
    + right. apply Zle_is_le_bool in B. constructor. apply bounded_spec. lia.
    + left. split; [reflexivity|]. apply Z.leb_gt in B. unfold limit, units.
      assert (S53 : size (Z.pos m') = 53) by lia. pose proof (size_spec (Z.pos m') ltac:(lia)) as [Sl _].
      transitivity (2 ^ 52 * 2 ^ (e' + 1074)).
      * rewrite <- Z.pow_add_r by lia. apply Z.pow_le_mono_r; lia.
      * apply Z.mul_le_mono_nonneg_r; [apply Z.lt_le_incl, pow_pos'; lia|]. rewrite S53 in Sl. exact Sl.
Qed.

(** ** Signs *)
Lemma aux_opp : forall m e l, binary_round_aux 53 1024 true m e l = SFopp (binary_round_aux 53 1024 false m e l).
Proof.
  intros m e l. unfold binary_round_aux. destruct (shr_fexp 53 1024 m e l) as [a b]. destruct (shr_fexp 53 1024 _ b loc_Exact) as [c f].
  destruct (shr_m c); [reflexivity| |reflexivity]. destruct (Zle_bool f (1024 - 53)); reflexivity.
Qed.
(** a fraction n * 10^e *)
Definition dec_num (n e : Z) : Z := n * 10 ^ Z.max 0 e.
Definition dec_den (e : Z) : Z := 10 ^ Z.max 0 (- e).
Lemma dec_den_pos : forall e, 0 < dec_den e.
Proof. intro e. unfold dec_den. apply Z.pow_pos_nonneg; lia. Qed.
Lemma dec_num_pos : forall n e, 0 < n -> 0 < dec_num n e.
Proof. intros n e H. unfold dec_num. apply Z.mul_pos_pos; [exact H|]. apply Z.pow_pos_nonneg; lia. Qed.
Definition with_sign (neg : bool) (x : float64) : float64 := if neg then SFopp x else x.
Lemma float_of_dec_sign : forall neg n e, 0 <= n -> float_of_dec neg n e = with_sign neg (float_of_dec false n e).
Proof.
  intros [|] n e H; [|reflexivity]. destruct n as [|p|p]; [reflexivity| |lia]. cbn [float_of_dec with_sign].
  destruct (0 <=? e) eqn:E.
  - assert (P : 0 < Z.pos p * 10 ^ e) by (apply Z.mul_pos_pos; [lia|]; apply Z.pow_pos_nonneg; lia).
    destruct (Z.pos p * 10 ^ e) as [|q|q] eqn:Q; try lia. cbn [binary_normalize Z.mul]. unfold binary_round.
    match goal with |- context [shl_align ?a ?b ?c] => destruct (shl_align a b c) as [u w] end. apply aux_opp.
  - cbn [SFdiv xorb]. match goal with |- context [SFdiv_core_binary ?a ?b ?c ?d ?f ?g] => destruct (SFdiv_core_binary a b c d f g) as [[u v] w] end. apply aux_opp.
Qed.
Lemma float_of_dec_pos : forall n e, 0 < n ->
  let x := float_of_dec false n e in let r := rndq (dec_num n e * 2 ^ 1074) (dec_den e) in
  (x = S754_infinity false /\ limit <= r) \/ holds x r.
Proof.
  intros n e H. destruct n as [|p|p]; try lia. cbn [float_of_dec]. destruct (Z.leb_spec 0 e) as [L|L].
  - unfold dec_den, dec_num. rewrite Z.max_r, Z.max_l by lia. change (10 ^ 0) with 1. rewrite rndq_1, Z.mul_1_l.
    assert (P : 0 < Z.pos p * 10 ^ e) by (apply Z.mul_pos_pos; [lia|]; apply Z.pow_pos_nonneg; lia).
    destruct (Z.pos p * 10 ^ e) as [|q|q] eqn:Q; try lia. cbn [binary_normalize]. exact (round_spec q 0 ltac:(lia)).
  - unfold dec_den, dec_num. rewrite Z.max_l, Z.max_r by lia. change (10 ^ 0) with 1. rewrite Z.mul_1_r.
    assert (P : 0 < 10 ^ (- e)) by (apply Z.pow_pos_nonneg; lia). destruct (10 ^ (- e)) as [|q|q] eqn:Q; try lia. cbn [Z.to_pos]. apply div_round.
Qed.
