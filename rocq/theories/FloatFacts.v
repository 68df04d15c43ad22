(** Rounding of the standard library's binary floats, as a function on integers: values
    are integral multiples of 2^-1074, the smallest positive float64. *)
From Coq Require Import ZArith Lia SpecFloat.
From Verif Require Import Base FloatModel.
Local Open Scope Z_scope.

(** ** Digits and shifts *)
Lemma digits_log2 : forall p, Z.pos (digits2_pos p) = Z.log2 (Z.pos p) + 1.
Proof.
  induction p; cbn [digits2_pos].
  - rewrite Pos2Z.inj_succ, IHp, Pos2Z.inj_xI, Z.log2_succ_double by lia. lia.
  - rewrite Pos2Z.inj_succ, IHp, Pos2Z.inj_xO, Z.log2_double by lia. lia.
  - reflexivity.
Qed.
Definition size (v : Z) : Z := Z.log2 v + 1.
Lemma size_spec : forall v, 0 < v -> 2 ^ (size v - 1) <= v < 2 ^ size v.
Proof. intros v H. unfold size. pose proof (Z.log2_spec v H). replace (Z.log2 v + 1 - 1) with (Z.log2 v) by lia. rewrite <- Z.add_1_r in H0. exact H0. Qed.
Lemma size_pos : forall v, 0 < v -> 1 <= size v.
Proof. intros v H. unfold size. pose proof (Z.log2_nonneg v). lia. Qed.
Lemma Zdigits2_size : forall v, 0 < v -> Zdigits2 v = size v.
Proof. intros [|p|p] H; try lia. apply digits_log2. Qed.
Lemma size_le : forall v n, 0 < v -> v < 2 ^ n -> size v <= n.
Proof.
  intros v n H L. assert (0 <= n) by (destruct (Z.le_gt_cases 0 n); [assumption|rewrite Z.pow_neg_r in L by lia; lia]).
  unfold size. apply Z.log2_lt_pow2 in L; lia.
Qed.
Lemma size_ge : forall v n, 0 <= n -> 2 ^ n <= v -> n + 1 <= size v.
Proof. intros v n H L. assert (0 < 2 ^ n) by (apply Z.pow_pos_nonneg; lia). unfold size. apply Z.log2_le_pow2 in L; lia. Qed.
Lemma size_mono : forall v w, 0 < v -> v <= w -> size v <= size w.
Proof. intros v w H L. unfold size. pose proof (Z.log2_le_mono v w L). lia. Qed.
Lemma size_shift : forall v k, 0 < v -> 0 <= k -> size (v * 2 ^ k) = size v + k.
Proof. intros v k H K. unfold size. rewrite Z.log2_mul_pow2 by lia. lia. Qed.

Lemma iter_plus : forall (f : shr_record -> shr_record) a b x, Nat.iter (a + b) f x = Nat.iter a f (Nat.iter b f x).
Proof. intros f a b x. induction a as [|a IH]; [reflexivity|]. change (f (Nat.iter (a + b) f x) = f (Nat.iter a f (Nat.iter b f x))). rewrite IH. reflexivity. Qed.
Lemma iter_pos_nat : forall (f : shr_record -> shr_record) p x, SpecFloat.iter_pos f p x = Nat.iter (Pos.to_nat p) f x.
Proof.
  intro f. induction p; intro x; cbn [SpecFloat.iter_pos].
  - rewrite !IHp, Pos2Nat.inj_xI. replace (S (2 * Pos.to_nat p)) with (Pos.to_nat p + (Pos.to_nat p + 1))%nat by lia.
    rewrite !iter_plus. reflexivity.
  - rewrite !IHp, Pos2Nat.inj_xO. replace (2 * Pos.to_nat p)%nat with (Pos.to_nat p + Pos.to_nat p)%nat by lia.
    rewrite iter_plus. reflexivity.
  - reflexivity.
Qed.
(** [x] is [M / K] rounded down, with the position of the remainder *)
Definition located (M K : Z) (x : shr_record) : Prop :=
  exists rem, 0 <= shr_m x /\ M = shr_m x * K + rem /\ 0 <= rem < K /\
    (shr_r x = true <-> K <= 2 * rem) /\ (shr_r x || shr_s x = false <-> rem = 0) /\
    (shr_r x = true /\ shr_s x = false <-> 2 * rem = K).
Lemma shr_1_spec : forall m r s, 0 <= m ->
  shr_1 (Build_shr_record m r s) = Build_shr_record (m / 2) (Z.odd m) (r || s).
Proof.
  intros [|[p|p|]|p] r s H; try lia; cbn [shr_1 Z.odd]; f_equal;
    [rewrite Pos2Z.inj_xI|rewrite Pos2Z.inj_xO]; rewrite Z.mul_comm;
    [rewrite Z.div_add_l by lia; change (1 / 2) with 0; lia|rewrite Z.div_mul by lia; reflexivity].
Qed.
Lemma located_step : forall M K x, located M K x -> located M (2 * K) (shr_1 x).
Proof.
  intros M K [m r s] (rem & Hm & E & Hr & R1 & R2 & R3). cbn [shr_m shr_r shr_s] in *. rewrite shr_1_spec by exact Hm.
  pose proof (Z.div_mod m 2 ltac:(lia)) as D. rewrite Zmod_odd in D.
  set (a := m / 2) in *. assert (Ha : 0 <= a) by (apply Z.div_pos; lia).
  exists ((if Z.odd m then 1 else 0) * K + rem). cbn [shr_m shr_r shr_s].
  split; [exact Ha|]. split; [rewrite E; rewrite D at 1; destruct (Z.odd m); ring|].
  split; [destruct (Z.odd m); lia|].
  split; [destruct (Z.odd m); split; intro; try discriminate; try reflexivity; lia|].
  split.
  - destruct (Z.odd m); cbn [orb]; [split; intro; [discriminate|lia]|]. rewrite R2. lia.
  - destruct (Z.odd m); [|split; [intros [Q _]; discriminate|intro; lia]].
    split; [intros [_ Q]; apply R2 in Q; lia|]. intro Q. split; [reflexivity|]. apply R2. lia.
Qed.
Lemma located_exact : forall M, 0 <= M -> located M 1 (Build_shr_record M false false).
Proof.
  intros M H. exists 0. cbn [shr_m shr_r shr_s]. repeat split; try lia; try discriminate; auto; intros [Q _]; discriminate.
Qed.
Lemma located_iter : forall M K n x, located M K x -> located M (K * 2 ^ Z.of_nat n) (Nat.iter n shr_1 x).
Proof.
  intros M K n x H. induction n as [|n IH]; [change (2 ^ Z.of_nat 0) with 1; rewrite Z.mul_1_r; exact H|].
  rewrite Nat2Z.inj_succ, Z.pow_succ_r by lia. replace (K * (2 * 2 ^ Z.of_nat n)) with (2 * (K * 2 ^ Z.of_nat n)) by ring.
  apply located_step. exact IH.
Qed.
Lemma shr_spec : forall M K x e n, located M K x -> 0 <= n -> exists x', shr x e n = (x', e + n) /\ located M (K * 2 ^ n) x'.
Proof.
  intros M K x e [|p|p] H Hn; try lia.
  - eexists. split; [cbn [shr]; f_equal; lia|]. change (2 ^ 0) with 1. rewrite Z.mul_1_r. exact H.
  - eexists. split; [reflexivity|]. rewrite iter_pos_nat. rewrite <- (positive_nat_Z p) at 1. apply located_iter. exact H.
Qed.
Lemma located_round : forall M K x, located M K x -> round_nearest_even (shr_m x) (loc_of_shr_record x) = round_half_even M K.
Proof.
  intros M K [m r s] (rem & Hm & E & Hr & R1 & R2 & R3). cbn [shr_m shr_r shr_s] in *.
  assert (Dq : M / K = m) by (symmetry; apply Z.div_unique with (r := rem); lia).
  assert (Dr : M mod K = rem) by (symmetry; apply Z.mod_unique with (q := m); lia).
  unfold round_half_even. rewrite Dq, Dr. cbn [loc_of_shr_record].
  destruct r, s; cbn [round_nearest_even].
  - destruct (Z.ltb_spec (2 * rem) K); [destruct R1 as [R1 _]; specialize (R1 eq_refl); lia|].
    destruct (Z.ltb_spec K (2 * rem)); [reflexivity|]. destruct R3 as [_ R3]. destruct R3 as [_ Q]; [lia|discriminate].
  - destruct R3 as [R3 _]. rewrite R3 by auto. rewrite !Z.ltb_irrefl. reflexivity.
  - destruct (Z.ltb_spec (2 * rem) K); [reflexivity|]. destruct R1 as [_ R1]. specialize (R1 ltac:(lia)). discriminate.
  - destruct R2 as [R2 _]. rewrite (R2 eq_refl). destruct (Z.ltb_spec (2 * 0) K); [reflexivity|lia].
Qed.

(** ** Rounding to nearest, ties to even *)
Lemma rhe_bounds : forall v d, 0 < d -> v / d <= round_half_even v d <= v / d + 1.
Proof. intros v d H. unfold round_half_even. repeat match goal with |- context [if ?b then _ else _] => destruct b end; lia. Qed.
Lemma rhe_mono : forall v w d, 0 < d -> v <= w -> round_half_even v d <= round_half_even w d.
Proof.
  intros v w d H L. pose proof (Z.div_le_mono v w d H L) as Q. pose proof (rhe_bounds v d H). pose proof (rhe_bounds w d H).
  destruct (Z.eq_dec (v / d) (w / d)) as [E|E]; [|lia].
  pose proof (Z.div_mod v d ltac:(lia)). pose proof (Z.div_mod w d ltac:(lia)).
  assert (R : v mod d <= w mod d) by (rewrite E in *; lia).
  unfold round_half_even in *. rewrite E in *.
  destruct (Z.ltb_spec (2 * (v mod d)) d), (Z.ltb_spec (2 * (w mod d)) d); try lia;
    destruct (Z.ltb_spec d (2 * (v mod d))), (Z.ltb_spec d (2 * (w mod d))); try lia; destruct (Z.even (w / d)); lia.
Qed.
Lemma rhe_exact : forall q d, 0 < d -> round_half_even (q * d) d = q.
Proof.
  intros q d H. unfold round_half_even. rewrite Z.div_mul, Z.mod_mul by lia. destruct (Z.ltb_spec (2 * 0) d); [reflexivity|lia].
Qed.
(** the float64 nearest to [v] units, without an upper limit *)
Definition drop (v : Z) : Z := Z.max 0 (size v - 53).
Definition rnd (v : Z) : Z := round_half_even v (2 ^ drop v) * 2 ^ drop v.
Lemma drop_nonneg : forall v, 0 <= drop v. Proof. intro v. unfold drop. lia. Qed.
Lemma pow_pos' : forall n, 0 <= n -> 0 < 2 ^ n. Proof. intros. apply Z.pow_pos_nonneg; lia. Qed.
Lemma mant_bounds : forall v, 0 < v -> v / 2 ^ drop v < 2 ^ 53 /\ (0 < drop v -> 2 ^ 52 <= v / 2 ^ drop v).
Proof.
  intros v H. pose proof (size_spec v H) as [L U]. pose proof (pow_pos' _ (drop_nonneg v)). pose proof (size_pos v H). split.
  - apply Z.div_lt_upper_bound; [assumption|]. rewrite <- Z.pow_add_r by (pose proof (drop_nonneg v); lia).
    eapply Z.lt_le_trans; [exact U|]. apply Z.pow_le_mono_r; [lia|]. unfold drop. lia.
  - intro D. apply Z.div_le_lower_bound; [assumption|]. rewrite <- Z.pow_add_r by lia.
    eapply Z.le_trans; [|exact L]. apply Z.pow_le_mono_r; [lia|]. unfold drop in *. lia.
Qed.
Lemma rnd_mono : forall v w, 0 < v -> v <= w -> rnd v <= rnd w.
Proof.
  intros v w H L. pose proof (size_mono v w H L) as S. assert (D : drop v <= drop w) by (unfold drop; lia).
  pose proof (pow_pos' _ (drop_nonneg v)) as Pv. pose proof (pow_pos' _ (drop_nonneg w)) as Pw. unfold rnd.
  destruct (Z.eq_dec (drop v) (drop w)) as [E|E].
  - rewrite E. apply Z.mul_le_mono_nonneg_r; [lia|]. apply rhe_mono; assumption.
  - destruct (mant_bounds v H) as [Bv _]. destruct (mant_bounds w ltac:(lia)) as [_ Bw]. pose proof (drop_nonneg v).
    specialize (Bw ltac:(lia)). pose proof (rhe_bounds v _ Pv) as Rv. pose proof (rhe_bounds w _ Pw) as Rw.
    transitivity (2 ^ 53 * 2 ^ drop v); [apply Z.mul_le_mono_nonneg_r; lia|].
    transitivity (2 ^ 52 * 2 ^ drop w); [|apply Z.mul_le_mono_nonneg_r; lia].
    rewrite <- !Z.pow_add_r by lia. apply Z.pow_le_mono_r; lia.
Qed.
Lemma rnd_pos : forall v, 0 < v -> 0 < rnd v.
Proof.
  intros v H. pose proof (pow_pos' _ (drop_nonneg v)) as P. unfold rnd. apply Z.mul_pos_pos; [|exact P].
  destruct (Z.eq_dec (drop v) 0) as [E|E].
  - rewrite E. change (2 ^ 0) with 1. replace v with (v * 1) at 1 by lia. rewrite rhe_exact by lia. exact H.
  - destruct (mant_bounds v H) as [_ B]. pose proof (drop_nonneg v). pose proof (rhe_bounds v _ P). specialize (B ltac:(lia)). lia.
Qed.

(** ** Floats as integers *)
Definition units (m : positive) (e : Z) : Z := Z.pos m * 2 ^ (e + 1074).
(** [x] is a non-negative float64 of value [v] * 2^-1074 *)
Inductive holds : float64 -> Z -> Prop :=
| holds_zero : forall s, holds (S754_zero s) 0
| holds_finite : forall m e, bounded 53 1024 m e = true -> holds (S754_finite false m e) (units m e).
Lemma bounded_spec : forall m e, bounded 53 1024 m e = true <-> Z.max (size (Z.pos m) + e - 53) (-1074) = e /\ e <= 971.
Proof.
  intros m e. unfold bounded, canonical_mantissa, fexp, emin. rewrite Bool.andb_true_iff, <- Zeq_is_eq_bool, <- Zle_is_le_bool.
  rewrite digits_log2. unfold size. replace (3 - 1024 - 53) with (-1074) by lia. replace (1024 - 53) with 971 by lia. reflexivity.
Qed.
Lemma holds_pos : forall x v, holds x v -> 0 <= v.
Proof.
  intros x v [s|m e B]; [lia|]. apply bounded_spec in B as [B _]. unfold units. apply Z.mul_nonneg_nonneg; [lia|].
  apply Z.lt_le_incl, pow_pos'. lia.
Qed.
Lemma units_pos : forall m e, -1074 <= e -> 0 < units m e.
Proof. intros m e H. unfold units. apply Z.mul_pos_pos; [lia|]. apply pow_pos'. lia. Qed.
Lemma units_size : forall m e, -1074 <= e -> size (units m e) = size (Z.pos m) + e + 1074.
Proof. intros m e H. unfold units. rewrite size_shift by lia. lia. Qed.
Lemma rnd_fixed : forall x v, holds x v -> rnd v = v.
Proof.
  intros x v [s|m e B]; [reflexivity|]. apply bounded_spec in B as [B _].
  assert (D : drop (units m e) = e + 1074 \/ (e = -1074 /\ drop (units m e) = 0)) by (unfold drop; rewrite units_size by lia; lia).
  unfold rnd. destruct D as [D|[E D]]; rewrite D.
  - unfold units. rewrite rhe_exact by (apply pow_pos'; lia). reflexivity.
  - change (2 ^ 0) with 1. replace (units m e) with (units m e * 1) at 1 by lia. rewrite rhe_exact by lia. lia.
Qed.
Lemma shift_pos_mul : forall d m, Z.pos (shift_pos d m) = Z.pos m * 2 ^ Z.pos d.
Proof. intros d m. rewrite shift_pos_correct, Zpower_pos_nat, Zpower_nat_Z, positive_nat_Z. lia. Qed.

(** a quotient [M / K] known down to the mantissa [m] and its location, at exponent [e],
    that has too many digits or exactly the right number *)
Lemma round_aux_gen : forall M K m l e, located M K (shr_record_of_loc (Z.pos m) l) -> 0 <= fexp 53 1024 (size (Z.pos m) + e) - e ->
  exists q, q = round_half_even M (K * 2 ^ (fexp 53 1024 (size (Z.pos m) + e) - e)) /\
  let fe := fexp 53 1024 (size (Z.pos m) + e) in
  ((q = 0 /\ binary_round_aux 53 1024 false (Z.pos m) e l = S754_zero false) \/
   (exists m' e', Z.pos m' * 2 ^ (e' - fe) = q /\ fe <= e' /\ size (Z.pos m') <= 53 /\ (e' = -1074 \/ size (Z.pos m') = 53) /\ -1074 <= e' /\
     binary_round_aux 53 1024 false (Z.pos m) e l =
       if Zle_bool e' 971 then S754_finite false m' e' else S754_infinity false)).
Proof.
  intros M K m l e Loc Hn. eexists. split; [reflexivity|]. intro fe. fold fe in Hn. fold fe. set (n := fe - e) in *.
  set (q := round_half_even M (K * 2 ^ n)).
  assert (Eb : binary_round_aux 53 1024 false (Z.pos m) e l =
    let '(mrs'', e'') := shr_fexp 53 1024 q fe loc_Exact in
    match shr_m mrs'' with
    | Z0 => S754_zero false
    | Zpos m => if Zle_bool e'' (1024 - 53) then S754_finite false m e'' else S754_infinity false
    | _ => S754_nan
    end).
  { unfold binary_round_aux. unfold shr_fexp at 1. rewrite Zdigits2_size by lia. fold fe. fold n.
    destruct (shr_spec M K _ e n Loc Hn) as (x & -> & Lx). rewrite (located_round _ _ _ Lx).
    replace (e + n) with fe by lia. reflexivity. }
  rewrite Eb. clear Eb.
  assert (Pn : 0 < 2 ^ n) by (apply pow_pos'; exact Hn).
  assert (Lm : Z.pos m = M / K /\ 0 < K).
  { destruct Loc as (rem & _ & E & Hr & _). assert (Em : shr_m (shr_record_of_loc (Z.pos m) l) = Z.pos m) by (destruct l as [|[]]; reflexivity).
    rewrite Em in E. split; [apply Z.div_unique with (r := rem); lia|lia]. }
  destruct Lm as [Lm PK].
  assert (Dm : M / (K * 2 ^ n) = Z.pos m / 2 ^ n) by (rewrite <- Z.div_div by lia; rewrite <- Lm; reflexivity).
  pose proof (rhe_bounds M (K * 2 ^ n) ltac:(nia)) as Rb. fold q in Rb. rewrite Dm in Rb.
  pose proof (size_spec (Z.pos m) ltac:(lia)) as [Sl Su]. pose proof (size_pos (Z.pos m) ltac:(lia)) as S1.
  assert (Fe : fe = Z.max (size (Z.pos m) + e - 53) (-1074)) by reflexivity.
  assert (U : Z.pos m / 2 ^ n < 2 ^ 53).
  { apply Z.div_lt_upper_bound; [exact Pn|]. rewrite <- Z.pow_add_r by lia. eapply Z.lt_le_trans; [exact Su|].
    apply Z.pow_le_mono_r; lia. }
  assert (Q0 : 0 <= q) by (pose proof (Z.div_pos (Z.pos m) (2 ^ n) ltac:(lia) Pn); lia).
  destruct (Z.eq_dec q 0) as [Eq|Nq].
  { left. split; [exact Eq|]. rewrite Eq. unfold shr_fexp. cbn [Zdigits2 shr_record_of_loc].
    assert (F : fexp 53 1024 (0 + fe) - fe <= 0) by (unfold fexp, emin; lia).
    destruct (fexp 53 1024 (0 + fe) - fe) as [|p|p] eqn:Ef; try lia; reflexivity. }
  right. assert (Nl : fe <> -1074 -> 2 ^ 52 <= q).
  { intro Ne. assert (2 ^ 52 <= Z.pos m / 2 ^ n); [|lia]. apply Z.div_le_lower_bound; [exact Pn|]. rewrite <- Z.pow_add_r by lia.
    eapply Z.le_trans; [|exact Sl]. apply Z.pow_le_mono_r; lia. }
  unfold shr_fexp. rewrite Zdigits2_size by lia. cbn [shr_record_of_loc].
  assert (C : q = 2 ^ 53 \/ q < 2 ^ 53) by lia. destruct C as [C|C].
  - assert (Sq : size q = 54) by (rewrite C; reflexivity). rewrite Sq.
    assert (F : fexp 53 1024 (54 + fe) - fe = 1) by (unfold fexp, emin; lia). rewrite F. cbn [shr SpecFloat.iter_pos]. rewrite C.
    rewrite shr_1_spec by (apply Z.lt_le_incl, pow_pos'; lia). cbn [shr_m]. change (2 ^ 53 / 2) with (Z.pos (2 ^ 52)).
    exists (2 ^ 52)%positive, (fe + 1). replace (fe + 1 - fe) with 1 by lia.
    split; [reflexivity|]. split; [lia|]. split; [apply Z.leb_le; reflexivity|]. split; [right; reflexivity|]. split; [lia|reflexivity].
  - assert (Sq : size q <= 53) by (apply size_le; lia).
    assert (F : fexp 53 1024 (size q + fe) - fe <= 0) by (unfold fexp, emin; lia).
    assert (E : shr (Build_shr_record q false false) fe (fexp 53 1024 (size q + fe) - fe) = (Build_shr_record q false false, fe))
      by (destruct (fexp 53 1024 (size q + fe) - fe) as [|p|p]; try lia; reflexivity).
    rewrite E. cbn [shr_m]. destruct q as [|p|p]; try lia. exists p, fe. replace (fe - fe) with 0 by lia. change (2 ^ 0) with 1.
    split; [lia|]. split; [lia|]. split; [exact Sq|]. split; [|split; [lia|reflexivity]].
    destruct (Z.eq_dec fe (-1074)); [left; assumption|right]. pose proof (size_ge (Z.pos p) 52 ltac:(lia) (Nl n0)). lia.
Qed.
Lemma round_aux_spec : forall m e, 0 <= fexp 53 1024 (size (Z.pos m) + e) - e ->
  exists q, q = round_half_even (Z.pos m) (2 ^ (fexp 53 1024 (size (Z.pos m) + e) - e)) /\
  let fe := fexp 53 1024 (size (Z.pos m) + e) in
  ((q = 0 /\ binary_round_aux 53 1024 false (Z.pos m) e loc_Exact = S754_zero false) \/
   (exists m' e', Z.pos m' * 2 ^ (e' - fe) = q /\ fe <= e' /\ size (Z.pos m') <= 53 /\ (e' = -1074 \/ size (Z.pos m') = 53) /\ -1074 <= e' /\
     binary_round_aux 53 1024 false (Z.pos m) e loc_Exact =
       if Zle_bool e' 971 then S754_finite false m' e' else S754_infinity false)).
Proof.
  intros m e H. destruct (round_aux_gen (Z.pos m) 1 m loc_Exact e (located_exact (Z.pos m) ltac:(lia)) H) as (q & Eq & R).
  rewrite Z.mul_1_l in Eq. exists q. split; [exact Eq|exact R].
Qed.
Lemma round_aux_holds : forall m e, 0 <= fexp 53 1024 (size (Z.pos m) + e) - e ->
  let x := binary_round_aux 53 1024 false (Z.pos m) e loc_Exact in x = S754_infinity false \/ exists v, holds x v.
Proof.
  intros m e H x. destruct (round_aux_spec m e H) as (q & _ & [(_ & E)|(m' & e' & _ & _ & S1 & S2 & E1 & E)]); unfold x; rewrite E.
  - right. exists 0. constructor.
  - destruct (Zle_bool e' 971) eqn:B; [right|left; reflexivity]. apply Zle_is_le_bool in B. exists (units m' e'). constructor. apply bounded_spec. lia.
Qed.
(** the exponent of infinity, in units *)
Definition limit : Z := 2 ^ (1024 + 1074).
Lemma round_spec : forall m e, -1074 <= e ->
  let x := binary_round 53 1024 false m e in
  (x = S754_infinity false /\ limit <= rnd (units m e)) \/ holds x (rnd (units m e)).
Proof.
  intros m e He x. unfold x, binary_round. clear x.
  set (fe := fexp 53 1024 (Z.pos (digits2_pos m) + e)).
  assert (Fe : fe = Z.max (size (Z.pos m) + e - 53) (-1074)) by (unfold fe; rewrite digits_log2; reflexivity).
  assert (A : exists m0 e0, shl_align m e fe = (m0, e0) /\ units m0 e0 = units m e /\ size (Z.pos m0) + e0 = size (Z.pos m) + e /\ e0 <= fe /\ -1074 <= e0).
  { unfold shl_align. destruct (fe - e) as [|d|d] eqn:D.
    - exists m, e. repeat split; lia.
    - exists m, e. repeat split; lia.
    - assert (Ed : e = fe + Z.pos d) by lia. eexists _, _. split; [reflexivity|]. split; [|split; [|lia]].
      + unfold units. rewrite shift_pos_mul, <- Z.mul_assoc, <- Z.pow_add_r by lia. do 2 f_equal. lia.
      + rewrite shift_pos_mul, size_shift by lia. lia. }
  destruct A as (m0 & e0 & -> & Eu & Es & Le & L0). rewrite <- Eu.
  assert (F0 : fexp 53 1024 (size (Z.pos m0) + e0) = fe) by (rewrite Es, Fe; reflexivity).
  destruct (round_aux_spec m0 e0 ltac:(rewrite F0; lia)) as (q & Eq & H). rewrite F0 in *. cbn zeta in H.
  assert (D : drop (units m0 e0) = fe + 1074) by (unfold drop; rewrite units_size by exact L0; lia).
  assert (R : rnd (units m0 e0) = q * 2 ^ (fe + 1074)).
  { unfold rnd. rewrite D. f_equal. rewrite Eq. unfold units.
    replace (2 ^ (fe + 1074)) with (2 ^ (fe - e0) * 2 ^ (e0 + 1074)) by (rewrite <- Z.pow_add_r by lia; f_equal; lia).
    assert (P1 : 0 < 2 ^ (fe - e0)) by (apply pow_pos'; lia). assert (P2 : 0 < 2 ^ (e0 + 1074)) by (apply pow_pos'; lia).
    revert P1 P2. generalize (Z.pos m0) (2 ^ (fe - e0)) (2 ^ (e0 + 1074)). intros a d c Pd Pc. unfold round_half_even.
    rewrite Z.div_mul_cancel_r by lia. rewrite Z.mul_mod_distr_r by lia.
    replace (2 * (a mod d * c)) with ((2 * (a mod d)) * c) by lia.
    assert (L1 : forall x y, (x * c <? y * c) = (x <? y)).
    { intros x y. destruct (Z.ltb_spec x y), (Z.ltb_spec (x * c) (y * c)); try reflexivity; exfalso; nia. }
    rewrite !L1. reflexivity. }
  rewrite R. destruct H as [(Q0 & _)|(m' & e' & Eq' & Lf & S1 & S2 & L1 & ->)].
  { exfalso. pose proof (rnd_pos (units m0 e0) (units_pos m0 e0 L0)). rewrite R, Q0 in *. lia. }
  assert (V : q * 2 ^ (fe + 1074) = units m' e').
  { rewrite <- Eq'. unfold units. rewrite <- Z.mul_assoc, <- Z.pow_add_r by lia. do 2 f_equal. lia. }
  rewrite V. destruct (Zle_bool e' 971) eqn:B.
  - right. apply Zle_is_le_bool in B. constructor. apply bounded_spec. lia.
  - left. split; [reflexivity|]. apply Z.leb_gt in B. unfold limit, units.
    assert (size (Z.pos m') = 53) by lia. pose proof (size_spec (Z.pos m') ltac:(lia)) as [Sl _].
    transitivity (2 ^ 52 * 2 ^ (e' + 1074)).
    + rewrite <- Z.pow_add_r by lia. apply Z.pow_le_mono_r; lia.
    + apply Z.mul_le_mono_nonneg_r; [apply Z.lt_le_incl, pow_pos'; lia|]. rewrite H in Sl. exact Sl.
Qed.
Lemma holds_below : forall x v, holds x v -> v < limit.
Proof.
  intros x v [s|m e B]; [apply pow_pos'; lia|]. apply bounded_spec in B as [B L]. unfold units, limit.
  pose proof (size_spec (Z.pos m) ltac:(lia)) as [_ U].
  eapply Z.lt_le_trans; [apply Z.mul_lt_mono_pos_r; [apply pow_pos'; lia|exact U]|].
  pose proof (size_pos (Z.pos m) ltac:(lia)). rewrite <- Z.pow_add_r by lia. apply Z.pow_le_mono_r; lia.
Qed.

(** ** Operations *)
Lemma add_zero_l : forall s x v, holds x v -> v <> 0 -> f_add (S754_zero s) x = x.
Proof. intros s x v [t|m e B] H; [lia|reflexivity]. Qed.
Lemma add_holds : forall x y a b, holds x a -> holds y b -> 
  (f_add x y = S754_infinity false /\ limit <= rnd (a + b)) \/ holds (f_add x y) (rnd (a + b)).
Proof.
  intros x y a b Hx Hy. destruct Hx as [s|m e B].
  - right. rewrite Z.add_0_l, (rnd_fixed y b Hy). destruct Hy as [t|m e B].
    + cbn [f_add SFadd]. destruct (Bool.eqb s t); constructor.
    + constructor. exact B.
  - destruct Hy as [t|m' e' B'].
    + right. rewrite Z.add_0_r. rewrite (rnd_fixed _ _ (holds_finite m e B)). constructor. exact B.
    + apply bounded_spec in B as [B L]. apply bounded_spec in B' as [B' L']. cbn [f_add SFadd cond_Zopp].
      set (ez := Z.min e e').
      assert (Al : forall k f, ez <= f -> -1074 <= ez -> units (fst (shl_align k f ez)) ez = units k f).
      { intros k f Hf H0. unfold shl_align, units. destruct (ez - f) as [|d|d] eqn:D; try lia; cbn [fst].
        - do 3 f_equal. lia.
        - rewrite shift_pos_mul, <- Z.mul_assoc, <- Z.pow_add_r by lia. do 2 f_equal. lia. }
      pose proof (Al m e ltac:(lia) ltac:(lia)) as A1. pose proof (Al m' e' ltac:(lia) ltac:(lia)) as A2.
      set (p := fst (shl_align m e ez)) in *. set (p' := fst (shl_align m' e' ez)) in *.
      change (Z.pos p + Z.pos p') with (Z.pos (p + p')). cbn [binary_normalize].
      assert (A : units (p + p') ez = units m e + units m' e') by (rewrite <- A1, <- A2; unfold units; rewrite Pos2Z.inj_add; ring).
      rewrite <- A. apply round_spec. lia.
Qed.
Lemma of_Z_holds : forall n, 0 <= n < 2 ^ 64 -> holds (f_of_Z n) (rnd (n * 2 ^ 1074)).
Proof.
  intros [|p|p] H; try lia; [apply (holds_zero false)|]. unfold f_of_Z. cbn [binary_normalize].
  destruct (round_spec p 0 ltac:(lia)) as [[_ L]|R]; [exfalso|exact R].
  assert (M : rnd (units p 0) <= rnd (2 ^ 64 * 2 ^ 1074)).
  { apply rnd_mono; [apply units_pos; lia|]. unfold units. apply Z.mul_le_mono_nonneg_r; [apply Z.lt_le_incl, pow_pos'; lia|lia]. }
  assert (Q : rnd (2 ^ 64 * 2 ^ 1074) < limit) by (apply Z.ltb_lt; vm_compute; reflexivity). lia.
Qed.
(** an integer below 2^53 is represented exactly *)
Lemma of_Z_exact : forall n, 0 <= n <= 2 ^ 53 -> rnd (n * 2 ^ 1074) = n * 2 ^ 1074.
Proof.
  intros n H. destruct (Z.eq_dec n 0) as [->|N]; [reflexivity|]. destruct (Z.eq_dec n (2 ^ 53)) as [->|N']; [vm_compute; reflexivity|].
  assert (S1 : size n <= 53) by (apply size_le; lia). pose proof (size_pos n ltac:(lia)) as S0.
  assert (Sz : size (n * 2 ^ 1074) = size n + 1074) by (apply size_shift; lia).
  set (v := n * 2 ^ 1074) in *. assert (D : 0 <= drop v <= 1074) by (unfold drop; lia).
  assert (E : v = (n * 2 ^ (1074 - drop v)) * 2 ^ drop v).
  { rewrite <- Z.mul_assoc, <- Z.pow_add_r by lia. unfold v. do 2 f_equal. lia. }
  unfold rnd. rewrite E at 1. rewrite rhe_exact by (apply pow_pos'; lia). symmetry. exact E.
Qed.
Lemma of_Z_normal : forall n, 0 < n < 2 ^ 64 -> exists m e, f_of_Z n = S754_finite false m e /\ size (Z.pos m) = 53 /\ bounded 53 1024 m e = true.
Proof.
  intros n H. pose proof (of_Z_holds n ltac:(lia)) as Hh.
  assert (V : 2 ^ 1074 <= rnd (n * 2 ^ 1074)).
  { pose proof (of_Z_exact 1 ltac:(lia)) as E1. rewrite Z.mul_1_l in E1. rewrite <- E1 at 1.
    assert (P : 0 < 2 ^ 1074) by (apply pow_pos'; lia). apply rnd_mono; nia. }
  revert Hh V. generalize (f_of_Z n) (rnd (n * 2 ^ 1074)). intros x v Hh V. destruct Hh as [s|m e B].
  - exfalso. assert (0 < 2 ^ 1074) by (apply pow_pos'; lia). lia.
  - exists m, e. split; [reflexivity|]. split; [|exact B]. apply bounded_spec in B as [B L].
    destruct (Z.eq_dec e (-1074)) as [->|Ne]; [|lia]. exfalso. unfold units in V. change (-1074 + 1074) with 0 in V. change (2 ^ 0) with 1 in V.
    pose proof (size_spec (Z.pos m) ltac:(lia)) as [_ U]. assert (2 ^ size (Z.pos m) <= 2 ^ 53) by (apply Z.pow_le_mono_r; lia).
    assert (2 ^ 53 < 2 ^ 1074) by (apply Z.pow_lt_mono_r; lia). lia.
Qed.
(** the product with a positive integer *)
Lemma mul_holds : forall n y b, 0 < n < 2 ^ 64 -> holds y b ->
  f_mul (f_of_Z n) y = S754_infinity false \/ exists v, holds (f_mul (f_of_Z n) y) v.
Proof.
  intros n y b Hn Hy. destruct (of_Z_normal n Hn) as (m & e & -> & Sm & B). destruct Hy as [s|m' e' B'].
  - right. exists 0. constructor.
  - cbn [f_mul SFmul xorb]. apply round_aux_holds. rewrite Pos2Z.inj_mul.
    assert (53 <= size (Z.pos m * Z.pos m')).
    { rewrite <- Sm. apply size_mono; nia. }
    unfold fexp. lia.
Qed.

(** ** Quotients of integers *)
Lemma rhe_scale : forall c v d, 0 < c -> 0 < d -> round_half_even (c * v) (c * d) = round_half_even v d.
Proof.
  intros c v d Hc Hd. unfold round_half_even. rewrite Z.div_mul_cancel_l, Z.mul_mod_distr_l by lia.
  generalize (v / d) (v mod d). intros q r.
  replace (2 * (c * r) <? c * d) with (2 * r <? d); [replace (c * d <? 2 * (c * r)) with (d <? 2 * r); [reflexivity|]|];
    apply Bool.eq_iff_eq_true; rewrite !Z.ltb_lt; nia.
Qed.
Local Ltac split_bits := repeat match goal with |- _ /\ _ => split | |- _ <-> _ => split | |- _ -> _ => intro | H : _ /\ _ |- _ => destruct H end; try reflexivity; try discriminate; try lia.
Lemma located_div : forall M K, 0 <= M -> 0 < K -> located M K (shr_record_of_loc (M / K) (new_location K (M mod K))).
Proof.
  intros M K HM HK. pose proof (Z.div_mod M K ltac:(lia)) as D. pose proof (Z.mod_pos_bound M K HK) as B. pose proof (Z.div_pos M K HM HK) as P.
  set (r := M mod K) in *. set (q := M / K) in *. clearbody q r.
  unfold located, new_location. exists r.
  replace ((if Z.even K then new_location_even K else new_location_odd K) r)
    with (if Z.even K then new_location_even K r else new_location_odd K r) by (destruct (Z.even K); reflexivity).
  unfold new_location_even, new_location_odd. destruct (Zeq_bool r 0) eqn:Er.
  - apply Zeq_bool_eq in Er. destruct (Z.even K); cbn [shr_record_of_loc shr_m shr_r shr_s]; rewrite Er in *; split_bits.
  - apply Zeq_bool_neq in Er. destruct (Z.even K) eqn:Ek.
    + destruct (Z.compare_spec (2 * r) K); cbn [shr_record_of_loc shr_m shr_r shr_s]; split_bits.
    + assert (No : 2 * r <> K) by (intro Q; rewrite <- Q, Z.even_mul in Ek; discriminate).
      destruct (Z.compare_spec (2 * r + 1) K); cbn [shr_record_of_loc shr_m shr_r shr_s]; split_bits.
Qed.
(** the value of a positive integer as float64 *)
Lemma of_Z_int : forall n, 0 < n < 2 ^ 64 -> exists m e b, f_of_Z n = S754_finite false m e /\ size (Z.pos m) = 53 /\ -52 <= e <= 12 /\
  0 < b /\ Z.pos m * 2 ^ (e + 52) = b * 2 ^ 52 /\ (n <= 2 ^ 53 -> b = n /\ (n < 2 ^ 53 -> e <= 0)) /\ (2 ^ 53 < n -> 2 ^ 53 <= b).
Proof.
  intros n H. destruct (of_Z_normal n H) as (m & e & E & Sm & Bd). exists m, e.
  pose proof (of_Z_holds n ltac:(lia)) as Hh. rewrite E in Hh. inversion Hh as [|m' e' B' E1 E2]; subst m' e'. clear Hh B'.
  apply bounded_spec in Bd as [Bd _]. assert (Be : -1074 <= e) by lia.
  pose proof (units_size m e Be) as Su. pose proof (units_pos m e Be) as Pu.
  assert (P : 0 < 2 ^ 1074) by (apply pow_pos'; lia).
  assert (U : units m e <= 2 ^ 64 * 2 ^ 1074).
  { rewrite E2. assert (R : rnd (2 ^ 64 * 2 ^ 1074) = 2 ^ 64 * 2 ^ 1074) by (vm_compute; reflexivity).
    rewrite <- R. apply rnd_mono; [nia|]. apply Z.mul_le_mono_nonneg_r; lia. }
  assert (Se : size (units m e) <= 65 + 1074).
  { apply size_le; [exact Pu|]. eapply Z.le_lt_trans; [exact U|]. rewrite <- Z.pow_add_r by lia. apply Z.pow_lt_mono_r; lia. }
  assert (Hs : n <= 2 ^ 53 -> Z.pos m * 2 ^ (e + 1074) = n * 2 ^ 1074).
  { intro L. fold (units m e). rewrite E2. apply of_Z_exact. lia. }
  assert (Hl : 2 ^ 53 < n -> 2 ^ 53 * 2 ^ 1074 <= units m e).
  { intro L. rewrite E2. assert (R : rnd (2 ^ 53 * 2 ^ 1074) = 2 ^ 53 * 2 ^ 1074) by (vm_compute; reflexivity).
    rewrite <- R. apply rnd_mono; [nia|]. apply Z.mul_le_mono_nonneg_r; lia. }
  destruct (Z_le_gt_dec n (2 ^ 53)) as [L|L].
  - specialize (Hs L). clear Hl. fold (units m e) in Hs. rewrite Hs, size_shift in Su by lia.
    assert (Sn : 1 <= size n) by (apply size_pos; lia).
    assert (Sn2 : size n <= 54) by (apply size_le; lia).
    assert (Sn3 : n < 2 ^ 53 -> size n <= 53) by (intro; apply size_le; lia).
    exists n. split; [exact E|]. split; [exact Sm|]. split; [lia|]. split; [lia|]. split; [|split; [intros _; split; [reflexivity|intro Q; specialize (Sn3 Q); lia]|lia]].
    unfold units in Hs. clear - Hs Su Sn Sm P. 
    assert (Q : Z.pos m * 2 ^ (e + 52) * 2 ^ 1022 = n * 2 ^ 52 * 2 ^ 1022).
    { rewrite <- !Z.mul_assoc, <- !Z.pow_add_r by lia. replace (e + 52 + 1022) with (e + 1074) by lia. exact Hs. }
    apply Z.mul_reg_r in Q; [exact Q|]. assert (0 < 2 ^ 1022) by (apply pow_pos'; lia). lia.
  - specialize (Hl ltac:(lia)). clear Hs. assert (S2 : 53 + 1074 + 1 <= size (units m e)) by (apply size_ge; [lia|]; rewrite Z.pow_add_r by lia; exact Hl).
    exists (Z.pos m * 2 ^ e). assert (Pe : 0 < 2 ^ e) by (apply pow_pos'; lia).
    split; [exact E|]. split; [exact Sm|]. split; [lia|]. split; [nia|]. split; [rewrite Z.pow_add_r by lia; ring|]. split; [lia|].
    intros _. unfold units in Hl. rewrite Z.pow_add_r in Hl by lia. clear - Hl P. nia.
Qed.
(** the rounded quotient of two integers does not reach the next integer *)
Lemma quotient_floor : forall a b k, 0 <= a < 2 ^ 53 -> 0 < b -> 0 <= k -> 2 ^ 52 <= a * 2 ^ k / b ->
  round_half_even (a * 2 ^ k) b / 2 ^ k = a / b.
Proof.
  intros a b k Ha Hb Hk Hn. assert (Pk : 0 < 2 ^ k) by (apply pow_pos'; exact Hk).
  pose proof (Z.div_mod a b ltac:(lia)) as D. pose proof (Z.mod_pos_bound a b Hb) as R. set (q := a / b) in *. set (r := a mod b) in *.
  assert (Lo : q * 2 ^ k <= round_half_even (a * 2 ^ k) b).
  { rewrite <- (rhe_exact (q * 2 ^ k) b Hb). apply rhe_mono; [exact Hb|]. nia. }
  assert (Hi : round_half_even (a * 2 ^ k) b < (q + 1) * 2 ^ k).
  { apply Z.nle_gt. intro Q.
    pose proof (Z.div_mod (a * 2 ^ k) b ltac:(lia)) as D2. pose proof (Z.mod_pos_bound (a * 2 ^ k) b Hb) as R2.
    set (x := a * 2 ^ k / b) in *. set (y := (a * 2 ^ k) mod b) in *.
    assert (Xl : x < (q + 1) * 2 ^ k) by (unfold x; apply Z.div_lt_upper_bound; nia).
    assert (Rb : round_half_even (a * 2 ^ k) b <= x + 1) by (apply rhe_bounds; exact Hb).
    assert (Y : b <= 2 * y).
    { unfold round_half_even in Q. fold x y in Q. destruct (Z.ltb_spec (2 * y) b); lia. }
    assert (X : x + 1 = (q + 1) * 2 ^ k) by lia.
    assert (G : b - y = (b - r) * 2 ^ k) by nia.
    assert (B2 : 2 * 2 ^ k <= b) by nia.
    assert (A : b * 2 ^ 52 <= a * 2 ^ k) by nia.
    assert (2 * 2 ^ k * 2 ^ 52 <= a * 2 ^ k) by nia.
    assert (2 * 2 ^ 52 <= a) by nia. change (2 ^ 53) with (2 * 2 ^ 52) in Ha. lia. }
  symmetry. apply Z.div_unique with (r := round_half_even (a * 2 ^ k) b - q * 2 ^ k); lia.
Qed.
Lemma zero_of_Z : f_of_Z 0 = S754_zero false. Proof. reflexivity. Qed.
(** int(math.Floor(float64(a)/float64(b))) is the integer quotient *)
Theorem floor_div : forall a b, 0 <= a < 2 ^ 53 -> 0 < b < 2 ^ 64 -> f_floor_int (f_div (f_of_Z a) (f_of_Z b)) = Some (a / b).
Proof.
  intros a b Ha Hb. destruct (of_Z_int b Hb) as (m2 & e2 & B & E2 & S2 & R2 & B0 & V2 & X2 & Y2). rewrite E2.
  destruct (Z.eq_dec a 0) as [->|Na]; [rewrite zero_of_Z; reflexivity|].
  destruct (of_Z_int a ltac:(lia)) as (m1 & e1 & A & E1 & S1 & R1 & A0 & V1 & X1 & _). rewrite E1.
  destruct (X1 ltac:(lia)) as [-> X1']. specialize (X1' ltac:(lia)). clear X1.
  assert (EB : a / b = a / B).
  { destruct (Z_le_gt_dec b (2 ^ 53)) as [L|L]; [destruct (X2 L) as [-> _]; reflexivity|].
    specialize (Y2 ltac:(lia)). rewrite !Z.div_small by lia. reflexivity. }
  rewrite EB. clear X2 Y2 E1 E2 EB Hb b. unfold f_div. cbn [SFdiv xorb]. unfold SFdiv_core_binary.
  rewrite !Zdigits2_size by lia. rewrite S1, S2.
  assert (F : Z.min (fexp 53 1024 (53 + e1 - (53 + e2))) (e1 - e2) = e1 - e2 - 53) by (unfold fexp, emin; lia). rewrite F.
  replace (e1 - e2 - (e1 - e2 - 53)) with 53 by lia. rewrite Z.shiftl_mul_pow2 by lia.
  set (M := Z.pos m1 * 2 ^ 53). assert (HM : 0 < M) by (unfold M; lia).
  destruct (Z.div_eucl M (Z.pos m2)) as [q0 r0] eqn:Eq. assert (q0 = M / Z.pos m2) as -> by (unfold Z.div; rewrite Eq; reflexivity).
  assert (r0 = M mod Z.pos m2) as -> by (unfold Z.modulo; rewrite Eq; reflexivity). clear Eq.
  pose proof (located_div M (Z.pos m2) ltac:(lia) ltac:(lia)) as Loc.
  pose proof (size_spec (Z.pos m1) ltac:(lia)) as Z1. rewrite S1 in Z1. change (53 - 1) with 52 in Z1.
  pose proof (size_spec (Z.pos m2) ltac:(lia)) as Z2. rewrite S2 in Z2. change (53 - 1) with 52 in Z2.
  assert (Q1 : 2 ^ 52 <= M / Z.pos m2) by (apply Z.div_le_lower_bound; unfold M; lia).
  assert (Q2 : M / Z.pos m2 < 2 ^ 54) by (apply Z.div_lt_upper_bound; unfold M; lia).
  destruct (M / Z.pos m2) as [|q|q] eqn:Eq; try lia.
  assert (Sq : 53 <= size (Z.pos q) <= 54) by (split; [apply (size_ge _ 52); lia|apply size_le; lia]).
  set (n := size (Z.pos q) - 53). set (e := e1 - e2 - 53). set (k := - (e + n)).
  assert (Fe : fexp 53 1024 (size (Z.pos q) + e) = - k) by (unfold fexp, emin, k, n, e; lia).
  destruct (round_aux_gen M (Z.pos m2) q _ e Loc) as (q' & Eq' & R); [rewrite Fe; unfold k; lia|].
  rewrite Fe in Eq', R. replace (- k - e) with n in Eq' by (unfold k; lia). cbv zeta in R.
  assert (Pn : 0 < 2 ^ n) by (apply pow_pos'; unfold n; lia).
  assert (Hk : 0 <= k) by (unfold k, n, e; lia). assert (Pk : 0 < 2 ^ k) by (apply pow_pos'; exact Hk).
  assert (Cross : B * M = (Z.pos m2 * 2 ^ n) * (a * 2 ^ k)).
  { assert (Q : (B * M) * 2 ^ (52 + (e1 + 52)) = (Z.pos m2 * 2 ^ n) * (a * 2 ^ k) * 2 ^ (52 + (e1 + 52))).
    { transitivity ((B * 2 ^ 52) * (Z.pos m1 * 2 ^ (e1 + 52)) * 2 ^ 53); [unfold M; rewrite Z.pow_add_r by lia; ring|].
      rewrite V1, <- V2. replace (Z.pos m2 * 2 ^ n * (a * 2 ^ k) * 2 ^ (52 + (e1 + 52))) with (Z.pos m2 * a * (2 ^ n * (2 ^ k * 2 ^ (52 + (e1 + 52))))) by ring.
      rewrite <- !Z.pow_add_r by (unfold n; lia). replace (Z.pos m2 * 2 ^ (e2 + 52) * (a * 2 ^ 52) * 2 ^ 53) with (Z.pos m2 * a * (2 ^ (e2 + 52) * (2 ^ 52 * 2 ^ 53))) by ring.
      rewrite <- !Z.pow_add_r by lia. do 2 f_equal. unfold k, n, e. lia. }
    apply Z.mul_reg_r in Q; [exact Q|]. pose proof (pow_pos' (52 + (e1 + 52)) ltac:(lia)). lia. }
  assert (Q3 : q' = round_half_even (a * 2 ^ k) B).
  { rewrite Eq'. rewrite <- (rhe_scale B) by nia. rewrite Cross. rewrite (Z.mul_comm B). apply rhe_scale; nia. }
  assert (Q4 : 2 ^ 52 <= a * 2 ^ k / B).
  { assert (W : a * 2 ^ k / B = M / (Z.pos m2 * 2 ^ n)).
    { rewrite <- (Z.div_mul_cancel_l (a * 2 ^ k) B (Z.pos m2 * 2 ^ n)) by nia. rewrite <- Cross. rewrite (Z.mul_comm _ B). apply Z.div_mul_cancel_l; nia. }
    rewrite W, <- Z.div_div by lia. rewrite Eq. apply Z.div_le_lower_bound; [exact Pn|]. rewrite <- Z.pow_add_r by (unfold n; lia).
    pose proof (size_spec (Z.pos q) ltac:(lia)) as [Z3 _]. replace (n + 52) with (size (Z.pos q) - 1) by (unfold n; lia). exact Z3. }
  pose proof (quotient_floor a B k ltac:(lia) B0 Hk Q4) as Fl. rewrite <- Q3 in Fl.
  assert (Qu : a / B <= a) by (apply Z.div_le_upper_bound; nia). assert (Q0 : 0 <= a / B) by (apply Z.div_pos; lia).
  assert (Ub : q' < (a / B + 1) * 2 ^ k) by (rewrite <- Fl; pose proof (Z.mod_pos_bound q' (2 ^ k) Pk); pose proof (Z.div_mod q' (2 ^ k) ltac:(lia)); nia).
  destruct R as [[R _]|(m' & e' & P1 & P2 & P3 & P4 & P5 & ->)].
  { exfalso. pose proof (rhe_bounds (a * 2 ^ k) B B0). lia. }
  set (t := f_trunc m' e'). assert (T : t = a / B).
  { unfold t, f_trunc. rewrite <- Fl, <- P1. destruct (Z.leb_spec 0 e') as [L|L].
    - replace (e' - - k) with (e' + k) by lia. rewrite Z.pow_add_r by lia. rewrite Z.mul_assoc, Z.div_mul by lia. reflexivity.
    - replace (2 ^ k) with (2 ^ (- e') * 2 ^ (e' - - k)) by (rewrite <- Z.pow_add_r by lia; f_equal; lia).
      pose proof (pow_pos' (e' - - k) ltac:(lia)). pose proof (pow_pos' (- e') ltac:(lia)). rewrite Z.div_mul_cancel_r by lia. reflexivity. }
  assert (Le : Zle_bool e' 971 = true).
  { apply Z.leb_le. apply Z.nlt_ge. intro L. destruct P4 as [P4|P4]; [lia|].
    assert (T2 : t = Z.pos m' * 2 ^ e') by (unfold t, f_trunc; destruct (Z.leb_spec 0 e'); [reflexivity|lia]).
    assert (2 ^ 53 <= 2 ^ e') by (apply Z.pow_le_mono_r; lia). nia. }
  rewrite Le. cbn [f_floor_int]. fold t. rewrite T.
  destruct (Z.leb_spec (- 2 ^ 63) (a / B)); [|lia]. destruct (Z.ltb_spec (a / B) (2 ^ 63)); [reflexivity|lia].
Qed.
