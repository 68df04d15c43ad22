(** Rounding of fractions to float64, in units of 2^-1074: the nearest representable number. *)
From Coq Require Import ZArith Lia ZifyBool ZifyNat ZifyN SpecFloat.
From Verif Require Import Base FloatModel FloatFacts.
Local Open Scope Z_scope.

(** ** Representable numbers, without an upper limit *)
Definition rep (v : Z) : Prop := exists m k, 0 <= m < 2 ^ 53 /\ 0 <= k /\ v = m * 2 ^ k.
Lemma rep_nonneg : forall v, rep v -> 0 <= v.
Proof. intros v (m & k & Hm & Hk & ->). pose proof (pow_pos' k Hk). nia. Qed.
Lemma holds_rep : forall x v, holds x v -> rep v.
Proof.
  intros x v [s|m e B]; [exists 0, 0; repeat split; lia|]. apply bounded_spec in B as [B L].
  exists (Z.pos m), (e + 1074). split; [|split; [lia|reflexivity]].
  pose proof (size_spec (Z.pos m) ltac:(lia)) as [_ U]. assert (2 ^ size (Z.pos m) <= 2 ^ 53) by (apply Z.pow_le_mono_r; lia). lia.
Qed.
(** every representable number is a multiple of the unit of its binade, or lies below it *)
Lemma rep_grid : forall v k, rep v -> 0 <= k -> v < 2 ^ 52 * 2 ^ k \/ exists q, v = q * 2 ^ k.
Proof.
  intros v k (m & j & Hm & Hj & ->) Hk. destruct (Z.le_gt_cases k j) as [L|L].
  - right. exists (m * 2 ^ (j - k)). rewrite <- Z.mul_assoc, <- Z.pow_add_r by lia. do 2 f_equal. lia.
  - left. replace k with (j + 1 + (k - j - 1)) by lia. rewrite !Z.pow_add_r by lia. pose proof (pow_pos' j Hj). pose proof (pow_pos' (k - j - 1) ltac:(lia)).
    change (2 ^ 1) with 2. assert (m * 2 ^ j < 2 ^ 53 * 2 ^ j) by nia. change (2 ^ 53) with (2 * 2 ^ 52) in *. nia.
Qed.

(** ** The nearest representable number to a / b *)
Definition rndq (a b : Z) : Z := round_half_even a (b * 2 ^ drop (a / b)) * 2 ^ drop (a / b).
Lemma rndq_1 : forall v, rndq v 1 = rnd v.
Proof. intro v. unfold rndq, rnd. rewrite Z.div_1_r, Z.mul_1_l. reflexivity. Qed.
Lemma rndq_scale : forall c a b, 0 < c -> 0 < b -> rndq (c * a) (c * b) = rndq a b.
Proof.
  intros c a b Hc Hb. unfold rndq. rewrite Z.div_mul_cancel_l by lia. rewrite <- Z.mul_assoc. rewrite rhe_scale; [reflexivity|exact Hc|].
  pose proof (pow_pos' _ (drop_nonneg (a / b))). nia.
Qed.
Lemma rndq_eq : forall a b c d, 0 < b -> 0 < d -> a * d = c * b -> rndq a b = rndq c d.
Proof.
  intros a b c d Hb Hd E. rewrite <- (rndq_scale d a b Hd Hb), <- (rndq_scale b c d Hb Hd). f_equal; lia.
Qed.
(** rounding to an integer *)
Lemma rhe_nearest : forall v d q, 0 < d -> Z.abs (v - round_half_even v d * d) <= Z.abs (v - q * d) /\
  (Z.abs (v - round_half_even v d * d) = Z.abs (v - q * d) -> q = round_half_even v d \/ Z.even (round_half_even v d) = true).
Proof.
  intros v d q H. pose proof (Z.div_mod v d ltac:(lia)) as D. pose proof (Z.mod_pos_bound v d H) as B.
  unfold round_half_even. set (r := v mod d) in *. set (t := v / d) in *. clearbody r t. subst v.
  assert (C : q <= t \/ t + 1 <= q) by lia.
  assert (Q1 : q <= t -> q * d <= t * d) by (intro; nia). assert (Q2 : t + 1 <= q -> (t + 1) * d <= q * d) by (intro; nia).
  assert (E1 : q * d = t * d -> q = t) by (intro E; apply Z.mul_reg_r in E; lia).
  assert (E2 : q * d = t * d + d -> q = t + 1) by (intro E; assert (E' : q * d = (t + 1) * d) by lia; apply Z.mul_reg_r in E'; lia).
  replace (d * t) with (t * d) by lia. replace ((t + 1) * d) with (t * d + d) in Q2 by lia.
  destruct (Z.ltb_spec (2 * r) d); [|destruct (Z.ltb_spec d (2 * r)); [|destruct (Z.even t) eqn:Ev]];
    try replace ((t + 1) * d) with (t * d + d) by lia; (split; [lia|intro Q]).
  - left. destruct C as [C|C]; [apply E1; specialize (Q1 C); lia|specialize (Q2 C); lia].
  - left. destruct C as [C|C]; [specialize (Q1 C); lia|apply E2; specialize (Q2 C); lia].
  - right. exact Ev.
  - right. rewrite Z.even_add, Ev. reflexivity.
Qed.
Lemma rndq_bounds : forall a b, 0 <= a -> 0 < b -> let D := drop (a / b) in let R := round_half_even a (b * 2 ^ D) in
  0 <= R <= 2 ^ 53 /\ (0 < D -> 2 ^ 52 <= R /\ 2 ^ 52 * 2 ^ D * b <= a).
Proof.
  intros a b Ha Hb D R. pose proof (pow_pos' _ (drop_nonneg (a / b))) as P. fold D in P.
  pose proof (rhe_bounds a (b * 2 ^ D) ltac:(nia)) as Rb. fold R in Rb. rewrite <- Z.div_div in Rb by lia.
  pose proof (Z.div_pos a b Ha Hb) as Hq. destruct (Z.eq_dec (a / b) 0) as [E|N].
  - assert (ED : D = 0) by (unfold D; rewrite E; reflexivity). rewrite E, Z.div_0_l in Rb by lia. split; [lia|lia].
  - destruct (mant_bounds (a / b) ltac:(lia)) as [U L]. fold D in U, L. split; [pose proof (Z.div_pos (a / b) (2 ^ D) Hq P); lia|].
    intro HD. specialize (L HD). split; [lia|].
    pose proof (Z.mul_div_le (a / b) (2 ^ D) P). pose proof (Z.mul_div_le a b Hb).
    assert (2 ^ 52 * 2 ^ D <= a / b) by nia. nia.
Qed.
Lemma rndq_rep : forall a b, 0 <= a -> 0 < b -> rep (rndq a b).
Proof.
  intros a b Ha Hb. destruct (rndq_bounds a b Ha Hb) as [[L U] _]. pose proof (drop_nonneg (a / b)) as D0. unfold rndq.
  set (D := drop (a / b)) in *. set (R := round_half_even a (b * 2 ^ D)) in *. clearbody D R.
  assert (C : R < 2 ^ 53 \/ R = 2 ^ 53) by lia. destruct C as [C|C]; [exists R, D; repeat split; lia|].
  exists (2 ^ 52), (D + 1). split; [split; [apply Z.lt_le_incl, pow_pos'; lia|apply Z.pow_lt_mono_r; lia]|]. split; [lia|].
  rewrite C. rewrite <- !Z.pow_add_r by lia. f_equal. lia.
Qed.
Lemma rndq_nearest : forall a b w, 0 <= a -> 0 < b -> rep w ->
  Z.abs (a - rndq a b * b) <= Z.abs (a - w * b) /\
  (Z.abs (a - rndq a b * b) = Z.abs (a - w * b) -> w = rndq a b \/
     exists R, Z.even R = true /\ rndq a b = R * 2 ^ drop (a / b) /\ R <= 2 ^ 53 /\ (0 < drop (a / b) -> 2 ^ 52 <= R)).
Proof.
  intros a b w Ha Hb Hw. destruct (rndq_bounds a b Ha Hb) as [[L U] G]. pose proof (drop_nonneg (a / b)) as D0. unfold rndq.
  set (D := drop (a / b)) in *. set (R := round_half_even a (b * 2 ^ D)) in *. cbv zeta in L, U, G.
  pose proof (pow_pos' D D0) as P. assert (Pd : 0 < b * 2 ^ D) by nia.
  assert (Near : forall q, Z.abs (a - R * 2 ^ D * b) <= Z.abs (a - q * 2 ^ D * b) /\
    (Z.abs (a - R * 2 ^ D * b) = Z.abs (a - q * 2 ^ D * b) -> q = R \/ Z.even R = true)).
  { intro q. pose proof (rhe_nearest a (b * 2 ^ D) q Pd) as N. fold R in N.
    replace (R * (b * 2 ^ D)) with (R * 2 ^ D * b) in N by ring. replace (q * (b * 2 ^ D)) with (q * 2 ^ D * b) in N by ring. exact N. }
  destruct (rep_grid w D Hw D0) as [B|(q & ->)].
  - destruct (Z.eq_dec D 0) as [E0|N0].
    { destruct (Near w) as [N1 N2]. assert (Ew : w * 2 ^ D = w) by (rewrite E0; change (2 ^ 0) with 1; lia). rewrite Ew in N1, N2. split; [exact N1|].
      intro Q. destruct (N2 Q) as [->|Ev]; [left; rewrite E0; change (2 ^ 0) with 1; lia|right]. exists R. repeat split; auto. intro HD. apply G; lia. }
    specialize (G ltac:(lia)). destruct (Near (2 ^ 52)) as [N1 _]. assert (w * b < 2 ^ 52 * 2 ^ D * b) by nia. split; [lia|]. intro Q. exfalso. lia.
  - destruct (Near q) as [N1 N2]. split; [exact N1|]. intro Q. destruct (N2 Q) as [->|Ev]; [left; reflexivity|right].
    exists R. repeat split; auto. intro HD. apply G; lia.
Qed.
(** of two equally near numbers one is even and one odd *)
Lemma rhe_tie : forall v d q, 0 < d -> Z.abs (v - round_half_even v d * d) = Z.abs (v - q * d) ->
  q = round_half_even v d \/ (Z.even (round_half_even v d) = true /\ Z.odd q = true /\ v - v mod d <= q * d).
Proof.
  intros v d q H. pose proof (Z.div_mod v d ltac:(lia)) as D. pose proof (Z.mod_pos_bound v d H) as B.
  unfold round_half_even. set (r := v mod d) in *. set (t := v / d) in *. clearbody r t. subst v.
  assert (C : q <= t - 1 \/ q = t \/ q = t + 1 \/ t + 2 <= q) by lia.
  assert (Q1 : q <= t - 1 -> q * d <= t * d - d) by (intro; nia). assert (Q2 : t + 2 <= q -> t * d + 2 * d <= q * d) by (intro; nia).
  replace (d * t) with (t * d) by lia.
  destruct (Z.ltb_spec (2 * r) d); [|destruct (Z.ltb_spec d (2 * r)); [|destruct (Z.even t) eqn:Ev]];
    try replace ((t + 1) * d) with (t * d + d) by lia; intro Q; destruct C as [C|[C|[C|C]]]; try (specialize (Q1 C); lia); try (specialize (Q2 C); lia);
    try (left; exact C); try (subst q; replace ((t + 1) * d) with (t * d + d) in * by lia; lia).
  - right. split; [exact Ev|]. subst q. rewrite Z.odd_add, <- Z.negb_even, Ev. split; [reflexivity|lia].
  - right. rewrite Z.even_add, Ev. subst q. split; [reflexivity|]. rewrite <- Z.negb_even, Ev. split; [reflexivity|lia].
Qed.
Lemma rndq_tie : forall a b w, 0 <= a -> 0 < b -> rep w -> Z.abs (a - rndq a b * b) = Z.abs (a - w * b) -> w = rndq a b \/
  let D := drop (a / b) in exists R q, rndq a b = R * 2 ^ D /\ w = q * 2 ^ D /\ Z.even R = true /\ Z.odd q = true /\ R <= 2 ^ 53 /\
    (0 < D -> 2 ^ 52 <= R /\ 2 ^ 52 <= q).
Proof.
  intros a b w Ha Hb Hw. destruct (rndq_bounds a b Ha Hb) as [[L U] G]. pose proof (drop_nonneg (a / b)) as D0. unfold rndq.
  set (D := drop (a / b)) in *. set (R := round_half_even a (b * 2 ^ D)) in *. cbv zeta in L, U, G. cbv zeta.
  pose proof (pow_pos' D D0) as P. assert (Pd : 0 < b * 2 ^ D) by nia.
  assert (Grid : forall q, Z.abs (a - R * 2 ^ D * b) = Z.abs (a - q * 2 ^ D * b) -> q * 2 ^ D = R * 2 ^ D \/ 
    (Z.even R = true /\ Z.odd q = true /\ R <= 2 ^ 53 /\ (0 < D -> 2 ^ 52 <= R /\ 2 ^ 52 <= q))).
  { intros q E. replace (R * 2 ^ D * b) with (R * (b * 2 ^ D)) in E by ring. replace (q * 2 ^ D * b) with (q * (b * 2 ^ D)) in E by ring.
    destruct (rhe_tie a (b * 2 ^ D) q Pd E) as [Q0|(E1 & E2 & E3)]; [left; rewrite Q0; reflexivity|right].
    split; [exact E1|]. split; [exact E2|]. split; [exact U|]. intro HD. specialize (G HD) as [G1 G2]. split; [exact G1|].
    pose proof (Z.div_mod a (b * 2 ^ D) ltac:(lia)) as M. assert (Q : 2 ^ 52 <= a / (b * 2 ^ D)) by (apply Z.div_le_lower_bound; [exact Pd|nia]).
    assert (E4 : (a / (b * 2 ^ D)) * (b * 2 ^ D) <= q * (b * 2 ^ D)) by lia. apply Z.mul_le_mono_pos_r in E4; [lia|exact Pd]. }
  intro E. destruct (rep_grid w D Hw D0) as [B|(q & ->)].
  - destruct (Z.eq_dec D 0) as [E0|N0].
    + assert (Ew : w * 2 ^ D = w) by (rewrite E0; change (2 ^ 0) with 1; lia). rewrite <- Ew in E. destruct (Grid w E) as [Q|Q]; [left; lia|right].
      exists R, w. rewrite Ew. repeat split; try reflexivity; apply Q; assumption.
    + exfalso. specialize (G ltac:(lia)). pose proof (rhe_nearest a (b * 2 ^ D) (2 ^ 52) Pd) as [N1 _]. fold R in N1.
      replace (R * (b * 2 ^ D)) with (R * 2 ^ D * b) in N1 by ring. replace (2 ^ 52 * (b * 2 ^ D)) with (2 ^ 52 * 2 ^ D * b) in N1 by ring.
      assert (w * b < 2 ^ 52 * 2 ^ D * b) by nia. lia.
  - destruct (Grid q E) as [Q|Q]; [left; exact Q|right]. exists R, q. repeat split; try reflexivity; apply Q; assumption.
Qed.
Lemma rndq_mono : forall a b c d, 0 <= a -> 0 < b -> 0 < d -> a * d <= c * b -> rndq a b <= rndq c d.
Proof.
  intros a b c d Ha Hb Hd L. assert (Hc : 0 <= c) by nia.
  rewrite <- (rndq_scale d a b Hd Hb), <- (rndq_scale b c d Hb Hd). rewrite (Z.mul_comm d b), (Z.mul_comm d a), (Z.mul_comm b c).
  set (x := a * d) in *. set (y := c * b) in *. set (B := b * d). assert (HB : 0 < B) by (unfold B; nia).
  assert (Hx : 0 <= x) by (unfold x; nia). clearbody x y B. clear a b c d Ha Hb Hd Hc.
  apply Z.nlt_ge. intro Q.
  pose proof (rndq_rep x B ltac:(lia) HB) as R1. pose proof (rndq_rep y B ltac:(lia) HB) as R2.
  destruct (rndq_nearest x B _ ltac:(lia) HB R2) as [N1 _]. destruct (rndq_nearest y B _ ltac:(lia) HB R1) as [N2 _].
  destruct (Z.eq_dec x y) as [->|Ne]; [lia|]. revert Q N1 N2. generalize (rndq x B) (rndq y B). intros r s Q N1 N2.
  assert (s * B < r * B) by nia. lia.
Qed.
Lemma rndq_fixed : forall v b, rep v -> 0 < b -> rndq (v * b) b = v.
Proof.
  intros v b Hv Hb. pose proof (rep_nonneg v Hv). destruct (rndq_nearest (v * b) b v ltac:(nia) Hb Hv) as [N _].
  assert (Q : rndq (v * b) b * b = v * b) by lia. apply Z.mul_reg_r in Q; lia.
Qed.

(** ** Gaps between representable numbers *)
Lemma rep_gap : forall m k w, 0 < m < 2 ^ 53 -> 0 <= k -> (k = 0 \/ 2 ^ 52 <= m) -> rep w -> w <> m * 2 ^ k ->
  2 ^ k <= Z.abs (w - m * 2 ^ k) \/ (m = 2 ^ 52 /\ 0 < k /\ w < m * 2 ^ k /\ 2 ^ (k - 1) <= m * 2 ^ k - w).
Proof.
  intros m k w Hm Hk Hn Hw Ne. pose proof (pow_pos' k Hk) as P.
  destruct (rep_grid w k Hw Hk) as [B|(q & ->)].
  2:{ left. assert (q <> m) by congruence. rewrite <- Z.mul_sub_distr_r, Z.abs_mul, (Z.abs_eq (2 ^ k)) by lia. nia. }
  destruct (Z.eq_dec k 0) as [->|Nk]; [left; change (2 ^ 0) with 1 in *; lia|]. assert (Hm2 : 2 ^ 52 <= m) by lia.
  destruct (Z.eq_dec m (2 ^ 52)) as [E|E].
  - right. split; [exact E|]. split; [lia|]. split; [rewrite E; exact B|].
    destruct (rep_grid w (k - 1) Hw ltac:(lia)) as [B'|(q & ->)].
    + assert (E2 : 2 ^ k = 2 * 2 ^ (k - 1)) by (rewrite <- Z.pow_succ_r by lia; f_equal; lia). rewrite E2 in *. rewrite E. nia.
    + assert (E2 : 2 ^ k = 2 * 2 ^ (k - 1)) by (rewrite <- Z.pow_succ_r by lia; f_equal; lia). rewrite E2 in *. rewrite E in *.
      pose proof (pow_pos' (k - 1) ltac:(lia)). assert (q < 2 * 2 ^ 52) by nia. nia.
  - left. assert (2 ^ 52 + 1 <= m) by lia. assert ((2 ^ 52 + 1) * 2 ^ k <= m * 2 ^ k) by nia. lia.
Qed.
(** a representable number below the limit is a float64 *)
Lemma rep_holds : forall v, rep v -> v < limit -> exists x, holds x v.
Proof.
  intros v (m & k & Hm & Hk & ->) L. destruct (Z.eq_dec m 0) as [->|N0]; [exists (S754_zero false); apply (holds_zero false)|].
  pose proof (size_spec m ltac:(lia)) as [Sl Su]. pose proof (size_pos m ltac:(lia)) as S1. assert (S53 : size m <= 53) by (apply size_le; lia).
  assert (Lk : size m + k <= 2098).
  { apply Z.nlt_ge. intro Q. assert (limit <= m * 2 ^ k); [|lia]. unfold limit. transitivity (2 ^ (size m - 1) * 2 ^ k).
    - rewrite <- Z.pow_add_r by lia. apply Z.pow_le_mono_r; lia.
    - pose proof (pow_pos' k Hk). nia. }
  set (j := Z.min k (53 - size m)). assert (Hj : 0 <= j) by lia. pose proof (pow_pos' j Hj) as Pj.
  assert (Pm : 0 < m * 2 ^ j) by nia. destruct (m * 2 ^ j) as [|p|p] eqn:Ep; try lia.
  assert (Sp : size (Z.pos p) = size m + j) by (rewrite <- Ep; apply size_shift; lia).
  exists (S754_finite false p (k - j - 1074)).
  replace (m * 2 ^ k) with (units p (k - j - 1074)).
  - constructor. apply bounded_spec. lia.
  - unfold units. rewrite <- Ep, <- Z.mul_assoc, <- Z.pow_add_r by lia. do 2 f_equal. lia.
Qed.
Lemma holds_inj : forall x y v, holds x v -> holds y v -> 0 < v -> x = y.
Proof.
  intros x y v Hx Hy P. destruct Hx as [s|m e B]; [lia|]. inversion Hy as [s E1 E2|m' e' B' E1 E2].
  - unfold units in E2. apply bounded_spec in B. pose proof (pow_pos' (e + 1074) ltac:(lia)). lia.
  - apply bounded_spec in B as [B L]. apply bounded_spec in B' as [B' L'].
    pose proof (units_size m e ltac:(lia)) as U. pose proof (units_size m' e' ltac:(lia)) as U'. rewrite E2 in U'.
    assert (Ee : e = e') by lia. subst e'. unfold units in E2. apply Z.mul_reg_r in E2; [|pose proof (pow_pos' (e + 1074) ltac:(lia)); lia].
    congruence.
Qed.
(** rounding reaches the end of a binade half way behind its last number *)
Lemma rndq_top : forall k a b, 0 <= k -> 0 <= a -> 0 < b -> (2 ^ 54 * 2 ^ k <= rndq a b <-> (2 ^ 54 - 1) * 2 ^ k * b <= a).
Proof.
  intros k a b Hk Ha Hb. pose proof (pow_pos' k Hk) as Pk. pose proof (rndq_rep a b Ha Hb) as Rr.
  assert (E2 : 2 ^ (k + 1) = 2 * 2 ^ k) by (apply Z.pow_succ_r; exact Hk).
  set (top := (2 ^ 53 - 1) * 2 ^ (k + 1)). set (lim := 2 ^ 54 * 2 ^ k). set (half := (2 ^ 54 - 1) * 2 ^ k).
  assert (Rt : rep top) by (exists (2 ^ 53 - 1), (k + 1); split; [lia|]; split; [lia|reflexivity]).
  assert (Rl : rep lim) by (exists (2 ^ 52), (k + 2); split; [lia|]; split; [lia|]; unfold lim; rewrite <- !Z.pow_add_r by lia; f_equal; lia).
  assert (H1 : top + 2 ^ k = half) by (unfold top, half; rewrite E2; change (2 ^ 54) with (2 * 2 ^ 53); ring).
  assert (H2 : half + 2 ^ k = lim) by (unfold half, lim; ring).
  assert (B1 : top * b + 2 ^ k * b = half * b) by (rewrite <- H1; ring). assert (B2 : half * b + 2 ^ k * b = lim * b) by (rewrite <- H2; ring).
  assert (Pb : 0 < 2 ^ k * b) by (apply Z.mul_pos_pos; assumption).
  destruct (rndq_nearest a b lim Ha Hb Rl) as [N1 _]. destruct (rndq_nearest a b top Ha Hb Rt) as [N2 _].
  assert (Gap : rndq a b < lim -> rndq a b <= top).
  { intro Q. destruct (Z.le_gt_cases (rndq a b) top) as [?|G]; [assumption|exfalso].
    assert (Hm : 0 < 2 ^ 53 - 1 < 2 ^ 53) by lia. assert (Hn : k + 1 = 0 \/ 2 ^ 52 <= 2 ^ 53 - 1) by lia.
    assert (Ne : rndq a b <> top) by lia.
    destruct (rep_gap (2 ^ 53 - 1) (k + 1) (rndq a b) Hm ltac:(lia) Hn Rr Ne) as [G1|(G1 & _)]; [|lia].
    fold top in G1. rewrite E2 in G1. lia. }
  split.
  - intro L. assert (Q : lim * b <= rndq a b * b) by (apply Z.mul_le_mono_nonneg_r; [lia|exact L]). lia.
  - intro L. apply Z.nlt_ge. intro Q. specialize (Gap Q).
    assert (T1 : rndq a b * b <= top * b) by (apply Z.mul_le_mono_nonneg_r; [lia|exact Gap]).
    assert (T4 : rndq a b * b = top * b) by lia. apply Z.mul_reg_r in T4; [|lia].
    (* the tie goes to the even neighbour *)
    assert (Da : k + 1 <= drop (a / b)).
    { assert (Hd : half <= a / b) by (apply Z.div_le_lower_bound; [exact Hb|lia]).
      assert (P : 0 < half) by (unfold half; apply Z.mul_pos_pos; [reflexivity|exact Pk]).
      pose proof (size_mono half (a / b) P Hd) as S. unfold half in S. rewrite size_shift in S by lia. change (size (2 ^ 54 - 1)) with 54 in S.
      unfold drop. lia. }
    destruct (rndq_bounds a b Ha Hb) as [[R0 R1] R2]. cbv zeta in *. unfold rndq in T4.
    set (D := drop (a / b)) in *. set (R := round_half_even a (b * 2 ^ D)) in *. specialize (R2 ltac:(lia)) as [R2 R3].
    pose proof (pow_pos' D ltac:(lia)) as PD.
    assert (ED : D = k + 1).
    { destruct (Z.eq_dec D (k + 1)) as [?|G]; [assumption|exfalso].
      assert (X : 2 ^ (k + 2) <= 2 ^ D) by (apply Z.pow_le_mono_r; lia).
      assert (E4 : 2 ^ (k + 2) = 4 * 2 ^ k) by (rewrite Z.pow_add_r by lia; change (2 ^ 2) with 4; ring). rewrite E4 in X.
      assert (Y : 2 ^ 52 * (4 * 2 ^ k) <= R * 2 ^ D) by (apply Z.mul_le_mono_nonneg; lia).
      rewrite T4 in Y. unfold top in Y. rewrite E2 in Y. lia. }
    assert (ER : R = 2 ^ 53 - 1).
    { unfold top in T4. rewrite ED in T4. apply Z.mul_reg_r in T4; [exact T4|]. lia. }
    destruct (rhe_nearest a (b * 2 ^ D) (2 ^ 53) ltac:(apply Z.mul_pos_pos; assumption)) as [N3 N4]. fold R in N3, N4.
    assert (Rv : R * (b * 2 ^ D) = top * b) by (rewrite ER, ED; unfold top; ring).
    assert (Lv : 2 ^ 53 * (b * 2 ^ D) = lim * b) by (rewrite ED, E2; unfold lim; change (2 ^ 54) with (2 * 2 ^ 53); ring).
    rewrite Rv, Lv in *. destruct N4 as [N4|N4]; [lia| |]; rewrite ER in N4; discriminate N4.
Qed.
Definition half_way : Z := (2 ^ 54 - 1) * 2 ^ 2044.
Lemma rndq_limit : forall a b, 0 <= a -> 0 < b -> (limit <= rndq a b <-> half_way * b <= a).
Proof.
  intros a b Ha Hb. unfold half_way. rewrite <- (rndq_top 2044 a b ltac:(discriminate) Ha Hb).
  assert (E : limit = 2 ^ 54 * 2 ^ 2044) by (unfold limit; rewrite <- Z.pow_add_r by discriminate; reflexivity).
  rewrite E. reflexivity.
Qed.
