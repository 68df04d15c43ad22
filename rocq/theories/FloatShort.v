(** The shortest text of a float64 number: 17 digits are enough, and the search finds it. *)
From Coq Require Import ZArith Lia ZifyBool ZifyNat ZifyN QArith Qabs Qpower Lqa SpecFloat.
From Verif Require Import Base BaseFacts FloatModel FloatFacts FloatRound JsonModel TimeModel FloatText FloatRead CodecProofs GrammarSpec GrammarProofs CalendarSpec CalendarProofs FloatSpec FloatValue FloatParse FloatForms.
Local Open Scope Z_scope.

(** ** What is read as a number *)
Lemma holds_finite_iff : forall m e v, float_number (S754_finite false m e) -> (holds (S754_finite false m e) v <-> v = units m e).
Proof.
  intros m e v F. split; [intro H; inversion H; reflexivity|]. intros ->. constructor. apply bounded_iff. exact F.
Qed.
Lemma read_frac : forall s m e q a b, float_number (S754_finite s m e) -> frac q a b ->
  (read_as (signed s q) (S754_finite s m e) <-> rndq a b = units m e).
Proof.
  assert (P : forall m e q a b, float_number (S754_finite false m e) -> frac q a b -> (read_as q (S754_finite false m e) <-> rndq a b = units m e)).
  { intros m e q a b N F. unfold read_as. rewrite (too_large_iff _ _ _ F). split.
    - intros [L H]. apply (nearest_iff _ _ _ _ F) in H; [|apply Z.nle_gt; exact L]. apply (holds_finite_iff m e _ N). exact H.
    - intro E. pose proof (proj2 (holds_finite_iff m e _ N) E) as H. pose proof (holds_below _ _ H) as B. split; [apply Z.nle_gt; exact B|].
      apply (nearest_iff _ _ _ _ F B). exact H. }
  intros [|] m e q a b N F; cbn [signed]; [|apply P; assumption].
  pose proof (read_opp q (S754_finite false m e)) as O. cbn [SFopp negb] in O. rewrite <- O. apply P; assumption.
Qed.
Lemma frac_finite : forall s m e, float_number (S754_finite s m e) -> frac (magnitude (S754_finite s m e)) (units m e) 1.
Proof. intros s m e (_ & H & _). cbn [magnitude]. apply frac_mag. lia. Qed.
Lemma dec_frac' : forall n e, 0 <= n -> exists a b, frac (decimal_number n e) a b.
Proof. intros n e H. eexists _, _. apply dec_frac. exact H. Qed.
(** what lies between a value that is read as the number and the number itself *)
Lemma read_between : forall s m e q r a b c d, float_number (S754_finite s m e) -> frac q a b -> frac r c d ->
  let x := S754_finite s m e in read_as (signed s q) x ->
  (q <= r <= magnitude x)%Q \/ (magnitude x <= r <= q)%Q -> read_as (signed s r) x.
Proof.
  intros s m e q r a b c d N F G x H B. pose proof (frac_finite s m e N) as Fx. fold x in Fx.
  apply (read_frac s m e q a b N F) in H. apply (read_frac s m e r c d N G).
  assert (U : rndq (units m e) 1 = units m e).
  { rewrite <- (Z.mul_1_r (units m e)) at 1. apply rndq_fixed; [|lia]. apply (holds_rep (S754_finite false m e)). constructor. apply bounded_iff. exact N. }
  pose proof F as (A1 & B1 & _). pose proof G as (C1 & D1 & _). pose proof Fx as (U1 & _ & _).
  destruct B as [[L1 L2]|[L1 L2]].
  - apply (frac_le _ _ _ _ _ _ F G) in L1. apply (frac_le _ _ _ _ _ _ G Fx) in L2.
    pose proof (rndq_mono a b c d A1 B1 D1 L1). pose proof (rndq_mono c d (units m e) 1 C1 D1 ltac:(lia) L2). lia.
  - apply (frac_le _ _ _ _ _ _ Fx G) in L1. apply (frac_le _ _ _ _ _ _ G F) in L2.
    pose proof (rndq_mono (units m e) 1 c d U1 ltac:(lia) D1 L1). pose proof (rndq_mono _ _ _ _ C1 D1 B1 L2). lia.
Qed.
(** a step of 10^-16 of the number is smaller than the gaps around it *)
Lemma read_near : forall s m e n g, float_number (S754_finite s m e) -> 0 <= n -> let x := S754_finite s m e in
  (decimal_number 1 (g + 16) <= magnitude x)%Q -> (2 * Qabs (magnitude x - decimal_number n g) <= decimal_number 1 g)%Q ->
  read_as (signed s (decimal_number n g)) x.
Proof.
  intros s m e n g N H x L D. pose proof (frac_finite s m e N) as Fx. fold x in Fx. pose proof (dec_frac n g H) as Fn.
  apply (read_frac s m e _ _ _ N Fn). set (A := dec_num n g * 2 ^ 1074) in *. set (B := dec_den g) in *. set (u := units m e) in *.
  pose proof Fn as (A0 & B0 & _). set (G := 10 ^ Z.max 0 g * 2 ^ 1074).
  assert (FG : frac (decimal_number 1 g) G B) by (pose proof (dec_frac 1 g ltac:(lia)) as Q; unfold dec_num in Q; rewrite Z.mul_1_l in Q; exact Q).
  assert (FL : frac (decimal_number 1 (g + 16)) (10 ^ 16 * G) B).
  { destruct FG as (G0 & _ & GE). split; [lia|]. split; [exact B0|]. rewrite (dec_scale 1 (g + 16) g) by lia. replace (g + 16 - g) with 16 by lia.
    rewrite (inject_Z_mult (10 ^ 16) G), <- GE. unfold decimal_number. rewrite Z.mul_1_l. change (inject_Z 1) with 1%Q. ring. }
  apply (frac_le _ _ _ _ _ _ FL Fx) in L.
  pose proof (frac_dist _ _ _ _ _ Fn Fx) as FD.
  assert (FD2 : frac (2 * Qabs (magnitude x - decimal_number n g)) (2 * Z.abs (A - u * B)) B).
  { destruct FD as (D0 & _ & DE). split; [lia|]. split; [exact B0|]. rewrite (inject_Z_mult 2 (Z.abs (A - u * B))), <- DE. rewrite (Qabs_Qminus (magnitude x)). change (inject_Z 2) with 2%Q. ring. }
  apply (frac_le _ _ _ _ _ _ FD2 FG) in D. apply Z.mul_le_mono_pos_r in D; [|exact B0]. rewrite Z.mul_1_r in L.
  destruct (Z.eq_dec (rndq A B) u) as [E|Ne]; [exact E|exfalso].
  assert (Ru : rep u) by (apply (holds_rep (S754_finite false m e)); constructor; apply bounded_iff; exact N).
  destruct (rndq_nearest A B u A0 B0 Ru) as [Near _].
  pose proof (rndq_rep A B A0 B0) as Rr. destruct N as (N1 & N2 & N3).
  assert (Gap : 2 ^ (e + 1074) <= Z.abs (rndq A B - u) \/ (Z.pos m = 2 ^ 52 /\ 0 < e + 1074 /\ rndq A B < u /\ 2 ^ (e + 1074 - 1) <= u - rndq A B)).
  { unfold u, units in *. apply rep_gap; try assumption; lia. }
  set (r := rndq A B) in *. clearbody r. clear FL FD FD2 FG Fn Fx Rr Ru.
  assert (T : Z.abs (r - u) * B <= G).
  { assert (E : Z.abs (r - u) * B = Z.abs (r * B - u * B)) by (rewrite <- Z.mul_sub_distr_r, Z.abs_mul, (Z.abs_eq B) by lia; reflexivity). lia. }
  assert (T2 : Z.abs (r - u) * 10 ^ 16 <= u).
  { assert (Z.abs (r - u) * 10 ^ 16 * B <= u * B); [|apply Z.mul_le_mono_pos_r in H0; assumption]. clearbody G A B u. lia. }
  unfold u in T2 at 2. unfold units in T2. pose proof (pow_pos' (e + 1074) ltac:(lia)) as P.
  destruct Gap as [Gap|(E & Ek & Lt & Gap)].
  - assert (T3 : 10 ^ 16 * 2 ^ (e + 1074) <= Z.pos m * 2 ^ (e + 1074)) by lia. apply Z.mul_le_mono_pos_r in T3; [lia|exact P].
  - assert (E2 : 2 ^ (e + 1074) = 2 * 2 ^ (e + 1074 - 1)) by (rewrite <- Z.pow_succ_r by lia; f_equal; lia).
    rewrite E2, E in T2. pose proof (pow_pos' (e + 1074 - 1) ltac:(lia)) as P'.
    assert (T3 : 10 ^ 16 * 2 ^ (e + 1074 - 1) <= (2 * 2 ^ 52) * 2 ^ (e + 1074 - 1)) by lia. apply Z.mul_le_mono_pos_r in T3; [lia|exact P'].
Qed.

(** ** The decade *)
Lemma root_le : forall x y k, 0 <= x -> 0 <= y -> 0 < k -> x ^ k <= y ^ k -> x <= y.
Proof.
  intros x y k X Y K L. apply Z.nlt_ge. intro Q. apply Z.le_ngt in L. apply L. apply Z.pow_lt_mono_l; lia.
Qed.
Lemma ten_below_two : forall a l, 0 <= a -> 0 <= l -> 196 * a <= 59 * l -> 10 ^ a <= 2 ^ l.
Proof.
  intros a l A L H. apply (root_le _ _ 196); [apply Z.pow_nonneg; lia|apply Z.pow_nonneg; lia|lia|]. rewrite <- !Z.pow_mul_r by lia.
  transitivity (10 ^ (59 * l)); [apply Z.pow_le_mono_r; lia|]. rewrite (Z.mul_comm l 196), !Z.pow_mul_r by lia. apply Z.pow_le_mono_l.
  split; [apply Z.pow_nonneg; lia|]. apply Z.leb_le. vm_compute. reflexivity.
Qed.
Lemma two_below_ten : forall k a, 0 <= k -> 28 * k <= 93 * a -> 2 ^ k <= 10 ^ a.
Proof.
  intros k a K H. apply (root_le _ _ 93); [apply Z.pow_nonneg; lia|apply Z.pow_nonneg; lia|lia|]. rewrite <- !Z.pow_mul_r by lia.
  transitivity (10 ^ (28 * k)); [|apply Z.pow_le_mono_r; lia]. rewrite (Z.mul_comm k 93), !Z.pow_mul_r by lia. apply Z.pow_le_mono_l.
  split; [apply Z.pow_nonneg; lia|]. apply Z.leb_le. vm_compute. reflexivity.
Qed.
Definition reaches (m : positive) (e p : Z) : bool :=
  if 0 <=? p then (10 ^ p * 2 ^ Z.max 0 (- e) <=? Z.pos m * 2 ^ Z.max 0 e)
  else (2 ^ Z.max 0 (- e) <=? Z.pos m * 2 ^ Z.max 0 e * 10 ^ (- p)).
Lemma reaches_units : forall m e p, -1074 <= e -> (reaches m e p = true <-> 10 ^ Z.max 0 p * 2 ^ 1074 <= units m e * 10 ^ Z.max 0 (- p)).
Proof.
  intros m e p H. set (K := Z.max 0 (- e)). assert (PK : 0 < 2 ^ K) by (apply pow_pos'; lia). assert (PU : 0 < 2 ^ 1074) by (apply pow_pos'; discriminate).
  assert (E : units m e * 2 ^ K = Z.pos m * 2 ^ Z.max 0 e * 2 ^ 1074).
  { unfold units. rewrite <- !Z.mul_assoc, <- !Z.pow_add_r by lia. do 2 f_equal. lia. }
  assert (X : 10 ^ Z.max 0 p * 2 ^ 1074 <= units m e * 10 ^ Z.max 0 (- p) <-> 10 ^ Z.max 0 p * 2 ^ K <= Z.pos m * 2 ^ Z.max 0 e * 10 ^ Z.max 0 (- p)).
  { set (w := 2 ^ 1074) in *. set (x := 10 ^ Z.max 0 p). set (y := 10 ^ Z.max 0 (- p)). set (M := Z.pos m * 2 ^ Z.max 0 e) in *.
    rewrite (Z.mul_le_mono_pos_r (x * w) (units m e * y) (2 ^ K) PK). rewrite (Z.mul_le_mono_pos_r (x * 2 ^ K) (M * y) w PU).
    replace (units m e * y * 2 ^ K) with (units m e * 2 ^ K * y) by ring. rewrite E.
    replace (M * w * y) with (M * y * w) by ring. replace (x * w * 2 ^ K) with (x * 2 ^ K * w) by ring. reflexivity. }
  rewrite X. unfold reaches. fold K. destruct (Z.leb_spec 0 p) as [L|L]; rewrite Z.leb_le.
  - rewrite (Z.max_r 0 p), (Z.max_l 0 (- p)) by lia. change (10 ^ 0) with 1. rewrite Z.mul_1_r. reflexivity.
  - rewrite (Z.max_l 0 p), (Z.max_r 0 (- p)) by lia. change (10 ^ 0) with 1. rewrite Z.mul_1_l. reflexivity.
Qed.
Lemma reaches_iff : forall s m e p, float_number (S754_finite s m e) -> (reaches m e p = true <-> (decimal_number 1 p <= magnitude (S754_finite s m e))%Q).
Proof.
  intros s m e p N. rewrite (frac_le _ _ _ _ _ _ (dec_frac 1 p ltac:(lia)) (frac_finite s m e N)). rewrite (reaches_units m e p) by apply N.
  unfold dec_num, dec_den. rewrite Z.mul_1_l, Z.mul_1_r. reflexivity.
Qed.
Lemma dec_exponent_spec : forall s m e, float_number (S754_finite s m e) -> let p := dec_exponent m e in
  (decimal_number 1 p <= magnitude (S754_finite s m e) < decimal_number 1 (p + 1))%Q.
Proof.
  intros s m e N. pose proof N as (N1 & N2 & N3). set (l := Z.log2 (Z.pos m) + e). set (est := l * 30103 / 100000).
  pose proof (Z.log2_spec (Z.pos m) ltac:(lia)) as [L1 L2]. rewrite <- Z.add_1_r in L2. pose proof (Z.log2_nonneg (Z.pos m)) as L0.
  assert (L3 : Z.log2 (Z.pos m) < 53) by (apply Z.log2_lt_pow2; lia).
  assert (Bl : -1074 <= l <= 1023) by lia.
  assert (U1 : 2 ^ (l + 1074) <= units m e).
  { unfold units. replace (l + 1074) with (Z.log2 (Z.pos m) + (e + 1074)) by lia. rewrite Z.pow_add_r by lia. apply Z.mul_le_mono_nonneg_r; [apply Z.pow_nonneg; lia|exact L1]. }
  assert (U2 : units m e < 2 ^ (l + 1 + 1074)).
  { unfold units. replace (l + 1 + 1074) with (Z.log2 (Z.pos m) + 1 + (e + 1074)) by lia. rewrite (Z.pow_add_r 2 _ (e + 1074)) by lia. apply Z.mul_lt_mono_pos_r; [apply pow_pos'; lia|exact L2]. }
  assert (Be : est * 100000 <= l * 30103 < est * 100000 + 100000).
  { unfold est. pose proof (Z.div_mod (l * 30103) 100000 ltac:(lia)). pose proof (Z.mod_pos_bound (l * 30103) 100000 ltac:(lia)). lia. }
  assert (Lo : reaches m e (est - 1) = true).
  { apply reaches_units; [lia|]. destruct (Z.le_gt_cases 0 (est - 1)) as [A|A].
    - rewrite (Z.max_r 0 (est - 1)), (Z.max_l 0 (- (est - 1))) by lia. change (10 ^ 0) with 1. rewrite Z.mul_1_r.
      eapply Z.le_trans; [|exact U1]. rewrite (Z.pow_add_r 2 l 1074) by lia. apply Z.mul_le_mono_nonneg_r; [apply Z.pow_nonneg; lia|]. apply ten_below_two; lia.
    - rewrite (Z.max_l 0 (est - 1)), (Z.max_r 0 (- (est - 1))) by lia. change (10 ^ 0) with 1. rewrite Z.mul_1_l.
      transitivity (2 ^ (l + 1074) * 10 ^ (- (est - 1))); [|apply Z.mul_le_mono_nonneg_r; [apply Z.pow_nonneg; lia|exact U1]].
      destruct (Z.le_gt_cases 0 l) as [C|C].
      + transitivity (2 ^ (l + 1074) * 1); [rewrite Z.mul_1_r; apply Z.pow_le_mono_r; lia|]. apply Z.mul_le_mono_nonneg_l; [apply Z.pow_nonneg; lia|].
        pose proof (Z.pow_pos_nonneg 10 (- (est - 1)) ltac:(lia) ltac:(lia)). lia.
      + transitivity (2 ^ (l + 1074) * 2 ^ (- l)); [rewrite <- Z.pow_add_r by lia; apply Z.pow_le_mono_r; lia|].
        apply Z.mul_le_mono_nonneg_l; [apply Z.pow_nonneg; lia|]. apply two_below_ten; lia. }
  assert (Hi : reaches m e (est + 2) = false).
  { apply Bool.not_true_iff_false. rewrite reaches_units by lia. apply Z.nle_gt. destruct (Z.le_gt_cases 0 (est + 2)) as [A|A].
    - rewrite (Z.max_r 0 (est + 2)), (Z.max_l 0 (- (est + 2))) by lia. change (10 ^ 0) with 1. rewrite Z.mul_1_r.
      eapply Z.lt_le_trans; [exact U2|]. destruct (Z.le_gt_cases 0 (l + 1)) as [C|C].
      + rewrite (Z.pow_add_r 2 (l + 1) 1074) by lia. apply Z.mul_le_mono_nonneg_r; [apply Z.pow_nonneg; lia|]. apply two_below_ten; lia.
      + transitivity (1 * 2 ^ 1074); [rewrite Z.mul_1_l; apply Z.pow_le_mono_r; lia|]. apply Z.mul_le_mono_nonneg_r; [apply Z.pow_nonneg; lia|].
        pose proof (Z.pow_pos_nonneg 10 (est + 2) ltac:(lia) ltac:(lia)). lia.
    - rewrite (Z.max_l 0 (est + 2)), (Z.max_r 0 (- (est + 2))) by lia. change (10 ^ 0) with 1. rewrite Z.mul_1_l.
      eapply Z.lt_le_trans; [apply Z.mul_lt_mono_pos_r; [apply Z.pow_pos_nonneg; lia|exact U2]|].
      transitivity (2 ^ (l + 1 + 1074) * 2 ^ (- (l + 1))); [|rewrite <- Z.pow_add_r by lia; apply Z.pow_le_mono_r; lia].
      apply Z.mul_le_mono_nonneg_l; [apply Z.pow_nonneg; lia|]. apply ten_below_two; lia. }
  assert (R : forall p, reaches m e p = true <-> (decimal_number 1 p <= magnitude (S754_finite s m e))%Q) by (intro p; apply reaches_iff; exact N).
  assert (S : forall p, reaches m e p = true -> reaches m e (p + 1) = false -> (decimal_number 1 p <= magnitude (S754_finite s m e) < decimal_number 1 (p + 1))%Q).
  { intros p A B. split; [apply R; exact A|]. apply Qnot_le_lt. intro Q. apply R in Q. congruence. }
  intro p. unfold p, dec_exponent. fold l. fold est. fold (reaches m e (est + 1)). fold (reaches m e est).
  destruct (reaches m e (est + 1)) eqn:C1; [apply S; [exact C1|]; replace (est + 1 + 1) with (est + 2) by lia; exact Hi|].
  destruct (reaches m e est) eqn:C2; [apply S; assumption|]. apply S; [exact Lo|]. replace (est - 1 + 1) with est by lia. exact C2.
Qed.

(** ** The candidates *)
Lemma scaled_spec : forall s m e k, let x := S754_finite s m e in
  0 < fst (FloatText.scaled m e k) /\ 0 < snd (FloatText.scaled m e k) /\ (magnitude x * inject_Z (snd (FloatText.scaled m e k)) == decimal_number (fst (FloatText.scaled m e k)) (- k))%Q.
Proof.
  intros s m e k x. unfold FloatText.scaled. cbn [fst snd].
  assert (P : forall c j, 0 < c -> 0 <= j -> 0 < c ^ j) by (intros; apply Z.pow_pos_nonneg; lia).
  split; [apply Z.mul_pos_pos; [apply Z.mul_pos_pos; [lia|]|]; apply P; lia|]. split; [apply Z.mul_pos_pos; apply P; lia|].
  unfold decimal_number, x. cbn [magnitude]. rewrite !inject_Z_mult, <- !qpow_int by lia. change (inject_Z 2) with (2#1). change (inject_Z 10) with (10#1).
  assert (E2 : ((2#1) ^ e * (2#1) ^ Z.max 0 (- e) == (2#1) ^ Z.max 0 e)%Q) by (rewrite <- Qpower_plus by discriminate; replace (e + Z.max 0 (- e)) with (Z.max 0 e) by lia; reflexivity).
  assert (E10 : ((10#1) ^ Z.max 0 k * (10#1) ^ (- k) == (10#1) ^ Z.max 0 (- k))%Q) by (rewrite <- Qpower_plus by discriminate; replace (Z.max 0 k + - k) with (Z.max 0 (- k)) by lia; reflexivity).
  rewrite <- E10, <- E2. ring.
Qed.
Section At.
  Variables (mag : Q) (a b g : Z).
  Hypotheses (Pb : 0 < b) (E : (mag * inject_Z b == decimal_number a g)%Q).
  Lemma at_scale : forall n, (decimal_number n g * inject_Z b == decimal_number (n * b) g)%Q.
  Proof. intro n. unfold decimal_number. rewrite inject_Z_mult. ring. Qed.
  Lemma at_le : forall n, (decimal_number n g <= mag)%Q <-> n * b <= a.
  Proof. intro n. rewrite <- (dec_le (n * b) a g), <- E, <- at_scale. symmetry. apply Qmult_le_r. apply inject_pos. exact Pb. Qed.
  Lemma at_ge : forall n, (mag <= decimal_number n g)%Q <-> a <= n * b.
  Proof. intro n. rewrite <- (dec_le a (n * b) g), <- E, <- at_scale. symmetry. apply Qmult_le_r. apply inject_pos. exact Pb. Qed.
  Lemma at_dist : forall n, (Qabs (mag - decimal_number n g) * inject_Z b == decimal_number (Z.abs (a - n * b)) g)%Q.
  Proof.
    intro n. assert (B0 : (0 <= inject_Z b)%Q) by (apply Qlt_le_weak, inject_pos; exact Pb). rewrite <- (Qabs_pos _ B0) at 1. rewrite <- Qabs_Qmult.
    assert (X : ((mag - decimal_number n g) * inject_Z b == decimal_number (a - n * b) g)%Q).
    { assert (Y : (decimal_number (a - n * b) g == decimal_number a g - decimal_number (n * b) g)%Q) by (unfold decimal_number, Zminus; rewrite inject_Z_plus, inject_Z_opp; ring).
      rewrite Y, <- E, <- at_scale. ring. }
    rewrite X. unfold decimal_number. rewrite Qabs_Qmult, inject_abs. rewrite (Qabs_pos (10 ^ g)) by (apply Qlt_le_weak, ten_pos). reflexivity.
  Qed.
  Lemma at_near : forall n n', (Qabs (mag - decimal_number n g) <= Qabs (mag - decimal_number n' g))%Q <-> Z.abs (a - n * b) <= Z.abs (a - n' * b).
  Proof. intros n n'. rewrite <- (dec_le _ _ g), <- !at_dist. symmetry. apply Qmult_le_r. apply inject_pos. exact Pb. Qed.
  Lemma at_tie : forall n n', (Qabs (mag - decimal_number n g) == Qabs (mag - decimal_number n' g))%Q -> Z.abs (a - n * b) = Z.abs (a - n' * b).
  Proof. intros n n' T. apply Z.le_antisymm; apply at_near; lra. Qed.
  Lemma at_half : 2 * Z.abs (a - round_half_even a b * b) <= b -> (2 * Qabs (mag - decimal_number (round_half_even a b) g) <= decimal_number 1 g)%Q.
  Proof.
    intro H. pose proof (inject_pos b Pb) as P. apply (Qmult_le_r _ _ _ P). rewrite at_scale, Z.mul_1_l.
    assert (X : (2 * Qabs (mag - decimal_number (round_half_even a b) g) * inject_Z b == decimal_number (2 * Z.abs (a - round_half_even a b * b)) g)%Q).
    { rewrite <- Qmult_assoc, at_dist. unfold decimal_number. rewrite inject_Z_mult. change (inject_Z 2) with 2%Q. ring. }
    rewrite X. apply dec_le. exact H.
  Qed.
End At.
Lemma rhe_half : forall a b, 0 < b -> 2 * Z.abs (a - round_half_even a b * b) <= b.
Proof.
  intros a b H. pose proof (Z.div_mod a b ltac:(lia)) as D. pose proof (Z.mod_pos_bound a b H) as B. unfold round_half_even.
  set (r := a mod b) in *. set (t := a / b) in *. clearbody r t. replace (b * t) with (t * b) in D by lia.
  destruct (Z.ltb_spec (2 * r) b); [|destruct (Z.ltb_spec b (2 * r)); [|destruct (Z.even t)]]; try replace ((t + 1) * b) with (t * b + b) by lia; lia.
Qed.
(** the nearest integer and the one on the other side *)
Lemma sides : forall a b, 0 < b -> let n := round_half_even a b in let o := if n * b <=? a then n + 1 else n - 1 in
  (n * b <= a < (n + 1) * b /\ o = n + 1) \/ ((n - 1) * b < a < n * b /\ o = n - 1).
Proof.
  intros a b H n o. pose proof (Z.div_mod a b ltac:(lia)) as D. pose proof (Z.mod_pos_bound a b H) as B. pose proof (rhe_bounds a b H) as R. pose proof (rhe_half a b H) as F. fold n in R, F.
  unfold o. clearbody n. replace (b * (a / b)) with (a / b * b) in D by lia. assert (C : n = a / b \/ n = a / b + 1) by lia. clear o R.
  set (t := a / b) in *. set (r := a mod b) in *. clearbody t r. destruct (Z.leb_spec (n * b) a) as [L|L].
  - left. split; [|reflexivity]. destruct C as [->| ->]; [lia|]. replace ((t + 1) * b) with (t * b + b) in L by lia. lia.
  - right. split; [|reflexivity]. destruct C as [->| ->]; [lia|]. replace ((t + 1 - 1) * b) with (t * b) by (f_equal; lia). replace ((t + 1) * b) with (t * b + b) in * by lia.
    split; [|exact L]. destruct (Z.eq_dec r 0); [|lia]. exfalso. replace (a - (t * b + b)) with (- b) in F by lia. lia.
Qed.

(** ** Reading back *)
Lemma same_float_iff : forall x y, float_number x -> (same_float x y = true <-> x = y).
Proof.
  intros [s|s| |s m e] [s'|s'| |s' m' e'] F; cbn [same_float] in *; try contradiction; try (split; [discriminate|intro E; inversion E]; fail).
  - rewrite Bool.eqb_true_iff. split; [intros ->; reflexivity|intro E; inversion E; reflexivity].
  - rewrite !andb_true_iff, Bool.eqb_true_iff, Pos.eqb_eq, Z.eqb_eq. split; [intros [[-> ->] ->]; reflexivity|intro E; inversion E; auto].
Qed.
Lemma reads_literal : forall x t neg n e, float_number x -> literal t neg n e ->
  (reads_as x t = true <-> negative x = neg /\ read_as (signed neg (decimal_number n e)) x).
Proof.
  intros x t neg n e F L. assert (N : number t) by (apply number_literal; eauto). unfold reads_as.
  rewrite (proj2 (valid_number_iff t) N), (number_chars t N). cbn [andb]. split.
  - intro H. destruct (parse_float t) as [y| |] eqn:E; try discriminate. apply (same_float_iff _ _ F) in H. subst y. apply (parse_float_iff t x N) in E as (neg' & n' & e' & L' & Ng & R).
    apply parse_literal in L. apply parse_literal in L'. rewrite L in L'. assert (neg = neg' /\ n = n' /\ e = e') as (<- & <- & <-) by (repeat split; congruence). auto.
  - intros [Ng R]. rewrite (proj2 (parse_float_iff t x N)); [apply same_float_iff; [exact F|reflexivity]|]. exists neg, n, e. auto.
Qed.
Lemma signed_compat : forall s q r, (q == r)%Q -> (signed s q == signed s r)%Q.
Proof. intros [|] q r E; cbn [signed]; rewrite E; reflexivity. Qed.
Lemma reads_text : forall s m e ex n g, let x := S754_finite s m e in float_number x -> 0 < n < 10 ^ 18 ->
  (reads_as x (text_of ex s n g) = true <-> read_as (signed s (decimal_number n g)) x).
Proof.
  intros s m e ex n g x F H. destruct (text_of_spec ex s n g H) as (n' & e' & L & V & _). rewrite (reads_literal x _ s n' e' F L). split.
  - intros [_ R]. apply (read_compat (signed s (decimal_number n' e'))); [apply signed_compat; exact V|exact R].
  - intro R. split; [reflexivity|]. apply (read_compat (signed s (decimal_number n g))); [apply signed_compat; symmetry; exact V|exact R].
Qed.

(** ** The search *)
Fixpoint zs (d : Z) (k : nat) : list Z := match k with O => [] | S k => d :: zs (d + 1) k end.
Lemma find_first : forall {A} (P : A -> bool) (C : Z -> list A) k d0 dn tn, d0 <= dn < d0 + Z.of_nat k -> In tn (C dn) -> P tn = true ->
  exists d t, d0 <= d < d0 + Z.of_nat k /\ find P (C d) = Some t /\ (forall d', d0 <= d' < d -> forall t', In t' (C d') -> P t' = false) /\ find P (flat_map C (zs d0 k)) = Some t.
Proof.
  intros A P C k. induction k as [|k IH]; intros d0 dn tn B I T; [lia|]. cbn [zs flat_map].
  assert (FA : find P (C d0 ++ flat_map C (zs (d0 + 1) k)) = match find P (C d0) with Some t => Some t | None => find P (flat_map C (zs (d0 + 1) k)) end).
  { generalize (C d0) as l. induction l as [|y l IHl]; [reflexivity|]. cbn [app find]. destruct (P y); [reflexivity|exact IHl]. }
  rewrite FA. destruct (find P (C d0)) as [t|] eqn:E.
  - exists d0, t. split; [lia|]. split; [exact E|]. split; [intros; lia|reflexivity].
  - assert (Nq : dn <> d0) by (intros ->; pose proof (find_none P (C d0) E tn I); congruence).
    destruct (IH (d0 + 1) dn tn ltac:(lia) I T) as (d & t & D & F & Z0 & G). exists d, t. split; [lia|]. split; [exact F|]. split; [|exact G].
    intros d' D' t' I'. destruct (Z.eq_dec d' d0) as [->|]; [apply (find_none P (C d0) E); exact I'|apply (Z0 d'); [lia|exact I']].
Qed.

Section Number.
  Variables (s : bool) (m : positive) (e : Z).
  Let x := S754_finite s m e.
  Hypothesis N : float_number x.
  Let p := dec_exponent m e.
  Let R (n g : Z) : Prop := read_as (signed s (decimal_number n g)) x.
  Let a (d : Z) := fst (FloatText.scaled m e (d - 1 - p)).
  Let b (d : Z) := snd (FloatText.scaled m e (d - 1 - p)).
  Let g (d : Z) := - (d - 1 - p).
  Let n0 (d : Z) := round_half_even (a d) (b d).
  Let other (d : Z) := if n0 d * b d <=? a d then n0 d + 1 else n0 d - 1.
  Lemma at_d : forall d, 0 < b d /\ (magnitude x * inject_Z (b d) == decimal_number (a d) (g d))%Q.
  Proof. intro d. destruct (scaled_spec s m e (d - 1 - p)) as (_ & B & E). split; [exact B|exact E]. Qed.
  Lemma within : forall d, 1 <= d -> 10 ^ (d - 1) * b d <= a d < 10 ^ d * b d.
  Proof.
    intros d D. destruct (at_d d) as [B E]. destruct (dec_exponent_spec s m e N) as [L U]. fold p in L, U. fold x in L, U. split.
    - apply (at_le _ _ _ _ B E). rewrite (dec_scale 1 p (g d)) in L by (unfold g; lia). rewrite Z.mul_1_l in L. replace (p - g d) with (d - 1) in L by (unfold g; lia). exact L.
    - rewrite (dec_scale 1 (p + 1) (g d)) in U by (unfold g; lia). rewrite Z.mul_1_l in U. replace (p + 1 - g d) with d in U by (unfold g; lia).
      apply Z.nle_gt. intro Q. apply (at_le _ _ _ _ B E) in Q. lra.
  Qed.
  Lemma range : forall d, 1 <= d -> 10 ^ (d - 1) <= n0 d <= 10 ^ d /\ 10 ^ (d - 1) <= other d <= 10 ^ d.
  Proof.
    intros d D. destruct (at_d d) as [B _]. destruct (within d D) as [L U]. pose proof (sides (a d) (b d) B) as S. cbv zeta in S. fold (n0 d) in S. fold (other d) in S.
    set (A := 10 ^ (d - 1)) in *. set (T := 10 ^ d) in *. clearbody A T. 
    assert (X : forall u v, u * b d < v * b d -> u < v) by (intros u v Q; apply Z.mul_lt_mono_pos_r in Q; [exact Q|exact B]).
    destruct S as [[[S1 S2] ->]|[[S1 S2] ->]].
    - pose proof (X A (n0 d + 1) ltac:(lia)). pose proof (X (n0 d) T ltac:(lia)). lia.
    - pose proof (X A (n0 d) ltac:(lia)). pose proof (X (n0 d - 1) T ltac:(lia)). lia.
  Qed.
  Lemma small : forall d n, 1 <= d <= 17 -> n = n0 d \/ n = other d -> 0 < n < 10 ^ 18.
  Proof.
    intros d n D H. destruct (range d ltac:(lia)) as [R1 R2]. assert (0 < 10 ^ (d - 1)) by (apply Z.pow_pos_nonneg; lia).
    assert (10 ^ d <= 10 ^ 17) by (apply Z.pow_le_mono_r; lia). destruct H as [->| ->]; lia.
  Qed.
  Lemma between : forall n n' d, 0 <= n -> 0 <= n' -> R n' (g d) -> n' * b d <= n * b d <= a d \/ a d <= n * b d <= n' * b d -> R n (g d).
  Proof.
    intros n n' d P P' H C. destruct (at_d d) as [B E]. unfold R. destruct (dec_frac' n (g d) P) as (? & ? & F). destruct (dec_frac' n' (g d) P') as (? & ? & F').
    apply (read_between s m e _ _ _ _ _ _ N F' F H). destruct C as [[C1 C2]|[C1 C2]].
    - left. split; [apply dec_le; apply Z.mul_le_mono_pos_r in C1; [exact C1|exact B]|]. apply (at_le _ _ _ _ B E). exact C2.
    - right. split; [apply (at_ge _ _ _ _ B E); exact C1|]. apply dec_le; apply Z.mul_le_mono_pos_r in C2; [exact C2|exact B].
  Qed.
  Lemma seventeen : R (n0 17) (g 17).
  Proof.
    destruct (at_d 17) as [B E]. unfold R. apply read_near; [exact N|pose proof (range 17 ltac:(lia)); lia| |].
    - replace (g 17 + 16) with p by (unfold g; lia). apply (dec_exponent_spec s m e N).
    - apply (at_half _ _ _ _ B E). apply rhe_half. exact B.
  Qed.
  Lemma not_zero : forall g', ~ R 0 g'.
  Proof.
    intros g' H. unfold R in H. apply (read_frac s m e _ _ _ N (dec_frac 0 g' ltac:(lia))) in H. unfold dec_num in H. rewrite !Z.mul_0_l in H.
    assert (U : 0 < units m e) by (unfold units; apply Z.mul_pos_pos; [lia|apply pow_pos'; destruct N; lia]).
    assert (Z0 : rndq 0 (dec_den g') = 0) by (unfold rndq; rewrite Z.div_0_l by (pose proof (dec_den_pos g'); lia); change (drop 0) with 0; change (2 ^ 0) with 1; replace 0 with (0 * (dec_den g' * 1)) at 1 by lia; rewrite rhe_exact by (pose proof (dec_den_pos g'); lia); reflexivity). lia.
  Qed.
  Lemma fewer : forall d n' g', 1 < d -> 0 <= n' < 10 ^ (d - 1) -> R n' g' -> R (n0 (d - 1)) (g (d - 1)) \/ R (other (d - 1)) (g (d - 1)).
  Proof.
    intros d n' g' D B H. set (d1 := d - 1) in *. destruct (at_d d1) as [Pb E]. destruct (range d1 ltac:(lia)) as [R1 R2].
    pose proof (sides (a d1) (b d1) Pb) as S. cbv zeta in S. fold (n0 d1) in S. fold (other d1) in S.
    assert (T : exists lo, (lo = n0 d1 \/ lo = other d1) /\ (lo + 1 = n0 d1 \/ lo + 1 = other d1) /\ lo * b d1 <= a d1 /\ a d1 <= (lo + 1) * b d1).
    { destruct S as [[[S1 S2] S3]|[[S1 S2] S3]]; [exists (n0 d1)|exists (n0 d1 - 1)]; (split; [lia|split; [lia|split; [lia|]]]); [lia|]. replace (n0 d1 - 1 + 1) with (n0 d1) by lia. lia. }
    destruct T as (lo & C1 & C2 & L & U). assert (P0 : 10 ^ (d1 - 1) <= lo) by (destruct C1 as [->| ->]; lia).
    assert (P1 : 0 < 10 ^ (d1 - 1)) by (apply Z.pow_pos_nonneg; lia).
    apply (at_le _ _ _ _ Pb E) in L. apply (at_ge _ _ _ _ Pb E) in U.
    destruct (dec_frac' n' g' (proj1 B)) as (? & ? & F'). destruct (dec_frac' lo (g d1) ltac:(lia)) as (? & ? & Fl). destruct (dec_frac' (lo + 1) (g d1) ltac:(lia)) as (? & ? & Fu).
    assert (V : (decimal_number n' g' <= decimal_number lo (g d1))%Q \/ (decimal_number (lo + 1) (g d1) <= decimal_number n' g')%Q).
    { destruct (Z.le_gt_cases (g d1) g') as [G|G].
      - rewrite (dec_scale n' g' (g d1) G). destruct (Z.le_gt_cases (n' * 10 ^ (g' - g d1)) lo); [left|right]; apply dec_le; lia.
      - left. rewrite (dec_scale lo (g d1) g') by lia. apply dec_le. assert (10 ^ 1 <= 10 ^ (g d1 - g')) by (apply Z.pow_le_mono_r; lia).
        assert (X : 10 ^ d1 = 10 ^ (d1 - 1) * 10 ^ 1) by (rewrite <- Z.pow_add_r by lia; f_equal; lia).
        transitivity (10 ^ (d1 - 1) * 10 ^ 1); [lia|]. apply Z.mul_le_mono_nonneg; lia. }
    assert (W : R lo (g d1) \/ R (lo + 1) (g d1)).
    { destruct V as [V|V]; [left|right]; unfold R.
      - apply (read_between s m e _ _ _ _ _ _ N F' Fl H). left. split; [exact V|exact L].
      - apply (read_between s m e _ _ _ _ _ _ N F' Fu H). right. split; [exact U|exact V]. }
    destruct W as [W|W]; [destruct C1 as [C|C]|destruct C2 as [C|C]]; rewrite C in W; auto.
  Qed.
  Lemma is_shortest : forall d n, 1 <= d <= 17 -> n = n0 d \/ n = other d /\ ~ R (n0 d) (g d) -> R n (g d) ->
    (forall d', 1 <= d' < d -> ~ R (n0 d') (g d') /\ ~ R (other d') (g d')) -> shortest x n (g d) (Z.to_nat d).
  Proof.
    intros d n D Cn H Min. destruct (at_d d) as [Pb E]. unfold shortest. rewrite Z2Nat.id by lia. split; [lia|].
    assert (Sm : 0 < n < 10 ^ 18) by (apply (small d n D); tauto). split; [lia|].
    split; [replace (g d + d - 1) with p by (unfold g; lia); replace (g d + d) with (p + 1) by (unfold g; lia); apply (dec_exponent_spec s m e N)|].
    split; [exact H|]. split.
    - intros n' g' B Q. destruct (Z.eq_dec n' 0) as [->|Nz]; [apply (not_zero g' Q)|]. assert (1 < d).
      { destruct (Z.eq_dec d 1) as [->|]; [|lia]. change (10 ^ (1 - 1)) with 1 in B. lia. }
      destruct (Min (d - 1) ltac:(lia)) as [M1 M2]. destruct (fewer d n' g' ltac:(lia) B Q); contradiction.
    - intros n' P' Q. change (read_as (signed (negative x) (decimal_number n' (g d))) x) with (R n' (g d)) in Q.
      assert (K : Z.abs (a d - n * b d) <= Z.abs (a d - n' * b d) /\ (Z.abs (a d - n * b d) = Z.abs (a d - n' * b d) -> n' = n \/ Z.even n = true)).
      { destruct Cn as [->|[-> No]]; [apply rhe_nearest; exact Pb|].
        pose proof (sides (a d) (b d) Pb) as S. cbv zeta in S. fold (n0 d) in S. fold (other d) in S. destruct (range d ltac:(lia)) as [R1 _].
        assert (P1 : 0 < 10 ^ (d - 1)) by (apply Z.pow_pos_nonneg; lia).
        destruct S as [[[S1 S2] S3]|[[S1 S2] S3]]; rewrite S3 in *.
        - assert (X : n0 d + 1 <= n').
          { apply Z.nlt_ge. intro Y. apply No. apply (between (n0 d) n' d); [lia|lia|exact Q|]. left. split; [apply Z.mul_le_mono_pos_r; [exact Pb|lia]|exact S1]. }
          assert (Y : (n0 d + 1) * b d <= n' * b d) by (apply Z.mul_le_mono_pos_r; [exact Pb|lia]). split; [lia|]. intro T. left.
          apply (Z.mul_reg_r _ _ (b d)); lia.
        - assert (X : n' <= n0 d - 1).
          { apply Z.nlt_ge. intro Y. apply No. apply (between (n0 d) n' d); [lia|lia|exact Q|]. right. split; [lia|apply Z.mul_le_mono_pos_r; [exact Pb|lia]]. }
          assert (Y : n' * b d <= (n0 d - 1) * b d) by (apply Z.mul_le_mono_pos_r; [exact Pb|lia]). split; [lia|]. intro T. left.
          apply (Z.mul_reg_r _ _ (b d)); lia. }
      destruct K as [K1 K2]. split; [apply (at_near _ _ _ _ Pb E); exact K1|]. intro T. apply K2. apply (at_tie _ _ _ _ Pb E). exact T.
  Qed.
  Lemma found : exists n g' d, float_text x = Ok (text_of (use_exponent x) s n g') /\ 0 < n < 10 ^ 18 /\ 10 ^ (Z.of_nat d - 1) <= n <= 10 ^ Z.of_nat d /\ shortest x n g' d.
  Proof.
    set (C := candidates_at (use_exponent x) s m e p).
    assert (CE : forall d, C d = [text_of (use_exponent x) s (n0 d) (g d); text_of (use_exponent x) s (other d) (g d)]).
    { intro d. unfold C, candidates_at, other, n0, a, b, g. destruct (FloatText.scaled m e (d - 1 - p)) as [a0 b0]. reflexivity. }
    assert (RT : forall d n, 1 <= d <= 17 -> n = n0 d \/ n = other d -> (reads_as x (text_of (use_exponent x) s n (g d)) = true <-> R n (g d))).
    { intros d n D O. apply reads_text; [exact N|apply (small d n D O)]. }
    destruct (find_first (reads_as x) C 17 1 17 (text_of (use_exponent x) s (n0 17) (g 17))) as (d & t & D & F & Mn & G);
      [lia|rewrite CE; left; reflexivity|apply RT; [lia|auto|exact seventeen]|].
    assert (Mn' : forall d', 1 <= d' < d -> ~ R (n0 d') (g d') /\ ~ R (other d') (g d')).
    { intros d' B. pose proof (Mn d' B) as M. rewrite CE in M. split; intro Q; apply (RT d') in Q; try lia; auto;
        [rewrite (M _ (or_introl eq_refl)) in Q|rewrite (M _ (or_intror (or_introl eq_refl))) in Q]; discriminate Q. }
    assert (T : exists n, t = text_of (use_exponent x) s n (g d) /\ (n = n0 d \/ n = other d /\ ~ R (n0 d) (g d)) /\ R n (g d)).
    { rewrite CE in F. cbn [find] in F. destruct (reads_as x (text_of (use_exponent x) s (n0 d) (g d))) eqn:Q1.
      - exists (n0 d). split; [congruence|]. split; [auto|]. apply (RT d); [lia|auto|exact Q1].
      - destruct (reads_as x (text_of (use_exponent x) s (other d) (g d))) eqn:Q2; [|discriminate F].
        exists (other d). split; [congruence|]. split; [right; split; [reflexivity|]; intro Q; apply (RT d) in Q; [congruence|lia|auto]|]. apply (RT d); [lia|auto|exact Q2]. }
    destruct T as (n & -> & Cn & H). exists n, (g d), (Z.to_nat d). split; [|split; [|split]].
    - change (float_text x) with (match find (reads_as x) (flat_map C (zs 1 17)) with Some t => Ok t | None => Err end). rewrite G. reflexivity.
    - apply (small d n); [lia|tauto].
    - rewrite Z2Nat.id by lia. pose proof (range d ltac:(lia)). destruct Cn as [->|[-> _]]; lia.
    - apply is_shortest; [lia|exact Cn|exact H|exact Mn'].
  Qed.
End Number.

(** ** With or without exponent *)
Lemma compare_units : forall m1 e1 m2 e2, float_number (S754_finite false m1 e1) -> float_number (S754_finite false m2 e2) ->
  SFcompare (S754_finite false m1 e1) (S754_finite false m2 e2) = Some (Z.compare (units m1 e1) (units m2 e2)).
Proof.
  assert (L : forall m1 e1 m2 e2, float_number (S754_finite false m1 e1) -> float_number (S754_finite false m2 e2) -> e1 < e2 -> units m1 e1 < units m2 e2).
  { intros m1 e1 m2 e2 (A1 & A2 & A3) (B1 & B2 & B3) H. unfold units. assert (P : 0 < 2 ^ (e1 + 1074)) by (apply pow_pos'; lia).
    apply Z.lt_le_trans with (2 ^ 53 * 2 ^ (e1 + 1074)); [apply Z.mul_lt_mono_pos_r; assumption|].
    transitivity (2 ^ 52 * 2 ^ (e2 + 1074)); [|apply Z.mul_le_mono_nonneg_r; [apply Z.pow_nonneg; lia|lia]].
    rewrite <- !Z.pow_add_r by lia. apply Z.pow_le_mono_r; lia. }
  intros m1 e1 m2 e2 F1 F2. cbn [SFcompare]. f_equal. destruct (Z.compare_spec e1 e2) as [E|E|E].
  - subst e2. change (Pos.compare_cont Eq m1 m2) with (Pos.compare m1 m2). unfold units. assert (P : 0 < 2 ^ (e1 + 1074)) by (apply pow_pos'; destruct F1; lia).
    rewrite <- Zmult_compare_compat_r by lia. reflexivity.
  - symmetry. apply Z.compare_lt_iff. apply L; assumption.
  - symmetry. apply Z.compare_gt_iff. apply L; assumption.
Qed.
Lemma ltb_mag : forall m1 e1 m2 e2, float_number (S754_finite false m1 e1) -> float_number (S754_finite false m2 e2) ->
  (SFltb (S754_finite false m1 e1) (S754_finite false m2 e2) = true <-> (magnitude (S754_finite false m1 e1) < magnitude (S754_finite false m2 e2))%Q).
Proof.
  intros m1 e1 m2 e2 F1 F2. unfold SFltb. rewrite (compare_units _ _ _ _ F1 F2). rewrite (frac_lt _ _ _ _ _ _ (frac_finite _ _ _ F1) (frac_finite _ _ _ F2)), !Z.mul_1_r.
  destruct (Z.compare_spec (units m1 e1) (units m2 e2)); split; intro; try lia; try discriminate; reflexivity.
Qed.
Lemma leb_mag : forall m1 e1 m2 e2, float_number (S754_finite false m1 e1) -> float_number (S754_finite false m2 e2) ->
  (SFleb (S754_finite false m1 e1) (S754_finite false m2 e2) = true <-> (magnitude (S754_finite false m1 e1) <= magnitude (S754_finite false m2 e2))%Q).
Proof.
  intros m1 e1 m2 e2 F1 F2. unfold SFleb. rewrite (compare_units _ _ _ _ F1 F2). rewrite (frac_le _ _ _ _ _ _ (frac_finite _ _ _ F1) (frac_finite _ _ _ F2)), !Z.mul_1_r.
  destruct (Z.compare_spec (units m1 e1) (units m2 e2)); split; intro; try lia; try discriminate; reflexivity.
Qed.
Definition low : float64 := S754_finite false 4722366482869645 (-72).
Definition high : float64 := S754_finite false 7629394531250000 17.
Lemma low_number : float_number low.
Proof. unfold low, float_number. lia. Qed.
Lemma high_number : float_number high.
Proof. unfold high, float_number. lia. Qed.
Lemma low_is : float_of_dec false 1 (-6) = low.
Proof. vm_compute. reflexivity. Qed.
Lemma high_is : float_of_dec false 1 21 = high.
Proof. vm_compute. reflexivity. Qed.
Lemma high_value : (magnitude high == decimal_number 1 21)%Q.
Proof. vm_compute. reflexivity. Qed.
Lemma low_value : (magnitude low < decimal_number 1 (-5))%Q.
Proof. vm_compute. reflexivity. Qed.
Lemma low_nearest : forall y, nearest (decimal_number 1 (-6)) y -> (fvalue y == magnitude low)%Q.
Proof.
  intros y H. pose proof (dec_frac 1 (-6) ltac:(lia)) as F.
  assert (R : read_as (decimal_number 1 (-6)) low) by (apply (read_pos 1 (-6) low); [lia|reflexivity|split; [exact low_is|exact low_number]]).
  destruct R as [L R]. rewrite (too_large_iff _ _ _ F) in L. apply Z.nle_gt in L.
  apply (nearest_iff _ _ _ _ F L) in H. apply (nearest_iff _ _ _ _ F L) in R.
  rewrite (holds_fvalue _ _ H). pose proof (holds_frac _ _ H) as A. pose proof (holds_frac _ _ R) as B. apply (frac_eq _ _ _ _ _ _ A B). reflexivity.
Qed.
Lemma extreme_iff : forall s m e, let x := S754_finite s m e in float_number x -> (extreme x <-> use_exponent x = true).
Proof.
  intros s m e x F. unfold use_exponent. rewrite low_is, high_is. change (SFabs x) with (S754_finite false m e). rewrite orb_true_iff.
  assert (F' : float_number (S754_finite false m e)) by exact F.
  unfold low, high. rewrite (ltb_mag _ _ _ _ F' low_number), (leb_mag _ _ _ _ high_number F'). fold low. fold high. rewrite high_value.
  change (magnitude (S754_finite false m e)) with (magnitude x). unfold extreme. split; (intros [H|H]; [left|right; exact H]).
  - destruct H as (y & Y & L). rewrite (low_nearest y Y) in L. exact L.
  - exists low. split; [|exact H]. apply (proj2 (read_pos 1 (-6) low ltac:(lia) eq_refl)). split; [exact low_is|exact low_number].
Qed.

(** ** The text *)
Theorem float_text_number : forall x, float_number x -> exists t, float_text x = Ok t /\ number_text x t.
Proof.
  intros [s|s| |s m e] F; try contradiction.
  - exists (if s then s2b "-0" else s2b "0"). split; [reflexivity|]. destruct s; reflexivity.
  - set (x := S754_finite s m e) in *. destruct (found s m e F) as (n & g & d & T & B & K & S). fold x in T, S.
    destruct (text_of_spec (use_exponent x) s n g B) as (n' & e' & L & V & P1 & P2).
    eexists. split; [exact T|]. exists n, g, d, n', e'. split; [exact S|]. split; [exact L|]. split; [exact V|].
    pose proof (extreme_iff s m e F) as X. fold x in X. split.
    + intro Ex. assert (U : use_exponent x = true) by (apply X; exact Ex). apply P2; [exact U|]. destruct S as (D1 & D2 & [D3 D4] & _).
      assert (E : (decimal_number (10 ^ Z.of_nat d) g == decimal_number 1 (g + Z.of_nat d))%Q) by (rewrite <- (Z.mul_1_l (10 ^ Z.of_nat d)); apply decimal_shift; lia).
      assert (E' : (decimal_number (10 ^ (Z.of_nat d - 1)) g == decimal_number 1 (g + Z.of_nat d - 1))%Q).
      { rewrite <- (Z.mul_1_l (10 ^ (Z.of_nat d - 1))), decimal_shift by lia. replace (g + (Z.of_nat d - 1)) with (g + Z.of_nat d - 1) by lia. reflexivity. }
      destruct Ex as [(y & Y & L')|H].
      * left. rewrite (low_nearest y Y) in L'. pose proof low_value as LV.
        assert (g + Z.of_nat d - 1 < -5) by (apply tens_lt; eapply Qle_lt_trans; [exact D3|]; eapply Qlt_trans; [exact L'|exact LV]).
        apply Qle_lt_trans with (decimal_number 1 (g + Z.of_nat d)); [rewrite <- E; apply dec_le; apply K|apply tens_lt; lia].
      * right. assert (21 < g + Z.of_nat d) by (apply tens_lt; eapply Qle_lt_trans; [exact H|exact D4]).
        apply Qle_trans with (decimal_number 1 (g + Z.of_nat d - 1)); [apply tens_le; lia|rewrite <- E'; apply dec_le; apply K].
    + intro Nx. apply P1. apply Bool.not_true_iff_false. rewrite <- X. exact Nx.
Qed.
