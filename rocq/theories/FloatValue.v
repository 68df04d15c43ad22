(** The integer facts about rounding as facts about rationals. *)
From Coq Require Import ZArith Lia ZifyBool ZifyNat ZifyN QArith Qabs Qpower Lqa SpecFloat.
From Verif Require Import Base FloatModel FloatFacts FloatRound FloatText FloatRead FloatSpec.
Local Open Scope Z_scope.

Lemma qpow_int : forall c k, 0 <= k -> (inject_Z c ^ k == inject_Z (c ^ k))%Q.
Proof. intros c k H. symmetry. apply Zpower_Qpower. exact H. Qed.
Lemma inject_pos : forall z, 0 < z -> (0 < inject_Z z)%Q.
Proof. intros z H. unfold Qlt, inject_Z. cbn [Qnum Qden]. lia. Qed.
Lemma inject_nz : forall z, z <> 0 -> ~ (inject_Z z == 0)%Q.
Proof. intros z H Q. apply H. unfold Qeq, inject_Z in Q. cbn [Qnum Qden] in Q. lia. Qed.
Lemma inject_le : forall a b, (inject_Z a <= inject_Z b)%Q <-> a <= b.
Proof. intros a b. rewrite <- Zle_Qle. reflexivity. Qed.
Lemma inject_lt : forall a b, (inject_Z a < inject_Z b)%Q <-> a < b.
Proof. intros a b. rewrite <- Zlt_Qlt. reflexivity. Qed.
Lemma inject_eq : forall a b, (inject_Z a == inject_Z b)%Q <-> a = b.
Proof. intros a b. split; [apply inject_Z_injective|intros ->; reflexivity]. Qed.
Lemma inject_abs : forall z, (Qabs (inject_Z z) == inject_Z (Z.abs z))%Q.
Proof. intro z. unfold Qabs, inject_Z. reflexivity. Qed.

(** ** Fractions with the unit 2^-1074 *)
Definition unit : Z := 2 ^ 1074.
Lemma unit_pos : 0 < unit. Proof. apply pow_pos'. lia. Qed.
Lemma unit_split : forall a b, 0 <= a -> 0 <= b -> a + b = 1074 -> unit = 2 ^ a * 2 ^ b.
Proof. intros a b Ha Hb E. unfold unit. rewrite <- Z.pow_add_r by assumption. rewrite E. reflexivity. Qed.
Lemma unit_def : unit = 2 ^ 1074. Proof. reflexivity. Qed.
Global Opaque unit.
Definition frac (q : Q) (a b : Z) : Prop := 0 <= a /\ 0 < b /\ (q * inject_Z (b * unit) == inject_Z a)%Q.
Lemma frac_compat : forall q r a b, (q == r)%Q -> frac q a b -> frac r a b.
Proof. intros q r a b E (A & B & H). split; [exact A|]. split; [exact B|]. rewrite <- E. exact H. Qed.
Lemma frac_le : forall q r a b c d, frac q a b -> frac r c d -> ((q <= r)%Q <-> a * d <= c * b).
Proof.
  intros q r a b c d (A & B & H) (C & D & K). rewrite <- inject_le, !inject_Z_mult, <- H, <- K, !inject_Z_mult.
  pose proof (inject_pos b B). pose proof (inject_pos d D). pose proof (inject_pos unit unit_pos).
  set (U := inject_Z unit) in *. set (x := inject_Z b) in *. set (y := inject_Z d) in *.
  assert (E1 : (q * (x * U) * y == q * (x * U * y))%Q) by ring. assert (E2 : (r * (y * U) * x == r * (x * U * y))%Q) by ring. rewrite E1, E2.
  assert (P : (0 < x * U * y)%Q) by (repeat apply Qmult_lt_0_compat; assumption).
  symmetry. apply Qmult_le_r. exact P.
Qed.
Lemma frac_lt : forall q r a b c d, frac q a b -> frac r c d -> ((q < r)%Q <-> a * d < c * b).
Proof.
  intros q r a b c d H K. pose proof (frac_le r q c d a b K H) as L. split; intro X.
  - apply Z.nle_gt. intro Y. apply L in Y. lra.
  - apply Qnot_le_lt. intro Y. apply L in Y. lia.
Qed.
Lemma frac_eq : forall q r a b c d, frac q a b -> frac r c d -> ((q == r)%Q <-> a * d = c * b).
Proof.
  intros q r a b c d H K. pose proof (frac_le r q c d a b K H) as L. pose proof (frac_le q r a b c d H K) as L'. split; intro X.
  - assert (X1 : (q <= r)%Q) by lra. assert (X2 : (r <= q)%Q) by lra. apply L in X2. apply L' in X1. lia.
  - assert (q <= r)%Q by (apply L'; lia). assert (r <= q)%Q by (apply L; lia). lra.
Qed.
(** distances *)
Lemma frac_dist : forall q r a b v, frac q a b -> frac r v 1 -> frac (Qabs (q - r)) (Z.abs (a - v * b)) b.
Proof.
  intros q r a b v (A & B & H) (C & _ & K). split; [lia|]. split; [exact B|].
  assert (P : (0 <= inject_Z (b * unit))%Q) by (apply Qlt_le_weak, inject_pos, Z.mul_pos_pos; [exact B|exact unit_pos]).
  rewrite <- (Qabs_pos _ P) at 1. rewrite <- Qabs_Qmult, <- inject_abs. apply Qabs_wd.
  rewrite Z.mul_1_l in K. unfold Zminus. rewrite inject_Z_plus, inject_Z_opp, <- H, !inject_Z_mult, <- K. ring.
Qed.

(** ** float64 numbers *)
Lemma bounded_iff : forall m e, bounded 53 1024 m e = true <-> Z.pos m < 2 ^ 53 /\ -1074 <= e <= 971 /\ (e = -1074 \/ 2 ^ 52 <= Z.pos m).
Proof.
  intros m e. rewrite bounded_spec. pose proof (size_pos (Z.pos m) ltac:(lia)) as P. split.
  - intros [B L]. pose proof (size_spec (Z.pos m) ltac:(lia)) as [Sl Su].
    assert (2 ^ size (Z.pos m) <= 2 ^ 53) by (apply Z.pow_le_mono_r; lia). split; [lia|]. split; [lia|].
    destruct (Z.eq_dec e (-1074)); [left; assumption|right]. replace 52 with (size (Z.pos m) - 1) by lia. exact Sl.
  - intros (U & E & L). assert (size (Z.pos m) <= 53) by (apply size_le; lia). destruct L as [->|L]; [lia|].
    pose proof (size_ge (Z.pos m) 52 ltac:(lia) L). lia.
Qed.
Lemma holds_number : forall x, negative x = false -> float_number x -> exists v, holds x v.
Proof.
  intros [s|s| |s m e] N H; try contradiction; [exists 0; constructor|]. cbn in N. subst s. exists (units m e). constructor. apply bounded_iff. exact H.
Qed.
Lemma number_holds : forall x v, holds x v -> float_number x.
Proof. intros x v [s|m e B]; [exact I|]. apply bounded_iff. exact B. Qed.
Lemma frac_mag : forall m e, -1074 <= e -> frac (inject_Z (Z.pos m) * 2 ^ e) (units m e) 1.
Proof.
  intros m e H. assert (P : 0 < 2 ^ (e + 1074)) by (apply pow_pos'; lia). split; [unfold units; lia|]. split; [lia|]. rewrite Z.mul_1_l. unfold units. rewrite inject_Z_mult.
  rewrite <- Qmult_assoc. apply Qmult_comp; [reflexivity|].
  destruct (Z.le_gt_cases 0 e) as [L|L].
  - assert (E : 2 ^ (e + 1074) = 2 ^ e * unit) by (rewrite Z.pow_add_r by lia; reflexivity). rewrite E, inject_Z_mult. apply Qmult_comp; [|reflexivity]. apply (qpow_int 2). exact L.
  - rewrite (unit_split (- e) (e + 1074)) by lia. rewrite inject_Z_mult, Qmult_assoc.
    assert (E : ((2 ^ e) * inject_Z (2 ^ (- e)) == 1)%Q).
    { rewrite <- (qpow_int 2 (- e)) by lia. change (inject_Z 2) with (2#1). rewrite <- Qpower_plus by discriminate. rewrite Z.add_opp_diag_r. reflexivity. }
    rewrite E. ring.
Qed.
Lemma holds_frac : forall x v, holds x v -> frac (magnitude x) v 1.
Proof.
  intros x v [s|m e B]; cbn [magnitude].
  - split; [lia|]. split; [lia|]. ring.
  - apply frac_mag. apply bounded_iff in B. lia.
Qed.
Lemma holds_fvalue : forall x v, holds x v -> (fvalue x == magnitude x)%Q.
Proof. intros x v [s|m e B]; unfold fvalue; cbn; [destruct s; reflexivity|reflexivity]. Qed.
Lemma holds_even : forall x R D, holds x (R * 2 ^ D) -> 0 <= D -> Z.even R = true -> R <= 2 ^ 53 -> (0 < D -> 2 ^ 52 <= R) -> even_float x.
Proof.
  intros x R D H HD Ev U L. inversion H as [s E1 E2|m e B E1 E2]; subst x; [exact I|]. cbn [even_float]. apply bounded_iff in B. unfold units in E2.
  destruct (Z.le_gt_cases (e + 1074) D) as [G|G].
  - assert (ED : 2 ^ D = 2 ^ (D - (e + 1074)) * 2 ^ (e + 1074)) by (rewrite <- Z.pow_add_r by lia; f_equal; lia). rewrite ED, Z.mul_assoc in E2.
    apply Z.mul_reg_r in E2; [|pose proof (pow_pos' (e + 1074) ltac:(lia)); lia]. rewrite E2, Z.even_mul, Ev. reflexivity.
  - assert (ED : 2 ^ (e + 1074) = 2 ^ (e + 1074 - D) * 2 ^ D) by (rewrite <- Z.pow_add_r by lia; f_equal; lia). rewrite ED, Z.mul_assoc in E2.
    apply Z.mul_reg_r in E2; [|pose proof (pow_pos' D ltac:(lia)); lia]. assert (M : 2 ^ 52 <= Z.pos m) by lia.
    assert (X : 2 <= 2 ^ (e + 1074 - D)) by (change 2 with (2 ^ 1) at 1; apply Z.pow_le_mono_r; lia).
    assert (Z.pos m = 2 ^ 52) as -> by nia. reflexivity.
Qed.
Lemma holds_odd : forall x q D, holds x (q * 2 ^ D) -> 0 <= D -> Z.odd q = true -> (0 < D -> 2 ^ 52 <= q) -> ~ even_float x.
Proof.
  intros x q D H HD Od L Ev. pose proof (pow_pos' D HD) as PD. inversion H as [s E1 E2|m e B E1 E2]; subst x.
  - symmetry in E2. apply Z.mul_eq_0 in E2 as [->|E2]; [discriminate|lia].
  - cbn [even_float] in Ev. apply bounded_iff in B. unfold units in E2. assert (C : e + 1074 < D \/ e + 1074 = D \/ D < e + 1074) by lia. destruct C as [G|[G|G]].
    + assert (ED : 2 ^ D = 2 ^ (D - (e + 1074)) * 2 ^ (e + 1074)) by (rewrite <- Z.pow_add_r by lia; f_equal; lia). rewrite ED, Z.mul_assoc in E2.
      apply Z.mul_reg_r in E2; [|pose proof (pow_pos' (e + 1074) ltac:(lia)); lia]. specialize (L ltac:(lia)).
      assert (X : 2 <= 2 ^ (D - (e + 1074))) by (change 2 with (2 ^ 1) at 1; apply Z.pow_le_mono_r; lia). nia.
    + rewrite G in E2. apply Z.mul_reg_r in E2; [|lia]. subst q. rewrite <- Z.negb_even, Ev in Od. discriminate.
    + assert (ED : 2 ^ (e + 1074) = 2 ^ (e + 1074 - D) * 2 ^ D) by (rewrite <- Z.pow_add_r by lia; f_equal; lia). rewrite ED, Z.mul_assoc in E2.
      apply Z.mul_reg_r in E2; [|lia]. subst q. rewrite Z.odd_mul, (Z.odd_pow 2) in Od by lia. rewrite Bool.andb_false_r in Od. discriminate.
Qed.

(** ** Nearest *)
Lemma large_frac : frac (2 ^ 1024 - 2 ^ 970)%Q half_way 1.
Proof.
  assert (P : 0 < half_way) by (apply Z.mul_pos_pos; [reflexivity|apply pow_pos'; discriminate]).
  split; [lia|]. split; [lia|]. rewrite Z.mul_1_l.
  rewrite (qpow_int 2 1024), (qpow_int 2 970) by discriminate. unfold half_way.
  replace 1024 with (54 + 970) by lia. rewrite (Z.pow_add_r 2 54 970) by discriminate.
  assert (E : 2 ^ 2044 = 2 ^ 970 * unit) by (replace 2044 with (970 + 1074) by lia; rewrite Z.pow_add_r by discriminate; reflexivity).
  rewrite E. rewrite !inject_Z_mult. unfold Zminus. rewrite inject_Z_plus, inject_Z_opp. ring.
Qed.
Lemma frac_nonneg : forall q a b, frac q a b -> (0 <= q)%Q.
Proof.
  intros q a b (A & B & H). assert (P : (0 < inject_Z (b * unit))%Q) by (apply inject_pos, Z.mul_pos_pos; [exact B|exact unit_pos]).
  apply (Qmult_le_r 0 q _ P). rewrite H, Qmult_0_l. change 0%Q with (inject_Z 0). apply inject_le. exact A.
Qed.
Lemma too_large_iff : forall q a b, frac q a b -> (too_large q <-> limit <= rndq a b).
Proof.
  intros q a b H. unfold too_large. rewrite (Qabs_pos q (frac_nonneg q a b H)). rewrite (frac_le _ _ _ _ _ _ large_frac H).
  destruct H as (A & B & _). rewrite (rndq_limit a b A B). rewrite Z.mul_1_r. reflexivity.
Qed.
Lemma magnitude_nonneg : forall x, (0 <= magnitude x)%Q.
Proof.
  intros [s|s| |s m e]; try apply Qle_refl. cbn [magnitude]. apply Qmult_le_0_compat; [apply Qlt_le_weak, inject_pos; lia|]. apply Qpower_pos. discriminate.
Qed.
Lemma magnitude_pos : forall s m e, (0 < magnitude (S754_finite s m e))%Q.
Proof. intros s m e. cbn [magnitude]. apply Qmult_lt_0_compat; [apply inject_pos; lia|]. apply Qpower_0_lt. reflexivity. Qed.
Lemma number_abs : forall x, float_number x -> exists v, holds (SFabs x) v /\ frac (magnitude x) v 1.
Proof.
  intros x H. destruct x as [s|s| |s m e]; try contradiction.
  - exists 0. split; [constructor|]. apply (holds_frac (S754_zero s)). constructor.
  - exists (units m e). split; [constructor; apply bounded_iff; exact H|]. apply (holds_frac (S754_finite false m e)). constructor. apply bounded_iff. exact H.
Qed.
(** numbers of the other sign are no nearer than zero *)
Lemma dist_abs : forall q y, (0 <= q)%Q -> (Qabs (q - magnitude y) <= Qabs (q - fvalue y))%Q.
Proof.
  intros q y H. unfold fvalue, signed. destruct (negative y); [|apply Qle_refl]. pose proof (magnitude_nonneg y).
  rewrite (Qabs_pos (q - - magnitude y)) by lra. apply Qabs_case; lra.
Qed.
Lemma nearest_iff : forall q a b x, frac q a b -> rndq a b < limit -> (nearest q x <-> holds x (rndq a b)).
Proof.
  intros q a b x H L. pose proof H as (A & B & _). pose proof (frac_nonneg _ _ _ H) as Q0.
  destruct (rep_holds _ (rndq_rep a b A B) L) as [x' Hx'].
  assert (D : forall y w, frac (magnitude y) w 1 -> frac (Qabs (q - magnitude y)) (Z.abs (a - w * b)) b) by (intros y w W; apply frac_dist; assumption).
  split.
  - intros [F N]. assert (Pos : exists v, holds x v).
    { destruct x as [s|s| |[|] m e]; try contradiction; [exists 0; constructor| |exists (units m e); constructor; apply bounded_iff; exact F].
      exfalso. destruct (N (S754_zero false) I) as [N1 _]. pose proof (magnitude_pos true m e) as Mp. unfold fvalue in N1. cbn [negative signed] in N1.
      set (mg := magnitude (S754_finite true m e)) in *. change (magnitude (S754_zero false)) with 0%Q in N1.
      rewrite !Qabs_pos in N1 by lra. lra. }
    destruct Pos as [v Hv]. destruct (N x' (number_holds _ _ Hx')) as [N1 N2].
    rewrite (holds_fvalue x v Hv), (holds_fvalue x' _ Hx') in N1, N2.
    rewrite (frac_le _ _ _ _ _ _ (D x v (holds_frac _ _ Hv)) (D x' _ (holds_frac _ _ Hx'))) in N1. apply Z.mul_le_mono_pos_r in N1; [|exact B].
    destruct (rndq_nearest a b v A B (holds_rep _ _ Hv)) as [M1 _]. assert (E : Z.abs (a - rndq a b * b) = Z.abs (a - v * b)) by lia.
    destruct (rndq_tie a b v A B (holds_rep _ _ Hv) E) as [<-|(R & o & E1 & E2 & Ev & Od & _ & LD)]; [exact Hv|].
    destruct N2 as [N2|N2].
    + apply (frac_eq _ _ _ _ _ _ (D x v (holds_frac _ _ Hv)) (D x' _ (holds_frac _ _ Hx'))). lia.
    + apply (frac_eq _ _ _ _ _ _ (holds_frac _ _ Hx') (holds_frac _ _ Hv)) in N2. rewrite !Z.mul_1_r in N2. rewrite N2. exact Hv.
    + exfalso. rewrite E2 in Hv. apply (holds_odd _ _ _ Hv (drop_nonneg _) Od); [intro HD; apply LD; exact HD|exact N2].
  - intro Hx. split; [exact (number_holds _ _ Hx)|]. intros y Hy. destruct (number_abs y Hy) as (w & Hw & Fw).
    rewrite (holds_fvalue x _ Hx).
    destruct (rndq_nearest a b w A B (holds_rep _ _ Hw)) as [M1 M2].
    assert (N1 : (Qabs (q - magnitude x) <= Qabs (q - magnitude y))%Q).
    { apply (frac_le _ _ _ _ _ _ (D x _ (holds_frac _ _ Hx)) (D y w Fw)). apply Z.mul_le_mono_nonneg_r; lia. }
    pose proof (dist_abs q y Q0) as N3. split; [eapply Qle_trans; eassumption|]. intro E.
    assert (E' : (Qabs (q - magnitude x) == Qabs (q - magnitude y))%Q) by lra.
    apply (frac_eq _ _ _ _ _ _ (D x _ (holds_frac _ _ Hx)) (D y w Fw)) in E'. apply Z.mul_reg_r in E'; [|lia].
    assert (Ey : (fvalue y == magnitude y)%Q).
    { unfold fvalue, signed. destruct (negative y) eqn:S; [|reflexivity]. assert (Z0 : (magnitude y == 0)%Q); [|lra].
      (* a negative number would have to be as near as zero *)
      destruct (rndq_nearest a b 0 A B (holds_rep _ _ (holds_zero false))) as [M0 _]. 
      assert (N0 : (Qabs (q - magnitude x) <= Qabs (q - magnitude (S754_zero false)))%Q).
      { apply (frac_le _ _ _ _ _ _ (D x _ (holds_frac _ _ Hx)) (D (S754_zero false) 0 (holds_frac _ _ (holds_zero false)))). apply Z.mul_le_mono_nonneg_r; lia. }
      change (magnitude (S754_zero false)) with 0%Q in N0. rewrite E in N0. unfold fvalue, signed in N0. rewrite S in N0. pose proof (magnitude_nonneg y) as My.
      rewrite !Qabs_pos in N0 by lra. lra. }
    destruct (M2 E') as [->|(R & Ev & ER & U & LD)].
    + left. rewrite Ey. apply (frac_eq _ _ _ _ _ _ Fw (holds_frac _ _ Hx)). reflexivity.
    + right. rewrite ER in Hx. apply (holds_even _ _ _ Hx (drop_nonneg _) Ev U LD).
Qed.
