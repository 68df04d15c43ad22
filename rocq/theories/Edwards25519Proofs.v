(** The curve library computes in a commutative group: the formulas of ge.go
    are the group law, the multiplication by a scalar is the multiple, the
    base point has the order of const.go. *)
From Coq Require Import Lia ZifyBool ZifyNat ZifyN Field Eqdep_dec.
From Verif Require Import Base Primes25519 NumberTheory Field25519 EdwardsLaw GroupMultiples LittleEndian
  Edwards25519Model.
Local Open Scope Z_scope.

Declare Scope gf_scope.
Delimit Scope gf_scope with gf.
Infix "+" := gadd : gf_scope.
Infix "*" := gmul : gf_scope.
Infix "-" := gsub : gf_scope.
Infix "/" := gdiv : gf_scope.
Notation "- x" := (gopp x) : gf_scope.

Add Field gf_fieldF : gf_field.

Definition gon (x y : gf) : Prop := on_curve gf gone gadd gmul gopp ge_d x y.
Definition gsx (x1 y1 x2 y2 : gf) : gf := ed_x gf gone gadd gmul gdiv ge_d x1 y1 x2 y2.
Definition gsy (x1 y1 x2 y2 : gf) : gf := ed_y gf gone gadd gmul gsub gdiv ge_d x1 y1 x2 y2.
Definition gk (x1 y1 x2 y2 : gf) : gf := ed_k gf gmul ge_d x1 y1 x2 y2.

(** ** The constants *)

Lemma sqrt_m1_square : (sqrt_m1 * sqrt_m1 = - gone)%gf.
Proof. apply geqb_eq. vm_compute. reflexivity. Qed.

Lemma d2_eq : ge_d2 = (ge_d + ge_d)%gf.
Proof. apply geqb_eq. vm_compute. reflexivity. Qed.

Lemma d_value : (ge_d * gof 121666 = - gof 121665)%gf.
Proof. apply geqb_eq. vm_compute. reflexivity. Qed.

Lemma two_nonzero25519 : (gone + gone <> gzero)%gf.
Proof. 
  intro H. apply geqb_eq in H.
  assert (X : geqb (gone + gone)%gf gzero = false) by (vm_compute; reflexivity). congruence.
Qed.

Lemma one_nonzero : gone <> gzero.
Proof. exact (F_1_neq_0 gf_field). Qed.

Lemma gzero_pow e : gpow_pos gzero e = gzero.
Proof.
  induction e; cbn [gpow_pos]; [rewrite IHe|rewrite IHe|reflexivity]; ring.
Qed.

(** Euler: a square has the power [(p - 1) / 2] equal to one *)
Definition euler : positive := Z.to_pos ((p25519 - 1) / 2).

Lemma euler_square x : x <> gzero -> gpow_pos (x * x)%gf euler = gone.
Proof.
  intro X. rewrite gpow_mult, gpow_add. exact (gf_fermat x X).
Qed.

Lemma d_euler : gpow_pos ge_d euler = (- gone)%gf.
Proof. apply geqb_eq. vm_compute. reflexivity. Qed.

Lemma d_nonsquare25519 x : (x * x)%gf <> ge_d.
Proof.
  intro E. destruct (gf_dec x gzero) as [X|X].
  - subst x. assert (Z0 : geqb ge_d gzero = true).
    { apply geqb_eq. rewrite <- E. ring. }
    assert (X : geqb ge_d gzero = false) by (vm_compute; reflexivity). congruence.
  - pose proof (euler_square x X) as H. rewrite E, d_euler in H.
    apply geqb_eq in H.
    assert (Y : geqb (- gone)%gf gone = false) by (vm_compute; reflexivity). congruence.
Qed.

Opaque gone gzero gadd gmul gsub gopp ginv gdiv gof ge_d ge_d2 sqrt_m1.

(** [field] leaves the one unfolded in its side conditions *)
Ltac show_one :=
  repeat match goal with |- context [mkgf 1 ?p] => change (mkgf 1 p) with gone end.

(** ** The group law *)

Lemma gk_plus x1 y1 x2 y2 : gon x1 y1 -> gon x2 y2 -> (gone + gk x1 y1 x2 y2 <> gzero)%gf.
Proof.
  exact (complete_plus gf gzero gone gadd gmul gsub gopp gdiv ginv gf_field ge_d sqrt_m1 gf_dec
           sqrt_m1_square d_nonsquare25519 two_nonzero25519 x1 y1 x2 y2).
Qed.

Lemma gk_minus x1 y1 x2 y2 : gon x1 y1 -> gon x2 y2 -> (gone - gk x1 y1 x2 y2 <> gzero)%gf.
Proof.
  exact (complete_minus gf gzero gone gadd gmul gsub gopp gdiv ginv gf_field ge_d sqrt_m1 gf_dec
           sqrt_m1_square d_nonsquare25519 two_nonzero25519 x1 y1 x2 y2).
Qed.

Lemma gs_on x1 y1 x2 y2 : gon x1 y1 -> gon x2 y2 -> gon (gsx x1 y1 x2 y2) (gsy x1 y1 x2 y2).
Proof.
  exact (ed_on_curve gf gzero gone gadd gmul gsub gopp gdiv ginv gf_field ge_d sqrt_m1 gf_dec
           sqrt_m1_square d_nonsquare25519 two_nonzero25519 x1 y1 x2 y2).
Qed.

Lemma gs_assoc x1 y1 x2 y2 x3 y3 : gon x1 y1 -> gon x2 y2 -> gon x3 y3 ->
  gsx (gsx x1 y1 x2 y2) (gsy x1 y1 x2 y2) x3 y3 = gsx x1 y1 (gsx x2 y2 x3 y3) (gsy x2 y2 x3 y3) /\
  gsy (gsx x1 y1 x2 y2) (gsy x1 y1 x2 y2) x3 y3 = gsy x1 y1 (gsx x2 y2 x3 y3) (gsy x2 y2 x3 y3).
Proof.
  exact (ed_assoc gf gzero gone gadd gmul gsub gopp gdiv ginv gf_field ge_d sqrt_m1 gf_dec
           sqrt_m1_square d_nonsquare25519 two_nonzero25519 x1 y1 x2 y2 x3 y3).
Qed.

Lemma gmul_zero a b : (a * b = gzero)%gf -> a = gzero \/ b = gzero.
Proof. exact (mul_zero gf gzero gone gadd gmul gsub gopp gdiv ginv gf_field gf_dec a b). Qed.

Lemma gmul_nonzero a b : a <> gzero -> b <> gzero -> (a * b <> gzero)%gf.
Proof. intros A B H. apply gmul_zero in H. tauto. Qed.

Lemma on_curveb_iff x y : on_curveb x y = true <-> gon x y.
Proof. unfold on_curveb. rewrite geqb_eq. reflexivity. Qed.

Lemma point_on p : gon (px p) (py p).
Proof. apply on_curveb_iff. exact (pon p). Qed.

Lemma point_eq p q : px p = px q -> py p = py q -> p = q.
Proof.
  destruct p as [x y H], q as [x' y' H']. cbn [px py]. intros E1 E2. subst x' y'. f_equal.
  apply UIP_dec. apply bool_dec.
Qed.

Lemma point_at_x x y : gon x y -> px (point_at x y) = x.
Proof.
  intro H. apply on_curveb_iff in H. unfold point_at.
  destruct (bool_dec (on_curveb x y) true) as [E|E]; [reflexivity|tauto].
Qed.

Lemma point_at_y x y : gon x y -> py (point_at x y) = y.
Proof.
  intro H. apply on_curveb_iff in H. unfold point_at.
  destruct (bool_dec (on_curveb x y) true) as [E|E]; [reflexivity|tauto].
Qed.

(** the sum and the negative of points: the specification *)
Definition psum (p q : point) : point :=
  point_at (gsx (px p) (py p) (px q) (py q)) (gsy (px p) (py p) (px q) (py q)).
Definition pneg (p : point) : point := point_at (- px p)%gf (py p).

Lemma psum_x p q : px (psum p q) = gsx (px p) (py p) (px q) (py q).
Proof. apply point_at_x. apply gs_on; apply point_on. Qed.
Lemma psum_y p q : py (psum p q) = gsy (px p) (py p) (px q) (py q).
Proof. apply point_at_y. apply gs_on; apply point_on. Qed.

Lemma neg_on x y : gon x y -> gon (- x)%gf y.
Proof.
  unfold gon, on_curve. intro H.
  replace (- x * - x)%gf with (x * x)%gf by ring. exact H.
Qed.

Lemma pneg_x p : px (pneg p) = (- px p)%gf.
Proof. apply point_at_x. apply neg_on. apply point_on. Qed.
Lemma pneg_y p : py (pneg p) = py p.
Proof. apply point_at_y. apply neg_on. apply point_on. Qed.

Lemma psum_comm p q : psum p q = psum q p.
Proof.
  pose proof (gk_plus _ _ _ _ (point_on p) (point_on q)) as A.
  pose proof (gk_minus _ _ _ _ (point_on p) (point_on q)) as B.
  apply point_eq; rewrite ?psum_x, ?psum_y; unfold gsx, gsy, ed_x, ed_y, gk, ed_k in *.
  - replace (ge_d * px q * px p * py q * py p)%gf with (ge_d * px p * px q * py p * py q)%gf by ring.
    field. exact A.
  - replace (ge_d * px q * px p * py q * py p)%gf with (ge_d * px p * px q * py p * py q)%gf by ring.
    field. exact B.
Qed.

Lemma psum_assoc p q r : psum (psum p q) r = psum p (psum q r).
Proof.
  destruct (gs_assoc _ _ _ _ _ _ (point_on p) (point_on q) (point_on r)) as [A B].
  apply point_eq.
  - rewrite (psum_x (psum p q)), (psum_x p (psum q r)), !psum_x, !psum_y. exact A.
  - rewrite (psum_y (psum p q)), (psum_y p (psum q r)), !psum_x, !psum_y. exact B.
Qed.

Lemma null_x : px point_null = gzero.
Proof. reflexivity. Qed.
Lemma null_y : py point_null = gone.
Proof. reflexivity. Qed.

Lemma psum_null p : psum p point_null = p.
Proof.
  apply point_eq; rewrite ?psum_x, ?psum_y, ?null_x, ?null_y; unfold gsx, gsy, ed_x, ed_y, ed_k.
  - field. exact one_nonzero.
  - field. exact one_nonzero.
Qed.

Lemma psum_pneg p : psum p (pneg p) = point_null.
Proof.
  pose proof (gk_plus _ _ _ _ (point_on p) (neg_on _ _ (point_on p))) as A.
  pose proof (gk_minus _ _ _ _ (point_on p) (neg_on _ _ (point_on p))) as B.
  pose proof (point_on p) as H.
  apply point_eq; rewrite ?psum_x, ?psum_y, ?null_x, ?null_y, ?pneg_x, ?pneg_y;
    unfold gsx, gsy, ed_x, ed_y, gk, ed_k, gon, on_curve in *.
  - field. exact A.
  - transitivity ((- (px p * px p) + py p * py p) / (gone + ge_d * (px p * px p) * (py p * py p)))%gf.
    + replace (gone + ge_d * (px p * px p) * (py p * py p))%gf
        with (gone - ge_d * px p * - px p * py p * py p)%gf by ring. field. exact B.
    + rewrite H. field. show_one. intro Z0. apply B. rewrite <- Z0. ring.
Qed.

Notation "n ** p" := (zmul point point_null psum pneg n p) (at level 40).

(** ** The coordinates of ge.go *)

Definition xrep (e : extended) (p : point) : Prop :=
  eZ e <> gzero /\ eX e = (px p * eZ e)%gf /\ eY e = (py p * eZ e)%gf /\
  eT e = (px p * py p * eZ e)%gf.

Definition prep (e : projective) (p : point) : Prop :=
  pZ e <> gzero /\ pX e = (px p * pZ e)%gf /\ pY e = (py p * pZ e)%gf.

Definition crep (e : completed) (p : point) : Prop :=
  cZ e <> gzero /\ cT e <> gzero /\ cX e = (px p * cZ e)%gf /\ cY e = (py p * cT e)%gf.

Definition hrep (e : cached) (p : point) : Prop :=
  hZ e <> gzero /\ yPlusX e = ((py p + px p) * hZ e)%gf /\ yMinusX e = ((py p - px p) * hZ e)%gf /\
  hT2d e = (ge_d2 * (px p * py p * hZ e))%gf.

Lemma xrep_lift p : xrep (lift p) p.
Proof.
  unfold xrep, lift. cbn [eX eY eZ eT]. repeat split; try ring. exact one_nonzero.
Qed.

Lemma xrep_zero : xrep ext_zero point_null.
Proof.
  unfold xrep, ext_zero. cbn [eX eY eZ eT]. rewrite null_x, null_y. repeat split; try ring. exact one_nonzero.
Qed.

Lemma hrep_zero : hrep cached_zero point_null.
Proof.
  unfold hrep, cached_zero. cbn [yPlusX yMinusX hZ hT2d]. rewrite null_x, null_y. repeat split; try ring. exact one_nonzero.
Qed.

Lemma hrep_neg e p : hrep e p -> hrep (cached_neg e) (pneg p).
Proof.
  unfold hrep, cached_neg. cbn [yPlusX yMinusX hZ hT2d]. rewrite pneg_x, pneg_y.
  intros [Z0 [A [B C]]]. rewrite A, B, C. repeat split; try ring. exact Z0.
Qed.

Lemma hrep_cached e p : xrep e p -> hrep (to_cached e) p.
Proof.
  unfold hrep, xrep, to_cached. cbn [yPlusX yMinusX hZ hT2d].
  intros [Z0 [A [B C]]]. rewrite A, B, C. repeat split; try ring. exact Z0.
Qed.

Lemma prep_comp e p : crep e p -> prep (comp_projective e) p.
Proof.
  unfold prep, crep, comp_projective. cbn [pX pY pZ].
  intros [Z0 [T0 [A B]]]. rewrite A, B. repeat split; try ring. apply gmul_nonzero; assumption.
Qed.

Lemma xrep_comp e p : crep e p -> xrep (comp_extended e) p.
Proof.
  unfold xrep, crep, comp_extended. cbn [eX eY eZ eT].
  intros [Z0 [T0 [A B]]]. rewrite A, B. repeat split; try ring. apply gmul_nonzero; assumption.
Qed.

(** the addition formula *)
Lemma crep_add e h p q : xrep e p -> hrep h q -> crep (ge_add e h) (psum p q).
Proof.
  unfold xrep, hrep, crep, ge_add. cbn [cX cY cZ cT].
  intros [Z1 [A1 [B1 C1]]] [Z2 [A2 [B2 C2]]].
  pose proof (gk_plus _ _ _ _ (point_on p) (point_on q)) as KP.
  pose proof (gk_minus _ _ _ _ (point_on p) (point_on q)) as KM.
  rewrite psum_x, psum_y. rewrite A1, B1, C1, A2, B2, C2, d2_eq.
  unfold gsx, gsy, ed_x, ed_y, gk in *. set (k := ed_k _ _ _ _ _ _ _) in *.
  set (z1 := eZ e) in *. set (z2 := hZ h) in *.
  set (x1 := px p) in *. set (y1 := py p) in *. set (x2 := px q) in *. set (y2 := py q) in *.
  assert (KD : (k = ge_d * x1 * x2 * y1 * y2)%gf) by reflexivity.
  assert (EZ : (z1 * z2 + z1 * z2 + (ge_d + ge_d) * (x2 * y2 * z2) * (x1 * y1 * z1)
                = (gone + gone) * (z1 * z2) * (gone + k))%gf) by (rewrite KD; ring).
  assert (ET : (z1 * z2 + z1 * z2 - (ge_d + ge_d) * (x2 * y2 * z2) * (x1 * y1 * z1)
                = (gone + gone) * (z1 * z2) * (gone - k))%gf) by (rewrite KD; ring).
  rewrite EZ, ET. clearbody k z1 z2 x1 y1 x2 y2.
  repeat split.
  - repeat apply gmul_nonzero; try assumption. exact two_nonzero25519.
  - repeat apply gmul_nonzero; try assumption. exact two_nonzero25519.
  - field. exact KP.
  - field. exact KM.
Qed.

Lemma crep_sub e h p q : xrep e p -> hrep h q -> crep (ge_sub e h) (psum p (pneg q)).
Proof.
  intros E H. pose proof (crep_add e (cached_neg h) p (pneg q) E (hrep_neg h q H)) as R.
  unfold ge_add, cached_neg in R. cbn [yPlusX yMinusX hZ hT2d] in R.
  unfold ge_sub. unfold crep in *. cbn [cX cY cZ cT] in *.
  replace (- hT2d h * eT e)%gf with (- (hT2d h * eT e))%gf in R by ring.
  set (t := (hT2d h * eT e)%gf) in *.
  set (z := (eZ e * hZ h)%gf) in *.
  replace (z + z - t)%gf with (z + z + - t)%gf by ring.
  replace (z + z + t)%gf with (z + z - - t)%gf by ring. exact R.
Qed.

(** the doubling formula *)
Lemma crep_double e p : prep e p -> crep (proj_double e) (psum p p).
Proof.
  unfold prep, crep, proj_double, gsquare, gsquare2. cbn [cX cY cZ cT].
  intros [Z1 [A1 B1]].
  pose proof (gk_plus _ _ _ _ (point_on p) (point_on p)) as KP.
  pose proof (gk_minus _ _ _ _ (point_on p) (point_on p)) as KM.
  pose proof (point_on p) as ON. unfold gon, on_curve in ON.
  rewrite psum_x, psum_y. rewrite A1, B1.
  unfold gsx, gsy, ed_x, ed_y, gk in *. set (k := ed_k _ _ _ _ _ _ _) in *.
  set (z := pZ e) in *. set (x := px p) in *. set (y := py p) in *.
  assert (KD : (k = ge_d * x * x * y * y)%gf) by reflexivity.
  assert (EZ : (y * z * (y * z) - x * z * (x * z) = (gone + k) * (z * z))%gf).
  { transitivity ((- (x * x) + y * y) * (z * z))%gf; [ring|]. rewrite ON, KD. ring. }
  rewrite EZ.
  assert (ET : (z * z + z * z - (gone + k) * (z * z) = (gone - k) * (z * z))%gf) by ring.
  rewrite ET. clearbody k z x y.
  repeat split.
  - repeat apply gmul_nonzero; assumption.
  - repeat apply gmul_nonzero; assumption.
  - field. exact KP.
  - field. exact KM.
Qed.

(** ** Inversion *)

Fixpoint iter2 (n : nat) (e : positive) : positive :=
  match n with O => e | S n => iter2 n (xO e) end.

Lemma squares_pow n a e : squares n (gpow_pos a e) = gpow_pos a (iter2 n e).
Proof.
  revert e. induction n; intro e; [reflexivity|]. cbn [squares iter2]. unfold gsquare.
  rewrite gpow_add. replace (e + e)%positive with (xO e) by lia. apply IHn.
Qed.

Lemma gsquare_pow a e : gsquare (gpow_pos a e) = gpow_pos a (xO e).
Proof. reflexivity. Qed.

Lemma gpow_1 a : gpow_pos a 1 = a.
Proof. reflexivity. Qed.

Ltac powers :=
  repeat (rewrite ?gsquare_pow, ?squares_pow, ?gpow_add); f_equal; vm_compute; reflexivity.

Lemma fe_invert_eq z : fe_invert z = ginv z.
Proof.
  rewrite ginv_pow. change (fe_invert (gpow_pos z 1) = gpow_pos z (Z.to_pos (p25519 - 2))).
  unfold fe_invert. powers.
Qed.

Lemma fe_pow22523_eq z : fe_pow22523 z = gpow_pos z (Z.to_pos ((p25519 - 5) / 8)).
Proof.
  change (fe_pow22523 (gpow_pos z 1) = gpow_pos z (Z.to_pos ((p25519 - 5) / 8))).
  unfold fe_pow22523. powers.
Qed.

(** ** Points *)

Lemma lower_rep e p : xrep e p -> lower e = p.
Proof.
  intros [Z0 [A [B _]]]. unfold lower. rewrite fe_invert_eq, A, B.
  assert (EX : (px p * eZ e * ginv (eZ e) = px p)%gf).
  { transitivity (px p * (ginv (eZ e) * eZ e))%gf; [ring|]. rewrite gf_inverse by exact Z0. ring. }
  assert (EY : (py p * eZ e * ginv (eZ e) = py p)%gf).
  { transitivity (py p * (ginv (eZ e) * eZ e))%gf; [ring|]. rewrite gf_inverse by exact Z0. ring. }
  cbv zeta. rewrite EX, EY.
  apply point_eq; [apply point_at_x | apply point_at_y]; apply point_on.
Qed.

(** the representative does not matter *)
Theorem add_representative e1 e2 p q : xrep e1 p -> xrep e2 q ->
  lower (comp_extended (ge_add e1 (to_cached e2))) = psum p q.
Proof. intros A B. apply lower_rep, xrep_comp, crep_add; [exact A|apply hrep_cached; exact B]. Qed.

Theorem sub_representative e1 e2 p q : xrep e1 p -> xrep e2 q ->
  lower (comp_extended (ge_sub e1 (to_cached e2))) = psum p (pneg q).
Proof. intros A B. apply lower_rep, xrep_comp, crep_sub; [exact A|apply hrep_cached; exact B]. Qed.

Theorem point_add_eq p q : point_add p q = psum p q.
Proof. apply add_representative; apply xrep_lift. Qed.

Theorem point_sub_eq p q : point_sub p q = psum p (pneg q).
Proof. apply sub_representative; apply xrep_lift. Qed.

(** ** Multiples *)

Lemma zm_add x y p : (x + y) ** p = psum (x ** p) (y ** p).
Proof. exact (zmul_add point point_null psum pneg psum_comm psum_assoc psum_null psum_pneg x y p). Qed.
Lemma zm_mul x y p : (x * y) ** p = x ** (y ** p).
Proof. exact (zmul_mul point point_null psum pneg psum_comm psum_assoc psum_null psum_pneg x y p). Qed.
Lemma zm_opp x p : (- x) ** p = pneg (x ** p).
Proof. exact (zmul_opp point point_null psum pneg psum_comm psum_assoc psum_null psum_pneg x p). Qed.
Lemma zm_1 p : 1 ** p = p.
Proof. exact (zmul_1 point point_null psum pneg psum_comm psum_assoc psum_null psum_pneg p). Qed.
Lemma zm_0 p : 0 ** p = point_null.
Proof. reflexivity. Qed.

Fixpoint hreps (l : list cached) (k : Z) (p : point) : Prop :=
  match l with
  | [] => True
  | h :: l => hrep h (k ** p) /\ hreps l (k + 1) p
  end.

Lemma hreps_multiples n A p : xrep A p -> forall last k, hrep last (k ** p) -> hreps (multiples n A last) (k + 1) p.
Proof.
  intro HA. induction n; intros last k H; cbn [multiples hreps]; [exact I|].
  assert (N : hrep (to_cached (comp_extended (ge_add A last))) ((k + 1) ** p)).
  { apply hrep_cached, xrep_comp. rewrite Z.add_comm, zm_add, zm_1. apply crep_add; assumption. }
  split; [exact N|]. apply IHn. exact N.
Qed.

Lemma hreps_table A p : xrep A p -> hreps (table A) 1 p.
Proof.
  intro HA. unfold table. cbn [hreps].
  assert (N : hrep (to_cached A) (1 ** p)) by (rewrite zm_1; apply hrep_cached; exact HA).
  split; [exact N|]. apply (hreps_multiples 7 A p HA _ 1 N).
Qed.

Lemma table_list A : exists a1 a2 a3 a4 a5 a6 a7 a8, table A = [a1; a2; a3; a4; a5; a6; a7; a8].
Proof. unfold table. cbn [multiples]. do 8 eexists. reflexivity. Qed.

Lemma select_rep A p b : xrep A p -> -8 <= b <= 8 -> hrep (select_cached (table A) b) (b ** p).
Proof.
  intros HA B. pose proof (hreps_table A p HA) as H.
  destruct (table_list A) as (a1 & a2 & a3 & a4 & a5 & a6 & a7 & a8 & E).
  rewrite E in *. cbn [hreps] in H. cbn [Z.add Pos.add Pos.succ] in H.
  destruct H as (H1 & H2 & H3 & H4 & H5 & H6 & H7 & H8 & _).
  assert (C : b = -8 \/ b = -7 \/ b = -6 \/ b = -5 \/ b = -4 \/ b = -3 \/ b = -2 \/ b = -1 \/ b = 0 \/
              b = 1 \/ b = 2 \/ b = 3 \/ b = 4 \/ b = 5 \/ b = 6 \/ b = 7 \/ b = 8) by lia.
  assert (NEG : forall k h, hrep h (k ** p) -> hrep (cached_neg h) ((- k) ** p)).
  { intros k h K. rewrite zm_opp. apply hrep_neg. exact K. }
  repeat (destruct C as [C|C]);
    subst b; unfold select_cached; cbn -[cached_neg cached_zero zmul hrep];
    first [assumption | exact hrep_zero
          | match goal with |- hrep (cached_neg ?h) (?z ** p) =>
              match goal with H : hrep h (?k ** p) |- _ => exact (NEG k h H) end end].
Qed.

(** digits beyond the table count as zero *)
Lemma select_far A b : 8 < b -> select_cached (table A) b = cached_zero.
Proof.
  intro B. destruct (table_list A) as (a1 & a2 & a3 & a4 & a5 & a6 & a7 & a8 & E).
  rewrite E. unfold select_cached. cbn [combine fold_left].
  replace (b <? 0) with false by lia.
  repeat match goal with |- context [b =? ?k + 1] => replace (b =? k + 1) with false by lia end.
  reflexivity.
Qed.

Lemma crep_double4 t q : crep t q -> crep (double4 t) (16 ** q).
Proof.
  intro H. unfold double4.
  assert (D : forall t q, crep t q -> crep (proj_double (comp_projective t)) (psum q q)).
  { intros t' q' H'. apply crep_double, prep_comp. exact H'. }
  replace (16 ** q) with (psum (psum (psum (psum q q) (psum q q)) (psum (psum q q) (psum q q)))
                               (psum (psum (psum q q) (psum q q)) (psum (psum q q) (psum q q)))).
  - do 4 apply D. exact H.
  - replace (psum q q) with (2 ** q) by (change 2 with (1 + 1); rewrite zm_add, zm_1; reflexivity).
    rewrite <- !zm_add. reflexivity.
Qed.

(** the number of the digits, least significant first *)
Fixpoint dval (e : list Z) : Z := match e with [] => 0 | x :: e => x + 16 * dval e end.

Lemma digits_fold A p e : xrep A p -> Forall (fun d => -8 <= d <= 8) e -> forall t v, crep t (v ** p) ->
  crep (fold_left (fun t d => ge_add (comp_extended (double4 t)) (select_cached (table A) d)) e t)
       (fold_left (fun a d => 16 * a + d) e v ** p).
Proof.
  intros HA F. induction F as [|d e D F IH]; intros t v H; cbn [fold_left]; [exact H|].
  apply IH. rewrite zm_add, zm_mul. apply crep_add.
  - apply xrep_comp, crep_double4. exact H.
  - apply select_rep; assumption.
Qed.

Lemma dval_rev e : fold_left (fun a d => 16 * a + d) (rev e) 0 = dval e.
Proof.
  induction e as [|x e IH]; cbn [rev dval]; [reflexivity|].
  rewrite fold_left_app. cbn [fold_left]. rewrite IH. ring.
Qed.

Lemma digits_rep A p e : xrep A p -> Forall (fun d => -8 <= d <= 8) e ->
  crep (ge_digits (table A) (rev e)) (dval e ** p).
Proof.
  intros HA F. rewrite <- dval_rev. apply Forall_rev in F.
  destruct (rev e) as [|top r].
  - cbn [ge_digits fold_left]. rewrite zm_0. rewrite <- (psum_null point_null).
    apply crep_add; [exact xrep_zero|exact hrep_zero].
  - inversion F; subst. unfold ge_digits. cbn [fold_left].
    apply digits_fold; [exact HA|assumption|].
    replace (16 * 0 + top) with (0 + top) by lia. rewrite zm_add, zm_0.
    apply crep_add; [exact xrep_zero|]. apply select_rep; assumption.
Qed.

(** the digits of a scalar *)
Lemma nybbles_val a : dval (nybbles a) = le_val a.
Proof.
  induction a as [|v a IH]; cbn [nybbles dval le_val]; [reflexivity|].
  rewrite IH. pose proof (b2z_range v).
  rewrite (Z.mod_small (b2z v / 16)) by (split; [apply Z.div_pos; lia|apply Z.div_lt_upper_bound; lia]).
  pose proof (Z.div_mod (b2z v) 16 ltac:(lia)). lia.
Qed.

Lemma nybbles_range a : Forall (fun d => 0 <= d < 16) (nybbles a).
Proof.
  induction a as [|v a IH]; cbn [nybbles]; [constructor|].
  constructor; [apply Z.mod_pos_bound; lia|]. constructor; [apply Z.mod_pos_bound; lia|exact IH].
Qed.

Lemma recode_val e c : e <> [] -> dval (recode e c) = dval e + c.
Proof.
  revert c. induction e as [|x e IH]; intros c N; [congruence|].
  destruct e as [|y e].
  - cbn [recode dval]. lia.
  - change (recode (x :: y :: e) c) with ((x + c - (x + c + 8) / 16 * 16) :: recode (y :: e) ((x + c + 8) / 16)).
    cbn [dval]. rewrite IH by discriminate. cbn [dval]. lia.
Qed.

(** all digits but the last are small; the last one is the last nybble, or one more *)
Lemma recode_range e c : 0 <= c <= 1 -> Forall (fun d => 0 <= d < 16) e -> e <> [] ->
  exists lo top, recode e c = lo ++ [top] /\ Forall (fun d => -8 <= d <= 8) lo /\
    last e 0 <= top <= last e 0 + 1 /\ length (recode e c) = length e.
Proof.
  intros C F. revert c C. induction F as [|x e X F IH]; intros c C N; [congruence|].
  destruct e as [|y e].
  - exists [], (x + c). cbn [recode last app length]. repeat split; [constructor|lia|lia].
  - assert (C' : 0 <= (x + c + 8) / 16 <= 1).
    { split; [apply Z.div_pos; lia|]. apply Z.lt_succ_r. apply Z.div_lt_upper_bound; lia. }
    destruct (IH _ C' ltac:(discriminate)) as (lo & top & E & L & T & LEN).
    exists ((x + c - (x + c + 8) / 16 * 16) :: lo), top.
    change (recode (x :: y :: e) c) with ((x + c - (x + c + 8) / 16 * 16) :: recode (y :: e) ((x + c + 8) / 16)).
    rewrite E. repeat split.
    + constructor; [|exact L].
      pose proof (Z.div_mod (x + c + 8) 16 ltac:(lia)). pose proof (Z.mod_pos_bound (x + c + 8) 16 ltac:(lia)). lia.
    + change (last (x :: y :: e) 0) with (last (y :: e) 0). lia.
    + change (last (x :: y :: e) 0) with (last (y :: e) 0). lia.
    + cbn [length]. rewrite <- E. rewrite LEN. reflexivity.
Qed.
