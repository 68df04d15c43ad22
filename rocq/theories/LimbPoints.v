(** Points at the level of machine integers: the formulas of ge.go on ten limbs
    per coordinate never overflow and compute what Edwards25519Model.v says, and
    the bytes of a point are the same in both. *)
From Coq Require Import String.
From Coq Require Import Lia ZifyBool ZifyNat ZifyN.
From Verif Require Import Base BaseFacts Primes25519 NumberTheory Field25519 GroupMultiples LittleEndian
  GoIntModel GoIntCheck LimbCode Edwards25519Model Edwards25519Proofs Edwards25519More Edwards25519Digits LimbModel LimbSpec LimbProofs.
Local Open Scope Z_scope.

Local Opaque l_mul l_square l_square2 l_bytes l_from.

(** ** Coordinates *)

(** the limbs stand for [a] and are at most [n] times as large as those that a
    multiplication leaves *)
Definition lim (n : Z) (f : fe) (a : gf) : Prop := bnd (n * te) (n * to_) f /\ gof (fval f) = a.

Lemma lim_wide n f a : n <= 3 -> lim n f a -> wide f.
Proof.
  intros N [B _]. refine (bnd_weaken _ _ _ _ _ _ _ B); unfold te, to_, me, mo; nia.
Qed.

Lemma lim_weaken n m f a : n <= m -> lim n f a -> lim m f a.
Proof.
  intros N [B V]. split; [|exact V]. refine (bnd_weaken _ _ _ _ _ _ _ B); unfold te, to_; nia.
Qed.

Lemma lim_tight f a : tight f -> gof (fval f) = a -> lim 1 f a.
Proof. intros B V. split; [|exact V]. rewrite !Z.mul_1_l. exact B. Qed.

Lemma lim_limbs f : tight f -> lim 1 f (limbs f).
Proof. intro B. apply lim_tight; [exact B|]. symmetry. apply limbs_fval. exact (bnd_length _ _ _ B). Qed.

Lemma add_lim n m f g a b : 0 <= n -> 0 <= m -> n + m <= 6 -> lim n f a -> lim m g b -> lim (n + m) (l_add f g) (gadd a b).
Proof.
  intros N M S [F A] [G B]. destruct (l_add_spec _ _ _ _ f g F G) as [L V].
  - unfold te. nia.
  - unfold to_. nia.
  - split; [rewrite !Z.mul_add_distr_r; exact L|]. rewrite V, <- A, <- B. symmetry. apply gadd_of.
Qed.

Lemma sub_lim n m f g a b : 0 <= n -> 0 <= m -> n + m <= 6 -> lim n f a -> lim m g b -> lim (n + m) (l_sub f g) (gsub a b).
Proof.
  intros N M S [F A] [G B]. destruct (l_sub_spec _ _ _ _ f g F G) as [L V].
  - unfold te. nia.
  - unfold to_. nia.
  - split; [rewrite !Z.mul_add_distr_r; exact L|]. rewrite V, <- A, <- B. symmetry. apply gsub_of.
Qed.

Lemma neg_lim n f a : 0 <= n <= 3 -> lim n f a -> lim n (l_neg f) (gopp a).
Proof.
  intros N [F A]. destruct (l_neg_spec _ _ f F) as [L V].
  - unfold te. nia.
  - unfold to_. nia.
  - split; [exact L|]. rewrite V, <- A. symmetry. apply gopp_of.
Qed.

Lemma mul_lim n m f g a b : n <= 3 -> m <= 3 -> lim n f a -> lim m g b -> lim 1 (l_mul f g) (gmul a b).
Proof.
  intros N M F G. destruct (l_mul_spec f g (lim_wide _ _ _ N F) (lim_wide _ _ _ M G)) as [L V].
  apply lim_tight; [exact L|]. destruct F as [_ <-], G as [_ <-]. rewrite gmul_of. apply gof_eq. exact V.
Qed.

Lemma square_lim n f a : n <= 3 -> lim n f a -> lim 1 (l_square f) (gsquare a).
Proof.
  intros N F. destruct (l_square_spec f (lim_wide _ _ _ N F)) as [L V].
  apply lim_tight; [exact L|]. destruct F as [_ <-]. unfold gsquare. rewrite gmul_of. apply gof_eq. exact V.
Qed.

Lemma square2_lim n f a : n <= 3 -> lim n f a -> lim 1 (l_square2 f) (gsquare2 a).
Proof.
  intros N F. destruct (l_square2_spec f (lim_wide _ _ _ N F)) as [L V].
  apply lim_tight; [exact L|]. destruct F as [_ <-]. unfold gsquare2. rewrite gmul_of, gadd_of. apply gof_eq.
  rewrite V. f_equal. ring.
Qed.

Lemma squares_lim n : forall f a, lim 1 f a -> lim 1 (l_squares n f) (squares n a).
Proof.
  induction n as [|n IH]; intros f a F; cbn [l_squares squares]; [exact F|].
  apply IH. apply (square_lim 1); [lia|exact F].
Qed.

Ltac small := vm_compute; discriminate.
Ltac tight_constant := apply lim_limbs; unfold tight, bnd, alternating, te, to_; repeat constructor; small.

Lemma zero_lim : lim 1 l_zero gzero.
Proof. change gzero with (gof (fval l_zero)). split; [|reflexivity]. repeat constructor; small. Qed.
Lemma one_lim : lim 1 l_one gone.
Proof. change gone with (gof (fval l_one)). split; [|reflexivity]. repeat constructor; small. Qed.
Lemma d_lim : lim 1 l_d ge_d.
Proof. change ge_d with (limbs l_d). tight_constant. Qed.
Lemma d2_lim : lim 1 l_d2 ge_d2.
Proof. change ge_d2 with (limbs l_d2). tight_constant. Qed.
Lemma sqrt_m1_lim : lim 1 l_sqrt_m1 sqrt_m1.
Proof. change sqrt_m1 with (limbs l_sqrt_m1). tight_constant. Qed.

(** fe.go:860-974 *)
Ltac chain := repeat first [apply (mul_lim 1 1); [lia|lia| |] | apply squares_lim | apply (square_lim 1); [lia|] | assumption].

Lemma invert_lim f a : lim 1 f a -> lim 1 (l_invert f) (fe_invert a).
Proof.
  intro F. unfold l_invert, fe_invert.
  repeat match goal with
  | |- lim 1 (let x := ?v in @?b x) (let y := ?w in @?c y) =>
      let L := fresh "L" in assert (L : lim 1 v w) by chain;
      revert L; generalize v, w; intros ? ? L; cbv beta
  end. chain.
Qed.

Lemma pow22523_lim f a : lim 1 f a -> lim 1 (l_pow22523 f) (fe_pow22523 a).
Proof.
  intro F. unfold l_pow22523, fe_pow22523.
  repeat match goal with
  | |- lim 1 (let x := ?v in @?b x) (let y := ?w in @?c y) =>
      let L := fresh "L" in assert (L : lim 1 v w) by chain;
      revert L; generalize v, w; intros ? ? L; cbv beta
  end. chain.
Qed.

(** ** The formulas of ge.go *)

Definition plim (p : lprojective) (e : projective) : Prop :=
  lim 1 (lpX p) (pX e) /\ lim 1 (lpY p) (pY e) /\ lim 1 (lpZ p) (pZ e).
Definition xlim (p : lextended) (e : extended) : Prop :=
  lim 2 (leX p) (eX e) /\ lim 1 (leY p) (eY e) /\ lim 1 (leZ p) (eZ e) /\ lim 1 (leT p) (eT e).
Definition clim (p : lcompleted) (e : completed) : Prop :=
  lim 3 (lcX p) (cX e) /\ lim 3 (lcY p) (cY e) /\ lim 3 (lcZ p) (cZ e) /\ lim 3 (lcT p) (cT e).
Definition hlim (p : lcached) (e : cached) : Prop :=
  lim 3 (lyPlusX p) (yPlusX e) /\ lim 3 (lyMinusX p) (yMinusX e) /\ lim 1 (lhZ p) (hZ e) /\ lim 1 (lhT2d p) (hT2d e).

Lemma double_lim p e : plim p e -> clim (l_double p) (proj_double e).
Proof.
  intros (X & Y & Z). unfold clim, l_double, proj_double. cbn [lcX lcY lcZ lcT cX cY cZ cT].
  pose proof (square_lim 1 _ _ ltac:(lia) X) as XX. pose proof (square_lim 1 _ _ ltac:(lia) Y) as YY.
  pose proof (square2_lim 1 _ _ ltac:(lia) Z) as ZZ.
  pose proof (add_lim 1 1 _ _ _ _ ltac:(lia) ltac:(lia) ltac:(lia) X Y) as XY.
  pose proof (square_lim 2 _ _ ltac:(lia) XY) as T0.
  pose proof (add_lim 1 1 _ _ _ _ ltac:(lia) ltac:(lia) ltac:(lia) YY XX) as RY.
  pose proof (sub_lim 1 1 _ _ _ _ ltac:(lia) ltac:(lia) ltac:(lia) YY XX) as RZ.
  split; [exact (sub_lim 1 2 _ _ _ _ ltac:(lia) ltac:(lia) ltac:(lia) T0 RY)|].
  split; [exact (lim_weaken 2 3 _ _ ltac:(lia) RY)|].
  split; [exact (lim_weaken 2 3 _ _ ltac:(lia) RZ)|].
  exact (sub_lim 1 2 _ _ _ _ ltac:(lia) ltac:(lia) ltac:(lia) ZZ RZ).
Qed.

Lemma to_cached_lim p e : xlim p e -> hlim (l_to_cached p) (to_cached e).
Proof.
  intros (X & Y & Z & T). unfold hlim, l_to_cached, to_cached. cbn [lyPlusX lyMinusX lhZ lhT2d yPlusX yMinusX hZ hT2d].
  split; [exact (add_lim 1 2 _ _ _ _ ltac:(lia) ltac:(lia) ltac:(lia) Y X)|].
  split; [exact (sub_lim 1 2 _ _ _ _ ltac:(lia) ltac:(lia) ltac:(lia) Y X)|].
  split; [exact Z|]. exact (mul_lim 1 1 _ _ _ _ ltac:(lia) ltac:(lia) T d2_lim).
Qed.

Lemma comp_projective_lim p e : clim p e -> plim (l_comp_projective p) (comp_projective e).
Proof.
  intros (X & Y & Z & T). unfold plim, l_comp_projective, comp_projective. cbn [lpX lpY lpZ pX pY pZ].
  split; [|split]; apply (mul_lim 3 3); try lia; assumption.
Qed.

Lemma comp_extended_lim p e : clim p e -> xlim (l_comp_extended p) (comp_extended e).
Proof.
  intros (X & Y & Z & T). unfold xlim, l_comp_extended, comp_extended. cbn [leX leY leZ leT eX eY eZ eT].
  split; [apply (lim_weaken 1); [lia|]|split; [|split]]; apply (mul_lim 3 3); try lia; assumption.
Qed.

(** the first four products of ge.go:180-210 *)
Lemma ge_parts (P M Z T X Y PZ PT : fe) p m z t x y pz pt :
  lim 3 P p -> lim 3 M m -> lim 1 Z z -> lim 1 T t -> lim 2 X x -> lim 1 Y y -> lim 1 PZ pz -> lim 1 PT pt ->
  let cZ := l_mul (l_add Y X) P in let cY := l_mul (l_sub Y X) M in let cT := l_mul T PT in
  let t0 := l_add (l_mul PZ Z) (l_mul PZ Z) in
  let dZ := gmul (gadd y x) p in let dY := gmul (gsub y x) m in let dT := gmul t pt in
  let d0 := gadd (gmul pz z) (gmul pz z) in
  lim 3 (l_sub cZ cY) (gsub dZ dY) /\ lim 3 (l_add cZ cY) (gadd dZ dY) /\
  lim 3 (l_add t0 cT) (gadd d0 dT) /\ lim 3 (l_sub t0 cT) (gsub d0 dT).
Proof.
  intros HP HM HZ HT HX HY HPZ HPT cZ cY cT t0 dZ dY dT d0.
  assert (AZ : lim 1 cZ dZ).
  { exact (mul_lim 3 3 _ _ _ _ ltac:(lia) ltac:(lia) (add_lim 1 2 _ _ _ _ ltac:(lia) ltac:(lia) ltac:(lia) HY HX) HP). }
  assert (AY : lim 1 cY dY).
  { exact (mul_lim 3 3 _ _ _ _ ltac:(lia) ltac:(lia) (sub_lim 1 2 _ _ _ _ ltac:(lia) ltac:(lia) ltac:(lia) HY HX) HM). }
  assert (AT : lim 1 cT dT) by exact (mul_lim 1 1 _ _ _ _ ltac:(lia) ltac:(lia) HT HPT).
  assert (AX : lim 1 (l_mul PZ Z) (gmul pz z)) by exact (mul_lim 1 1 _ _ _ _ ltac:(lia) ltac:(lia) HPZ HZ).
  assert (A0 : lim 2 t0 d0) by exact (add_lim 1 1 _ _ _ _ ltac:(lia) ltac:(lia) ltac:(lia) AX AX).
  split; [apply (lim_weaken 2); [lia|]; exact (sub_lim 1 1 _ _ _ _ ltac:(lia) ltac:(lia) ltac:(lia) AZ AY)|].
  split; [apply (lim_weaken 2); [lia|]; exact (add_lim 1 1 _ _ _ _ ltac:(lia) ltac:(lia) ltac:(lia) AZ AY)|].
  split; [exact (add_lim 2 1 _ _ _ _ ltac:(lia) ltac:(lia) ltac:(lia) A0 AT)|
          exact (sub_lim 2 1 _ _ _ _ ltac:(lia) ltac:(lia) ltac:(lia) A0 AT)].
Qed.

Lemma ge_add_lim p e q h : xlim p e -> hlim q h -> clim (l_ge_add p q) (ge_add e h).
Proof.
  intros (X & Y & Z & T) (QP & QM & QZ & QT). unfold clim, l_ge_add, ge_add. cbn [lcX lcY lcZ lcT cX cY cZ cT].
  exact (ge_parts _ _ _ _ _ _ _ _ _ _ _ _ _ _ _ _ QP QM QZ QT X Y Z T).
Qed.

Lemma ge_sub_lim p e q h : xlim p e -> hlim q h -> clim (l_ge_sub p q) (ge_sub e h).
Proof.
  intros (X & Y & Z & T) (QP & QM & QZ & QT). unfold clim, l_ge_sub, ge_sub. cbn [lcX lcY lcZ lcT cX cY cZ cT].
  destruct (ge_parts _ _ _ _ _ _ _ _ _ _ _ _ _ _ _ _ QM QP QZ QT X Y Z T) as (A & B & C & D).
  split; [exact A|split; [exact B|split; [exact D|exact C]]].
Qed.

Lemma ext_zero_lim : xlim l_ext_zero ext_zero.
Proof.
  unfold xlim, l_ext_zero, ext_zero. cbn [leX leY leZ leT eX eY eZ eT].
  split; [apply (lim_weaken 1); [lia|exact zero_lim]|]. split; [exact one_lim|]. split; [exact one_lim|exact zero_lim].
Qed.

Lemma cached_zero_lim : hlim l_cached_zero cached_zero.
Proof.
  unfold hlim, l_cached_zero, cached_zero. cbn [lyPlusX lyMinusX lhZ lhT2d yPlusX yMinusX hZ hT2d].
  split; [apply (lim_weaken 1); [lia|exact one_lim]|]. split; [apply (lim_weaken 1); [lia|exact one_lim]|].
  split; [exact one_lim|exact zero_lim].
Qed.

Lemma cached_neg_lim q h : hlim q h -> hlim (l_cached_neg q) (cached_neg h).
Proof.
  intros (P & M & Z & T). unfold hlim, l_cached_neg, cached_neg. cbn [lyPlusX lyMinusX lhZ lhT2d yPlusX yMinusX hZ hT2d].
  split; [exact M|]. split; [exact P|]. split; [exact Z|]. apply neg_lim; [lia|exact T].
Qed.

(** ** The table lookup (ge.go:268-423) *)

Lemma cmove_0 f g : length f = length g -> l_cmove f g 0 = f.
Proof.
  unfold l_cmove. change (wrap I32 (- 0)) with 0. revert g.
  induction f as [|x f IH]; intros [|y g] L; try discriminate L; cbn [zip]; [reflexivity|].
  rewrite Z.land_0_l, Z.lxor_0_r. f_equal. apply IH. now injection L.
Qed.

Lemma cmove_1 f g : length f = length g -> l_cmove f g 1 = g.
Proof.
  unfold l_cmove. change (wrap I32 (- (1))) with (-1). revert g.
  induction f as [|x f IH]; intros [|y g] L; try discriminate L; cbn [zip]; [reflexivity|].
  rewrite Z.land_m1_l, <- Z.lxor_assoc, Z.lxor_nilpotent, Z.lxor_0_l. f_equal. apply IH. now injection L.
Qed.

Lemma cmove_lim n f g a b (c : bool) : lim n f a -> lim n g b ->
  lim n (l_cmove f g (if c then 1 else 0)) (if c then b else a).
Proof.
  intros F G. assert (L : length f = length g).
  { destruct F as [F _], G as [G _]. rewrite (bnd_length _ _ _ F), (bnd_length _ _ _ G). reflexivity. }
  destruct c; [rewrite (cmove_1 f g L)|rewrite (cmove_0 f g L)]; assumption.
Qed.

Lemma cached_cmove_lim q r h k (c : bool) : hlim q h -> hlim r k ->
  hlim (l_cached_cmove q r (if c then 1 else 0)) (if c then k else h).
Proof.
  intros (A & B & D & E) (A' & B' & D' & E'). unfold hlim, l_cached_cmove. cbn [lyPlusX lyMinusX lhZ lhT2d].
  pose proof (cmove_lim _ _ _ _ _ c A A') as X1. pose proof (cmove_lim _ _ _ _ _ c B B') as X2.
  pose proof (cmove_lim _ _ _ _ _ c D D') as X3. pose proof (cmove_lim _ _ _ _ _ c E E') as X4.
  destruct c; (split; [exact X1|split; [exact X2|split; [exact X3|exact X4]]]).
Qed.

(** the digits that recoding can give *)
Definition digit_range : list Z := map (fun i => Z.of_nat i - 8) (seq 0 25).

Lemma in_digit_range b : -8 <= b <= 16 -> List.In b digit_range.
Proof.
  intro B. apply in_map_iff. exists (Z.to_nat (b + 8)). split; [lia|]. apply in_seq. lia.
Qed.

Definition l_abs (b : Z) : Z :=
  wrap I32 (b - wrap I32 (Z.shiftl (Z.land (wrap I32 (- l_is_negative b)) b) 1)).

Lemma digits_checked : forallb (fun b =>
  (l_is_negative b =? (if b <? 0 then 1 else 0)) && (l_abs b =? (if b <? 0 then - b else b)) &&
  forallb (fun i => l_equal (l_abs b) (i + 1) =? (if (if b <? 0 then - b else b) =? i + 1 then 1 else 0))
          [0; 1; 2; 3; 4; 5; 6; 7]) digit_range = true.
Proof. vm_compute. reflexivity. Qed.

Lemma select_fold b c idx As Bs : Forall (fun i => l_equal b (i + 1) = if c =? i + 1 then 1 else 0) idx ->
  Forall2 hlim As Bs -> forall q h, hlim q h ->
  hlim (fold_left (fun c '(i, a) => l_cached_cmove c a (l_equal b (i + 1))) (combine idx As) q)
       (fold_left (fun d '(i, a) => if c =? i + 1 then a else d) (combine idx Bs) h).
Proof.
  intro F. revert As Bs. induction F as [|i idx I F IH]; intros As Bs AB q h QH; [exact QH|].
  destruct AB as [|x y As Bs XY AB]; [exact QH|]. cbn [combine fold_left]. apply IH; [exact AB|].
  rewrite I. apply cached_cmove_lim; assumption.
Qed.

Lemma select_lim As Bs b : Forall2 hlim As Bs -> -8 <= b <= 16 -> hlim (l_select As b) (select_cached Bs b).
Proof.
  intros AB B. pose proof (proj1 (forallb_forall _ _) digits_checked b (in_digit_range b B)) as C. cbv beta in C.
  rewrite !andb_true_iff, !Z.eqb_eq in C. destruct C as [[C1 C2] C3].
  unfold l_select, select_cached. cbv zeta. fold (l_abs b). rewrite C1.
  assert (F : Forall (fun i => l_equal (l_abs b) (i + 1) = if (if b <? 0 then - b else b) =? i + 1 then 1 else 0) [0; 1; 2; 3; 4; 5; 6; 7]).
  { apply Forall_forall. intros i I. rewrite forallb_forall in C3. apply Z.eqb_eq. exact (C3 i I). }
  pose proof (select_fold _ _ _ As Bs F AB _ _ cached_zero_lim) as S.
  apply cached_cmove_lim; [exact S|]. apply cached_neg_lim. exact S.
Qed.

(** ** Multiplication by a scalar (ge.go:430-489) *)

Lemma multiples_lim n p e : xlim p e -> forall q h, hlim q h -> Forall2 hlim (l_multiples n p q) (multiples n e h).
Proof.
  intro X. induction n as [|n IH]; intros q h QH; cbn [l_multiples multiples]; [constructor|].
  pose proof (to_cached_lim _ _ (comp_extended_lim _ _ (ge_add_lim _ _ _ _ X QH))) as N.
  constructor; [exact N|]. apply IH. exact N.
Qed.

Lemma table_lim p e : xlim p e -> Forall2 hlim (l_table p) (table e).
Proof.
  intro X. pose proof (to_cached_lim _ _ X) as F. unfold l_table, table. constructor; [exact F|].
  apply multiples_lim; assumption.
Qed.

Lemma double4_lim t u : clim t u -> clim (l_double4 t) (double4 u).
Proof. intro C. unfold l_double4, double4. do 4 apply double_lim, comp_projective_lim. exact C. Qed.

Lemma digits_fold_lim As Bs e : Forall2 hlim As Bs -> Forall (fun d => -8 <= d <= 16) e -> forall t u, clim t u ->
  clim (fold_left (fun t d => l_ge_add (l_comp_extended (l_double4 t)) (l_select As d)) e t)
       (fold_left (fun t d => ge_add (comp_extended (double4 t)) (select_cached Bs d)) e u).
Proof.
  intros AB F. induction F as [|d e D F IH]; intros t u C; cbn [fold_left]; [exact C|].
  apply IH. apply ge_add_lim; [apply comp_extended_lim, double4_lim; exact C|apply select_lim; assumption].
Qed.

Lemma digits_lim As Bs e : Forall2 hlim As Bs -> Forall (fun d => -8 <= d <= 16) e -> clim (l_digits As e) (ge_digits Bs e).
Proof.
  intros AB F. destruct F as [|top e T F]; unfold l_digits, ge_digits.
  - apply ge_add_lim; [exact ext_zero_lim|exact cached_zero_lim].
  - apply digits_fold_lim; [exact AB|exact F|]. apply ge_add_lim; [exact ext_zero_lim|apply select_lim; assumption].
Qed.

Lemma wrap8_id z : - 128 <= z <= 127 -> wrap8 z = z.
Proof. intro B. unfold wrap8. change (2 ^ 7) with 128. change (2 ^ 8) with 256. rewrite Z.mod_small by lia. lia. Qed.

Lemma l_nybbles_eq a : l_nybbles a = nybbles a.
Proof.
  induction a as [|v a IH]; cbn [l_nybbles nybbles]; [reflexivity|]. rewrite IH.
  change 15 with (Z.ones 4). rewrite !Z.land_ones, Z.shiftr_div_pow2 by lia. change (2 ^ 4) with 16.
  pose proof (Z.mod_pos_bound (b2z v) 16 ltac:(lia)). pose proof (Z.mod_pos_bound (b2z v / 16) 16 ltac:(lia)).
  rewrite !wrap8_id by lia. reflexivity.
Qed.

Lemma l_recode_eq e : Forall (fun d => 0 <= d < 16) e -> forall c, 0 <= c <= 1 -> l_recode e c = recode e c.
Proof.
  intro F. induction F as [|x e X F IH]; intros c C; [reflexivity|].
  destruct e as [|y e].
  - cbn [l_recode recode]. rewrite wrap8_id by lia. reflexivity.
  - change (recode (x :: y :: e) c) with ((x + c - (x + c + 8) / 16 * 16) :: recode (y :: e) ((x + c + 8) / 16)).
    change (l_recode (x :: y :: e) c) with
      (let x := wrap8 (x + c) in let carry := Z.shiftr (wrap8 (x + 8)) 4 in
       wrap8 (x - wrap8 (Z.shiftl carry 4)) :: l_recode (y :: e) carry).
    cbv zeta. rewrite (wrap8_id (x + c)), (wrap8_id (x + c + 8)) by lia.
    rewrite Z.shiftr_div_pow2, Z.shiftl_mul_pow2 by lia. change (2 ^ 4) with 16.
    assert (C' : 0 <= (x + c + 8) / 16 <= 1).
    { split; [apply Z.div_pos; lia|]. apply Z.lt_succ_r. apply Z.div_lt_upper_bound; lia. }
    rewrite IH by exact C'. rewrite (wrap8_id ((x + c + 8) / 16 * 16)) by lia.
    rewrite wrap8_id by lia. reflexivity.
Qed.

Lemma recode_digits a : length a = 32%nat -> Forall (fun d => -8 <= d <= 16) (recode (nybbles a) 0).
Proof.
  intro L. destruct (recode_range (nybbles a) 0 ltac:(lia) (nybbles_range a) (nybbles_nonempty a L)) as (lo & top & E & F & T & _).
  rewrite E. apply Forall_app. split.
  - refine (Forall_impl _ _ F). cbv beta. intros. lia.
  - constructor; [|constructor].
    destruct (exists_last (nybbles_nonempty a L)) as [l [z Z]]. rewrite Z, last_last in T.
    pose proof (nybbles_range a) as R. rewrite Z in R. apply Forall_app in R. destruct R as [_ R]. inversion R; subst. lia.
Qed.

Theorem scalar_mult_lim a p e : length a = 32%nat -> xlim p e -> xlim (l_scalar_mult a p) (ge_scalar_mult a e).
Proof.
  intros L X. unfold l_scalar_mult, ge_scalar_mult. apply comp_extended_lim.
  rewrite l_nybbles_eq, l_recode_eq by (exact (nybbles_range a) || lia).
  apply digits_lim; [apply table_lim; exact X|]. apply Forall_rev. apply recode_digits. exact L.
Qed.

(** ** Encodings *)

Lemma bytes_lim n f a : n <= 3 -> lim n f a ->
  fst (l_bytes f) = fe_bytes a /\ lim 2 (snd (l_bytes f)) a.
Proof.
  intros N F. destruct (l_bytes_spec f (lim_wide _ _ _ N F)) as (S & C & V). destruct F as [_ <-].
  split; [rewrite S; unfold fe_bytes; rewrite gfv_gof; reflexivity|].
  split; [|rewrite V; apply gof_mod].
  revert C. generalize (snd (l_bytes f)). clear. intros g C. unfold canonical in C. apply bnd_inside.
  unfold around, alternating, te, to_. cbn [map].
  repeat match goal with H : Forall2 _ _ (_ :: _) |- _ => inversion H; clear H; subst end.
  match goal with H : Forall2 _ _ [] |- _ => inversion H; subst end.
  unfold inside in *. cbn [fst snd] in *. repeat constructor; cbn [fst snd]; lia.
Qed.

Lemma negative_lim n f a : n <= 3 -> lim n f a ->
  fst (l_negative f) = (if fe_negative a then 1 else 0) /\ lim 2 (snd (l_negative f)) a.
Proof.
  intros N F. destruct (bytes_lim n f a N F) as [B L]. unfold l_negative.
  destruct (l_bytes f) as [s g]. cbn [fst snd] in *. split; [|exact L].
  rewrite B. unfold fe_bytes, fe_negative. change (le_bytes 32 (gfv a)) with (z2b (gfv a) :: le_bytes 31 (gfv a / 256)).
  cbn [nth]. rewrite b2z_z2b. change 1 with (Z.ones 1) at 1. rewrite Z.land_ones by lia. change (2 ^ 1) with 2.
  replace ((gfv a mod 256) mod 2) with (gfv a mod 2).
  - rewrite Zmod_odd. reflexivity.
  - pose proof (Z.div_mod (gfv a) 256 ltac:(lia)) as D.
    rewrite D at 1. replace (256 * (gfv a / 256) + gfv a mod 256) with (gfv a mod 256 + (128 * (gfv a / 256)) * 2) by ring.
    apply Z.mod_add. lia.
Qed.

(** fe.go:254-265 *)
Definition spread (x : Z) : Z :=
  let x := Z.lor x (Z.shiftr x 4) in
  let x := Z.lor x (Z.shiftr x 2) in
  let x := Z.lor x (Z.shiftr x 1) in
  Z.land x 1.

Lemma spread_checked : forallb (fun i => spread (Z.of_nat i) =? (if Z.of_nat i =? 0 then 0 else 1)) (seq 0 256) = true.
Proof. vm_compute. reflexivity. Qed.

Lemma spread_byte x : 0 <= x < 256 -> spread x = if x =? 0 then 0 else 1.
Proof.
  intro B. pose proof (proj1 (forallb_forall _ _) spread_checked (Z.to_nat x)) as C. cbv beta in C.
  rewrite Z2Nat.id in C by lia. apply Z.eqb_eq. apply C. apply in_seq. lia.
Qed.

Lemma lor_bytes s : forall x, 0 <= x < 256 ->
  let y := fold_left (fun x b => Z.lor x (b2z b)) s x in
  0 <= y < 256 /\ (y = 0 <-> x = 0 /\ le_val s = 0).
Proof.
  induction s as [|b s IH]; intros x X; cbn [fold_left le_val].
  - cbn zeta. split; [exact X|]. tauto.
  - pose proof (b2z_range b) as B. pose proof (le_val_range s) as R.
    assert (Y : 0 <= Z.lor x (b2z b) < 256).
    { split; [apply Z.lor_nonneg; lia|]. destruct (Z.eq_dec (Z.lor x (b2z b)) 0) as [E|E]; [lia|].
      apply (Z.log2_lt_pow2 _ 8).
      - assert (0 <= Z.lor x (b2z b)) by (apply Z.lor_nonneg; lia). lia.
      - rewrite Z.log2_lor by lia. apply Z.max_lub_lt.
        + destruct (Z.eq_dec x 0) as [->|]; [reflexivity|]. apply Z.log2_lt_pow2; lia.
        + destruct (Z.eq_dec (b2z b) 0) as [->|]; [reflexivity|]. apply Z.log2_lt_pow2; lia. }
    destruct (IH _ Y) as [Y1 Y2]. cbn zeta in *. split; [exact Y1|]. rewrite Y2, Z.lor_eq_0_iff. lia.
Qed.

Lemma l_nonzero_eq f : l_nonzero f = spread (fold_left (fun x b => Z.lor x (b2z b)) (fst (l_bytes f)) 0).
Proof. reflexivity. Qed.

Lemma nonzero_lim n f a : n <= 3 -> lim n f a -> (l_nonzero f =? 1) = negb (geqb a gzero).
Proof.
  intros N F. destruct (bytes_lim n f a N F) as [B _]. rewrite l_nonzero_eq, B.
  destruct (lor_bytes (fe_bytes a) 0 ltac:(lia)) as [Y1 Y2]. cbv zeta in Y1, Y2.
  set (y := fold_left (fun x b => Z.lor x (b2z b)) (fe_bytes a) 0) in *. clearbody y.
  rewrite (spread_byte y Y1).
  assert (V : le_val (fe_bytes a) = gfv a).
  { unfold fe_bytes. apply le_bytes_small. rewrite p256_32. pose proof (gfv_range a).
    assert (p25519 < 2 ^ 256) by reflexivity. lia. }
  rewrite V in Y2. unfold geqb. change (gfv gzero) with 0.
  destruct (gfv a =? 0) eqn:A.
  - replace (y =? 0) with true by lia. reflexivity.
  - replace (y =? 0) with false by lia. reflexivity.
Qed.

Lemma sign_byte (c : bool) b : z2b (Z.lxor (b2z b) (((if c then 1 else 0) * 2 ^ 7) mod 2 ^ 8)) =
  if c then n2b (N.lxor (b2n b) 128) else b.
Proof. destruct c, b; reflexivity. Qed.

(** ** What a stored point stands for *)

Definition stands (p : lextended) (P : point) : Prop := exists e, xlim p e /\ xrep e P.

Lemma rep_affine e P : xrep e P -> gmul (eX e) (fe_invert (eZ e)) = px P /\ gmul (eY e) (fe_invert (eZ e)) = py P.
Proof.
  intros (Z0 & X & Y & _). rewrite fe_invert_eq, X, Y.
  assert (I : forall a, gmul (gmul a (eZ e)) (ginv (eZ e)) = a).
  { intro a. replace (gmul (gmul a (eZ e)) (ginv (eZ e))) with (gmul a (gmul (ginv (eZ e)) (eZ e))) by ring.
    rewrite (gf_inverse _ Z0). ring. }
  split; apply I.
Qed.

Theorem l_point_bytes_eq p P : stands p P -> l_point_bytes p = point_bytes P.
Proof.
  intros (e & (X & Y & Z & T) & R). destruct (rep_affine e P R) as [AX AY].
  pose proof (invert_lim _ _ Z) as I.
  pose proof (mul_lim 2 1 _ _ _ _ ltac:(lia) ltac:(lia) X I) as LX.
  pose proof (mul_lim 1 1 _ _ _ _ ltac:(lia) ltac:(lia) Y I) as LY.
  rewrite AX in LX. rewrite AY in LY.
  destruct (bytes_lim 1 _ _ ltac:(lia) LY) as [BY _]. destruct (negative_lim 1 _ _ ltac:(lia) LX) as [NX _].
  unfold l_point_bytes. cbv zeta.
  destruct (l_bytes (l_mul (leY p) (l_invert (leZ p)))) as [s f].
  destruct (l_negative (l_mul (leX p) (l_invert (leZ p)))) as [neg g]. cbn [fst] in BY, NX. subst s neg.
  unfold point_bytes, ge_bytes. f_equal. apply map_ext. intro b. apply sign_byte.
Qed.

Theorem l_point_eqb_eq p q P Q : stands p P -> stands q Q -> l_point_eqb p q = point_eqb P Q.
Proof.
  intros SP SQ. unfold l_point_eqb, point_eqb. rewrite (l_point_bytes_eq p P SP), (l_point_bytes_eq q Q SQ). reflexivity.
Qed.

Theorem stands_add p q P Q : stands p P -> stands q Q -> stands (l_point_add p q) (point_add P Q).
Proof.
  intros (e & L & R) (f & M & S). exists (comp_extended (ge_add e (to_cached f))). split.
  - apply comp_extended_lim, ge_add_lim; [exact L|]. apply to_cached_lim. exact M.
  - rewrite point_add_eq. apply xrep_comp, crep_add; [exact R|]. apply hrep_cached. exact S.
Qed.

Theorem stands_sub p q P Q : stands p P -> stands q Q -> stands (l_point_sub p q) (point_sub P Q).
Proof.
  intros (e & L & R) (f & M & S). exists (comp_extended (ge_sub e (to_cached f))). split.
  - apply comp_extended_lim, ge_sub_lim; [exact L|]. apply to_cached_lim. exact M.
  - rewrite point_sub_eq. apply xrep_comp, crep_sub; [exact R|]. apply hrep_cached. exact S.
Qed.

Theorem stands_mul a p P : length a = 32%nat -> stands p P -> stands (l_point_mul a p) (point_mul a P).
Proof.
  intros L (e & X & R). exists (ge_scalar_mult a e). split; [apply scalar_mult_lim; assumption|].
  rewrite (point_mul_all a P L). apply mult_rep; assumption.
Qed.

(** coordinates on the curve stand for a point *)
Lemma lower_xrep e : eZ e <> gzero -> gmul (eX e) (eY e) = gmul (eT e) (eZ e) ->
  let xx := gmul (eX e) (eX e) in let yy := gmul (eY e) (eY e) in let zz := gmul (eZ e) (eZ e) in
  gadd (gopp (gmul xx zz)) (gmul yy zz) = gadd (gmul zz zz) (gmul (gmul ge_d xx) yy) ->
  xrep e (lower e).
Proof.
  intros Z0 T xx yy zz H. unfold lower. rewrite fe_invert_eq. set (r := ginv (eZ e)).
  assert (R : gmul r (eZ e) = gone) by exact (gf_inverse _ Z0). clearbody r.
  assert (ON : gon (gmul (eX e) r) (gmul (eY e) r)).
  { apply on_curveb_iff. unfold on_curveb. apply geqb_eq.
    set (r4 := gmul (gmul r r) (gmul r r)).
    replace (gadd (gopp (gmul (gmul (eX e) r) (gmul (eX e) r))) (gmul (gmul (eY e) r) (gmul (eY e) r)))
      with (gmul r4 (gadd (gopp (gmul xx zz)) (gmul yy zz))).
    - rewrite H. unfold r4, xx, yy, zz.
      transitivity (gadd (gmul (gmul (gmul r (eZ e)) (gmul r (eZ e))) (gmul (gmul r (eZ e)) (gmul r (eZ e))))
                         (gmul (gmul ge_d (gmul (gmul (eX e) r) (gmul (eX e) r))) (gmul (gmul (eY e) r) (gmul (eY e) r)))); [ring|].
      rewrite R. ring.
    - unfold r4, xx, yy, zz.
      transitivity (gmul (gmul (gmul r (eZ e)) (gmul r (eZ e))) (gadd (gopp (gmul (gmul (eX e) r) (gmul (eX e) r))) (gmul (gmul (eY e) r) (gmul (eY e) r)))); [ring|].
      rewrite R. ring. }
  unfold xrep. rewrite (point_at_x _ _ ON), (point_at_y _ _ ON).
  assert (C : forall a, gmul (gmul a r) (eZ e) = a).
  { intro a. transitivity (gmul a (gmul r (eZ e))); [ring|]. rewrite R. ring. }
  split; [exact Z0|]. split; [symmetry; apply C|]. split; [symmetry; apply C|].
  transitivity (gmul (gmul (gmul (eX e) (eY e)) r) (gmul r (eZ e))).
  - rewrite T, R. transitivity (gmul (eT e) (gmul r (eZ e))); [rewrite R; ring|ring].
  - ring.
Qed.

(** const.go:51-56: the base point is on the curve *)
Definition base_checks : bool :=
  let xx := gmul (eX baseext) (eX baseext) in let yy := gmul (eY baseext) (eY baseext) in
  let zz := gmul (eZ baseext) (eZ baseext) in
  negb (geqb (eZ baseext) gzero) &&
  geqb (gmul (eX baseext) (eY baseext)) (gmul (eT baseext) (eZ baseext)) &&
  geqb (gadd (gopp (gmul xx zz)) (gmul yy zz)) (gadd (gmul zz zz) (gmul (gmul ge_d xx) yy)).

Lemma base_checked : base_checks = true.
Proof. vm_compute. reflexivity. Qed.

Theorem stands_base : stands l_base point_base.
Proof.
  exists baseext. split.
  - unfold xlim, l_base, baseext. cbn [leX leY leZ leT eX eY eZ eT].
    split; [apply (lim_weaken 1); [lia|]; tight_constant|]. split; [tight_constant|]. split; tight_constant.
  - pose proof base_checked as C. unfold base_checks in C. cbv zeta in C. rewrite !andb_true_iff in C.
    destruct C as [[C1 C2] C3]. apply geqb_eq in C2, C3. apply lower_xrep; [|exact C2|exact C3].
    intro Z0. apply geqb_eq in Z0. rewrite Z0 in C1. discriminate C1.
Qed.

(** ** Decoding (ge.go:109-149) *)

Definition decoded (o : option lextended) (d : option (gf * gf)) : Prop :=
  match o, d with
  | Some p, Some (x, y) => xlim p (Ext x y gone (gmul x y))
  | None, None => True
  | _, _ => False
  end.

Lemma sign_shift b : (if 128 <=? b2z b then 1 else 0) = Z.shiftr (b2z b) 7.
Proof. destruct b; reflexivity. Qed.

Lemma from_lim s : decoded (l_point_from s) (ge_from s).
Proof.
  unfold l_point_from, ge_from. destruct (Nat.eqb (length s) 32) eqn:L; cbn [negb]; [|exact I].
  apply Nat.eqb_eq in L.
  assert (Y : lim 1 (l_from s) (fe_from s)).
  { destruct (l_from_spec s L) as [T V]. apply lim_tight; [exact T|]. unfold fe_from. apply gof_eq. exact V. }
  generalize dependent (l_from s). generalize (fe_from s). intros y Y HY.
  pose proof one_lim as Z.
  pose proof (square_lim 1 _ _ ltac:(lia) HY) as U1.
  pose proof (mul_lim 1 1 _ _ _ _ ltac:(lia) ltac:(lia) U1 d_lim) as V1.
  pose proof (sub_lim 1 1 _ _ _ _ ltac:(lia) ltac:(lia) ltac:(lia) U1 Z) as U.
  pose proof (add_lim 1 1 _ _ _ _ ltac:(lia) ltac:(lia) ltac:(lia) V1 Z) as V.
  change (1 + 1) with 2 in U, V. clear U1 V1.
  cbv zeta. generalize dependent (l_sub (l_square Y) l_one). generalize dependent (l_add (l_mul (l_square Y) l_d) l_one).
  generalize (gsub (gsquare y) gone), (gadd (gmul (gsquare y) ge_d) gone). intros u v lv HV lu HU.
  pose proof (square_lim 2 _ _ ltac:(lia) HV) as W1.
  pose proof (mul_lim 1 2 _ _ _ _ ltac:(lia) ltac:(lia) W1 HV) as W. clear W1.
  generalize dependent (l_mul (l_square lv) lv). generalize (gmul (gsquare v) v). intros v3 lv3 HV3.
  pose proof (square_lim 1 _ _ ltac:(lia) HV3) as X1.
  pose proof (mul_lim 1 2 _ _ _ _ ltac:(lia) ltac:(lia) X1 HV) as X2.
  pose proof (mul_lim 1 2 _ _ _ _ ltac:(lia) ltac:(lia) X2 HU) as X3.
  pose proof (pow22523_lim _ _ X3) as X4.
  pose proof (mul_lim 1 1 _ _ _ _ ltac:(lia) ltac:(lia) X4 HV3) as X5.
  pose proof (mul_lim 1 2 _ _ _ _ ltac:(lia) ltac:(lia) X5 HU) as X.
  clear X1 X2 X3 X4 X5.
  generalize dependent (l_mul (l_mul (l_pow22523 (l_mul (l_mul (l_square lv3) lv) lu)) lv3) lu).
  generalize (gmul (gmul (fe_pow22523 (gmul (gmul (gsquare v3) v) u)) v3) u). intros x lx HX.
  pose proof (mul_lim 1 2 _ _ _ _ ltac:(lia) ltac:(lia) (square_lim 1 _ _ ltac:(lia) HX) HV) as VXX.
  rewrite (nonzero_lim 3 _ _ ltac:(lia) (sub_lim 1 2 _ _ _ _ ltac:(lia) ltac:(lia) ltac:(lia) VXX HU)).
  rewrite (nonzero_lim 3 _ _ ltac:(lia) (add_lim 1 2 _ _ _ _ ltac:(lia) ltac:(lia) ltac:(lia) VXX HU)).
  assert (FIN : forall f a, lim 1 f a ->
    decoded (let (neg, X) := l_negative f in
             Some (LExt (if negb (neg =? Z.shiftr (b2z (nth 31 s x00)) 7) then l_neg X else X) Y l_one
                        (l_mul (if negb (neg =? Z.shiftr (b2z (nth 31 s x00)) 7) then l_neg X else X) Y)))
            (Some (if negb (Bool.eqb (fe_negative a) (128 <=? b2z (nth 31 s x00))) then gopp a else a, y))).
  { intros f a F. destruct (negative_lim 1 f a ltac:(lia) F) as [N G]. destruct (l_negative f) as [neg g]. cbn [fst snd] in N, G.
    subst neg. rewrite <- sign_shift.
    replace ((if fe_negative a then 1 else 0) =? (if 128 <=? b2z (nth 31 s x00) then 1 else 0))
      with (Bool.eqb (fe_negative a) (128 <=? b2z (nth 31 s x00))) by (destruct (fe_negative a), (128 <=? b2z (nth 31 s x00)); reflexivity).
    cbn [decoded].
    assert (H : lim 2 (if negb (Bool.eqb (fe_negative a) (128 <=? b2z (nth 31 s x00))) then l_neg g else g)
                      (if negb (Bool.eqb (fe_negative a) (128 <=? b2z (nth 31 s x00))) then gopp a else a)).
    { destruct (negb _); [apply neg_lim; [lia|exact G]|exact G]. }
    unfold xlim. cbn [leX leY leZ leT eX eY eZ eT]. split; [exact H|]. split; [exact HY|]. split; [exact one_lim|].
    exact (mul_lim 2 1 _ _ _ _ ltac:(lia) ltac:(lia) H HY). }
  destruct (negb (geqb (gsub (gmul (gsquare x) v) u) gzero)).
  - destruct (negb (geqb (gadd (gmul (gsquare x) v) u) gzero)); [exact I|].
    apply FIN. exact (mul_lim 1 1 _ _ _ _ ltac:(lia) ltac:(lia) HX sqrt_m1_lim).
  - apply FIN. exact HX.
Qed.

Theorem stands_from s : match l_point_from s, point_from s with
  | Some p, Some P => stands p P
  | None, None => True
  | _, _ => False
  end.
Proof.
  pose proof (from_lim s) as D. unfold point_from. destruct (ge_from s) as [[x y]|] eqn:E.
  - unfold decoded in D. destruct (l_point_from s) as [p|]; [|destruct D].
    apply ge_from_iff in E. destruct E as (_ & _ & ON & _).
    exists (Ext x y gone (gmul x y)). split; [exact D|].
    pose proof (xrep_lift (point_at x y)) as R. unfold lift in R.
    rewrite (point_at_x x y ON), (point_at_y x y ON) in R. exact R.
  - unfold decoded in D. destruct (l_point_from s); [destruct D|exact I].
Qed.
