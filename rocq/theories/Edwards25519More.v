(** The multiplication by a scalar, the order of the base point and the
    encoding of points, from the formulas of [Edwards25519Proofs]. *)
From Coq Require Import Lia ZifyBool ZifyNat ZifyN Field Znumtheory.
From Verif Require Import Base BaseFacts Primes25519 NumberTheory Field25519 EdwardsLaw
  GroupMultiples LittleEndian Edwards25519Model Edwards25519Proofs.
Local Open Scope Z_scope.

Add Field gf_fieldM : gf_field.

(** ** Multiplication by a scalar *)

Lemma dval_app lo hi : dval (lo ++ hi) = dval lo + 16 ^ Z.of_nat (length lo) * dval hi.
Proof.
  induction lo as [|x lo IH]; cbn [app dval length].
  - change (Z.of_nat 0) with 0. rewrite Z.pow_0_r. lia.
  - rewrite IH, Nat2Z.inj_succ, Z.pow_succ_r by lia. ring.
Qed.

Lemma dval_range e : Forall (fun d => 0 <= d < 16) e -> 0 <= dval e < 16 ^ Z.of_nat (length e).
Proof.
  induction 1 as [|x e X F IH]; cbn [dval length].
  - split; [lia|reflexivity].
  - rewrite Nat2Z.inj_succ, Z.pow_succ_r by lia. lia.
Qed.

Lemma dval_last e n : Forall (fun d => 0 <= d < 16) e -> length e = S n ->
  last e 0 * 16 ^ Z.of_nat n <= dval e < (last e 0 + 1) * 16 ^ Z.of_nat n.
Proof.
  intros F L. destruct (exists_last (l := e)) as [lo [top E]]; [intro Z0; subst e; discriminate L|].
  subst e. rewrite last_last. rewrite app_length in L. cbn [length] in L.
  apply Forall_app in F. destruct F as [F _]. pose proof (dval_range lo F) as R.
  rewrite dval_app. cbn [dval]. replace n with (length lo) by lia. lia.
Qed.

Lemma nybbles_length a : length (nybbles a) = (2 * length a)%nat.
Proof. induction a as [|v a IH]; cbn [nybbles length]; [reflexivity|]. rewrite IH. lia. Qed.

Lemma nybbles_last a : length a = 32%nat ->
  last (nybbles a) 0 * 2 ^ 252 <= le_val a < (last (nybbles a) 0 + 1) * 2 ^ 252.
Proof.
  intro L. rewrite <- nybbles_val. change (2 ^ 252) with (16 ^ Z.of_nat 63).
  apply dval_last; [apply nybbles_range|]. rewrite nybbles_length, L. reflexivity.
Qed.

Lemma nybbles_nonempty a : length a = 32%nat -> nybbles a <> [].
Proof. intros L E. apply (f_equal (@length Z)) in E. rewrite nybbles_length, L in E. discriminate E. Qed.

(** geScalarMult computes the multiple, whatever the representative *)
Theorem mult_representative a A p : length a = 32%nat -> le_val a < 2 ^ 255 -> xrep A p ->
  lower (ge_scalar_mult a A) = le_val a ** p.
Proof.
  intros L B HA. unfold ge_scalar_mult. apply lower_rep, xrep_comp.
  rewrite <- nybbles_val. replace (dval (nybbles a)) with (dval (nybbles a) + 0) by lia.
  rewrite <- recode_val by (apply nybbles_nonempty; exact L). apply digits_rep; [exact HA|].
  destruct (recode_range (nybbles a) 0 ltac:(lia) (nybbles_range a) (nybbles_nonempty a L)) as (lo & top & E & F & T & _).
  rewrite E. apply Forall_app. split; [exact F|]. constructor; [|constructor].
  pose proof (nybbles_last a L) as N.
  assert (0 <= last (nybbles a) 0).
  { destruct (exists_last (nybbles_nonempty a L)) as [l [z Z]]. rewrite Z, last_last.
    pose proof (nybbles_range a) as R. rewrite Z in R. apply Forall_app in R. destruct R as [_ R].
    inversion R; subst. lia. }
  assert (last (nybbles a) 0 < 8); [|lia].
  change (2 ^ 255) with (8 * 2 ^ 252) in B. assert (0 < 2 ^ 252) by reflexivity.
  set (w := 2 ^ 252) in *. clearbody w. nia.
Qed.

Theorem point_mul_eq a p : length a = 32%nat -> le_val a < 2 ^ 255 -> point_mul a p = le_val a ** p.
Proof. intros L B. apply mult_representative; [exact L|exact B|apply xrep_lift]. Qed.

(** and a wrong multiple of large scalars: the precondition [a[31] <= 127] of
    ge.go:424-429 *)
Theorem point_mul_far a p : length a = 32%nat -> 9 * 2 ^ 252 <= le_val a ->
  exists top, 9 <= top <= 16 /\ point_mul a p = (le_val a - top * 2 ^ 252) ** p.
Proof.
  intros L B.
  destruct (recode_range (nybbles a) 0 ltac:(lia) (nybbles_range a) (nybbles_nonempty a L)) as (lo & top & E & F & T & LEN).
  pose proof (nybbles_last a L) as N.
  assert (R : 9 <= last (nybbles a) 0 <= 15).
  { assert (0 < 2 ^ 252) by reflexivity. split.
    - set (w := 2 ^ 252) in *. clearbody w. nia.
    - destruct (exists_last (nybbles_nonempty a L)) as [l [z Z]]. rewrite Z, last_last.
      pose proof (nybbles_range a) as R. rewrite Z in R. apply Forall_app in R. destruct R as [_ R].
      inversion R; subst. lia. }
  exists top. split; [lia|].
  assert (LL : length lo = 63%nat).
  { rewrite E, app_length, nybbles_length, L in LEN. cbn [length] in LEN. lia. }
  assert (V : le_val a - top * 2 ^ 252 = dval lo).
  { rewrite <- nybbles_val. replace (dval (nybbles a)) with (dval (nybbles a) + 0) by lia.
    rewrite <- recode_val by (apply nybbles_nonempty; exact L). rewrite E, dval_app, LL.
    cbn [dval]. change (16 ^ Z.of_nat 63) with (2 ^ 252). ring. }
  rewrite V. unfold point_mul, ge_scalar_mult. apply lower_rep, xrep_comp.
  rewrite E, rev_app_distr. cbn [rev app ge_digits]. rewrite select_far by lia.
  rewrite <- dval_rev. apply digits_fold; [apply xrep_lift|apply Forall_rev; exact F|].
  rewrite zm_0. rewrite <- (psum_null point_null). apply crep_add; [exact xrep_zero|exact hrep_zero].
Qed.

(** ** The base point *)

Lemma base_coordinates : (py point_base * gof 5)%gf = gof 4 /\ fe_negative (px point_base) = false.
Proof. split; [apply geqb_eq|]; vm_compute; reflexivity. Qed.

Lemma base_nonnull : point_base <> point_null.
Proof.
  intro E. apply (f_equal px) in E. apply geqb_eq in E.
  assert (X : geqb (px point_base) (px point_null) = false) by (vm_compute; reflexivity). congruence.
Qed.

Definition is_null (p : point) : bool := geqb (px p) gzero && geqb (py p) gone.

Lemma is_null_eq p : is_null p = true -> p = point_null.
Proof.
  intro E. unfold is_null in E. apply andb_true_iff in E. destruct E as [X Y].
  apply geqb_eq in X. apply geqb_eq in Y. exact (point_eq _ point_null X Y).
Qed.

Theorem base_order : l25519 ** point_base = point_null.
Proof.
  assert (V : le_val (le_bytes 32 l25519) = l25519) by (vm_compute; reflexivity).
  assert (M : point_mul (le_bytes 32 l25519) point_base = l25519 ** point_base).
  { rewrite <- V at 2. apply point_mul_eq; [apply le_bytes_length|].
    rewrite V. reflexivity. }
  assert (E : is_null (point_mul (le_bytes 32 l25519) point_base) = true) by (vm_compute; reflexivity).
  rewrite <- M. exact (is_null_eq _ E).
Qed.

Lemma zm_mod x : (x mod l25519) ** point_base = x ** point_base.
Proof.
  exact (zmul_mod point point_null psum pneg psum_comm psum_assoc psum_null psum_pneg
           l25519 point_base x ltac:(discriminate) base_order).
Qed.

Lemma zm_zero x : x ** point_null = point_null.
Proof. exact (zmul_zero point point_null psum pneg psum_comm psum_assoc psum_null psum_pneg x). Qed.

(** the order is exact *)
Theorem base_multiple_null x : x ** point_base = point_null <-> (l25519 | x).
Proof.
  split.
  - intro E. destruct (Zdivide_dec l25519 x) as [D|D]; [exact D|exfalso].
    pose proof (prime_rel_prime l25519 l25519_prime x D) as RP.
    apply rel_prime_bezout in RP. destruct RP as [u v UV].
    apply base_nonnull. rewrite <- (zm_1 point_base), <- UV, zm_add, !zm_mul, base_order, E, !zm_zero.
    apply psum_null.
  - intros [k K]. subst x. rewrite zm_mul, base_order. apply zm_zero.
Qed.

Theorem base_multiple_eq x y : x ** point_base = y ** point_base <-> (x - y) mod l25519 = 0.
Proof.
  split.
  - intro E. apply Z.mod_divide; [discriminate|]. apply base_multiple_null.
    unfold Z.sub. rewrite zm_add, E, <- zm_add, Z.add_opp_diag_r. reflexivity.
  - intro E. apply Z.mod_divide in E; [|discriminate]. apply base_multiple_null in E.
    replace x with ((x - y) + y) by ring. rewrite zm_add, E, psum_comm. apply psum_null.
Qed.

(** ** Encoding of points *)

Lemma odd_p25519 : Z.odd p25519 = true.
Proof. reflexivity. Qed.

Transparent gopp gof.
Lemma gopp_value x : x <> gzero -> gfv (- x)%gf = p25519 - gfv x.
Proof.
  intro X. unfold gopp. rewrite gfv_gof. pose proof (gfv_range x) as R.
  assert (gfv x <> 0). { intro E. apply X. apply gf_eq. rewrite E. reflexivity. }
  symmetry. apply Z.mod_unique with (q := -1); [left; lia|lia].
Qed.
Opaque gopp gof.

Lemma negative_opp x : x <> gzero -> fe_negative (- x)%gf = negb (fe_negative x).
Proof.
  intro X. unfold fe_negative. rewrite gopp_value by exact X.
  rewrite Z.odd_sub, odd_p25519. reflexivity.
Qed.

Lemma negative_zero : fe_negative gzero = false.
Proof. reflexivity. Qed.

Lemma flip_bit b : b2z b < 128 -> b2z (n2b (N.lxor (b2n b) 128)) = b2z b + 128.
Proof. destruct b; vm_compute; intro H; first [reflexivity | discriminate H]. Qed.

Lemma ge_bytes_split y : exists lo b, fe_bytes y = lo ++ [b] /\ length lo = 31%nat /\ b2z b < 128.
Proof.
  pose proof (le_bytes_length 32 (gfv y)) as L. unfold fe_bytes.
  destruct (exists_last (l := le_bytes 32 (gfv y))) as [lo [b E]]; [intro Z0; rewrite Z0 in L; discriminate L|].
  rewrite E in L. rewrite app_length in L. cbn [length] in L.
  exists lo, b. split; [exact E|]. split; [lia|].
  pose proof (gfv_range y) as R. rewrite p25519_eq in R.
  assert (V : le_val (lo ++ [b]) = gfv y).
  { rewrite <- E. apply le_bytes_small. rewrite p256_32. lia. }
  rewrite le_val_app in V. cbn [le_val] in V. replace (length lo) with 31%nat in V by lia.
  pose proof (le_val_range lo) as B. change (p256 31) with (2 ^ 248) in V. change (2 ^ 255) with (128 * 2 ^ 248) in R.
  assert (0 < 2 ^ 248) by reflexivity. set (w := 2 ^ 248) in *. clearbody w. nia.
Qed.

Lemma ge_bytes_length x y : length (ge_bytes x y) = 32%nat.
Proof.
  unfold ge_bytes. rewrite app_length, map_length, firstn_length, skipn_length.
  unfold fe_bytes. rewrite le_bytes_length. reflexivity.
Qed.

Lemma ge_bytes_val x y : le_val (ge_bytes x y) = gfv y + (if fe_negative x then 2 ^ 255 else 0).
Proof.
  destruct (ge_bytes_split y) as (lo & b & E & L & B).
  assert (V : le_val (fe_bytes y) = gfv y).
  { apply le_bytes_small. rewrite p256_32. pose proof (gfv_range y) as R. rewrite p25519_eq in R. lia. }
  unfold ge_bytes. rewrite <- V, E.
  assert (E1 : firstn 31 (lo ++ [b]) = lo).
  { rewrite firstn_app, L, Nat.sub_diag, firstn_O, app_nil_r. apply firstn_all2. lia. }
  assert (E2 : skipn 31 (lo ++ [b]) = [b]).
  { rewrite skipn_app, L, Nat.sub_diag, skipn_all2 by lia. reflexivity. }
  rewrite E1, E2. cbn [app map]. rewrite !le_val_app, L. change (p256 31) with (2 ^ 248).
  destruct (fe_negative x).
  - cbn [le_val]. rewrite flip_bit by exact B. change (2 ^ 255) with (128 * 2 ^ 248). ring.
  - ring.
Qed.

Lemma last_bit s : length s = 32%nat -> (128 <=? b2z (nth 31 s x00)) = (2 ^ 255 <=? le_val s).
Proof.
  intro L. destruct (exists_last (l := s)) as [lo [b E]]; [intro Z0; subst s; discriminate L|].
  subst s. rewrite app_length in L. cbn [length] in L. assert (LL : length lo = 31%nat) by lia.
  rewrite app_nth2 by lia. rewrite LL, Nat.sub_diag. cbn [nth].
  rewrite le_val_app, LL. cbn [le_val]. change (p256 31) with (2 ^ 248).
  pose proof (le_val_range lo) as R. rewrite LL in R. change (p256 31) with (2 ^ 248) in R.
  change (2 ^ 255) with (128 * 2 ^ 248). set (w := 2 ^ 248) in *. clearbody w.
  destruct (Z.leb_spec 128 (b2z b)); symmetry; [apply Z.leb_le|apply Z.leb_gt]; nia.
Qed.

(** the right hand side of the curve equation never vanishes *)
Lemma v_nonzero y : (y * y * ge_d + gone <> gzero)%gf.
Proof.
  intro E. destruct (gf_dec y gzero) as [Y|Y].
  - subst y. apply one_nonzero. rewrite <- E. ring.
  - apply (d_nonsquare25519 (sqrt_m1 / y)%gf).
    transitivity ((sqrt_m1 * sqrt_m1) / (y * y))%gf; [field; exact Y|].
    rewrite sqrt_m1_square.
    transitivity (- (y * y * ge_d + gone) / (y * y) + ge_d)%gf; [field; exact Y|].
    rewrite E. field. exact Y.
Qed.

Lemma gon_square x y : gon x y <-> (x * x * (y * y * ge_d + gone) = y * y - gone)%gf.
Proof.
  unfold gon, on_curve. split; intro H.
  - transitivity ((gone + ge_d * (x * x) * (y * y)) + x * x - gone)%gf; [ring|]. rewrite <- H. ring.
  - transitivity ((y * y - gone) - x * x + gone)%gf; [ring|]. rewrite <- H. ring.
Qed.

Lemma gmul_cancel a b c : a <> gzero -> (a * b = a * c)%gf -> b = c.
Proof.
  intros A E. transitivity (ginv a * (a * b))%gf.
  - transitivity ((ginv a * a) * b)%gf; [|ring]. rewrite gf_inverse by exact A. ring.
  - rewrite E. transitivity ((ginv a * a) * c)%gf; [ring|]. rewrite gf_inverse by exact A. ring.
Qed.

Lemma square_eq a b : (a * a = b * b)%gf -> a = b \/ a = (- b)%gf.
Proof.
  intro E. assert (H : ((a - b) * (a + b) = gzero)%gf) by (transitivity (a * a - b * b)%gf; [ring|rewrite E; ring]).
  apply gmul_zero in H. destruct H as [H|H]; [left|right].
  - transitivity ((a - b) + b)%gf; [ring|]. rewrite H. ring.
  - transitivity ((a + b) - b)%gf; [ring|]. rewrite H. ring.
Qed.

(** the candidate for the root in FromBytes *)
Definition root (u v : gf) : gf :=
  let v3 := (gsquare v * v)%gf in
  (fe_pow22523 (gsquare v3 * v * u) * v3 * u)%gf.

Lemma root_square u v : v <> gzero ->
  exists e, (gsquare (root u v) * v = u * e)%gf /\
            ((exists x, (x * x * v = u)%gf) -> u = gzero \/ e = gone \/ e = (- gone)%gf).
Proof.
  intro V. unfold root, gsquare. rewrite fe_pow22523_eq.
  set (w := (v * v * v * (v * v * v) * v * u)%gf).
  set (m := Z.to_pos ((p25519 - 5) / 8)).
  exists (gpow_pos w (Z.to_pos ((p25519 - 1) / 4))).
  split.
  - transitivity (u * (w * (gpow_pos w m * gpow_pos w m)))%gf.
    + unfold w at 3. ring.
    + f_equal. rewrite gpow_add. rewrite <- (gpow_1 w) at 1. rewrite gpow_add. f_equal.
  - intros [x X]. destruct (gf_dec u gzero) as [U|U]; [left; exact U|right].
    assert (X0 : x <> gzero). { intro E. apply U. rewrite <- X, E. ring. }
    set (r := (x * (v * v * v * v))%gf).
    assert (W : w = (r * r)%gf). { unfold w, r. rewrite <- X. ring. }
    assert (R0 : r <> gzero) by (unfold r; repeat apply gmul_nonzero; assumption).
    set (e := gpow_pos w (Z.to_pos ((p25519 - 1) / 4))).
    assert (E : (e * e = gone * gone)%gf).
    { transitivity gone; [|ring]. unfold e. rewrite gpow_add.
      rewrite W. apply (euler_square r R0). }
    apply square_eq in E. exact E.
Qed.

(** FromBytes, in one equation: the square roots and the sign *)
Lemma ge_from_eq s : ge_from s =
  if negb (Nat.eqb (length s) 32) then None else
  let y := fe_from s in
  let u := (y * y - gone)%gf in
  let v := (y * y * ge_d + gone)%gf in
  let x := root u v in
  let finish := fun x => Some (if negb (Bool.eqb (fe_negative x) (2 ^ 255 <=? le_val s)) then (- x)%gf else x, y) in
  if negb (geqb (gsquare x * v - u)%gf gzero) then
    if negb (geqb (gsquare x * v + u)%gf gzero) then None else finish (x * sqrt_m1)%gf
  else finish x.
Proof.
  unfold ge_from. destruct (Nat.eqb (length s) 32) eqn:L; [|reflexivity]. cbn [negb].
  apply Nat.eqb_eq in L. rewrite last_bit by exact L. reflexivity.
Qed.

Definition sign_of (s : bytes) : bool := 2 ^ 255 <=? le_val s.

(** what is decoded: a point with the given y coordinate, and the sign if it can have one *)
Theorem ge_from_iff s x y : ge_from s = Some (x, y) <->
  length s = 32%nat /\ y = fe_from s /\ gon x y /\ (x = gzero \/ fe_negative x = sign_of s).
Proof.
  rewrite ge_from_eq. destruct (Nat.eqb (length s) 32) eqn:L; cbn [negb].
  2: { split; [discriminate|]. intros [E _]. apply Nat.eqb_neq in L. congruence. }
  apply Nat.eqb_eq in L. cbv zeta. fold (sign_of s).
  set (yy := fe_from s). set (u := (yy * yy - gone)%gf). set (v := (yy * yy * ge_d + gone)%gf).
  assert (V : v <> gzero) by apply v_nonzero.
  set (fin := fun r => if negb (Bool.eqb (fe_negative r) (sign_of s)) then (- r)%gf else r).
  (* a root with the sign chosen *)
  assert (FIN : forall r, (gsquare r * v = u)%gf -> forall a b,
            Some (fin r, yy) = Some (a, b) <->
            (length s = 32%nat /\ b = yy /\ gon a b /\ (a = gzero \/ fe_negative a = sign_of s))).
  { intros r R a b. assert (RON : gon r yy) by (apply gon_square; exact R).
    assert (FON : gon (fin r) yy) by (unfold fin; destruct (negb _); [apply neg_on|]; exact RON).
    assert (FS : fin r = gzero \/ fe_negative (fin r) = sign_of s).
    { unfold fin. destruct (Bool.eqb (fe_negative r) (sign_of s)) eqn:B; cbn [negb].
      - right. apply Bool.eqb_prop. exact B.
      - destruct (gf_dec r gzero) as [R0|R0].
        + left. rewrite R0. ring.
        + right. rewrite negative_opp by exact R0. apply Bool.eqb_false_iff in B.
          revert B. destruct (fe_negative r), (sign_of s); cbn [negb]; congruence. }
    split.
    - intro E. injection E as <- <-. repeat split; assumption.
    - intros (_ & -> & AON & AS). f_equal. f_equal.
      assert (SQ : (fin r * fin r = a * a)%gf).
      { apply (gmul_cancel v); [exact V|].
        apply gon_square in FON. apply gon_square in AON. fold v u in FON, AON.
        transitivity (fin r * fin r * v)%gf; [ring|]. rewrite FON, <- AON. ring. }
      apply square_eq in SQ. destruct SQ as [SQ|SQ]; [exact SQ|].
      destruct (gf_dec a gzero) as [A0|A0]; [rewrite SQ, A0; ring|].
      exfalso. destruct AS as [AS|AS]; [tauto|]. destruct FS as [FS|FS].
      + apply A0. transitivity (- - a)%gf; [ring|]. rewrite <- SQ, FS. ring.
      + rewrite SQ, negative_opp, AS in FS by exact A0. destruct (sign_of s); discriminate FS. }
  destruct (root_square u v V) as (e & E1 & E2).
  destruct (geqb (gsquare (root u v) * v - u)%gf gzero) eqn:C1; cbn [negb].
  { apply geqb_eq in C1. apply FIN.
    transitivity (gsquare (root u v) * v - u + u)%gf; [ring|]. rewrite C1. ring. }
  destruct (geqb (gsquare (root u v) * v + u)%gf gzero) eqn:C2; cbn [negb].
  { apply geqb_eq in C2. apply FIN. unfold gsquare in *.
    transitivity ((sqrt_m1 * sqrt_m1) * (root u v * root u v * v + u) - (sqrt_m1 * sqrt_m1) * u)%gf; [ring|].
    rewrite C2, sqrt_m1_square. ring. }
  split; [discriminate|]. intros (_ & -> & AON & _). exfalso. fold yy in AON.
  apply gon_square in AON. fold u v in AON.
  destruct (E2 (ex_intro _ x AON)) as [U|[E|E]].
  - assert (X : geqb (gsquare (root u v) * v - u)%gf gzero = true); [|congruence].
    apply geqb_eq. rewrite E1, U. ring.
  - assert (X : geqb (gsquare (root u v) * v - u)%gf gzero = true); [|congruence].
    apply geqb_eq. rewrite E1, E. ring.
  - assert (X : geqb (gsquare (root u v) * v + u)%gf gzero = true); [|congruence].
    apply geqb_eq. rewrite E1, E. ring.
Qed.

Theorem point_from_iff s p : point_from s = Some p <->
  length s = 32%nat /\ py p = fe_from s /\ (px p = gzero \/ fe_negative (px p) = sign_of s).
Proof.
  unfold point_from. destruct (ge_from s) as [[x y]|] eqn:E.
  - apply ge_from_iff in E. destruct E as (L & Y & ON & S). split.
    + intro H. injection H as <-. rewrite point_at_x, point_at_y by exact ON. auto.
    + intros (_ & Y' & S'). f_equal.
      assert (P : ge_from s = Some (px p, py p)).
      { apply ge_from_iff. repeat split; [exact L|exact Y'|apply point_on|exact S']. }
      assert (Q : ge_from s = Some (x, y)) by (apply ge_from_iff; auto).
      rewrite Q in P. injection P as -> ->.
      apply point_eq; [apply point_at_x|apply point_at_y]; apply point_on.
  - split; [discriminate|]. intros (L & Y & S). exfalso.
    assert (P : ge_from s = Some (px p, py p)).
    { apply ge_from_iff. repeat split; [exact L|exact Y|apply point_on|exact S]. }
    congruence.
Qed.

Lemma fe_from_bytes x y : fe_from (ge_bytes x y) = y.
Proof.
  unfold fe_from. rewrite ge_bytes_val.
  pose proof (gfv_range y) as R. rewrite p25519_eq in R.
  replace ((gfv y + (if fe_negative x then 2 ^ 255 else 0)) mod 2 ^ 255) with (gfv y).
  - apply gof_gfv.
  - destruct (fe_negative x).
    + replace (gfv y + 2 ^ 255) with (gfv y + 1 * 2 ^ 255) by ring.
      rewrite Z.mod_add by discriminate. symmetry. apply Z.mod_small. lia.
    + rewrite Z.add_0_r. symmetry. apply Z.mod_small. lia.
Qed.

Lemma sign_of_bytes x y : sign_of (ge_bytes x y) = fe_negative x.
Proof.
  unfold sign_of. rewrite ge_bytes_val. pose proof (gfv_range y) as R. rewrite p25519_eq in R.
  destruct (fe_negative x); [apply Z.leb_le|apply Z.leb_gt]; lia.
Qed.

Theorem point_from_bytes p : point_from (point_bytes p) = Some p.
Proof.
  apply point_from_iff. unfold point_bytes. rewrite ge_bytes_length, fe_from_bytes, sign_of_bytes. auto.
Qed.

Theorem point_bytes_inj p q : point_bytes p = point_bytes q -> p = q.
Proof.
  intro E. pose proof (point_from_bytes p) as P. rewrite E, point_from_bytes in P. congruence.
Qed.

Theorem point_eqb_eq p q : point_eqb p q = true <-> p = q.
Proof.
  unfold point_eqb. rewrite bseq_eq. split; [apply point_bytes_inj|congruence].
Qed.
