(** Multiplication by any 32 bytes, reduced or not: which multiple geScalarMult
    gives (ge.go:424-489). *)
From Coq Require Import Lia ZifyBool ZifyNat ZifyN.
From Verif Require Import Base BaseFacts Primes25519 NumberTheory Field25519 GroupMultiples LittleEndian
  Edwards25519Model Edwards25519Proofs Edwards25519More.
Local Open Scope Z_scope.

(** 63 digits of the table are at least [- 8 * ones] and at most [7 * ones] *)
Definition ones63 : Z := (2 ^ 252 - 1) / 15.

(** the digit in front of them *)
Definition top_digit (n : Z) : Z := (n + 8 * ones63) / 2 ^ 252.

(** the number by which 32 bytes multiply: a top digit that is not in the table
    is left out *)
Definition multiplier (n : Z) : Z := if top_digit n <=? 8 then n else n - top_digit n * 2 ^ 252.

Lemma top_digit_iff n : top_digit n <= 8 <-> n <= 2 ^ 255 + 7 * ones63.
Proof.
  assert (O : 2 ^ 252 = 15 * ones63 + 1) by reflexivity. unfold top_digit.
  assert (P : 2 ^ 255 = 8 * 2 ^ 252) by reflexivity. assert (W : 0 < 2 ^ 252) by reflexivity. rewrite P. clear P.
  set (w := 2 ^ 252) in *. set (o := ones63) in *. clearbody w o.
  pose proof (Z.div_mod (n + 8 * o) w ltac:(lia)) as D. pose proof (Z.mod_pos_bound (n + 8 * o) w W) as M.
  set (q := (n + 8 * o) / w) in *. clearbody q. split; intro H; nia.
Qed.

Lemma multiplier_same n : n <= 2 ^ 255 + 7 * ones63 -> multiplier n = n.
Proof. intro H. apply top_digit_iff in H. unfold multiplier. replace (top_digit n <=? 8) with true by lia. reflexivity. Qed.

Lemma recode_low e c : 0 <= c <= 1 -> Forall (fun d => 0 <= d < 16) e -> e <> [] ->
  exists lo top, recode e c = lo ++ [top] /\ Forall (fun d => -8 <= d <= 7) lo /\ 0 <= top <= 16 /\ S (length lo) = length e.
Proof.
  intros C F. revert c C. induction F as [|x e X F IH]; intros c C N; [congruence|].
  destruct e as [|y e].
  - exists [], (x + c). cbn [recode app length]. split; [reflexivity|]. split; [constructor|]. lia.
  - pose proof (Z.div_mod (x + c + 8) 16 ltac:(lia)) as D. pose proof (Z.mod_pos_bound (x + c + 8) 16 ltac:(lia)) as M.
    assert (C' : 0 <= (x + c + 8) / 16 <= 1) by lia.
    destruct (IH _ C' ltac:(discriminate)) as (lo & top & E & L & T & LEN).
    change (recode (x :: y :: e) c) with ((x + c - (x + c + 8) / 16 * 16) :: recode (y :: e) ((x + c + 8) / 16)).
    rewrite E. exists ((x + c - (x + c + 8) / 16 * 16) :: lo), top. split; [reflexivity|].
    split; [constructor; [lia|exact L]|]. split; [exact T|]. cbn [length] in *. lia.
Qed.

Lemma dval_low e : Forall (fun d => -8 <= d <= 7) e ->
  - 8 * (16 ^ Z.of_nat (length e) - 1) <= 15 * dval e <= 7 * (16 ^ Z.of_nat (length e) - 1).
Proof.
  intro F. induction F as [|d e D F IH]; cbn [dval length]; [cbn; lia|].
  rewrite Nat2Z.inj_succ, Z.pow_succ_r by lia. lia.
Qed.

Definition effective (d : Z) : Z := if 8 <? d then 0 else d.

Lemma select_effective A p b : xrep A p -> -8 <= b -> hrep (select_cached (table A) b) (effective b ** p).
Proof.
  intros HA B. unfold effective. destruct (8 <? b) eqn:E.
  - rewrite select_far by lia. rewrite zm_0. exact hrep_zero.
  - apply select_rep; [exact HA|lia].
Qed.

Lemma digits_effective A p e : xrep A p -> Forall (fun d => -8 <= d) e ->
  crep (ge_digits (table A) (rev e)) (dval (map effective e) ** p).
Proof.
  intros HA F. rewrite <- dval_rev, <- map_rev. apply Forall_rev in F.
  assert (FOLD : forall e, Forall (fun d => -8 <= d) e -> forall t v, crep t (v ** p) ->
    crep (fold_left (fun t d => ge_add (comp_extended (double4 t)) (select_cached (table A) d)) e t)
         (fold_left (fun a d => 16 * a + d) (map effective e) v ** p)).
  { clear e F. intros e F. induction F as [|d e D F IH]; intros t v H; cbn [fold_left map]; [exact H|].
    apply IH. rewrite zm_add, zm_mul. apply crep_add.
    - apply xrep_comp, crep_double4. exact H.
    - apply select_effective; assumption. }
  destruct F as [|top r T F].
  - cbn [ge_digits fold_left map]. rewrite zm_0. rewrite <- (psum_null point_null).
    apply crep_add; [exact xrep_zero|exact hrep_zero].
  - unfold ge_digits. cbn [fold_left map]. apply FOLD; [exact F|].
    replace (16 * 0 + effective top) with (0 + effective top) by lia. rewrite zm_add, zm_0.
    apply crep_add; [exact xrep_zero|]. apply select_effective; assumption.
Qed.

Lemma recode_multiplier a : length a = 32%nat ->
  Forall (fun d => -8 <= d) (recode (nybbles a) 0) /\ dval (map effective (recode (nybbles a) 0)) = multiplier (le_val a).
Proof.
  intro L.
  destruct (recode_low (nybbles a) 0 ltac:(lia) (nybbles_range a) (nybbles_nonempty a L)) as (lo & top & E & F & T & LEN).
  rewrite nybbles_length, L in LEN. assert (LL : length lo = 63%nat) by lia. clear LEN.
  pose proof (dval_low lo F) as B. rewrite LL in B. change (16 ^ Z.of_nat 63) with (2 ^ 252) in B.
  assert (V : le_val a = dval lo + 2 ^ 252 * top).
  { rewrite <- nybbles_val. replace (dval (nybbles a)) with (dval (nybbles a) + 0) by lia.
    rewrite <- recode_val by (apply nybbles_nonempty; exact L). rewrite E, dval_app, LL. cbn [dval].
    change (16 ^ Z.of_nat 63) with (2 ^ 252). ring. }
  assert (TD : top_digit (le_val a) = top).
  { unfold top_digit. assert (O : 2 ^ 252 = 15 * ones63 + 1) by reflexivity.
    symmetry. apply Z.div_unique with (r := dval lo + 8 * ones63); [left|].
    - lia.
    - rewrite V. ring. }
  rewrite E. split.
  - apply Forall_app. split; [refine (Forall_impl _ _ F); cbv beta; intros; lia|]. constructor; [lia|constructor].
  - rewrite map_app, dval_app, map_length, LL. change (16 ^ Z.of_nat 63) with (2 ^ 252). cbn [map dval].
    assert (M : map effective lo = lo).
    { rewrite <- (map_id lo) at 2. apply map_ext_in. intros d D. rewrite Forall_forall in F. specialize (F d D).
      unfold effective. replace (8 <? d) with false by lia. reflexivity. }
    rewrite M. unfold multiplier, effective. rewrite TD, V. destruct (8 <? top) eqn:X.
    + replace (top <=? 8) with false by lia. ring.
    + replace (top <=? 8) with true by lia. ring.
Qed.

Theorem mult_rep a A p : length a = 32%nat -> xrep A p -> xrep (ge_scalar_mult a A) (multiplier (le_val a) ** p).
Proof.
  intros L HA. destruct (recode_multiplier a L) as [F <-]. unfold ge_scalar_mult. apply xrep_comp.
  apply digits_effective; assumption.
Qed.

Theorem point_mul_all a p : length a = 32%nat -> point_mul a p = multiplier (le_val a) ** p.
Proof. intro L. unfold point_mul. apply lower_rep, mult_rep; [exact L|apply xrep_lift]. Qed.
