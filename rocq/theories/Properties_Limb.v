(** C93 - C95: the machine integers of the curve library. *)
From Coq Require Import String Lia.
From Verif Require Import Base HashModel Primes25519 GoIntModel LimbCode Edwards25519Model Edwards25519Proofs Sha256 SignModel
  LittleEndian Ed25519Curve CurveSpec PiastresModel LimbModel LimbSpec LimbProofs LimbScalars LimbPoints LimbCurve LimbCalls TextSpec LimbTexts.
Local Open Scope Z_scope.

Ltac tested t v := let r := eval vm_compute in t in constr_eq r v.

(** ** C93: the limbs of field elements are exact *)

Lemma field_products : forall f g, wide f -> wide g ->
  (tight (l_mul f g) /\ fval (l_mul f g) mod p25519 = (fval f * fval g) mod p25519) /\
  (tight (l_square f) /\ fval (l_square f) mod p25519 = (fval f * fval f) mod p25519) /\
  (tight (l_square2 f) /\ fval (l_square2 f) mod p25519 = (2 * (fval f * fval f)) mod p25519).
Proof. intros f g F G. split; [|split]; [apply l_mul_spec|apply l_square_spec|apply l_square2_spec]; assumption. Qed.

(** products of limbs within the bounds are right up to multiples of the modulus and within tighter bounds *)
Theorem C93_products : forall f g, wide f -> wide g ->
  (tight (l_mul f g) /\ fval (l_mul f g) mod p25519 = (fval f * fval g) mod p25519) /\
  (tight (l_square f) /\ fval (l_square f) mod p25519 = (fval f * fval f) mod p25519) /\
  (tight (l_square2 f) /\ fval (l_square2 f) mod p25519 = (2 * (fval f * fval f)) mod p25519).
Proof. exact field_products. Qed.
Print Assumptions C93_products.

Lemma field_sums : forall f g, tight f -> tight g ->
  (wide (l_add f g) /\ fval (l_add f g) = fval f + fval g) /\
  (wide (l_sub f g) /\ fval (l_sub f g) = fval f - fval g) /\
  (tight (l_neg f) /\ fval (l_neg f) = - fval f).
Proof.
  intros f g F G.
  destruct (l_add_spec _ _ _ _ f g F G eq_refl eq_refl) as [A1 A2].
  destruct (l_sub_spec _ _ _ _ f g F G eq_refl eq_refl) as [B1 B2].
  destruct (l_neg_spec _ _ f F eq_refl eq_refl) as [C1 C2].
  split; [|split]; (split; [|assumption]).
  - revert A1. apply bnd_weaken; discriminate.
  - revert B1. apply bnd_weaken; discriminate.
  - exact C1.
Qed.

(** sums and differences of such products are exact and may be multiplied again *)
Theorem C93_sums : forall f g, tight f -> tight g ->
  (wide (l_add f g) /\ fval (l_add f g) = fval f + fval g) /\
  (wide (l_sub f g) /\ fval (l_sub f g) = fval f - fval g) /\
  (tight (l_neg f) /\ fval (l_neg f) = - fval f).
Proof. exact field_sums. Qed.
Print Assumptions C93_sums.

Lemma field_bytes :
  (forall s, length s = 32%nat -> tight (l_from s) /\ fval (l_from s) mod p25519 = (le_val s mod 2 ^ 255) mod p25519) /\
  (forall h, wide h -> fst (l_bytes h) = le_bytes 32 (fval h mod p25519) /\ fval (snd (l_bytes h)) = fval h mod p25519).
Proof.
  split; [exact l_from_spec|]. intros h H. destruct (l_bytes_spec h H) as (A & _ & B). split; assumption.
Qed.

(** reading 32 bytes drops the highest bit; writing gives the bytes of the number below the modulus *)
Theorem C93_bytes :
  (forall s, length s = 32%nat -> tight (l_from s) /\ fval (l_from s) mod p25519 = (le_val s mod 2 ^ 255) mod p25519) /\
  (forall h, wide h -> fst (l_bytes h) = le_bytes 32 (fval h mod p25519) /\ fval (snd (l_bytes h)) = fval h mod p25519).
Proof. exact field_bytes. Qed.
Print Assumptions C93_bytes.

(** no operation on the way leaves its type *)
Theorem C93_no_overflow :
  (forall f g, wide f -> wide g -> never_wraps feMul (start (combine (elems "f" 10) f ++ combine (elems "g" 10) g))) /\
  (forall f, wide f -> never_wraps feSquare (start (combine (elems "f" 10) f))) /\
  (forall f, wide f -> never_wraps feSquare2 (start (combine (elems "f" 10) f))) /\
  (forall s, length s = 32%nat -> never_wraps feFromBytes (start (combine (elems "src" 32) (map b2z s)))) /\
  (forall h, wide h -> never_wraps feToBytes (start (combine (elems "h" 10) h))).
Proof.
  exact (conj mul_never_wraps (conj square_never_wraps (conj square2_never_wraps (conj from_never_wraps to_never_wraps)))).
Qed.
Print Assumptions C93_no_overflow.

Lemma field_in_place : forall f g,
  let both := start (combine (elems "f" 10) f ++ combine (elems "g" 10) g) in
  let one := start (combine (elems "f" 10) f) in
  outs (exec (renames (onto (elems "h" 10) (elems "f" 10)) feMul) both) (elems "f" 10) = l_mul f g /\
  outs (exec (renames (onto (elems "h" 10) (elems "g" 10)) feMul) both) (elems "g" 10) = l_mul f g /\
  outs (exec (renames (onto (elems "h" 10) (elems "f" 10)) feSquare) one) (elems "f" 10) = l_square f /\
  outs (exec (renames (onto (elems "h" 10) (elems "f" 10)) feSquare2) one) (elems "f" 10) = l_square2 f.
Proof.
  intros f g both one.
  exact (conj (proj1 (over_sound _ _ _ both mul_over_f)) (conj (proj1 (over_sound _ _ _ both mul_over_g))
        (conj (proj1 (over_sound _ _ _ one square_over)) (proj1 (over_sound _ _ _ one square2_over))))).
Qed.

(** the same result when it is written over an argument *)
Theorem C93_in_place : forall f g,
  let both := start (combine (elems "f" 10) f ++ combine (elems "g" 10) g) in
  let one := start (combine (elems "f" 10) f) in
  outs (exec (renames (onto (elems "h" 10) (elems "f" 10)) feMul) both) (elems "f" 10) = l_mul f g /\
  outs (exec (renames (onto (elems "h" 10) (elems "g" 10)) feMul) both) (elems "g" 10) = l_mul f g /\
  outs (exec (renames (onto (elems "h" 10) (elems "f" 10)) feSquare) one) (elems "f" 10) = l_square f /\
  outs (exec (renames (onto (elems "h" 10) (elems "f" 10)) feSquare2) one) (elems "f" 10) = l_square2 f.
Proof. exact field_in_place. Qed.
Print Assumptions C93_in_place.

(** limbs at the bounds; one step beyond the types an addition does wrap around *)
Example C93_case :
  wide (alternating me mo) /\ wide (map Z.opp (alternating me mo)) /\ tight (alternating te (- to_)) /\
  fval (l_mul (alternating me mo) (map Z.opp (alternating me mo))) mod p25519 =
    (- (fval (alternating me mo) * fval (alternating me mo))) mod p25519 /\
  fval (l_add (alternating (2 ^ 30) 0) (alternating (2 ^ 30) 0)) <> 2 * fval (alternating (2 ^ 30) 0).
Proof.
  assert (W1 : wide (alternating me mo)) by (unfold wide, bnd, alternating; repeat constructor; discriminate).
  assert (W2 : wide (map Z.opp (alternating me mo))) by (unfold wide, bnd, alternating; repeat constructor; discriminate).
  split; [exact W1|]. split; [exact W2|]. split; [unfold tight, bnd, alternating; repeat constructor; discriminate|]. split.
  - rewrite (proj2 (proj1 (C93_products _ _ W1 W2))). vm_compute. reflexivity.
  - vm_compute. discriminate.
Qed.

(** ** C94: the limbs of scalars are exact *)

Lemma scalars_exact : forall a b, length a = 32%nat -> length b = 32%nat ->
  l_scalar_add a b = le_bytes 32 ((le_val a + le_val b) mod l25519) /\
  l_scalar_sub a b = le_bytes 32 ((le_val a - le_val b) mod l25519) /\
  l_scalar_mul a b = le_bytes 32 ((le_val a * le_val b) mod l25519).
Proof.
  intros a b A B. rewrite l_scalar_add_eq, l_scalar_sub_eq, l_scalar_mul_eq by assumption.
  split; [|split]; reflexivity.
Qed.

(** any 32 bytes, reduced or not *)
Theorem C94_exact : forall a b, length a = 32%nat -> length b = 32%nat ->
  l_scalar_add a b = le_bytes 32 ((le_val a + le_val b) mod l25519) /\
  l_scalar_sub a b = le_bytes 32 ((le_val a - le_val b) mod l25519) /\
  l_scalar_mul a b = le_bytes 32 ((le_val a * le_val b) mod l25519).
Proof. exact scalars_exact. Qed.
Print Assumptions C94_exact.

Lemma scalars_inverse : forall a, length a = 32%nat -> le_val a mod l25519 <> 0 ->
  (le_val (l_scalar_inverse a) * le_val a) mod l25519 = 1.
Proof.
  intros a L N. assert (L0 : l25519 <> 0) by discriminate.
  assert (D : ~ (l25519 | le_val a)) by (intro D; apply N; apply Z.mod_divide; [exact L0|exact D]).
  rewrite l_scalar_inverse_eq, scalar_inverse_val by exact L.
  pose proof (inverse_product (le_val a) 1 D) as I. rewrite Z.mul_1_r in I.
  rewrite Z.mul_mod_idemp_l by exact L0. exact I.
Qed.

Theorem C94_inverse : forall a, length a = 32%nat -> le_val a mod l25519 <> 0 ->
  (le_val (l_scalar_inverse a) * le_val a) mod l25519 = 1.
Proof. exact scalars_inverse. Qed.
Print Assumptions C94_inverse.

Lemma scalars_no_overflow : forall a b, length a = 32%nat -> length b = 32%nat ->
  never_wraps scAdd (start (combine (elems "a" 32) (map b2z a) ++ combine (elems "c" 32) (map b2z b))) /\
  never_wraps scSub (start (combine (elems "a" 32) (map b2z a) ++ combine (elems "c" 32) (map b2z b))) /\
  never_wraps scMul (start (combine (elems "a" 32) (map b2z a) ++ combine (elems "b" 32) (map b2z b))).
Proof.
  intros a b A B. exact (conj (scalars_never_wrap _ _ a b add_tail A B)
    (conj (scalars_never_wrap _ _ a b sub_tail A B) (scalars_never_wrap _ _ a b mul_tail A B))).
Qed.

Theorem C94_no_overflow : forall a b, length a = 32%nat -> length b = 32%nat ->
  never_wraps scAdd (start (combine (elems "a" 32) (map b2z a) ++ combine (elems "c" 32) (map b2z b))) /\
  never_wraps scSub (start (combine (elems "a" 32) (map b2z a) ++ combine (elems "c" 32) (map b2z b))) /\
  never_wraps scMul (start (combine (elems "a" 32) (map b2z a) ++ combine (elems "b" 32) (map b2z b))).
Proof. exact scalars_no_overflow. Qed.
Print Assumptions C94_no_overflow.

Lemma scalars_in_place : forall a b,
  let two := fun y => start (combine (elems "a" 32) (map b2z a) ++ combine (elems y 32) (map b2z b)) in
  let over := fun p y x => map z2b (outs (exec (renames (onto (elems "s" 32) (elems x 32)) p) (two y)) (elems x 32)) in
  over scAdd "c"%string "a"%string = l_scalar_add a b /\ over scAdd "c"%string "c"%string = l_scalar_add a b /\
  over scSub "c"%string "a"%string = l_scalar_sub a b /\ over scSub "c"%string "c"%string = l_scalar_sub a b /\
  over scMul "b"%string "a"%string = l_scalar_mul a b /\ over scMul "b"%string "b"%string = l_scalar_mul a b /\
  (length a = 32%nat ->
   map z2b (outs (exec (renames (onto (elems "s" 32 ++ elems "b" 32) (elems "a" 32 ++ elems "a" 32)) scMul)
                       (start (combine (elems "a" 32) (map b2z a)))) (elems "a" 32)) = l_scalar_mul a a).
Proof.
  intros a b two over.
  exact (conj (f_equal (map z2b) (proj1 (over_sound _ _ _ (two "c"%string) add_over_a)))
        (conj (f_equal (map z2b) (proj1 (over_sound _ _ _ (two "c"%string) add_over_c)))
        (conj (f_equal (map z2b) (proj1 (over_sound _ _ _ (two "c"%string) sub_over_a)))
        (conj (f_equal (map z2b) (proj1 (over_sound _ _ _ (two "c"%string) sub_over_c)))
        (conj (f_equal (map z2b) (proj1 (over_sound _ _ _ (two "b"%string) scmul_over_a)))
        (conj (f_equal (map z2b) (proj1 (over_sound _ _ _ (two "b"%string) scmul_over_b)))
              (square_in_place a))))))).
Qed.

(** the result over either argument, and scalar.go:125 where all three are one *)
Theorem C94_in_place : forall a b,
  let two := fun y => start (combine (elems "a" 32) (map b2z a) ++ combine (elems y 32) (map b2z b)) in
  let over := fun p y x => map z2b (outs (exec (renames (onto (elems "s" 32) (elems x 32)) p) (two y)) (elems x 32)) in
  over scAdd "c"%string "a"%string = l_scalar_add a b /\ over scAdd "c"%string "c"%string = l_scalar_add a b /\
  over scSub "c"%string "a"%string = l_scalar_sub a b /\ over scSub "c"%string "c"%string = l_scalar_sub a b /\
  over scMul "b"%string "a"%string = l_scalar_mul a b /\ over scMul "b"%string "b"%string = l_scalar_mul a b /\
  (length a = 32%nat ->
   map z2b (outs (exec (renames (onto (elems "s" 32 ++ elems "b" 32) (elems "a" 32 ++ elems "a" 32)) scMul)
                       (start (combine (elems "a" 32) (map b2z a)))) (elems "a" 32)) = l_scalar_mul a a).
Proof. exact scalars_in_place. Qed.
Print Assumptions C94_in_place.

Definition all_ones : bytes := repeat xff 32.
Example C94_case : length all_ones = 32%nat /\
  l_scalar_mul all_ones all_ones = le_bytes 32 (((2 ^ 256 - 1) * (2 ^ 256 - 1)) mod l25519) /\
  le_val all_ones mod l25519 <> 0.
Proof.
  split; [reflexivity|]. split.
  - rewrite (proj2 (proj2 (C94_exact all_ones all_ones eq_refl eq_refl))). vm_compute. reflexivity.
  - vm_compute. discriminate.
Qed.

(** ** C95: the package over machine integers is the package over the curve *)

(** whatever is computed with points *)
Theorem C95_points : forall e, scalars32 e ->
  match run limb25519 (fun s => s) e, run ed25519 (fun s => s) e with
  | Some p, Some q => l_point_bytes p = point_bytes q
  | None, None => True
  | _, _ => False
  end.
Proof. exact limb_points. Qed.
Print Assumptions C95_points.
Theorem C95_equal : forall e f, scalars32 e -> scalars32 f ->
  match run limb25519 (fun s => s) e, run limb25519 (fun s => s) f, run ed25519 (fun s => s) e, run ed25519 (fun s => s) f with
  | Some p, Some p', Some q, Some q' => l_point_eqb p p' = point_eqb q q'
  | _, _, _, _ => True
  end.
Proof. exact limb_equal. Qed.
Print Assumptions C95_equal.

(** the same texts and answers *)
Theorem C95_texts :
  (forall t, public_text limb25519 t = public_text ed25519 t) /\
  (forall rnd t m, sign_text limb25519 rnd t m = sign_text ed25519 rnd t m) /\
  (forall rnd s m, read_text limb25519 rnd s m = read_text ed25519 rnd s m) /\
  (forall t m ring, ring_sign_text limb25519 t m ring = ring_sign_text ed25519 t m ring) /\
  (forall s m, ring_read_text limb25519 s m = ring_read_text ed25519 s m) /\
  (forall s m hs, ring_keys_text limb25519 s m hs = ring_keys_text ed25519 s m hs) /\
  (forall l s, unlock_text limb25519 l s = unlock_text ed25519 l s).
Proof. exact limb_texts. Qed.
Print Assumptions C95_texts.

(** so that signing works, for every key up to the largest multiplier *)
Theorem C95_ring : forall t (x u m : bytes) ks, (scalar_of_string limb25519 t : res bytes) = Ok x ->
  le_val x <= last_multiplier ->
  public_text limb25519 t = Ok u -> In u ks -> (forall k, In k ks -> exists p, point_of_string limb25519 k = Ok p) ->
  exists s, ring_sign_text limb25519 t m ks = Ok s /\ ring_read_text limb25519 s m = Ok (s, true).
Proof. exact limb_ring_text. Qed.
Print Assumptions C95_ring.
Theorem C95_sign : forall t (x u m : bytes) rnd rnd', (scalar_of_string limb25519 t : res bytes) = Ok x ->
  le_val x <= last_multiplier -> public_text limb25519 t = Ok u ->
  let r := nonce_text limb25519 x m in
  let zero := fun m : bytes => (create_hash limb25519 m : bytes) = scalar_zero in
  ~ zero (itoa rnd ++ r) -> ~ zero (itoa rnd' ++ r) -> ~ zero (m ++ r) ->
  exists s, sign_text limb25519 rnd t m = Ok s /\ read_text limb25519 rnd' s m = Ok (s, u).
Proof. exact limb_sign_text. Qed.
Print Assumptions C95_sign.

Example C95_case : scalars32 (PAdd (PMul all_ones PBase) (PSub PBase (PRead (le_bytes 32 1)))) /\
  let t := sstr limb25519 (le_bytes 32 5) in
  (scalar_of_string limb25519 t : res bytes) = Ok (le_bytes 32 5) /\ le_val (le_bytes 32 5) <= last_multiplier.
Proof.
  split; [repeat constructor|]. split; [apply limb_key_text; split; reflexivity|]. apply Z.leb_le. vm_compute. reflexivity.
Qed.
(** the text of the base point, on the machine integers *)
Goal True.
  tested (bseq (l_point_bytes l_base) (point_bytes point_base)) true.
Abort.
