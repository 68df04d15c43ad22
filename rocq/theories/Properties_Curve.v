(** C85 - C91: edwards25519 as the code has it, its keys and their texts; and
    the signature theorems C12 - C20, C77 on that curve, without any assumption. *)
From Coq Require Import Lia.
From Verif Require Import Base Sha512 BaseFacts HashModel EntitiesModel Primes25519 Field25519 Edwards25519Model Sha256 SignModel SignSpec SignProofs
  Edwards25519Proofs Edwards25519More LittleEndian Ed25519Curve CurveSpec CurveProofs PiastresModel PiastresSpec PiastresProofs CurveLedger.
Local Open Scope Z_scope.

Local Opaque point_add point_mul point_sub.

(** What is too long for the kernel's own reduction is computed when the file is
    built and leaves no trace in a proof. *)
Ltac tested t v := let r := eval vm_compute in t in constr_eq r v.

(** ** C85: Add, Sub and Mul are the operations of the curve *)

(** the points are those of the twisted Edwards curve with d = -121665 / 121666 *)
Theorem C85_curve : (forall p, (gopp (gmul (px p) (px p)) + gmul (py p) (py p) =
    gone + gmul (gmul ge_d (gmul (px p) (px p))) (gmul (py p) (py p)))%gf) /\
  gmul ge_d (gof 121666) = gof (-121665) /\
  (forall p q, px p = px q -> py p = py q -> p = q).
Proof. exact curve_equation. Qed.
Print Assumptions C85_curve.

Theorem C85_group :
  (forall p q r, point_add (point_add p q) r = point_add p (point_add q r)) /\
  (forall p q, point_add p q = point_add q p) /\
  (forall p, point_add p point_null = p) /\
  (forall p q, point_add (point_sub p q) q = p) /\
  (forall p q, point_sub (point_add p q) q = p).
Proof. exact group_laws. Qed.
Print Assumptions C85_group.

(** the addition formula of the curve, with denominators that are never zero *)
Theorem C85_add : forall p q, let x := px (point_add p q) in let y := py (point_add p q) in
  let k := gmul ge_d (gmul (gmul (px p) (px q)) (gmul (py p) (py q))) in
  (gmul x (gone + k) = gmul (px p) (py q) + gmul (px q) (py p) /\
   gmul y (gone - k) = gmul (py p) (py q) + gmul (px p) (px q) /\
   gone + k <> gzero /\ gone - k <> gzero)%gf.
Proof. exact addition_formula. Qed.
Print Assumptions C85_add.

Theorem C85_mul_partial : forall s p, length s = 32%nat -> le_val s <= last_multiplier ->
  point_mul s p = times (le_val s) p.
Proof. exact point_mul_times. Qed.
Print Assumptions C85_mul_partial.

(** For every larger scalar Mul gives another point. *)
Theorem C85_refuted : forall s, length s = 32%nat -> last_multiplier < le_val s ->
  point_mul s point_base <> times (le_val s) point_base.
Proof. exact mul_far_wrong. Qed.
Print Assumptions C85_refuted.
Definition bignum : bytes := le_bytes 32 (2 ^ 256 - 1).
Example C85_case :
  point_mul (le_bytes 32 3) point_base = point_add point_base (point_add point_base (point_add point_base point_null)) /\
  point_base <> point_null /\
  (let s := le_bytes 32 last_multiplier in point_mul s point_base = times (le_val s) point_base) /\
  (let s := le_bytes 32 (last_multiplier + 1) in point_mul s point_base <> times (le_val s) point_base) /\
  length bignum = 32%nat /\ (last_multiplier <? le_val bignum) = true.
Proof.
  assert (V : le_val (le_bytes 32 3) = 3) by reflexivity.
  assert (B : (last_multiplier <? le_val bignum) = true) by (vm_compute; reflexivity).
  assert (B1 : (le_val (le_bytes 32 last_multiplier) <=? last_multiplier) = true) by (vm_compute; reflexivity).
  assert (B2 : (last_multiplier <? le_val (le_bytes 32 (last_multiplier + 1))) = true) by (vm_compute; reflexivity).
  split; [|split; [exact base_nonnull|split; [|split; [|split; [reflexivity|exact B]]]]].
  - rewrite C85_mul_partial; [|reflexivity|rewrite V; apply Z.leb_le; vm_compute; reflexivity]. rewrite V. reflexivity.
  - apply C85_mul_partial; [reflexivity|]. apply Z.leb_le. exact B1.
  - apply C85_refuted; [reflexivity|]. apply Z.ltb_lt. exact B2.
Qed.
Goal True.
  tested (point_eqb (point_mul bignum point_base) (point_mul (scalar_of (le_val bignum)) point_base)) false.
Abort.

(** ** C86: private keys and public keys correspond one to one *)
Theorem C86_order : forall n, 0 <= n -> (times n point_base = point_null <-> (l25519 | n)).
Proof. exact base_order_exact. Qed.
Print Assumptions C86_order.
Theorem C86_injective : forall x y, generated x -> generated y ->
  public_key ed25519 x = public_key ed25519 y -> x = y.
Proof. exact public_injective. Qed.
Print Assumptions C86_injective.
Theorem C86_onto : forall p, has_private_key p <-> exists x, generated x /\ public_key ed25519 x = p.
Proof. exact has_private_iff. Qed.
Print Assumptions C86_onto.
(** the order is the number in the code and a prime *)
Theorem C86_prime : Znumtheory.prime l25519 /\ l25519 = 2 ^ 252 + 27742317777372353535851937790883648493 /\
  Znumtheory.prime p25519 /\ p25519 = 2 ^ 255 - 19.
Proof. exact the_primes. Qed.
Print Assumptions C86_prime.
Example C86_case : generated (le_bytes 32 5) /\ generated (le_bytes 32 (l25519 - 1)) /\
  point_add (public_key ed25519 (le_bytes 32 (l25519 - 1))) point_base = point_null.
Proof. split; [split; reflexivity|]. split; [split; vm_compute; reflexivity|]. exact last_key. Qed.

(** ** C87: the text of a public key *)
Theorem C87_round_trip : forall p, point_of_string ed25519 (pstr ed25519 p) = Ok p.
Proof. exact point_text. Qed.
Print Assumptions C87_round_trip.
(** exactly what is accepted *)
Theorem C87_decoder : forall s p, point_from s = Some p <->
  length s = 32%nat /\ gfv (py p) = (le_val s mod 2 ^ 255) mod p25519 /\
  (px p = gzero \/ fe_negative (px p) = (2 ^ 255 <=? le_val s)).
Proof. exact decode_exact. Qed.
Print Assumptions C87_decoder.
(** Uniqueness fails: the sign of a point with x = 0 is not looked at, *)
Theorem C87_refuted_sign : forall p (b : bool), px p = gzero ->
  point_from (le_bytes 32 (gfv (py p) + if b then 2 ^ 255 else 0)) = Some p.
Proof. exact decode_sign. Qed.
Print Assumptions C87_refuted_sign.
(** and y is not compared with the modulus. *)
Theorem C87_refuted_above : forall p, gfv (py p) < 19 ->
  let s := le_bytes 32 (gfv (py p) + p25519 + if fe_negative (px p) then 2 ^ 255 else 0) in
  point_from s = Some p /\ s <> point_bytes p.
Proof. exact decode_above. Qed.
Print Assumptions C87_refuted_above.
Theorem C87_unique_partial : forall s p, point_from s = Some p -> le_val s mod 2 ^ 255 < p25519 -> px p <> gzero ->
  s = point_bytes p.
Proof. exact decode_unique. Qed.
Print Assumptions C87_unique_partial.
(** three texts of the null point *)
Example C87_case :
  point_from (le_bytes 32 1) = Some point_null /\ point_from (le_bytes 32 (1 + 2 ^ 255)) = Some point_null /\
  point_from (le_bytes 32 (1 + p25519)) = Some point_null /\ px point_null = gzero /\
  bseq (point_bytes point_base) (le_bytes 32 (gfv (py point_base))) = true /\ geqb (px point_base) gzero = false.
Proof.
  assert (Y : gfv (py point_null) = 1) by (vm_compute; reflexivity).
  assert (N : fe_negative (px point_null) = false) by (vm_compute; reflexivity).
  pose proof (C87_refuted_sign point_null false null_x) as A. pose proof (C87_refuted_sign point_null true null_x) as B.
  assert (L : gfv (py point_null) < 19) by (rewrite Y; reflexivity).
  destruct (C87_refuted_above point_null L) as [C _].
  rewrite Y in A, B, C. rewrite N in C. rewrite Z.add_0_r in A, C.
  split; [exact A|]. split; [exact B|]. split; [exact C|]. split; [exact null_x|].
  split; vm_compute; reflexivity.
Qed.
(** the two points with y = 0, and a text that is refused *)
Goal True.
  tested match point_from (le_bytes 32 0), point_from (le_bytes 32 p25519), point_from (le_bytes 32 2) with
  | Some p, Some q, None => point_eqb p q && negb (geqb (px p) gzero)
  | _, _, _ => false
  end true.
Abort.

(** ** C88: the text of a private key *)
(** Fifteen numbers, with any digits behind them, are read as keys that sign and print alike. *)
Theorem C88_refuted : forall x j more, generated x -> 0 <= j <= 14 ->
  let y := le_bytes 32 (le_val x + j * l25519) in
  scalar_of_string ed25519 (hex_encode (y ++ more)) = Ok y /\ sstr ed25519 y = sstr ed25519 x /\
  (j <> 0 -> y <> x).
Proof. exact key_texts. Qed.
Print Assumptions C88_refuted.
Theorem C88_round_trip_partial : forall x, generated x -> scalar_of_string ed25519 (sstr ed25519 x) = Ok x.
Proof. exact generated_text. Qed.
Print Assumptions C88_round_trip_partial.
Example C88_case : generated (le_bytes 32 7) /\
  match scalar_of_string ed25519 (s2b "f4d3f55c1a631258d69cf7a2def9de140000000000000000000000000000001000") with
  | Ok y => bseq (sstr ed25519 y) (sstr ed25519 (le_bytes 32 7))
  | _ => false
  end = true.
Proof. split; [split; reflexivity|vm_compute; reflexivity]. Qed.

(** ** C89: a private key that was read signs for its public key *)
(** With a larger number the public key that Sign's signatures give is never the own one, *)
Theorem C89_refuted_sign : forall rnd x msg, length x = 32%nat -> last_multiplier < le_val x ->
  let r := pmul ed25519 (gen_k ed25519 x msg) (base ed25519) in
  create_hash ed25519 (itoa rnd ++ pstr ed25519 r) <> scalar_zero ->
  create_hash ed25519 (msg ++ pstr ed25519 r) <> scalar_zero ->
  exists g, sign ed25519 rnd x msg = Ok g /\ sig_public_key ed25519 g msg <> public_key ed25519 x.
Proof. exact far_sign. Qed.
Print Assumptions C89_refuted_sign.
(** and a ring signature with its own key alone verifies only by a coincidence of challenges. *)
Theorem C89_refuted_ring : forall x msg, length x = 32%nat -> last_multiplier < le_val x ->
  let p := public_key ed25519 x in
  let first := msg ++ pstr ed25519 (pmul ed25519 (gen_k ed25519 x msg) (base ed25519)) in
  exists sig, ring_sign ed25519 x msg [p] = Ok sig /\
  (ring_verify ed25519 sig msg = Ok true ->
   create_hash ed25519 first = scalar_zero \/
   challenge_collision ed25519 first (last_input ed25519 msg [p] (rs_s sig) (rs_e sig))).
Proof. exact far_ring_sign. Qed.
Print Assumptions C89_refuted_ring.
(** All other keys sign, reduced or not. *)
Theorem C89_sign_partial : forall rnd x msg, length x = 32%nat -> le_val x <= last_multiplier ->
  let r := pmul ed25519 (gen_k ed25519 x msg) (base ed25519) in
  create_hash ed25519 (itoa rnd ++ pstr ed25519 r) <> scalar_zero ->
  create_hash ed25519 (msg ++ pstr ed25519 r) <> scalar_zero ->
  exists g, sign ed25519 rnd x msg = Ok g /\ sg_r g = r /\ generated (sg_s g) /\
            sig_public_key ed25519 g msg = public_key ed25519 x.
Proof. exact near_sign. Qed.
Print Assumptions C89_sign_partial.
Theorem C89_ring_sign_partial : forall x msg ring, length x = 32%nat -> le_val x <= last_multiplier ->
  match ring_sign ed25519 x msg ring with
  | Ok sig => In (public_key ed25519 x) ring /\ rs_ring sig = ring /\ length (rs_s sig) = length ring /\
              ring_verify ed25519 sig msg = Ok true
  | Err => ~ In (public_key ed25519 x) ring
  | Panic => False
  end.
Proof. exact near_ring_sign. Qed.
Print Assumptions C89_ring_sign_partial.
Definition signs (x : bytes) (ring : list point) : res bool :=
  rbind (ring_sign ed25519 x (s2b "hello") ring) (fun g => ring_verify ed25519 g (s2b "hello")).
Example C89_case : (length bignum = 32%nat /\ (last_multiplier <? le_val bignum) = true) /\
  let x := le_bytes 32 last_multiplier in (l25519 <=? le_val x) = true /\ signs x [public_key ed25519 x] = Ok true.
Proof.
  split; [split; vm_compute; reflexivity|]. intro x.
  split; [vm_compute; reflexivity|].
  assert (L : (le_val x <=? last_multiplier) = true) by (vm_compute; reflexivity). apply Z.leb_le in L.
  pose proof (C89_ring_sign_partial x (s2b "hello") [public_key ed25519 x] eq_refl L) as H.
  clearbody x. unfold signs. destruct (ring_sign ed25519 x (s2b "hello") [public_key ed25519 x]) as [g| |].
  - destruct H as (_ & _ & _ & H). exact H.
  - elim H. left. reflexivity.
  - elim H.
Qed.
Goal True. tested (signs bignum [public_key ed25519 bignum]) (@Ok bool false). Abort.

(** ** C90: whoever signs for a ring has a private key of the ring *)
(** The point of order two is accepted as public key and is the key of no private key; *)
Theorem C90_refuted_no_owner : exists t, order_two t /\ (forall u, order_two u -> u = t) /\
  point_of_string ed25519 (pstr ed25519 t) = Ok t /\
  (forall text x, scalar_of_string ed25519 text = Ok x -> public_key ed25519 x <> t) /\
  forall s msg, generated s ->
  let e := create_hash ed25519 (msg ++ pstr ed25519 (public_key ed25519 s)) in
  Z.even (le_val e) = true -> ring_verify ed25519 (@RingSig ed25519 [t] [s] e) msg = Ok true.
Proof. exact nobody_signs. Qed.
Print Assumptions C90_refuted_no_owner.
(** and with the null point in the ring anyone signs anything. *)
Theorem C90_refuted_null : forall ring msg, In point_null ring ->
  exists sig, ring_sign ed25519 scalar_zero msg ring = Ok sig /\ rs_ring sig = ring /\ ring_verify ed25519 sig msg = Ok true.
Proof. exact null_forged. Qed.
Print Assumptions C90_refuted_null.
(** RingSign itself signs only with a key of the ring. *)
Theorem C90_signer_partial : forall x msg ring sig, ring_sign ed25519 x msg ring = Ok sig ->
  In (public_key ed25519 x) ring.
Proof. exact signer_in_ring. Qed.
Print Assumptions C90_signer_partial.
Example C90_case :
  (public_key ed25519 (le_bytes 32 1) = point_base /\
   Z.even (le_val (create_hash ed25519 (s2b "pay me" ++ pstr ed25519 point_base))) = true) /\
  exists sig, ring_sign ed25519 scalar_zero (s2b "hello") [point_null] = Ok sig /\ ring_verify ed25519 sig (s2b "hello") = Ok true.
Proof.
  split; [split; [exact first_key|vm_compute; reflexivity]|].
  destruct (C90_refuted_null [point_null] (s2b "hello") (or_introl eq_refl)) as (sig & A & _ & B).
  exists sig. split; [exact A|exact B].
Qed.

(** ** C91: reading a signature gives the same answer every time *)
(** The answer of Verify, and with it of reading the text, is the parity of a number that
    depends on the random message if r is outside the subgroup, *)
Theorem C91_refuted : forall rnd k (b : bool) s, length s = 32%nat ->
  let r := point_add (times k point_base) (if b then two else point_null) in
  challenge rnd r <> scalar_zero ->
  sig_verify ed25519 rnd (@Sig ed25519 r s) = (if b then Z.odd (roundabout rnd r) else true).
Proof. exact verify_two. Qed.
Print Assumptions C91_refuted.
(** and in general *)
Theorem C91_verify : forall rnd r s, sig_verify ed25519 rnd (@Sig ed25519 r s) = true <->
  let d := point_sub r (point_mul s point_base) in times (roundabout rnd r) d = d.
Proof. exact verify_times. Qed.
Print Assumptions C91_verify.
(** the rest of the claim: where somebody has the private key of r the answer does not depend on the
    random message, unless it has the challenge zero *)
Theorem C91_subgroup_partial : forall rnd1 rnd2 r s, has_private_key r -> length s = 32%nat ->
  challenge rnd1 r <> scalar_zero -> challenge rnd2 r <> scalar_zero ->
  sig_verify ed25519 rnd1 (@Sig ed25519 r s) = sig_verify ed25519 rnd2 (@Sig ed25519 r s).
Proof. intros rnd1 rnd2 r s H L N1 N2. rewrite !(verify_any) by assumption. reflexivity. Qed.
Print Assumptions C91_subgroup_partial.
(** of two random messages one accepts the signature and the other does not *)
Example C91_case :
  Z.odd (roundabout 0 two) = false /\ bseq (challenge 0 two) scalar_zero = false /\
  Z.odd (roundabout 2 two) = true /\ bseq (challenge 2 two) scalar_zero = false.
Proof.
  assert (A : scalar_inverse (challenge 0 two) =
    le_bytes 32 4234375780499834702431142001866831237763509424214505949650978907310219874063).
  { apply inverse_witness; [apply hash_reduced|split; vm_compute; reflexivity|vm_compute; reflexivity]. }
  assert (B : scalar_inverse (challenge 2 two) =
    le_bytes 32 1645454803819591202911766977728783156669460990083679380645486100517370257747).
  { apply inverse_witness; [apply hash_reduced|split; vm_compute; reflexivity|vm_compute; reflexivity]. }
  unfold roundabout. rewrite A, B.
  split; [|split; [|split]]; vm_compute; reflexivity.
Qed.

(** ** The earlier theorems on this curve *)

Theorem C12_ed25519 : forall x msg ring, generated x ->
  match ring_sign ed25519 x msg ring with
  | Ok sig => In (public_key ed25519 x) ring /\ rs_ring sig = ring /\ length (rs_s sig) = length ring /\
              ring_verify ed25519 sig msg = Ok true
  | Err => ~ In (public_key ed25519 x) ring
  | Panic => False
  end.
Proof. exact ring_sign_ed25519. Qed.
Print Assumptions C12_ed25519.

Theorem C13_ed25519 : forall rnd x msg, generated x ->
  let r := pmul ed25519 (gen_k ed25519 x msg) (base ed25519) in
  create_hash ed25519 (itoa rnd ++ pstr ed25519 r) <> scalar_zero ->
  create_hash ed25519 (msg ++ pstr ed25519 r) <> scalar_zero ->
  exists g, sign ed25519 rnd x msg = Ok g /\ sg_r g = r /\ generated (sg_s g) /\
            sig_public_key ed25519 g msg = public_key ed25519 x.
Proof. exact (sign_recovers ed25519 scalar_reduced scalar_zero scalar_add ed25519_laws). Qed.
Print Assumptions C13_ed25519.

(** Verify accepts any scalar with the public key of anyone in place of r. *)
Theorem C14_refuted_ed25519 : forall rnd r s, has_private_key r -> length s = 32%nat ->
  challenge rnd r <> scalar_zero -> sig_verify ed25519 rnd (@Sig ed25519 r s) = true.
Proof. exact verify_any. Qed.
Print Assumptions C14_refuted_ed25519.

Theorem C15_one_message_ed25519_partial : forall (sig : ringsig ed25519) m1 m2, rs_ring sig <> [] ->
  ring_verify ed25519 sig m1 = Ok true -> ring_verify ed25519 sig m2 = Ok true ->
  m1 = m2 \/ challenge_collision ed25519 (last_input ed25519 m1 (rs_ring sig) (rs_s sig) (rs_e sig))
                                         (last_input ed25519 m2 (rs_ring sig) (rs_s sig) (rs_e sig)).
Proof. exact (verify_two_messages ed25519 scalar_reduced scalar_zero scalar_add ed25519_laws). Qed.
Print Assumptions C15_one_message_ed25519_partial.

Theorem C16_ed25519 : forall sig : ringsig ed25519, generated (rs_e sig) -> Forall generated (rs_s sig) ->
  ring_of_string ed25519 (ring_string ed25519 sig) = Ok sig.
Proof. exact (ring_of_ring_string ed25519 scalar_reduced scalar_zero scalar_add ed25519_laws). Qed.
Print Assumptions C16_ed25519.

Theorem C18_refuted_ed25519 : forall now pks created l, app_lock (C := ed25519) now pks created = Ok l ->
  forall sig : ringsig ed25519, unlock l sig = Ok tt ->
  rs_ring sig <> [] /\
  forall q, In q (rs_ring sig) -> exists p, In p pks /\ sha512 (point_bytes p) = hex_encode (point_bytes q).
Proof. exact (@app_lock_unspendable ed25519 scalar_reduced scalar_zero scalar_add ed25519_laws). Qed.
Print Assumptions C18_refuted_ed25519.

Theorem C18_text_keys_ed25519_partial : forall now (ring : list point) x created l, generated x -> In (public_key ed25519 x) ring ->
  lock_now now (map (pstr ed25519) ring) created = Ok l ->
  exists sig, ring_sign ed25519 x (hash_string (lk_hash l)) ring = Ok sig /\ unlock (C := ed25519) l sig = Ok tt.
Proof. exact (@text_lock_opens ed25519 scalar_reduced scalar_zero scalar_add ed25519_laws). Qed.
Print Assumptions C18_text_keys_ed25519_partial.

(** a lock with the null point among its keys is opened by anyone *)
Theorem C90_refuted_lock : forall now (ring : list point) created l, In point_null ring ->
  lock_now now (map (pstr ed25519) ring) created = Ok l ->
  exists sig, ring_sign ed25519 scalar_zero (hash_string (lk_hash l)) ring = Ok sig /\ unlock (C := ed25519) l sig = Ok tt.
Proof. exact null_lock. Qed.
Print Assumptions C90_refuted_lock.

Theorem C20_bound_to_lock_ed25519_partial : forall l1 l2 (sig : ringsig ed25519), lk_keys l1 <> [] ->
  unlock l1 sig = Ok tt -> unlock l2 sig = Ok tt ->
  lk_hash l1 = lk_hash l2 \/
  challenge_collision ed25519 (last_input ed25519 (hash_string (lk_hash l1)) (rs_ring sig) (rs_s sig) (rs_e sig))
                              (last_input ed25519 (hash_string (lk_hash l2)) (rs_ring sig) (rs_s sig) (rs_e sig)).
Proof. exact (@unlock_two_locks ed25519 scalar_reduced scalar_zero scalar_add ed25519_laws). Qed.
Print Assumptions C20_bound_to_lock_ed25519_partial.

(** a key of this curve whose lock, made by the applications, no signature opens *)
Example C18_ed25519_case : forall now created l, app_lock (C := ed25519) now [point_base] created = Ok l ->
  forall sig : ringsig ed25519, unlock l sig <> Ok tt.
Proof.
  intros now created l H sig U.
  destruct (C18_refuted_ed25519 now [point_base] created l H sig U) as [NE A].
  destruct (rs_ring sig) as [|q r]; [congruence|]. destruct (A q (or_introl eq_refl)) as (p & [<-|[]] & E).
  assert (X : forallb hexb (sha512 (point_bytes point_base)) = false) by (vm_compute; reflexivity).
  rewrite E, hexb_encode in X. discriminate X.
Qed.
Example C12_ed25519_case : generated (le_bytes 32 5) /\
  let p := public_key ed25519 (le_bytes 32 5) in signs (le_bytes 32 5) [p] = Ok true /\ signs (le_bytes 32 4) [p] = Err.
Proof.
  assert (G5 : generated (le_bytes 32 5)) by (split; reflexivity).
  assert (G4 : generated (le_bytes 32 4)) by (split; reflexivity).
  split; [exact G5|]. intro p. split.
  - pose proof (C12_ed25519 (le_bytes 32 5) (s2b "hello") [p] G5) as H. unfold signs.
    destruct (ring_sign ed25519 (le_bytes 32 5) (s2b "hello") [p]) as [g| |].
    + destruct H as (_ & _ & _ & H). exact H.
    + elim H. left. reflexivity.
    + elim H.
  - pose proof (C12_ed25519 (le_bytes 32 4) (s2b "hello") [p] G4) as H. unfold signs.
    destruct (ring_sign ed25519 (le_bytes 32 4) (s2b "hello") [p]) as [g| |].
    + destruct H as ([H|[]] & _).
      assert (E : bseq (le_bytes 32 5) (le_bytes 32 4) = true) by (apply bseq_eq; exact (C86_injective _ _ G5 G4 H)).
      vm_compute in E. discriminate E.
    + reflexivity.
    + elim H.
Qed.
