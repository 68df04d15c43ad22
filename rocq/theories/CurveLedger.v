(** More on the curve: its equation and laws, and the theorems on signatures and
    locks for this curve. *)
From Coq Require Import Lia ZifyBool ZifyNat ZifyN Znumtheory Field.
From Verif Require Import Base BaseFacts HashModel EntitiesModel Primes25519 NumberTheory Field25519 EdwardsLaw GroupMultiples
  LittleEndian Edwards25519Model Edwards25519Proofs Edwards25519More Sha256 SignModel SignSpec SignProofs
  Ed25519Curve CurveSpec CurveProofs PiastresModel PiastresSpec PiastresProofs.
Local Open Scope Z_scope.

Lemma curve_equation : (forall p, (- (px p * px p) + py p * py p = gone + ge_d * (px p * px p) * (py p * py p))%gf) /\
  (ge_d * gof 121666)%gf = gof (-121665) /\
  (forall p q, px p = px q -> py p = py q -> p = q).
Proof.
  split; [|split].
  - intro p. apply geqb_eq. exact (pon p).
  - apply geqb_eq. vm_compute. reflexivity.
  - exact point_eq.
Qed.

Local Opaque zmul psum pneg point_base point_null point_add point_sub point_mul.

Lemma group_laws :
  (forall p q r, point_add (point_add p q) r = point_add p (point_add q r)) /\
  (forall p q, point_add p q = point_add q p) /\
  (forall p, point_add p point_null = p) /\
  (forall p q, point_add (point_sub p q) q = p) /\
  (forall p q, point_sub (point_add p q) q = p).
Proof.
  split; [|split; [|split; [|split]]].
  - intros p q r. rewrite (point_add_eq p q), (point_add_eq q r), (point_add_eq (psum p q) r), (point_add_eq p).
    apply psum_assoc.
  - intros p q. rewrite (point_add_eq p q), (point_add_eq q p). apply psum_comm.
  - intro p. rewrite (point_add_eq p). apply psum_null.
  - intros p q. rewrite (point_sub_eq p q), point_add_eq. apply psum_move.
  - intros p q. rewrite (point_add_eq p q), point_sub_eq, psum_assoc, psum_pneg. apply psum_null.
Qed.

Lemma base_order_exact n : 0 <= n -> (times n point_base = point_null <-> (l25519 | n)).
Proof. intro H. rewrite times_eq by exact H. apply base_multiple_null. Qed.

Lemma the_primes : prime l25519 /\ l25519 = 2 ^ 252 + 27742317777372353535851937790883648493 /\
  prime p25519 /\ p25519 = 2 ^ 255 - 19.
Proof. split; [exact l25519_prime|]. split; [exact l25519_eq|]. split; [exact p25519_prime|exact p25519_eq]. Qed.

Lemma generated_text x : generated x -> scalar_of_string ed25519 (sstr ed25519 x) = Ok x.
Proof.
  intro G. exact (proj1 (key_strings ed25519 scalar_reduced scalar_zero scalar_add ed25519_laws x point_null G)).
Qed.

Lemma nobody_signs : exists t, order_two t /\ (forall u, order_two u -> u = t) /\
  point_of_string ed25519 (pstr ed25519 t) = Ok t /\
  (forall text x, scalar_of_string ed25519 text = Ok x -> public_key ed25519 x <> t) /\
  forall s msg, generated s ->
  let e := create_hash ed25519 (msg ++ pstr ed25519 (public_key ed25519 s)) in
  Z.even (le_val e) = true -> ring_verify ed25519 (@RingSig ed25519 [t] [s] e) msg = Ok true.
Proof.
  exists two. split; [exact two_order|]. split; [exact order_two_two|]. split; [apply point_text|].
  split; [|exact two_forged]. intros text x H. apply no_private_key. exact (scalar_string_length text x H).
Qed.

Lemma signer_in_ring x msg ring sig : ring_sign ed25519 x msg ring = Ok sig -> In (public_key ed25519 x) ring.
Proof.
  intro H. destruct (in_dec (fun p q => match Bool.bool_dec (point_eqb p q) true with
    | left E => left (proj1 (point_eqb_eq p q) E) | right E => right (fun F => E (proj2 (point_eqb_eq p q) F)) end)
    (public_key ed25519 x) ring) as [I|I]; [exact I|].
  rewrite (ring_sign_outside ed25519 scalar_reduced scalar_zero scalar_add ed25519_laws) in H by exact I. discriminate H.
Qed.

Lemma verify_times rnd r s : sig_verify ed25519 rnd (@Sig ed25519 r s) = true <->
  let d := point_sub r (point_mul s point_base) in times (roundabout rnd r) d = d.
Proof.
  rewrite verify_exact. cbv zeta. rewrite times_eq; [reflexivity|].
  unfold roundabout. apply Z.mul_nonneg_nonneg; apply le_val_range.
Qed.

Lemma verify_any rnd k s : has_private_key k -> length s = 32%nat -> challenge rnd k <> scalar_zero ->
  sig_verify ed25519 rnd (@Sig ed25519 k s) = true.
Proof.
  intros (n & N & K) L E.
  assert (A : k = point_add (times n point_base) point_null) by (rewrite K, point_add_eq, psum_null; reflexivity).
  rewrite A in *. exact (verify_two rnd n false s L E).
Qed.

(** a lock with the null point among its keys *)
Lemma null_lock now ring created l : In point_null ring ->
  lock_now now (map (pstr ed25519) ring) created = Ok l ->
  exists sig, ring_sign ed25519 scalar_zero (hash_string (lk_hash l)) ring = Ok sig /\ @unlock ed25519 l sig = Ok tt.
Proof.
  intros I H. apply (@text_lock_opens ed25519 scalar_reduced scalar_zero scalar_add ed25519_laws now ring scalar_zero created l);
    [split; reflexivity|rewrite zero_public; exact I|exact H].
Qed.

Lemma addition_formula p q : let x := px (point_add p q) in let y := py (point_add p q) in
  let k := (ge_d * ((px p * px q) * (py p * py q)))%gf in
  (x * (gone + k) = px p * py q + px q * py p /\
   y * (gone - k) = py p * py q + px p * px q /\
   gone + k <> gzero /\ gone - k <> gzero)%gf.
Proof.
  cbv zeta. rewrite point_add_eq, psum_x, psum_y.
  set (k := (ge_d * ((px p * px q) * (py p * py q)))%gf).
  pose proof (gk_plus _ _ _ _ (point_on p) (point_on q)) as P.
  pose proof (gk_minus _ _ _ _ (point_on p) (point_on q)) as M.
  assert (K : gk (px p) (py p) (px q) (py q) = k) by (unfold gk, ed_k, k; ring).
  rewrite K in P, M.
  unfold gsx, gsy, ed_x, ed_y. fold (gk (px p) (py p) (px q) (py q)). rewrite K.
  repeat match goal with |- _ /\ _ => split end; [field; exact P|field; exact M|exact P|exact M].
Qed.

Lemma mul_far_wrong s : length s = 32%nat -> last_multiplier < le_val s ->
  point_mul s point_base <> times (le_val s) point_base.
Proof.
  intros L B. pose proof (public_far_wrong s L B) as H. unfold public_key in H. cbn [ed25519 pmul base] in H. exact H.
Qed.

Lemma ring_sign_ed25519 x msg ring : generated x ->
  match ring_sign ed25519 x msg ring with
  | Ok sig => In (public_key ed25519 x) ring /\ rs_ring sig = ring /\ length (rs_s sig) = length ring /\
              ring_verify ed25519 sig msg = Ok true
  | Err => ~ In (public_key ed25519 x) ring
  | Panic => False
  end.
Proof. intros [L B]. apply near_ring_sign; [exact L|]. pose proof l_near. lia. Qed.

(** a digit of hexadecimal text *)
Definition hexb (b : byte) : bool :=
  ((48 <=? b2n b) && (b2n b <=? 57) || (97 <=? b2n b) && (b2n b <=? 102))%N.

Lemma hexb_encode l : forallb hexb (hex_encode l) = true.
Proof.
  apply forallb_forall. intros b Hb. pose proof (hex_encode_lowhex l) as F. rewrite Forall_forall in F.
  specialize (F b Hb). unfold is_lowhex in F. unfold hexb.
  destruct F as [[F1 F2]|[F1 F2]]; apply N.leb_le in F1, F2; rewrite F1, F2; cbn; auto using Bool.orb_true_r.
Qed.

Lemma zm_pred n p : psum ((n - 1) ** p) p = n ** p.
Proof. replace n with ((n - 1) + 1) at 2 by ring. rewrite zm_add, zm_1. reflexivity. Qed.

(** the negation of the base point is the public key of the largest private key *)
Lemma last_key : point_add (public_key ed25519 (le_bytes 32 (l25519 - 1))) point_base = point_null.
Proof.
  assert (V : le_val (le_bytes 32 (l25519 - 1)) = l25519 - 1) by (vm_compute; reflexivity).
  rewrite public_near; [|reflexivity|rewrite V; apply Z.leb_le; reflexivity]. rewrite V, point_add_eq.
  rewrite zm_pred. exact base_order.
Qed.

Lemma first_key : public_key ed25519 (le_bytes 32 1) = point_base.
Proof.
  assert (V : le_val (le_bytes 32 1) = 1) by (vm_compute; reflexivity).
  rewrite public_near; [|reflexivity|rewrite V; apply Z.leb_le; reflexivity]. rewrite V. apply zm_1.
Qed.
