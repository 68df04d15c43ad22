(** C111, C112: what published signatures tell about the key and the signer. *)
From Verif Require Import Base BaseFacts HashModel Edwards25519Model SignModel SignSpec SignProofs CurveSpec Ed25519Curve SecretSpec SecretProofs SecretCurve ToyCurve Properties_Curve
  EntitiesModel PiastresModel BucketModel IdentityModel AppModel.

Section AnyCurve.
Context (C : Curve) (red : Sc C -> Prop) (zero : Sc C) (sadd : Sc C -> Sc C -> Sc C).
Context (laws : CurveLaws C red zero sadd) (slaws : ScalarLaws C red zero sadd).
Lemma bills_reveal : forall msg (wbs : list (@wbill C)) sigs a b w1 w2 i1 i2, sign_bills msg wbs = Ok sigs ->
  nth_error wbs a = Some w1 -> nth_error wbs b = Some w2 -> wb_pk w1 = wb_pk w2 -> red (wb_pk w1) ->
  place C (wb_ring w1) (wb_pk w1) i1 -> place C (wb_ring w2) (wb_pk w2) i2 ->
  exists g1 g2, nth_error sigs a = Some g1 /\ nth_error sigs b = Some g2 /\
    (challenge_at C msg g1 i1 <> challenge_at C msg g2 i2 -> key_of_rings C msg g1 g2 i1 i2 = Some (wb_pk w1)).
Proof.
  intros msg wbs sigs a b w1 w2 i1 i2 H A B E R P1 P2. unfold sign_bills in H. apply rmapM_Ok_iff in H.
  assert (N : forall n w, nth_error wbs n = Some w -> exists g, nth_error sigs n = Some g /\ ring_sign C (wb_pk w) msg (wb_ring w) = Ok g).
  { clear -H. induction H as [|w g wbs sigs H1 H IH]; intros [|n] w' E; try discriminate; cbn in E; [injection E as <-; exists g; split; [reflexivity|exact H1]|apply IH; exact E]. }
  destruct (N _ _ A) as (g1 & G1 & S1). destruct (N _ _ B) as (g2 & G2 & S2). exists g1, g2. split; [exact G1|]. split; [exact G2|]. rewrite <- E in S2, P2.
  exact (reveal_rings C red zero sadd laws slaws _ _ _ _ _ _ _ _ R S1 S2 P1 P2).
Qed.
End AnyCurve.

(** ** C111: signatures keep the private key *)
(** The number that hides the key is made from the key and the message alone.  From two ring
    signatures on one message, made in two rings, anybody computes the key; *)
Theorem C111_refuted_rings : forall x msg ring1 ring2 g1 g2 i1 i2, generated x ->
  ring_sign ed25519 x msg ring1 = Ok g1 -> ring_sign ed25519 x msg ring2 = Ok g2 -> place ed25519 ring1 x i1 -> place ed25519 ring2 x i2 ->
  challenge_at ed25519 msg g1 i1 <> challenge_at ed25519 msg g2 i2 -> key_of_rings ed25519 msg g1 g2 i1 i2 = Some x.
Proof. exact (reveal_rings ed25519 scalar_reduced scalar_zero scalar_add ed25519_laws ed25519_scalars). Qed.
Print Assumptions C111_refuted_rings.
(** for rings of two with different members beside the signer nothing more is needed than that the
    challenges do not collide; *)
Theorem C111_refuted_two : forall x y1 y2 msg g1 g2, generated x -> generated y1 -> generated y2 -> y1 <> y2 ->
  ring_sign ed25519 x msg [public_key ed25519 x; public_key ed25519 y1] = Ok g1 ->
  ring_sign ed25519 x msg [public_key ed25519 x; public_key ed25519 y2] = Ok g2 ->
  key_of_rings ed25519 msg g1 g2 0 0 = Some x \/
  create_hash ed25519 (msg ++ pstr ed25519 (public_key ed25519 (gen_k ed25519 x msg))) = scalar_zero \/
  exists p1 p2, challenge_collision ed25519 (msg ++ pstr ed25519 p1) (msg ++ pstr ed25519 p2).
Proof. exact (reveal_two ed25519 scalar_reduced scalar_zero scalar_add ed25519_laws ed25519_scalars C86_injective). Qed.
Print Assumptions C111_refuted_two.
(** from a signature and a ring signature on one message; *)
Theorem C111_refuted_both : forall rnd x msg ring g h i, generated x ->
  sign ed25519 rnd x msg = Ok g -> ring_sign ed25519 x msg ring = Ok h -> place ed25519 ring x i ->
  challenge_at ed25519 msg h i <> Some (create_hash ed25519 (msg ++ pstr ed25519 (sg_r g))) -> key_of_both ed25519 msg g h i = Some x.
Proof. exact (reveal_both ed25519 scalar_reduced scalar_zero scalar_add ed25519_laws ed25519_scalars). Qed.
Print Assumptions C111_refuted_both.
(** and from a ring signature on a message and a signature on the same message with the
    number of another place of the ring written behind it. *)
Theorem C111_refuted_number : forall rnd x msg ring h g i j, generated x ->
  ring_sign ed25519 x msg ring = Ok h -> place ed25519 ring x i -> j < length ring -> j <> i ->
  sign ed25519 rnd x (msg ++ itoa (Z.of_nat j)) = Ok g ->
  create_hash ed25519 ((msg ++ itoa (Z.of_nat j)) ++ pstr ed25519 (sg_r g)) <> scalar_zero ->
  key_of_number ed25519 msg j h g = Some x.
Proof. exact (reveal_number ed25519 scalar_reduced scalar_zero scalar_add ed25519_laws). Qed.
Print Assumptions C111_refuted_number.
(** The application signs for all bills of a fee on one message: two bills with one key in two
    rings give the key away. *)
Theorem C111_refuted_bills : forall msg (wbs : list (@wbill ed25519)) sigs a b w1 w2 i1 i2, sign_bills msg wbs = Ok sigs ->
  nth_error wbs a = Some w1 -> nth_error wbs b = Some w2 -> wb_pk w1 = wb_pk w2 -> generated (wb_pk w1) ->
  place ed25519 (wb_ring w1) (wb_pk w1) i1 -> place ed25519 (wb_ring w2) (wb_pk w2) i2 ->
  exists g1 g2, nth_error sigs a = Some g1 /\ nth_error sigs b = Some g2 /\
    (challenge_at ed25519 msg g1 i1 <> challenge_at ed25519 msg g2 i2 -> key_of_rings ed25519 msg g1 g2 i1 i2 = Some (wb_pk w1)).
Proof. exact (bills_reveal ed25519 scalar_reduced scalar_zero scalar_add ed25519_laws ed25519_scalars). Qed.
Print Assumptions C111_refuted_bills.
(** What a ring signature publishes, exactly: behind the signer's place the hidden key, at all
    others the numbers made from the key, the message and the place. *)
Theorem C111_published : forall x msg ring g, ring_sign ed25519 x msg ring = Ok g ->
  rs_ring g = ring /\ length (rs_s g) = length ring /\
  exists i e, place ed25519 ring x i /\ i < length ring /\ generated e /\ challenge_at ed25519 msg g i = Some e /\
    nth_error (rs_s g) i = Some (scalar_sub (gen_k ed25519 x msg) (scalar_mul e x)) /\
    forall j, j < length ring -> j <> i -> nth_error (rs_s g) j = Some (gen_k ed25519 x (msg ++ itoa (Z.of_nat j))).
Proof. exact (ring_published ed25519 scalar_reduced scalar_zero scalar_add ed25519_laws). Qed.
Print Assumptions C111_published.
(** The rest of the claim: for messages of one length, as the texts of hashes are, no such
    number is used for two of them or at two places, unless the challenges collide. *)
Theorem C111_numbers_partial : forall x m1 m2 o1 o2, length m1 = length m2 ->
  gen_k ed25519 x (m1 ++ behind o1) = gen_k ed25519 x (m2 ++ behind o2) ->
  m1 = m2 /\ o1 = o2 \/ challenge_collision ed25519 ((m1 ++ behind o1) ++ sstr ed25519 x) ((m2 ++ behind o2) ++ sstr ed25519 x).
Proof. exact (nonces_differ ed25519). Qed.
Print Assumptions C111_numbers_partial.

(** on the toy curve: the key 9 from two rings, from a signature and a ring, and from the number 2 *)
Definition got (o : res (option F)) : option Z := match o with Ok (Some x) => Some (v x) | _ => None end.
Example C111_case :
  let msg := s2b "hello" in
  got (let! g1 := ring_sign toy (mk 9) msg [mk 5; mk 9; mk 7] in let! g2 := ring_sign toy (mk 9) msg [mk 9; mk 11] in Ok (key_of_rings toy msg g1 g2 1 0)) = Some 9%Z /\
  got (let! g := sign toy 42 (mk 9) msg in let! h := ring_sign toy (mk 9) msg [mk 5; mk 9; mk 7] in Ok (key_of_both toy msg g h 1)) = Some 9%Z /\
  got (let! h := ring_sign toy (mk 9) msg [mk 5; mk 9; mk 7] in let! g := sign toy 42 (mk 9) (s2b "hello2") in Ok (key_of_number toy msg 2 h g)) = Some 9%Z.
Proof. split; [|split]; vm_compute; reflexivity. Qed.
Example C111_case_bills :
  let w ring := WBill (C := toy) [] (Bill (Immutable [] 0) (Lock (Immutable [] 0) []) 1) (mk 9) ring in let msg := s2b "hello" in
  got (let! gs := sign_bills msg [w [mk 9; mk 5]; w [mk 7; mk 9]] in
       match gs with [g1; g2] => Ok (key_of_rings toy msg g1 g2 0 1) | _ => Err end) = Some 9%Z.
Proof. vm_compute. reflexivity. Qed.

(** ** C112: a ring signature does not tell who made it *)
(** The numbers outside the signer's place are the same in all rings: two signatures on one
    message are seen to be of one signer, and with both signers at one place that place is
    where they differ. *)
Theorem C112_refuted : forall x msg ring1 ring2 g1 g2 i1 i2 j,
  ring_sign ed25519 x msg ring1 = Ok g1 -> ring_sign ed25519 x msg ring2 = Ok g2 -> place ed25519 ring1 x i1 -> place ed25519 ring2 x i2 ->
  j < length ring1 -> j < length ring2 ->
  nth_error (rs_s g1) j <> nth_error (rs_s g2) j -> j = i1 \/ j = i2.
Proof.
  intros x msg ring1 ring2 g1 g2 i1 i2 j H1 H2 P1 P2 L1 L2 N. destruct (Nat.eq_dec j i1) as [E1|E1]; [left; exact E1|]. destruct (Nat.eq_dec j i2) as [E2|E2]; [right; exact E2|].
  exfalso. apply N. exact (same_answers ed25519 scalar_reduced scalar_zero scalar_add ed25519_laws x msg ring1 ring2 g1 g2 i1 i2 j H1 H2 P1 P2 L1 L2 E1 E2).
Qed.
Print Assumptions C112_refuted.
(** Two signers share no number outside their places, unless the challenges collide. *)
Theorem C112_refuted_others : forall x1 x2 msg ring1 ring2 g1 g2 i1 i2 j, generated x1 -> generated x2 -> x1 <> x2 ->
  ring_sign ed25519 x1 msg ring1 = Ok g1 -> ring_sign ed25519 x2 msg ring2 = Ok g2 ->
  place ed25519 ring1 x1 i1 -> place ed25519 ring2 x2 i2 -> j < length ring1 -> j < length ring2 -> j <> i1 -> j <> i2 ->
  nth_error (rs_s g1) j = nth_error (rs_s g2) j ->
  challenge_collision ed25519 ((msg ++ itoa (Z.of_nat j)) ++ sstr ed25519 x1) ((msg ++ itoa (Z.of_nat j)) ++ sstr ed25519 x2).
Proof. exact (other_answers ed25519 scalar_reduced scalar_zero scalar_add ed25519_laws). Qed.
Print Assumptions C112_refuted_others.
(** The rest of the claim: the equations of a signature fit every member, each with a number of its own. *)
Theorem C112_any_member_partial : forall msg (g : ringsig ed25519) i x e s, generated (rs_e g) -> Forall generated (rs_s g) -> generated x ->
  nth_error (rs_ring g) i = Some (public_key ed25519 x) -> challenge_at ed25519 msg g i = Some e -> nth_error (rs_s g) i = Some s ->
  exists k, generated k /\ s = ssub ed25519 k (smul ed25519 e x) /\
    link ed25519 msg s e (public_key ed25519 x) = create_hash ed25519 (msg ++ pstr ed25519 (public_key ed25519 k)).
Proof. exact (any_member ed25519 scalar_reduced scalar_zero scalar_add ed25519_laws ed25519_scalars). Qed.
Print Assumptions C112_any_member_partial.
(** two rings with the signer in the middle, and another member's signature *)
Example C112_case :
  let msg := s2b "hello" in let ss o := match o with Ok g => map v (@rs_s toy g) | _ => [] end in
  ss (ring_sign toy (mk 9) msg [mk 5; mk 9; mk 7]) = [110; 67; 24]%Z /\
  ss (ring_sign toy (mk 9) msg [mk 6; mk 9; mk 8]) = [110; 22; 24]%Z /\
  ss (ring_sign toy (mk 7) msg [mk 5; mk 9; mk 7]) = [122; 79; 14]%Z.
Proof. split; [|split]; vm_compute; reflexivity. Qed.
