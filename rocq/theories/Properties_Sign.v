(** C12 - C16: signatures and ring signatures, for every curve meeting the laws. *)
From Verif Require Import Base BaseFacts HashModel HashProofs SignModel SignSpec SignProofs ToyCurve.

(** The assumptions on the curve can be met; the concrete cases below use this one. *)
Definition toy_has_laws := toy_laws.

(** ** C12 *)
Lemma ring_sign_complete : forall C red zero sadd, CurveLaws C red zero sadd ->
  forall x msg ring, red x ->
  match ring_sign C x msg ring with
  | Ok sig => In (public_key C x) ring /\ rs_ring sig = ring /\ length (rs_s sig) = length ring /\
              ring_verify C sig msg = Ok true
  | Err => ~ In (public_key C x) ring
  | Panic => False
  end.
Proof.
  intros C red zero sadd laws x msg ring Hx.
  destruct (signer_index C ring (public_key C x)) as [i|] eqn:E.
  - assert (In (public_key C x) ring) as Hin
      by (eapply nth_error_In; eapply signer_index_some; eassumption).
    destruct (ring_sign_verifies C red zero sadd laws x msg ring Hx Hin) as (sig & -> & H). auto.
  - assert (~ In (public_key C x) ring) as Hin by (eapply signer_index_none; eassumption).
    rewrite (ring_sign_outside C red zero sadd laws) by exact Hin. exact Hin.
Qed.

(** For every key and ring, RingSign either returns a signature with the given
    ring that verifies the message, the key being in the ring, or an error, the
    key being outside. *)
Theorem C12_ring_sign : forall C red zero sadd, CurveLaws C red zero sadd ->
  forall x msg ring, red x ->
  match ring_sign C x msg ring with
  | Ok sig => In (public_key C x) ring /\ rs_ring sig = ring /\ length (rs_s sig) = length ring /\
              ring_verify C sig msg = Ok true
  | Err => ~ In (public_key C x) ring
  | Panic => False
  end.
Proof. exact ring_sign_complete. Qed.
Print Assumptions C12_ring_sign.
Definition and_then {A} (r : res A) (f : A -> res bool) : res bool := rbind r f.
Example C12_case :
  let ring := [mk 5; mk 7; mk 9; mk 9] in
  In (public_key toy (mk 9)) ring /\
  and_then (ring_sign toy (mk 9) (s2b "hello") ring) (fun g => ring_verify toy g (s2b "hello")) = Ok true /\
  and_then (ring_sign toy (mk 9) (s2b "hello") ring) (fun g => ring_verify toy g (s2b "hellp")) = Ok false /\
  and_then (ring_sign toy (mk 8) (s2b "hello") ring) (fun g => ring_verify toy g (s2b "hello")) = Err.
Proof.
  split; [right; right; left; apply v_inj; reflexivity|]. vm_compute. repeat split.
Qed.

(** ** C13 *)
Theorem C13_sign_recovers : forall C red zero sadd, CurveLaws C red zero sadd ->
  forall rnd x msg, red x ->
  let r := pmul C (gen_k C x msg) (base C) in
  create_hash C (itoa rnd ++ pstr C r) <> zero -> create_hash C (msg ++ pstr C r) <> zero ->
  exists g, sign C rnd x msg = Ok g /\ sg_r g = r /\ red (sg_s g) /\ sig_public_key C g msg = public_key C x.
Proof. exact sign_recovers. Qed.
Print Assumptions C13_sign_recovers.
Example C13_case :
  and_then (sign toy 42 (mk 9) (s2b "hello")) (fun g =>
    Ok (peqb toy (sig_public_key toy g (s2b "hello")) (public_key toy (mk 9)) &&
        negb (peqb toy (sig_public_key toy g (s2b "hellp")) (public_key toy (mk 9))))) = Ok true.
Proof. vm_compute. reflexivity. Qed.

(** ** C14 *)

(** Verify accepts every pair: the scalar is arbitrary and unrelated to r. *)
Theorem C14_refuted : forall C red zero sadd, CurveLaws C red zero sadd ->
  forall rnd k s, red k -> red s ->
  create_hash C (itoa rnd ++ pstr C (pmul C k (base C))) <> zero ->
  sig_verify C rnd (Sig (pmul C k (base C)) s) = true.
Proof. exact verify_tautology. Qed.
Print Assumptions C14_refuted.
Example C14_case : forall s, sig_verify toy 42 (@Sig toy (pmul toy (mk 3) (base toy)) s) = true.
Proof.
  intro s. apply (C14_refuted _ _ _ _ toy_laws); try exact I. intro E. apply (f_equal v) in E. vm_compute in E. discriminate.
Qed.
(** What holds: a value returned by createSignature (hence Sign and ToSignature)
    has passed Verify for the message drawn, and is the given pair. *)
Lemma created_verified : forall C rnd r s g, create_signature C rnd r s = Ok g ->
  sg_r g = r /\ sg_s g = s /\ sig_verify C rnd g = true.
Proof.
  intros C rnd r s g H. unfold create_signature in H. destruct (sig_verify C rnd (Sig r s)) eqn:E; [|discriminate].
  injection H as <-. auto.
Qed.
Theorem C14_created_partial : forall C rnd r s g, create_signature C rnd r s = Ok g ->
  sg_r g = r /\ sg_s g = s /\ sig_verify C rnd g = true.
Proof. exact created_verified. Qed.
Print Assumptions C14_created_partial.

(** ** C15 *)

(** The empty ring verifies every message, and its text decodes. *)
Lemma empty_ring_reachable : forall C red zero sadd, CurveLaws C red zero sadd ->
  forall e, red e -> exists text, ring_of_string C text = Ok (RingSig [] [] e) /\
  forall msg, ring_verify C (RingSig [] [] e) msg = Ok true.
Proof.
  intros C red zero sadd laws e He. exists (ring_string C (RingSig [] [] e)). split.
  - apply (ring_of_ring_string C red zero sadd laws); [exact He|constructor].
  - intro msg. apply (empty_ring_verifies C red zero sadd laws).
Qed.
Theorem C15_refuted : forall C red zero sadd, CurveLaws C red zero sadd ->
  forall e, red e -> exists text, ring_of_string C text = Ok (RingSig [] [] e) /\
  forall msg, ring_verify C (RingSig [] [] e) msg = Ok true.
Proof. exact empty_ring_reachable. Qed.
Print Assumptions C15_refuted.

(** With a non-empty ring, a signature that verifies for two messages exhibits a
    collision of the challenge hash. *)
Theorem C15_one_message_partial : forall C red zero sadd, CurveLaws C red zero sadd ->
  forall sig m1 m2, rs_ring sig <> [] ->
  ring_verify C sig m1 = Ok true -> ring_verify C sig m2 = Ok true ->
  m1 = m2 \/ challenge_collision C (last_input C m1 (rs_ring sig) (rs_s sig) (rs_e sig))
                                   (last_input C m2 (rs_ring sig) (rs_s sig) (rs_e sig)).
Proof. exact verify_two_messages. Qed.
Print Assumptions C15_one_message_partial.

(** A signature with fewer scalars than keys makes Verify panic. *)
Theorem C15_refuted_panics : forall C sig msg, length (rs_s sig) < length (rs_ring sig) ->
  ring_verify C sig msg = Panic.
Proof. exact ring_verify_panics. Qed.
Print Assumptions C15_refuted_panics.

(** ToVerification never returns false without an error, and accepts exactly the
    verified signatures whose ring has the given key hashes in order. *)
Theorem C15_to_verification : forall C sig msg hs,
  (to_verification C sig msg hs = Ok true <->
   ring_verify C sig msg = Ok true /\ hs = map (fun p => from_bytes (penc C p)) (rs_ring sig)) /\
  to_verification C sig msg hs <> Ok false.
Proof. exact to_verification_iff. Qed.
Print Assumptions C15_to_verification.
Example C15_case :
  let ring := [mk 5; mk 7; mk 9] in
  and_then (ring_sign toy (mk 9) (s2b "hello") ring) (fun g =>
    to_verification toy g (s2b "hello") (map (fun p => from_bytes (penc toy p)) ring)) = Ok true /\
  and_then (ring_sign toy (mk 9) (s2b "hello") ring) (fun g =>
    to_verification toy g (s2b "hello") (map (fun p => from_bytes (penc toy p)) (rev ring))) = Err /\
  ring_verify toy (@RingSig toy [mk 1; mk 2] [mk 3] (mk 4)) (s2b "x") = Panic.
Proof. split; [vm_compute; reflexivity|]. split; [vm_compute; reflexivity|reflexivity]. Qed.

(** ** C16 *)
Theorem C16_signature_text : forall C red zero sadd, CurveLaws C red zero sadd ->
  forall rnd k s, red k -> red s ->
  create_hash C (itoa rnd ++ pstr C (pmul C k (base C))) <> zero ->
  sig_of_string C rnd (sig_string C (Sig (pmul C k (base C)) s)) = Ok (Sig (pmul C k (base C)) s).
Proof. exact sig_of_sig_string. Qed.
Print Assumptions C16_signature_text.

Theorem C16_ring_text : forall C red zero sadd, CurveLaws C red zero sadd ->
  forall sig, red (rs_e sig) -> Forall red (rs_s sig) ->
  ring_of_string C (ring_string C sig) = Ok sig.
Proof. exact ring_of_ring_string. Qed.
Print Assumptions C16_ring_text.

(** The side condition holds for everything RingSign makes. *)
Theorem C16_ring_sign_reduced : forall C red zero sadd, CurveLaws C red zero sadd ->
  forall x msg ring sig, ring_sign C x msg ring = Ok sig -> red (rs_e sig) /\ Forall red (rs_s sig).
Proof. exact ring_sign_reduced. Qed.
Print Assumptions C16_ring_sign_reduced.

Theorem C16_key_text : forall C red zero sadd, CurveLaws C red zero sadd ->
  forall x p, red x -> scalar_of_string C (sstr C x) = Ok x /\ point_of_string C (pstr C p) = Ok p.
Proof. exact key_strings. Qed.
Print Assumptions C16_key_text.
Example C16_case :
  ring_of_string toy (ring_string toy (@RingSig toy [mk 5; mk 250] [mk 0; mk 3] (mk 17))) =
    Ok (@RingSig toy [mk 5; mk 250] [mk 0; mk 3] (mk 17)) /\
  sig_of_string toy 42 (sig_string toy (@Sig toy (pmul toy (mk 3) (base toy)) (mk 200))) = Ok (@Sig toy (pmul toy (mk 3) (base toy)) (mk 200)).
Proof.
  split; [apply (C16_ring_text _ _ _ _ toy_laws); try exact I; repeat constructor|].
  apply (C16_signature_text _ _ _ _ toy_laws); try exact I. intro E. apply (f_equal v) in E. vm_compute in E. discriminate.
Qed.
