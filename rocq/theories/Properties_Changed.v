(** C115: who can change a signature. *)
From Coq Require Import Lia.
From Verif Require Import Base BaseFacts HashModel HashSpec Edwards25519Model SignModel SignSpec CurveSpec Ed25519Curve EntitiesModel PiastresModel PiastresSpec SecretSpec SecretCurve
  ChangeSpec ChangeProofs ChangeCurve ToyCurve Properties_Curve.

(** Without any private key a ring signature that opens a lock is changed into others that open it: the ring may begin at any other place, *)
Theorem C115_refuted_turned : forall n (l : lock) (g : ringsig ed25519), length (rs_s g) = length (rs_ring g) -> unlock l g = Ok tt ->
  unlock l (Nat.iter n (turned ed25519 (hash_string (lk_hash l))) g) = Ok tt.
Proof. exact (turned_opens ed25519 scalar_reduced scalar_zero scalar_add ed25519_laws). Qed.
Print Assumptions C115_refuted_turned.
(** (this is what the ring and the scalars are then) *)
Theorem C115_turned : forall (C : Curve) n (g : ringsig C) msg, length (rs_s g) = length (rs_ring g) -> n <= length (rs_ring g) ->
  rs_ring (Nat.iter n (turned C msg) g) = skipn n (rs_ring g) ++ firstn n (rs_ring g) /\
  rs_s (Nat.iter n (turned C msg) g) = skipn n (rs_s g) ++ firstn n (rs_s g).
Proof. exact turned_ring_is. Qed.
Print Assumptions C115_turned.
(** and any scalars may follow those that are used. *)
Theorem C115_refuted_longer : forall (C : Curve) more (l : lock) (g : ringsig C), unlock l g = Ok tt -> unlock l (longer C g more) = Ok tt.
Proof. exact longer_opens. Qed.
Print Assumptions C115_refuted_longer.
(** So everybody turns an accepted expense into another one of the same content, under another hash. *)
Theorem C115_refuted_expense : forall now ct g rest (x : expense) now' more, expense_now now (Some ct) (Some (g :: rest)) = Ok x -> hash64 (ct_hash ct) -> more <> [] ->
  exists x', expense_now now' (Some ct) (Some (longer ed25519 g more :: rest)) = Ok x' /\ ex_content x' = ct /\
    (ex_hash x' = ex_hash x ->
     sha_collision (concat (ct_hash ct :: map (ring_string ed25519) (longer ed25519 g more :: rest))) (concat (ct_hash ct :: map (ring_string ed25519) (g :: rest)))).
Proof. exact (expense_changed ed25519 scalar_reduced scalar_zero scalar_add ed25519_laws). Qed.
Print Assumptions C115_refuted_expense.
(** A ring signature has many texts: line ends anywhere, and bars in front of the encoded text, are not looked at. *)
Theorem C115_refuted_text : forall C : Curve, (forall a b c, c = x0a \/ c = x0d -> ring_of_string C (a ++ c :: b) = ring_of_string C (a ++ b)) /\
  (forall d, ring_of_string C (b64_encode (x7c :: d)) = ring_of_string C (b64_encode d)).
Proof. intro C. split; [exact (text_newline C)|exact (text_bar C)]. Qed.
Print Assumptions C115_refuted_text.
(** What holds: where every key of the ring has a private key, one scalar that is used cannot be replaced by another one,
    unless two texts that the two signatures hash at the same place have the same challenge. *)
Theorem C115_scalar_partial : forall msg (g : ringsig ed25519) i s s', Forall (owned ed25519 scalar_reduced scalar_zero) (rs_ring g) ->
  Forall scalar_reduced (rs_s g) -> scalar_reduced s' -> i < length (rs_ring g) ->
  nth_error (rs_s g) i = Some s -> s <> s' -> ring_verify ed25519 g msg = Ok true ->
  let g' := @RingSig ed25519 (rs_ring g) (firstn i (rs_s g) ++ s' :: skipn (S i) (rs_s g)) (rs_e g) in
  ring_verify ed25519 g' msg = Ok true -> collide ed25519 msg g g'.
Proof. exact (one_scalar ed25519 scalar_reduced scalar_zero scalar_add ed25519_laws ed25519_scalars C86_injective scalar_mul_cancel scalar_add_cancel). Qed.
Print Assumptions C115_scalar_partial.
(** a ring of three: turned once and twice, with a fourth scalar, and with another second scalar *)
Example C115_case :
  let ring := [mk 5; mk 7; mk 9] in let msg := s2b "hello" in
  match ring_sign toy (mk 9) msg ring with
  | Ok g =>
      ring_verify toy g msg = Ok true /\ map v (rs_ring (turned toy msg g)) = map v [mk 7; mk 9; mk 5] /\
      ring_verify toy (turned toy msg g) msg = Ok true /\ ring_verify toy (Nat.iter 2 (turned toy msg) g) msg = Ok true /\
      ring_verify toy (longer toy g [mk 1]) msg = Ok true /\
      ring_verify toy (RingSig (rs_ring g) (firstn 1 (rs_s g) ++ mk 3 :: skipn 2 (rs_s g)) (rs_e g)) msg = Ok false
  | _ => False
  end.
Proof. vm_compute. repeat split. Qed.
