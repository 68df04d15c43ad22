(** C116: the pointers that addresses and transactions give out. *)
From Verif Require Import Base HashModel HashSpec EntitiesModel SignModel PiastresModel PiastresSpec PiastresProofs SliceModel PointerModel PointerSpec PointerProofs ToyCurve.

(** ** C116.  An assignment through the pointer that Sender, Subject or Bucket returns changes what the object says, but not its hash.
    [old] is what was there, [v] anything else; no address with what it says now has its hash, unless SHA-512 collides. *)
Theorem C116_refuted_address : forall m now b a p old v, paddress_now m now b = Ok a -> nth_error m p = Some old -> v <> old ->
  let m' := put_at p v m in
  ad_hash (paddress_seen m' a) = ad_hash (paddress_seen m a) /\
  (pa_sender a = Some p -> ad_sender (paddress_seen m a) = Some old /\ ad_sender (paddress_seen m' a) = Some v) /\
  (pa_subject a = Some p -> ad_subject (paddress_seen m a) = Some old /\ ad_subject (paddress_seen m' a) = Some v) /\
  (In p (pa_pointers a) -> built_address (paddress_seen m a) -> forall x, built_address x ->
     ad_sender x = ad_sender (paddress_seen m' a) -> ad_recipients x = ad_recipients (paddress_seen m' a) -> ad_subject x = ad_subject (paddress_seen m' a) ->
     ad_hash x = ad_hash (paddress_seen m' a) -> sha_collision (address_text (paddress_seen m a)) (address_text x)).
Proof. exact paddress_changes. Qed.
Print Assumptions C116_refuted_address.
(** a transaction: its bucket, and the sender of the address in it *)
Theorem C116_refuted_transaction : forall (C : Curve) m now (b : @tbuilder C) t p old v, ptransaction_now m now b = Ok t -> nth_error m p = Some old -> v <> old ->
  let m' := put_at p v m in
  tx_hash (ptransaction_seen m' t) = tx_hash (ptransaction_seen m t) /\
  (forall a, px_address t = Some a -> pa_sender a = Some p ->
     option_map ad_sender (tx_address (ptransaction_seen m t)) = Some (Some old) /\ option_map ad_sender (tx_address (ptransaction_seen m' t)) = Some (Some v)) /\
  (px_bucket t = Some p -> tx_bucket (ptransaction_seen m t) = Some old /\ tx_bucket (ptransaction_seen m' t) = Some v /\
     (built_transaction (ptransaction_seen m t) -> forall x, built_transaction x ->
        tx_address x = tx_address (ptransaction_seen m' t) -> tx_bucket x = tx_bucket (ptransaction_seen m' t) -> tx_fees x = tx_fees (ptransaction_seen m' t) ->
        tx_hash x = tx_hash (ptransaction_seen m' t) -> sha_collision (transaction_text (ptransaction_seen m t)) (transaction_text x))).
Proof. exact @ptransaction_changes. Qed.
Print Assumptions C116_refuted_transaction.
(** two addresses of one builder have one sender: whatever happens in between (other than Create and WithSender), an assignment
    through the pointer of the second changes the first *)
Theorem C116_refuted_shared : forall (C : Curve) before between now1 now2 (a1 a2 : paddress) p v,
  let w1 := acts (world0 : world C) before in let w2 := acts w1 (NowA now1 :: between) in
  paddress_now (w_memory w1) now1 (w_ab w1) = Ok a1 -> Forall sender_kept between ->
  paddress_now (w_memory w2) now2 (w_ab w2) = Ok a2 -> pa_sender a2 = Some p ->
  pa_sender a1 = Some p /\
  ad_sender (paddress_seen (put_at p v (w_memory w2)) a1) = Some v /\ ad_sender (paddress_seen (put_at p v (w_memory w2)) a2) = Some v /\
  ad_hash (paddress_seen (put_at p v (w_memory w2)) a1) = ad_hash (paddress_seen (w_memory w1) a1).
Proof. exact @shared_sender. Qed.
Print Assumptions C116_refuted_shared.
(** what holds: whatever the builders are used for, an object says the same as long as nobody assigns through its own pointers *)
Theorem C116_kept_partial : forall (C : Curve) (before after : list (act C)),
  (forall a, In a (w_addresses (acts world0 before)) -> Forall (not_to (pa_pointers a)) after ->
     paddress_seen (w_memory (acts world0 (before ++ after))) a = paddress_seen (w_memory (acts world0 before)) a) /\
  (forall t, In t (w_transactions (acts world0 before)) -> Forall (not_to (px_pointers t)) after ->
     ptransaction_seen (w_memory (acts world0 (before ++ after))) t = ptransaction_seen (w_memory (acts world0 before)) t).
Proof. exact @history_keeps. Qed.
Print Assumptions C116_kept_partial.
(** addresses made after a Create share nothing with those made before *)
Theorem C116_create_partial : forall (C : Curve) (before after : list (act C)),
  let w1 := acts world0 before in let w2 := acts world0 (before ++ CreateA :: after) in
  exists more, w_addresses w2 = w_addresses w1 ++ more /\
  forall a1 a2, In a1 (w_addresses w1) -> In a2 more -> forall p v, In p (pa_pointers a2) ->
    paddress_seen (put_at p v (w_memory w2)) a1 = paddress_seen (w_memory w2) a1.
Proof. exact @own_builder. Qed.
Print Assumptions C116_create_partial.
(** when it is built, an object says what the other claims are about, and has the pointers of the builder *)
Theorem C116_built_partial : forall C : Curve,
  (forall m now b a, paddress_now m now b = Ok a ->
     address_now now (deref m (ab_sender b)) (ab_recipients b) (deref m (ab_subject b)) (ab_created b) = Ok (paddress_seen m a) /\
     pa_sender a = ab_sender b /\ pa_recipients a = ab_recipients b /\ pa_subject a = ab_subject b) /\
  (forall m now (b : @tbuilder C) t, ptransaction_now m now b = Ok t ->
     transaction_now now (option_map (paddress_seen m) (tb_address b)) (deref m (tb_bucket b)) (tb_fees b) (tb_created b) = Ok (ptransaction_seen m t) /\
     px_address t = tb_address b /\ px_bucket t = tb_bucket b /\ px_fees t = tb_fees b).
Proof. intro C. split; [exact paddress_at_once|exact ptransaction_at_once]. Qed.
Print Assumptions C116_built_partial.

(** one builder, two addresses to two subjects; the sender of the second is replaced *)
Definition c116_acts : list (act toy) :=
  [CreateA; WithSender (repeat x0a 64); WithSubject (repeat x1b 64); NowA 3; WithSubject (repeat x2c 64); NowA 4].
Definition c116_said (w : world toy) : list (option hash * option hash) :=
  map (fun a => (deref (w_memory w) (pa_sender a), deref (w_memory w) (pa_subject a))) (w_addresses w).
Lemma c116_now : forall m now b x, deref m (ab_sender b) = Some x -> exists im,
  paddress_now m now b = Ok (PAddress im (ab_sender b) (ab_recipients b) (ab_subject b)).
Proof.
  intros m now b x E. destruct (address_now now (deref m (ab_sender b)) (ab_recipients b) (deref m (ab_subject b)) (ab_created b)) as [a| |] eqn:F.
  - exists (ad_im a). unfold paddress_now. rewrite F. reflexivity.
  - exfalso. assert (G : exists y, address_now now (deref m (ab_sender b)) (ab_recipients b) (deref m (ab_subject b)) (ab_created b) = Ok y)
      by (eexists; apply address_now_iff; split; [left; rewrite E; discriminate|reflexivity]). destruct G as [y G]. rewrite F in G. discriminate G.
  - exfalso. assert (G : exists y, address_now now (deref m (ab_sender b)) (ab_recipients b) (deref m (ab_subject b)) (ab_created b) = Ok y)
      by (eexists; apply address_now_iff; split; [left; rewrite E; discriminate|reflexivity]). destruct G as [y G]. rewrite F in G. discriminate G.
Qed.
Example C116_case :
  c116_said (acts world0 c116_acts) = [(Some (repeat x0a 64), Some (repeat x1b 64)); (Some (repeat x0a 64), Some (repeat x2c 64))] /\
  c116_said (acts world0 (c116_acts ++ [Write 0 (repeat x3d 64)])) = [(Some (repeat x3d 64), Some (repeat x1b 64)); (Some (repeat x3d 64), Some (repeat x2c 64))].
Proof.
  unfold c116_acts, acts. cbn [app fold_left]. unfold world0. cbn [act_step app length ab_recipients ab_sender ab_subject ab_created].
  match goal with |- context [paddress_now ?m ?n ?b] => destruct (c116_now m n b (repeat x0a 64) eq_refl) as [im E]; rewrite E end.
  cbn [act_step app length ab_recipients ab_sender ab_subject ab_created].
  match goal with |- context [paddress_now ?m ?n ?b] => destruct (c116_now m n b (repeat x0a 64) eq_refl) as [im2 E2]; rewrite E2 end.
  split; reflexivity.
Qed.
