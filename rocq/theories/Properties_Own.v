(** C108: what the stored documents of identities and cancels are read as. *)
From Verif Require Import Base HashModel SignModel EntitiesModel JsonModel MemJsonModel TransferModel MemberSpec GrammarSpec DocumentSpec DocumentProofs
  StoredSpec StoredCrash IdentityModel CancelModel OwnSpec OwnProofs.

(** ** C108: a stored document is read if and only if it says an object, and as that object *)
Theorem C108_entry : forall s x, unmarshal d_tentry s = Ok x <-> exists j, document s j /\ says_tentry [j] x.
Proof. intros s x. exact (unmarshal_iff _ _ _ s x tentry_decodes). Qed.
Print Assumptions C108_entry.
Theorem C108_statement : forall s x, unmarshal d_tstatement s = Ok x <-> exists j, document s j /\ says_tstatement [j] x.
Proof. intros s x. exact (unmarshal_iff _ _ _ s x tstatement_decodes). Qed.
Print Assumptions C108_statement.
Theorem C108_bill : forall (C : Curve) s (x : twbill), unmarshal (@d_twbill C) s = Ok x <-> exists j, document s j /\ says_twbill [j] x.
Proof. intros C s x. exact (unmarshal_iff _ _ _ s x (twbill_decodes C)). Qed.
Print Assumptions C108_bill.
(** no document is a wallet *)
Theorem C108_wallet : forall s, unmarshal d_twallet s = Err.
Proof. intro s. unfold unmarshal. destruct (jparse s); [apply twallet_never|reflexivity]. Qed.
Print Assumptions C108_wallet.
Theorem C108_identity : forall now s x, unmarshal (d_tidentity now) s = Ok x <-> exists j, document s j /\ says_tidentity now [j] x.
Proof. intros now s x. exact (unmarshal_iff _ _ _ s x (tidentity_decodes now)). Qed.
Print Assumptions C108_identity.
Theorem C108_cancel : forall (C : Curve) s (x : tcancel C), unmarshal d_tcancel s = Ok x <-> exists j, document s j /\ says_tcancel [j] x.
Proof. intros C s x. exact (unmarshal_iff _ _ _ s x (tcancel_decodes C)). Qed.
Print Assumptions C108_cancel.
(** what is not read is refused *)
Theorem C108_no_crash : forall s, unmarshal d_tentry s <> Panic /\ unmarshal d_tstatement s <> Panic /\ (forall now, unmarshal (d_tidentity now) s <> Panic) /\
  forall C : Curve, unmarshal (@d_twbill C) s <> Panic /\ unmarshal (@d_tcancel C) s <> Panic.
Proof.
  intro s. split; [|split; [|split; [intro now|intro C; split]]]; rewrite unmarshal_panic; intros (j & _ & H); destruct (own_no_panic [j]) as (H1 & H2 & H3 & H4);
    [exact (H1 H)|exact (H2 H)|exact (H3 now H)|exact (proj1 (H4 C) H)|exact (proj2 (H4 C) H)].
Qed.
Print Assumptions C108_no_crash.

(** the name twice, a bucket in capital digits, no wallets *)
Definition c108_identity : bytes :=
  s2b "{""hash"":""" ++ hash_string (repeat x0a 64) ++ s2b """,""seed"":""s"",""name"":""a"",""NAME"":""b"",""root"":""/r"",""buckets"":[""" ++
  map (fun c => if beq c x62 then x42 else c) (hash_string (repeat x1b 64)) ++ s2b """],""wallets"":null,""created_on"":""2020-09-13T12:26:40Z""}".
Example C108_case : (exists j, document c108_identity j /\ says_tidentity 1600000000000000000 [j]
    (TIdentity (Mutable (repeat x0a 64) 1600000000000000000 1600000000000000000) (s2b "s") (s2b "b") (s2b "/r") [] [repeat x1b 64])) /\
  (forall x, ~ exists j, document c108_identity j /\ says_tidentity 1599999999999999999 [j] x) /\
  exists j, document (s2b "{""string"":""n"",""transactions"":[""" ++ hash_string (repeat x0a 64) ++ s2b """],""hash"":""" ++ hash_string (repeat x1b 64) ++
    s2b """,""created_on"":""2020-09-13T12:26:40Z""}") j /\
    says_tentry [j] (TEntry (Immutable (repeat x1b 64) 1600000000000000000) (s2b "n") [repeat x0a 64] []).
Proof.
  split; [apply C108_identity; vm_compute; reflexivity|]. split; [|apply C108_entry; vm_compute; reflexivity].
  intros x H. apply C108_identity in H. assert (E : unmarshal (d_tidentity 1599999999999999999) c108_identity = Err) by (vm_compute; reflexivity). congruence.
Qed.
