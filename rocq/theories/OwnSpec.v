(** What the stored documents of an identity (domain/transfers/identities) and of a cancel
    (domain/transfers/piastres/cancels) say, member by member, stated without the decoders. *)
From Verif Require Import Base HashModel SignModel EntitiesModel JsonModel MemJsonModel TransferModel MemberSpec GrammarSpec CalendarSpec DocumentSpec
  StoredSpec IdentityModel CancelModel.

Definition says_tentry (js : list json) (t : tentry) : Prop := exists m, members_of js m /\ says_entity m (te_im t) /\
  member text_of "string" m (te_name t) /\ member hashes_of "transactions" m (te_trx t) /\ member text_of "description" m (te_description t) /\
  te_name t <> [] /\ te_trx t <> [].
Definition says_tstatement (js : list json) (t : tstatement) : Prop := exists m, members_of js m /\ says_entity m (ts_im t) /\
  member hashes_of "incoming" m (ts_incoming t) /\ member hashes_of "outgoing" m (ts_outgoing t).
(** private keys: scalar_of_string (C88) *)
Definition keys_of {C : Curve} (vs : list json) (ks : list (Sc C)) : Prop :=
  exists ss, elements_of text_of vs ss /\ Forall2 (fun s k => scalar_of_string C s = Ok k) ss ks.
Definition says_twbill {C : Curve} (js : list json) (t : twbill) : Prop := exists m, members_of js m /\ says_entity m (tw_im t) /\
  member hash_of "bill" m (tw_bill t) /\ member keys_of "pks" m (tw_pks t) /\ tw_pks t <> [].
(** the time of the last change is that of the reading and has to be no earlier than the creation *)
Definition says_tidentity (now : Z) (js : list json) (t : tidentity) : Prop := exists m, members_of js m /\
  member hash_of "hash" m (mu_hash (td_mu t)) /\ member time_of "created_on" m (mu_created (td_mu t)) /\
  member text_of "seed" m (td_seed t) /\ member text_of "name" m (td_name t) /\ member text_of "root" m (td_root t) /\
  member hashes_of "wallets" m (td_wallets t) /\ member hashes_of "buckets" m (td_buckets t) /\
  td_seed t <> [] /\ td_name t <> [] /\ td_root t <> [] /\ mu_updated (td_mu t) = now /\ (mu_created (td_mu t) <= now)%Z.
Definition says_tcancel {C : Curve} (js : list json) (t : tcancel C) : Prop := exists m, members_of js m /\ says_entity m (tn_im t) /\
  member hash_of "expense" m (tn_expense t) /\ member hash_of "lock" m (tn_lock t) /\ member (fun vs ss => exists ts, elements_of text_of vs ts /\ Forall2 (fun t g => ring_of_string C t = Ok g) ts ss) "signatures" m (tn_sigs t) /\ tn_sigs t <> [].
