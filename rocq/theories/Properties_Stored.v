(** C107: what the stored documents are read as. *)
From Verif Require Import Base HashModel HashTreeModel SignModel EntitiesModel PiastresModel JsonModel MemJsonModel TransferModel MemberSpec GrammarSpec
  DocumentSpec DocumentProofs StoredSpec StoredProofs StoredCrash UnicodeSpec CodecProofs TreeCodec.

(** ** C107: a stored document is read if and only if it says an object, and as that object *)
Theorem C107_lock : forall s x, unmarshal d_tlock s = Ok x <-> exists j, document s j /\ says_tlock [j] x.
Proof. intros s x. exact (unmarshal_iff _ _ _ s x tlock_decodes). Qed.
Print Assumptions C107_lock.
Theorem C107_bill : forall s x, unmarshal d_tbill s = Ok x <-> exists j, document s j /\ says_tbill [j] x.
Proof. intros s x. exact (unmarshal_iff _ _ _ s x tbill_decodes). Qed.
Print Assumptions C107_bill.
Theorem C107_genesis : forall s x, unmarshal d_tgenesis s = Ok x <-> exists j, document s j /\ says_tgenesis [j] x.
Proof. intros s x. exact (unmarshal_iff _ _ _ s x tgenesis_decodes). Qed.
Print Assumptions C107_genesis.
Theorem C107_transaction : forall s x, unmarshal d_ttrx s = Ok x <-> exists j, document s j /\ says_ttrx [j] x.
Proof. intros s x. exact (unmarshal_iff _ _ _ s x ttrx_decodes). Qed.
Print Assumptions C107_transaction.
Theorem C107_block : forall s x, unmarshal d_tblock s = Ok x <-> exists j, document s j /\ says_tblock [j] x.
Proof. intros s x. exact (unmarshal_iff _ _ _ s x tblock_decodes). Qed.
Print Assumptions C107_block.
Theorem C107_mined_block : forall s x, unmarshal d_tmblock s = Ok x <-> exists j, document s j /\ says_tmblock [j] x.
Proof. intros s x. exact (unmarshal_iff _ _ _ s x tmblock_decodes). Qed.
Print Assumptions C107_mined_block.
Theorem C107_link : forall s x, unmarshal d_tlink s = Ok x <-> exists j, document s j /\ says_tlink [j] x.
Proof. intros s x. exact (unmarshal_iff _ _ _ s x tlink_decodes). Qed.
Print Assumptions C107_link.
Theorem C107_mined_link : forall s x, unmarshal d_tmlink s = Ok x <-> exists j, document s j /\ says_tmlink [j] x.
Proof. intros s x. exact (unmarshal_iff _ _ _ s x tmlink_decodes). Qed.
Print Assumptions C107_mined_link.
Theorem C107_chain : forall s x, unmarshal d_tchain s = Ok x <-> exists j, document s j /\ says_tchain [j] x.
Proof. intros s x. exact (unmarshal_iff _ _ _ s x tchain_decodes). Qed.
Print Assumptions C107_chain.
Theorem C107_state : forall s x, unmarshal d_tstate s = Ok x <-> exists j, document s j /\ says_tstate [j] x.
Proof. intros s x. exact (unmarshal_iff _ _ _ s x tstate_decodes). Qed.
Print Assumptions C107_state.
Theorem C107_expense : forall (C : Curve) s (x : texpense C), unmarshal d_texpense s = Ok x <-> exists j, document s j /\ says_texpense [j] x.
Proof. intros C s x. exact (unmarshal_iff _ _ _ s x (texpense_decodes C)). Qed.
Print Assumptions C107_expense.
(** the compact tree in a document, on its own *)
Theorem C107_tree : forall s x, unmarshal d_jcompact s = Ok x <-> exists j, document s j /\ says_compact [j] x.
Proof. intros s x. exact (unmarshal_iff _ _ _ s x compact_decodes). Qed.
Print Assumptions C107_tree.
(** written and read back it is the same, however deep it goes *)
Theorem C107_tree_kept : forall x, unicode_compact x -> exists s, marshal e_jcompact x = Ok s /\ unmarshal d_jcompact s = Ok x.
Proof. exact compact_kept. Qed.
Print Assumptions C107_tree_kept.
Example C107_case_kept :
  let x := JCompact (s2b "d") [JLeaf (s2b "a") (NNode (JLeaf (s2b "b") NNil) (JLeaf (s2b "c") (NNode JNil JNil))); JNil] in
  unicode_compact x /\ marshal e_jcompact x =
    Ok (s2b "{""head"":""d"",""leaves"":[{""head"":""a"",""node"":{""left"":{""head"":""b"",""node"":null},""right"":{""head"":""c"",""node"":{""left"":null,""right"":null}}}},null]}").
Proof.
  assert (U : forall c, In c (s2b "abcd") -> unicode [c]) by (intros c H; apply unicode_dec; cbn in H; repeat destruct H as [<-|H]; [..|contradiction]; vm_compute; reflexivity).
  split; [|vm_compute; reflexivity]. split; [apply U; cbn; tauto|]. constructor; [|constructor; [exact I|constructor]].
  cbn [unicode_leaf unicode_node]. repeat match goal with |- _ /\ _ => split end; try exact I; apply U; cbn; tauto.
Qed.
(** the tree over leaves, one half beside the other *)
Theorem C107_rebuild : forall ls t, leaves_hashtree ls = Ok t <-> tree_over ls t.
Proof. exact tree_over_iff. Qed.
Print Assumptions C107_rebuild.
(** hexadecimal text *)
Theorem C107_hash : forall s h, FromString s = Ok h <-> hash_text s h.
Proof. exact hash_text_iff. Qed.
Print Assumptions C107_hash.

(** what is neither read nor crashes is refused *)
Theorem C107_crash_block : forall s, unmarshal d_tblock s = Panic <-> exists j, document s j /\ block_crash [j].
Proof. intro s. rewrite unmarshal_panic. split; intros (j & D & H); exists j; (split; [exact D|apply tblock_crash; exact H]). Qed.
Print Assumptions C107_crash_block.
Theorem C107_crash_state : forall s, unmarshal d_tstate s = Panic <-> exists j, document s j /\ state_crash [j].
Proof. intro s. rewrite unmarshal_panic. split; intros (j & D & H); exists j; (split; [exact D|apply tstate_crash; exact H]). Qed.
Print Assumptions C107_crash_state.
Theorem C107_no_crash : forall s, unmarshal d_tlock s <> Panic /\ unmarshal d_tbill s <> Panic /\ unmarshal d_tgenesis s <> Panic /\
  unmarshal d_ttrx s <> Panic /\ unmarshal d_tmblock s <> Panic /\ unmarshal d_tlink s <> Panic /\ unmarshal d_tmlink s <> Panic /\
  unmarshal d_tchain s <> Panic /\ forall C : Curve, unmarshal (@d_texpense C) s <> Panic.
Proof.
  intro s. repeat match goal with |- _ /\ _ => split end; [..|intro C]; rewrite unmarshal_panic; intros (j & _ & H);
    destruct (stored_no_panic [j]) as (H1 & H2 & H3 & H4 & H5 & H6 & H7 & H8 & H9);
    [exact (H1 H)|exact (H2 H)|exact (H3 H)|exact (H4 H)|exact (H5 H)|exact (H6 H)|exact (H7 H)|exact (H8 H)|exact (H9 C H)].
Qed.
Print Assumptions C107_no_crash.

(** a bill whose lock is given twice, the second time in capitals, and an amount with a null behind it *)
Definition c107_bill : bytes :=
  s2b "{""hash"":""" ++ hash_string (repeat x0a 64) ++ s2b """,""lock"":""zz"",""LOCK"":""" ++ map (fun c => if beq c x62 then x42 else c) (hash_string (repeat x1b 64)) ++
  s2b """,""amount"":7,""amount"":null,""more"":[],""created_on"":""2020-09-13T12:26:40Z""}".
Example C107_case :
  (exists j, document c107_bill j /\ says_tbill [j] (TBill (Immutable (repeat x0a 64) 1600000000000000000) (repeat x1b 64) 7)) /\
  (exists j, document (s2b "{""leaves"":[{""head"":""a"",""node"":{""right"":{""head"":""c""},""left"":{""head"":""b""}}}],""head"":""d""}") j /\
     says_compact [j] (JCompact (s2b "d") [JLeaf (s2b "a") (NNode (JLeaf (s2b "b") NNil) (JLeaf (s2b "c") NNil))])).
Proof. split; [apply C107_bill|apply C107_tree]; vm_compute; reflexivity. Qed.
(** four leaves *)
Example C107_case_tree : forall a b c d,
  let l := LNode (from_bytes (leaf_head a ++ leaf_head b)) a b in let r := LNode (from_bytes (leaf_head c ++ leaf_head d)) c d in
  tree_over [a; b; c; d] (HashTree (from_bytes (leaf_head l ++ leaf_head r)) l r).
Proof. intros. apply C107_rebuild. cbn [leaves_hashtree leaves_hashtree_f length children rbind]. reflexivity. Qed.
(** one leaf, and none at all *)
Definition c107_block (trx : bytes) : bytes :=
  s2b "{""hash"":""" ++ hash_string (repeat x0a 64) ++ s2b """,""amount"":7,""additional"":1,""transactions"":" ++ trx ++ s2b ",""created_on"":""2020-09-13T12:26:40Z""}".
Example C107_case_crash :
  (exists j, document (c107_block (s2b "null")) j /\ block_crash [j]) /\
  (exists j, document (c107_block (s2b "{""head"":""" ++ hash_string (repeat x0a 64) ++ s2b """,""leaves"":[null]}")) j /\ block_crash [j]).
Proof. split; apply C107_crash_block; vm_compute; reflexivity. Qed.
