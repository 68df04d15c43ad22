(** C97: the documents have a fixed format. *)
From Coq Require Import Lia.
From Verif Require Import Base HashModel HashTreeModel SignModel EntitiesModel FloatModel PiastresModel JsonModel TimeModel FloatText
  IdentityModel TransferModel MemJsonModel MemSpec BuilderSpec FormatSpec FormatProofs NumberSpec.
From Verif Require CancelModel.

(** ** C97: an object is written as exactly the document of its kind, and not at all when one of its times has no text *)
Theorem C97_lock : forall x : lock, builds (lock_to_text x) (dated_lock x) (lock_doc x).
Proof. intros. exact (shows_builds _ _ _ _ _ (shows_lock x)). Qed.
Print Assumptions C97_lock.
Theorem C97_bill : forall x : bill, builds (bill_to_text x) (dated_bill x) (bill_doc x).
Proof. intros. exact (shows_builds _ _ _ _ _ (shows_bill x)). Qed.
Print Assumptions C97_bill.
Theorem C97_content : forall x : content, builds (content_to_text x) (dated_content x) (content_doc x).
Proof. intros. exact (shows_builds _ _ _ _ _ (shows_content x)). Qed.
Print Assumptions C97_content.
Theorem C97_address : forall x : address, builds (address_to_text x) (dated_address x) (address_doc x).
Proof. intros. exact (shows_builds _ _ _ _ _ (shows_address x)). Qed.
Print Assumptions C97_address.
Theorem C97_genesis : forall x : genesis, builds (genesis_to_text x) (dated_genesis x) (genesis_doc x).
Proof. intros. exact (shows_builds _ _ _ _ _ (shows_genesis x)). Qed.
Print Assumptions C97_genesis.
Theorem C97_expense : forall (C : Curve) (x : expense (C := C)), builds (expense_to_text x) (dated_expense x) (expense_doc x).
Proof. intros. exact (shows_builds _ _ _ _ _ (shows_expense x)). Qed.
Print Assumptions C97_expense.
Theorem C97_trx : forall (C : Curve) (x : transaction (C := C)), builds (trx_to_text x) (dated_trx x) (trx_doc x).
Proof. intros. exact (shows_builds _ _ _ _ _ (shows_trx x)). Qed.
Print Assumptions C97_trx.
Theorem C97_block : forall (C : Curve) (x : block (C := C)), builds (block_to_text x) (dated_block x) (block_doc x).
Proof. intros. exact (shows_builds _ _ _ _ _ (shows_block x)). Qed.
Print Assumptions C97_block.
Theorem C97_link : forall (C : Curve) (x : chain_link (C := C)), builds (link_to_text x) (dated_link x) (link_doc x).
Proof. intros. exact (shows_builds _ _ _ _ _ (shows_link x)). Qed.
Print Assumptions C97_link.
Theorem C97_mined_link : forall (C : Curve) (x : mined_link (C := C)), builds (mlink_to_text x) (dated_mined_link x) (mined_link_doc x).
Proof. intros. exact (shows_builds _ _ _ _ _ (shows_mined_link x)). Qed.
Print Assumptions C97_mined_link.
(** any tree document, nested or not *)
Theorem C97_tree : forall x : jcompact, marshal e_jcompact x = Ok (jcompact_doc x).
Proof. intro x. apply (shows_builds _ e_jcompact x True (jcompact_doc x) (shows_jcompact x)). exact I. Qed.
Print Assumptions C97_tree.
Theorem C97_stored_lock : forall t : tlock, 
  builds (marshal e_tlock t) (dated (im_created (tl_im t))) (stored_lock t).
Proof. intros. exact (shows_builds _ _ _ _ _ (shows_tlock t)). Qed.
Print Assumptions C97_stored_lock.
Theorem C97_stored_bill : forall t : tbill, 
  builds (marshal e_tbill t) (dated (im_created (tb_im t))) (stored_bill t).
Proof. intros. exact (shows_builds _ _ _ _ _ (shows_tbill t)). Qed.
Print Assumptions C97_stored_bill.
Theorem C97_stored_genesis : forall t : tgenesis, 
  builds (marshal e_tgenesis t) (float_number (tg_increase t) /\ dated (im_created (tg_im t))) (stored_genesis t).
Proof. intros. exact (shows_builds _ _ _ _ _ (shows_tgenesis t)). Qed.
Print Assumptions C97_stored_genesis.
Theorem C97_stored_trx : forall t : ttrx, 
  builds (marshal e_ttrx t) (dated (im_created (tt_im t))) (stored_trx t).
Proof. intros. exact (shows_builds _ _ _ _ _ (shows_ttrx t)). Qed.
Print Assumptions C97_stored_trx.
Theorem C97_stored_block : forall t : tblock, 
  builds (marshal e_tblock t) (dated (im_created (tk_im t))) (stored_block t).
Proof. intros. exact (shows_builds _ _ _ _ _ (shows_tblock t)). Qed.
Print Assumptions C97_stored_block.
Theorem C97_stored_mined_block : forall t : tmblock, 
  builds (marshal e_tmblock t) (dated (im_created (tm_im t))) (stored_mined_block t).
Proof. intros. exact (shows_builds _ _ _ _ _ (shows_tmblock t)). Qed.
Print Assumptions C97_stored_mined_block.
Theorem C97_stored_link : forall t : tlink, 
  builds (marshal e_tlink t) (dated (im_created (ti_im t))) (stored_link t).
Proof. intros. exact (shows_builds _ _ _ _ _ (shows_tlink t)). Qed.
Print Assumptions C97_stored_link.
Theorem C97_stored_mined_link : forall t : tmlink, 
  builds (marshal e_tmlink t) (dated (im_created (tn_im t))) (stored_mined_link t).
Proof. intros. exact (shows_builds _ _ _ _ _ (shows_tmlink t)). Qed.
Print Assumptions C97_stored_mined_link.
Theorem C97_stored_chain : forall t : tchain, 
  builds (marshal e_tchain t) (dated (im_created (tc_im t))) (stored_chain t).
Proof. intros. exact (shows_builds _ _ _ _ _ (shows_tchain t)). Qed.
Print Assumptions C97_stored_chain.
Theorem C97_stored_state : forall t : tstate, 
  builds (marshal e_tstate t) (dated (im_created (ts_im t))) (stored_state t).
Proof. intros. exact (shows_builds _ _ _ _ _ (shows_tstate t)). Qed.
Print Assumptions C97_stored_state.
Theorem C97_stored_expense : forall (C : Curve) (t : texpense C), 
  builds (marshal e_texpense t) (dated (im_created (te_im t))) (stored_expense t).
Proof. intros. exact (shows_builds _ _ _ _ _ (shows_texpense t)). Qed.
Print Assumptions C97_stored_expense.
Theorem C97_stored_cancel : forall (C : Curve) (t : CancelModel.tcancel C), 
  builds (marshal CancelModel.e_tcancel t) (dated (im_created (CancelModel.tn_im t))) (stored_cancel t).
Proof. intros. exact (shows_builds _ _ _ _ _ (shows_tcancel t)). Qed.
Print Assumptions C97_stored_cancel.
Theorem C97_stored_entry : forall t : tentry, 
  builds (marshal e_tentry t) (dated (im_created (IdentityModel.te_im t))) (stored_entry t).
Proof. intros. exact (shows_builds _ _ _ _ _ (shows_tentry t)). Qed.
Print Assumptions C97_stored_entry.
Theorem C97_stored_statement : forall t : tstatement, 
  builds (marshal e_tstatement t) (dated (im_created (IdentityModel.ts_im t))) (stored_statement t).
Proof. intros. exact (shows_builds _ _ _ _ _ (shows_tstatement t)). Qed.
Print Assumptions C97_stored_statement.
Theorem C97_stored_wallet_bill : forall (C : Curve) (t : twbill (C := C)), 
  builds (marshal e_twbill t) (dated (im_created (tw_im t))) (stored_wallet_bill t).
Proof. intros. exact (shows_builds _ _ _ _ _ (shows_twbill t)). Qed.
Print Assumptions C97_stored_wallet_bill.
Theorem C97_stored_wallet : forall t : twallet, 
  builds (marshal e_twallet t) (dated (im_created (tv_im t))) (stored_wallet t).
Proof. intros. exact (shows_builds _ _ _ _ _ (shows_twallet t)). Qed.
Print Assumptions C97_stored_wallet.
Theorem C97_stored_identity : forall t : tidentity, 
  builds (marshal e_tidentity t) (dated (mu_created (td_mu t))) (stored_identity t).
Proof. intros. exact (shows_builds _ _ _ _ _ (shows_tidentity t)). Qed.
Print Assumptions C97_stored_identity.

Example C97_case :
  stored_lock (TLock (Immutable [xab; x01] 1600000000123450000) [[x00]; [xff]]) =
    s2b "{""hash"":""ab01"",""pubkeys"":[""00"",""ff""],""created_on"":""2020-09-13T12:26:40.12345Z""}" /\
  dated 1600000000123450000 /\ ~ dated (253402300800 * 10 ^ 9) /\
  stored_mined_link (TMLink (Immutable [] 0) [x0a] (s2b "a""b<")) =
    s2b "{""hash"":"""",""link"":""0a"",""mining"":""a\""b\u003c"",""created_on"":""1970-01-01T00:00:00Z""}" /\
  tree_text (HashTree [x01] (LLeaf [x02]) (LLeaf [x03])) =
    s2b "{""head"":""01"",""leaves"":[{""head"":""02"",""node"":null},{""head"":""03"",""node"":null}]}" /\
  address_doc (Address (Immutable [] 0) None [] (Some [x07])) =
    s2b "{""sender"":"""",""recipients"":[],""subject"":""07"",""created_on"":""1970-01-01T00:00:00Z""}".
Proof. repeat match goal with |- _ /\ _ => split end; try (vm_compute; reflexivity); try (unfold dated; lia). Qed.
