(** The texts of the documents, written out: which members they have, under which names
    and in which order. *)
From Verif Require Import Base HashModel HashTreeModel SignModel EntitiesModel FloatModel PiastresModel JsonModel TimeModel FloatText
  IdentityModel TransferModel MemSpec.
From Verif Require CancelModel.

Definition quoted (s : bytes) : bytes := x22 :: s ++ [x22].
(** parts with commas between them *)
Fixpoint commas (l : list bytes) : bytes :=
  match l with
  | [] => []
  | [x] => x
  | x :: l => x ++ x2c :: commas l
  end.
Definition array (l : list bytes) : bytes := x5b :: commas l ++ [x5d].
Definition member (nv : string * bytes) : bytes := quoted (s2b (fst nv)) ++ x3a :: snd nv.
Definition object (l : list (string * bytes)) : bytes := x7b :: commas (map member l) ++ [x7d].

(** hashes are written in hexadecimal, an absent one as the empty string; numbers in
    decimal; free texts as string literals ([quote], C98) *)
Definition hash_text (h : hash) : bytes := quoted (hash_string h).
Definition hashes_text (l : list hash) : bytes := array (map hash_text l).
Definition maybe_hash (o : option hash) : bytes := match o with Some h => hash_text h | None => quoted [] end.
Definition maybe {A} (f : A -> bytes) (o : option A) : bytes := match o with Some a => f a | None => s2b "null" end.
(** the text of an instant (C99) and of a float (C100) *)
Definition date (t : Z) : bytes := match time_text t with Ok s => quoted s | _ => [] end.
Definition decimal (x : float64) : bytes := match float_text x with Ok s => s | _ => [] end.

Local Open Scope string_scope.

(** ** The documents of the objects in memory *)
Definition lock_doc (l : lock) : bytes :=
  object [("pubkeys", hashes_text (lk_keys l)); ("created_on", date (im_created (lk_im l)))].
Definition bill_doc (b : bill) : bytes :=
  object [("lock", lock_doc (bl_lock b)); ("amount", ntoa (bl_amount b)); ("created_on", date (im_created (bl_im b)))].
Definition content_doc (c : content) : bytes :=
  object [("from", array (map bill_doc (ct_from c))); ("to", bill_doc (ct_to c)); ("remaining", maybe bill_doc (ct_remaining c));
          ("created_on", date (im_created (ct_im c)))].
Definition address_doc (a : address) : bytes :=
  object [("sender", maybe_hash (ad_sender a)); ("recipients", hashes_text (ad_recipients a)); ("subject", maybe_hash (ad_subject a));
          ("created_on", date (im_created (ad_im a)))].
Definition genesis_doc (g : genesis) : bytes :=
  object [("bill", bill_doc (gn_bill g)); ("link_difficulty", ntoa (gn_link g)); ("block_difficulty_base", ntoa (gn_base g));
          ("block_difficulty_increase_per_transaction", decimal (gn_increase g)); ("created_on", date (im_created (gn_im g)))].

Section WithCurve.
Context {C : Curve}.
Definition sig_text (s : ringsig C) : bytes := quoted (ring_string C s).
Definition expense_doc (e : expense) : bytes :=
  object [("content", content_doc (ex_content e)); ("signatures", array (map sig_text (ex_sigs e)))].
Definition trx_doc (t : transaction) : bytes :=
  object [("address", maybe address_doc (tx_address t)); ("fees", array (map expense_doc (tx_fees t))); ("bucket", maybe_hash (tx_bucket t));
          ("created_on", date (im_created (tx_im t)))].
Definition block_doc (b : block) : bytes :=
  object [("genesis", genesis_doc (bk_genesis b)); ("transactions", array (map trx_doc (bk_trx b))); ("additional", ntoa (bk_additional b));
          ("created_on", date (im_created (bk_im b)))].
Definition link_doc (l : chain_link) : bytes :=
  object [("previous_link", hash_text (ln_prev l)); ("next", block_doc (ln_next l)); ("index", ntoa (ln_index l));
          ("created_on", date (im_created (ln_im l)))].
Definition mined_link_doc (l : mined_link) : bytes :=
  object [("link", link_doc (ml_link l)); ("mining", quote (ml_mining l)); ("created_on", date (im_created (ml_im l)))].
End WithCurve.

(** ** The stored documents *)
(** those of an immutable object begin with its hash and end with its time *)
Definition stored (im : immutable) (l : list (string * bytes)) : bytes :=
  object (("hash", hash_text (im_hash im)) :: l ++ [("created_on", date (im_created im))])%list.
(** a hash tree: its head and its leaves, without the nodes between them *)
Definition leaf_text (h : hash) : bytes := object [("head", hash_text h); ("node", s2b "null")].
Definition tree_text (t : hashtree) : bytes :=
  object [("head", hash_text (ht_head t)); ("leaves", array (map leaf_text (map leaf_head (ht_block_leaves t))))].

(** a tree document of any shape *)
Fixpoint jleaf_doc (x : jleaf) : bytes :=
  match x with JNil => s2b "null" | JLeaf h n => object [("head", quote h); ("node", jnode_doc n)] end
with jnode_doc (x : jnode) : bytes :=
  match x with NNil => s2b "null" | NNode l r => object [("left", jleaf_doc l); ("right", jleaf_doc r)] end.
Definition jcompact_doc (x : jcompact) : bytes := object [("head", quote (jc_head x)); ("leaves", array (map jleaf_doc (jc_leaves x)))].

Definition stored_lock (t : tlock) : bytes := stored (tl_im t) [("pubkeys", hashes_text (tl_keys t))].
Definition stored_bill (t : tbill) : bytes := stored (tb_im t) [("lock", hash_text (tb_lock t)); ("amount", ntoa (tb_amount t))].
Definition stored_genesis (t : tgenesis) : bytes :=
  stored (tg_im t) [("bill", hash_text (tg_bill t)); ("block_difficulty_base", ntoa (tg_base t));
    ("block_difficulty_increase_per_trx", decimal (tg_increase t)); ("link_difficulty", ntoa (tg_link t))].
Definition stored_trx (t : ttrx) : bytes :=
  stored (tt_im t) [("address", maybe_hash (tt_address t)); ("fees", hashes_text (tt_fees t)); ("bucket", maybe_hash (tt_bucket t))].
Definition stored_block (t : tblock) : bytes :=
  stored (tk_im t) [("transactions", tree_text (tk_trx t)); ("amount", ntoa (tk_amount t)); ("additional", ntoa (tk_additional t))].
Definition stored_mined_block (t : tmblock) : bytes := stored (tm_im t) [("block", hash_text (tm_block t)); ("mining", quote (tm_mining t))].
Definition stored_link (t : tlink) : bytes :=
  stored (ti_im t) [("previous_link", hash_text (ti_prev t)); ("next", hash_text (ti_next t)); ("index", ntoa (ti_index t))].
Definition stored_mined_link (t : tmlink) : bytes := stored (tn_im t) [("link", hash_text (tn_link t)); ("mining", quote (tn_mining t))].
Definition stored_chain (t : tchain) : bytes :=
  stored (tc_im t) [("genesis", hash_text (tc_genesis t)); ("root", hash_text (tc_root t)); ("head", hash_text (tc_head t)); ("total", ntoa (tc_total t))].
Definition stored_state (t : tstate) : bytes :=
  stored (ts_im t) [("chain", hash_text (ts_chain t)); ("previous", hash_text (ts_prev t)); ("height", ntoa (ts_height t));
    ("transactions", tree_text (ts_trx t)); ("amount", ntoa (ts_amount t))].
Definition stored_expense {C : Curve} (t : texpense C) : bytes :=
  stored (te_im t) [("from", hashes_text (te_from t)); ("to", hash_text (te_to t)); ("signatures", array (map sig_text (te_sigs t)));
    ("remaining", maybe_hash (te_remaining t))].
Definition stored_cancel {C : Curve} (t : CancelModel.tcancel C) : bytes :=
  stored (CancelModel.tn_im t) [("expense", hash_text (CancelModel.tn_expense t)); ("lock", hash_text (CancelModel.tn_lock t));
    ("signatures", array (map sig_text (CancelModel.tn_sigs t)))].
Definition stored_entry (t : tentry) : bytes :=
  stored (IdentityModel.te_im t) [("string", quote (te_name t)); ("transactions", hashes_text (te_trx t)); ("description", quote (te_description t))].
Definition stored_statement (t : tstatement) : bytes :=
  stored (IdentityModel.ts_im t) [("incoming", hashes_text (ts_incoming t)); ("outgoing", hashes_text (ts_outgoing t))].
Definition stored_wallet_bill {C : Curve} (t : twbill) : bytes :=
  stored (tw_im t) [("bill", hash_text (tw_bill t)); ("pks", array (map (fun x => quote (sstr C x)) (tw_pks t)))].
Definition stored_wallet (t : twallet) : bytes :=
  stored (tv_im t) [("name", quote (tv_name t)); ("description", quote (tv_description t)); ("statement", hash_text (tv_statement t));
    ("bills", hashes_text (tv_bills t))].
Definition stored_identity (t : tidentity) : bytes :=
  object [("hash", hash_text (mu_hash (td_mu t))); ("seed", quote (td_seed t)); ("name", quote (td_name t)); ("root", quote (td_root t));
    ("wallets", hashes_text (td_wallets t)); ("buckets", hashes_text (td_buckets t)); ("created_on", date (mu_created (td_mu t)))].
