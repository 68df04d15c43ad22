(** The properties of the piastres stores, C30 to C38 and C57.

    [universe m U]: the objects of a history; [m] says which kinds are looked at (Base:
    locks, bills, genesis; Low: also expenses and transactions; All: also blocks and links).
    [reach], [steps]: the disks reached by Saves of objects of [U] under any faults.
    [runs]: likewise by all writing operations. *)
From Verif Require Import Base HashModel HashSpec SignModel ToyCurve EntitiesModel FloatModel PiastresModel PiastresSpec PiastresProofs
  Properties_Piastres JsonModel JsonProofs TimeModel FloatText MemJsonModel MemSpec MemJsonProofs JsonFixtures TransferModel StoreModel StoreSpec
  StoreProofs StoreInvariant StoreHistory StoreTheorems StoreClear StoreRefuted StoreFixtures StoreMore.

(** ** When a history is determined by its hashes *)
Theorem C30_determined : forall (C : Curve) m (U : obj C -> Prop),
  (forall o p, U o -> In p (parts o) -> U p) -> (forall o, U o -> covers m (kind_of o) -> proper o) ->
  (forall o p, U o -> U p -> covers m (kind_of o) -> kind_of o = kind_of p -> ~ hash_coincidence (hashed_text o) (hashed_text p)) ->
  (forall o p, U o -> U p -> covers m (kind_of o) -> unambiguous o p) -> universe m U.
Proof. exact @clear_universe. Qed.
Print Assumptions C30_determined.

(** ** C30 *)
Theorem C30_saved_is_retrieved : forall (C : Curve) (U : obj C -> Prop) d o fl, universe Low U -> reach Low U d -> U o ->
  kind_of o = KLock \/ kind_of o = KBill \/ kind_of o = KExpense ->
  fst (save_obj o (Fs d fl)) <> Panic /\ (fl = [] -> fst (save_obj o (Fs d fl)) = Ok tt) /\
  (fst (save_obj o (Fs d fl)) = Ok tt -> forall d', steps Low U (fs_disk (snd (save_obj o (Fs d fl)))) d' ->
   exists o', retrieve_obj (kind_of o) (hash_of o) d' = Ok o' /\ same o' o).
Proof. exact @low_saved. Qed.
Print Assumptions C30_saved_is_retrieved.
(** locks and bills also after histories with any other operation *)
Theorem C30_any_operations : forall (C : Curve) (U : obj C -> Prop) d o fl, universe Base U -> runs U empty d -> U o ->
  kind_of o = KLock \/ kind_of o = KBill ->
  fst (save_obj o (Fs d fl)) <> Panic /\ (fl = [] -> fst (save_obj o (Fs d fl)) = Ok tt) /\
  (fst (save_obj o (Fs d fl)) = Ok tt -> forall d', runs U (fs_disk (snd (save_obj o (Fs d fl)))) d' ->
   exists o', retrieve_obj (kind_of o) (hash_of o) d' = Ok o' /\ same o' o).
Proof. exact @base_any_operations. Qed.
Print Assumptions C30_any_operations.
(** the coincidence is real: a lock on the hash of another one hides it *)
Theorem C30_single_key_lock_hides : forall C : Curve, forall l, good_lock l -> dated_lock l -> 2 <= length (lk_keys l) ->
  exists l' d1 l'',
    lock_now 0 [lk_hash l] (Some (im_created (lk_im l))) = Ok l' /\
    lock_save l' (Fs empty []) = (Ok tt, Fs d1 []) /\ lock_save l (Fs d1 []) = (Ok tt, Fs d1 []) /\
    lock_retrieve (lk_hash l) d1 = Ok l'' /\ lk_keys l'' = [lk_hash l] /\ lk_keys l'' <> lk_keys l.
Proof. exact @lock_masked. Qed.
Print Assumptions C30_single_key_lock_hides.
Example C30_case : exists e U, spending = Ok e /\ universe Low U /\ U (OExpense e) /\ length (ct_from (ex_content e)) = 1.
Proof.
  destruct spending_ok as [e E]. exists e, (fun o => In o (spending_objects e)). split; [exact E|].
  split; [apply spending_universe; exact E|]. split; [left; reflexivity|].
  apply rget_Ok in E as (b & _ & E). apply rget_Ok in E as (s & _ & E). apply rget_Ok in E as (lk & _ & E). apply rget_Ok in E as (c & Ec & E).
  apply expense_fields in E as (-> & _). apply content_from in Ec. rewrite Ec. reflexivity.
Qed.
(** a torn write, a refused one, and then success *)
Definition crash_run : res (list bool) :=
  rget (toy_bill 5 100) (fun b =>
  let s1 := bill_save b (Fs empty [Torn 9]) in
  let s2 := bill_save b (Fs (fs_disk (snd s1)) [Fine; Denied]) in
  let s3 := bill_save b (Fs (fs_disk (snd s2)) []) in
  Ok [is_ok (fst s1); is_ok (lock_retrieve (lk_hash (bl_lock b)) (fs_disk (snd s1)));
      is_ok (fst s2); is_ok (lock_retrieve (lk_hash (bl_lock b)) (fs_disk (snd s2))); is_ok (bill_retrieve (bl_hash b) (fs_disk (snd s2)));
      is_ok (fst s3);
      match bill_retrieve (bl_hash b) (fs_disk (snd s3)) with Ok b' => bseq (bl_hash b') (bl_hash b) | _ => false end]).
Example C30_run : crash_run = Ok [false; false; false; true; false; true; true].
Proof. vm_compute. reflexivity. Qed.

(** ** C31 *)
Theorem C31_save_again : forall (C : Curve) (o o' : obj C) s, kind_of o <> KGenesis ->
  retrieve_obj (kind_of o) (hash_of o) (fs_disk s) = Ok o' -> save_obj o s = (Ok tt, s).
Proof. exact @save_again. Qed.
Print Assumptions C31_save_again.
(** in particular a second save after a successful one writes nothing, whatever the faults *)
Theorem C31_twice : forall (C : Curve) m (U : obj C -> Prop) d o fl fl', universe m U -> reach m U d -> U o -> covers m (kind_of o) ->
  kind_of o <> KGenesis -> ready d o -> fst (save_obj o (Fs d fl)) = Ok tt ->
  let d' := fs_disk (snd (save_obj o (Fs d fl))) in save_obj o (Fs d' fl') = (Ok tt, Fs d' fl').
Proof. exact @save_twice. Qed.
Print Assumptions C31_twice.
Example C31_case : exists (e : @expense toy) d o', outcome (OExpense e) empty = Ok tt /\ d = saved (OExpense e) empty /\
  @retrieve_obj toy KExpense (ex_hash e) d = Ok o'.
Proof.
  destruct spending_ok as [e E]. pose proof (spending_universe e E) as HU.
  destruct (C30_saved_is_retrieved toy _ empty (OExpense e) [] HU) as (_ & O & P); [apply steps_none|left; reflexivity|right; right; reflexivity|].
  destruct (P (O eq_refl) (saved (OExpense e) empty) (steps_none _ _ _)) as (o' & R & _). exists e, (saved (OExpense e) empty), o'.
  split; [exact (O eq_refl)|]. auto.
Qed.

(** ** C32 *)
(** On every disk reached, through any faults: a file that can be read belongs to an object
    all of whose parts are retrievable, and nothing that is retrieved crashes. *)
Theorem C32_nothing_dangles : forall (C : Curve) m (U : obj C -> Prop) d k n s, universe m U -> reach m U d -> covers m k -> d k n = Some s ->
  unreadable k s \/ exists o, U o /\ kind_of o = k /\ n = file_name k (hash_of o) /\
    (exists o', retrieve_obj k (hash_of o) d = Ok o' /\ same o' o) /\
    forall p, In p (parts o) -> exists p', retrieve_obj (kind_of p) (hash_of p) d = Ok p' /\ same p' p.
Proof. intros C m U d k n s HU R. apply files_whole; [exact HU|]. apply reach_inv; assumption. Qed.
Print Assumptions C32_nothing_dangles.
Theorem C32_retrieve_never_crashes : forall (C : Curve) m (U : obj C -> Prop) d k h, universe m U -> reach m U d -> covers m k ->
  @retrieve_obj C k h d <> Panic.
Proof. intros C m U d k h HU R. apply (retrieve_total m U HU). apply reach_inv; assumption. Qed.
Print Assumptions C32_retrieve_never_crashes.
(** after a save that crashed anywhere, a second one succeeds *)
Theorem C32_repeat : forall (C : Curve) m (U : obj C -> Prop) d o fl, universe m U -> reach m U d -> U o -> covers m (kind_of o) ->
  kind_of o <> KGenesis -> ready d o ->
  let d' := fs_disk (snd (save_obj o (Fs d fl))) in
  outcome o d' = Ok tt /\ exists o', retrieve_obj (kind_of o) (hash_of o) (saved o d') = Ok o' /\ same o' o.
Proof. exact @crash_repeat. Qed.
Print Assumptions C32_repeat.
(** the genesis: it is stored already, or a second save succeeds *)
Theorem C32_repeat_genesis : forall (C : Curve) m (U : obj C -> Prop) d g fl, universe m U -> reach m U d -> U (OGenesis g) ->
  genesis_retrieve d = Err ->
  let d' := fs_disk (snd (genesis_save g (Fs d fl))) in
  (exists g', genesis_retrieve d' = Ok g' /\ genesis_eq g' g) \/
  (@outcome C (OGenesis g) d' = Ok tt /\ exists g', genesis_retrieve (@saved C (OGenesis g) d') = Ok g' /\ genesis_eq g' g).
Proof. exact @crash_repeat_genesis. Qed.
Print Assumptions C32_repeat_genesis.
(** [ready] is needed: without a genesis in the store a block is written completely but not retrievable *)
Theorem C32_block_needs_genesis : forall (C : Curve) (U : obj C -> Prop) d (b : @block C), universe Low U -> reach Low U d -> U (OBlock b) ->
  proper (OBlock b) -> d KGenesis genesis_name = None -> block_retrieve (bk_hash b) d = Err ->
  outcome (OBlock b) d = Ok tt /\ block_retrieve (bk_hash b) (saved (OBlock b) d) = Err /\
  exists s, saved (OBlock b) d KBlock (hash_string (bk_hash b)) = Some s /\ ~ @unreadable C KBlock s.
Proof. intros C U d b HU R. apply (block_without_genesis U); [exact HU|]. apply reach_inv; assumption. Qed.
Print Assumptions C32_block_needs_genesis.
Example C32_case : exists l mb, plain_mlink = Ok l /\ plain_mblock = Ok mb /\ let U := fun o => In o (subobjects l mb) in
  universe All U /\ U (OMLink l) /\ U (OMBlock mb) /\ exists d, reach All U d /\ ready d (OMLink l) /\ ready d (OMBlock mb).
Proof.
  destruct plain_ok as (l & mb & E1 & E2). exists l, mb. split; [exact E1|]. split; [exact E2|]. exact (plain_case l mb E1 E2).
Qed.

(** ** C33 *)
Theorem C33_refuted : forall (C : Curve) h d (t : @transaction C), tx_address t <> None -> trx_retrieve h d <> Ok t.
Proof. exact @address_never_retrieved. Qed.
Print Assumptions C33_refuted.
(** what is retrieved instead has another hash, or there is an explicit coincidence *)
Theorem C33_refuted_hash : forall (C : Curve) h d (t t' : @transaction C), good_trx readable t -> tx_address t <> None ->
  trx_retrieve h d = Ok t' -> tx_bucket t' = tx_bucket t -> map ex_hash (tx_fees t') = map ex_hash (tx_fees t) ->
  tx_hash t' = tx_hash t -> hash_coincidence (transaction_text t') (transaction_text t).
Proof. exact @address_changes_hash. Qed.
Print Assumptions C33_refuted_hash.
(** a transaction with nothing but an address is not saved at all *)
Theorem C33_refuted_address_only : forall (C : Curve) (t : @transaction C) s, tx_bucket t = None -> tx_fees t = [] ->
  trx_retrieve (tx_hash t) (fs_disk s) = Err -> trx_save t s = (Err, s).
Proof. exact @address_only_unsaved. Qed.
Print Assumptions C33_refuted_address_only.
Theorem C33_without_address_partial : forall (C : Curve) (U : obj C -> Prop) d t fl, universe Low U -> reach Low U d -> U (OTrx t) ->
  fst (trx_save t (Fs d fl)) <> Panic /\ (fl = [] -> fst (trx_save t (Fs d fl)) = Ok tt) /\
  (fst (trx_save t (Fs d fl)) = Ok tt -> forall d', steps Low U (fs_disk (snd (trx_save t (Fs d fl)))) d' ->
   exists t', trx_retrieve (tx_hash t) d' = Ok t' /\ trx_eq t' t).
Proof. exact @trx_saved. Qed.
Print Assumptions C33_without_address_partial.
Example C33_case : rget toy_trx (fun t => Ok (match tx_address t with Some _ => true | None => false end)) = Ok true.
Proof. vm_compute. reflexivity. Qed.

(** ** C34 *)
Theorem C34_blocks : forall (C : Curve) (U : obj C -> Prop) d b fl, universe All U -> reach All U d -> U (OBlock b) -> ready d (OBlock b) ->
  fst (block_save b (Fs d fl)) <> Panic /\ (fl = [] -> fst (block_save b (Fs d fl)) = Ok tt) /\
  (fst (block_save b (Fs d fl)) = Ok tt -> forall d', steps All U (fs_disk (snd (block_save b (Fs d fl)))) d' ->
   exists b', block_retrieve (bk_hash b) d' = Ok b' /\ block_eq b' b).
Proof. exact @block_saved. Qed.
Print Assumptions C34_blocks.
Theorem C34_mined_blocks : forall (C : Curve) (U : obj C -> Prop) d b fl, universe All U -> reach All U d -> U (OMBlock b) -> ready d (OMBlock b) ->
  fst (mblock_save b (Fs d fl)) <> Panic /\ (fl = [] -> fst (mblock_save b (Fs d fl)) = Ok tt) /\
  (fst (mblock_save b (Fs d fl)) = Ok tt -> forall d', steps All U (fs_disk (snd (mblock_save b (Fs d fl)))) d' ->
   exists b', mblock_retrieve (mb_hash b) d' = Ok b' /\ mblock_eq b' b).
Proof. exact @mblock_saved. Qed.
Print Assumptions C34_mined_blocks.
Theorem C34_links : forall (C : Curve) (U : obj C -> Prop) d b fl, universe All U -> reach All U d -> U (OLink b) -> ready d (OLink b) ->
  fst (link_save b (Fs d fl)) <> Panic /\ (fl = [] -> fst (link_save b (Fs d fl)) = Ok tt) /\
  (fst (link_save b (Fs d fl)) = Ok tt -> forall d', steps All U (fs_disk (snd (link_save b (Fs d fl)))) d' ->
   exists b', link_retrieve (ln_hash b) d' = Ok b' /\ link_eq b' b).
Proof. exact @link_saved. Qed.
Print Assumptions C34_links.
Theorem C34_mined_links : forall (C : Curve) (U : obj C -> Prop) d b fl, universe All U -> reach All U d -> U (OMLink b) -> ready d (OMLink b) ->
  fst (mlink_save b (Fs d fl)) <> Panic /\ (fl = [] -> fst (mlink_save b (Fs d fl)) = Ok tt) /\
  (fst (mlink_save b (Fs d fl)) = Ok tt -> forall d', steps All U (fs_disk (snd (mlink_save b (Fs d fl)))) d' ->
   exists b', mlink_retrieve (ml_hash b) d' = Ok b' /\ mlink_eq b' b).
Proof. exact @mlink_saved. Qed.
Print Assumptions C34_mined_links.
(** whatever is stored: a retrieved block has the genesis of the store *)
Theorem C34_genesis_of_store : forall (C : Curve) h d (b : @block C), block_retrieve h d = Ok b -> genesis_retrieve d = Ok (bk_genesis b).
Proof. exact @block_retrieve_genesis. Qed.
Print Assumptions C34_genesis_of_store.
Example C34_case : exists l mb, plain_mlink = Ok l /\ plain_mblock = Ok mb /\ let U := fun o => In o (subobjects l mb) in
  universe All U /\ U (OMLink l) /\ U (OMBlock mb) /\ exists d, reach All U d /\ ready d (OMLink l) /\ ready d (OMBlock mb).
Proof. exact C32_case. Qed.

(** ** C35 *)
Theorem C35_saved : forall (C : Curve) (U : obj C -> Prop) d g, universe Base U -> runs U empty d -> U (OGenesis g) ->
  (genesis_retrieve d = Err /\ @outcome C (OGenesis g) d = Ok tt /\
     exists g', genesis_retrieve (@saved C (OGenesis g) d) = Ok g' /\ genesis_eq g' g) \/
  (exists g', genesis_retrieve d = Ok g').
Proof. exact @genesis_saved. Qed.
Print Assumptions C35_saved.
Theorem C35_never_changes : forall (C : Curve) (U : obj C -> Prop) d d' g, universe Base U -> runs U empty d -> genesis_retrieve d = Ok g ->
  runs U d d' -> genesis_retrieve d' = Ok g.
Proof. exact @genesis_stable. Qed.
Print Assumptions C35_never_changes.
Theorem C35_second_save : forall d g g' fl, genesis_retrieve d = Ok g -> genesis_save g' (Fs d fl) = (Err, Fs d fl).
Proof. exact genesis_second. Qed.
Print Assumptions C35_second_save.
Example C35_case : exists l mb (U : obj toy -> Prop), plain_mlink = Ok l /\ plain_mblock = Ok mb /\
  universe Base U /\ U (OGenesis (bk_genesis (ln_next (ml_link l)))).
Proof.
  destruct plain_ok as (l & mb & E1 & E2). exists l, mb, (fun o => In o (subobjects l mb)). split; [exact E1|]. split; [exact E2|].
  split; [apply (universe_base All); exact (plain_universe l mb E1 E2)|]. cbn. tauto.
Qed.

(** ** C36 *)
Theorem C36_refuted : forall (C : Curve) (U : obj C -> Prop) d (c : @chain C) fl s', universe Base U -> runs U empty d ->
  (forall o, In o (op_objs (OpInsert c)) -> U o) -> good_chain readable unicode c ->
  chain_retrieve d = Err -> chain_insert c (Fs d fl) = (Ok tt, s') -> chain_retrieve (fs_disk s') = Err.
Proof. exact @chain_insert_lost. Qed.
Print Assumptions C36_refuted.
(** and what is retrieved is never what the file names *)
Theorem C36_refuted_wrong_genesis : forall (C : Curve) d (c : @chain C), chain_retrieve d = Ok c ->
  exists t, tr_retrieve d_tchain KChain d chain_name = Ok t /\ tc_genesis t <> gn_hash (ch_genesis c).
Proof. exact @chain_retrieve_shape. Qed.
Print Assumptions C36_refuted_wrong_genesis.
(** The file itself is right: it has the hash, the time and the number of the chain and the hashes of its genesis, root and head. *)
Theorem C36_file_partial : forall (C : Curve) d (c : @chain C) fl s', good_chain readable unicode c -> chain_retrieve d = Err ->
  chain_insert c (Fs d fl) = (Ok tt, s') ->
  tr_retrieve d_tchain KChain (fs_disk s') chain_name =
  Ok (TChain (Immutable (ch_hash c) (im_created (ch_im c))) (gn_hash (ch_genesis c)) (mb_hash (ch_root c)) (ml_hash (ch_head c)) (ch_total c)).
Proof. exact @chain_insert_file. Qed.
Print Assumptions C36_file_partial.

Definition toy_chain (total : N) : res (@chain toy) :=
  rget toy_genesis (fun g => rget plain_mblock (fun r => rget plain_mlink (fun l =>
  chain_now 0 (Some g) (Some r) (Some l) total None))).
Definition chain_run : res (list bool) :=
  rget (toy_chain 5) (fun c =>
  let s := chain_insert c (Fs empty []) in
  Ok [is_ok (fst s); is_ok (@mlink_retrieve toy (ml_hash (ch_head c)) (fs_disk (snd s))); is_ok (@chain_retrieve toy (fs_disk (snd s)))]).
Example C36_case : chain_run = Ok [true; true; false].
Proof. vm_compute. reflexivity. Qed.

(** ** C37 *)
Theorem C37_refuted : forall (C : Curve) (a b : @chain C) s s', chain_update a b s = (Ok tt, s') ->
  gn_hash (ch_genesis a) <> gn_hash (ch_genesis b) /\ mb_hash (ch_root a) <> mb_hash (ch_root b).
Proof. exact @chain_update_accepts. Qed.
Print Assumptions C37_refuted.
Theorem C37_refuted_same : forall (C : Curve) (a b : @chain C) s,
  gn_hash (ch_genesis a) = gn_hash (ch_genesis b) \/ mb_hash (ch_root a) = mb_hash (ch_root b) -> chain_update a b s = (Err, s).
Proof. exact @chain_update_refuses. Qed.
Print Assumptions C37_refuted_same.
Theorem C37_refuted_foreign : forall (C : Curve) (a b : @chain C) s,
  gn_hash (ch_genesis a) <> gn_hash (ch_genesis b) -> mb_hash (ch_root a) <> mb_hash (ch_root b) -> chain_update a b s = chain_write b s.
Proof. exact @chain_update_foreign. Qed.
Print Assumptions C37_refuted_foreign.
(** An update that is accepted has written the file of the second chain. *)
Theorem C37_file_partial : forall (C : Curve) (a b : @chain C) s s', good_chain readable unicode b -> chain_update a b s = (Ok tt, s') ->
  tr_retrieve d_tchain KChain (fs_disk s') chain_name =
  Ok (TChain (Immutable (ch_hash b) (im_created (ch_im b))) (gn_hash (ch_genesis b)) (mb_hash (ch_root b)) (ml_hash (ch_head b)) (ch_total b)).
Proof. exact @chain_update_file. Qed.
Print Assumptions C37_file_partial.

(** the update a node would make: one more transaction known on the same chain *)
Example C37_case : rget (toy_chain 5) (fun a => rget (toy_chain 6) (fun b =>
  Ok (is_ok (fst (chain_update a b (Fs empty [])))))) = Ok false.
Proof. vm_compute. reflexivity. Qed.

(** ** C38 *)
Theorem C38_refuted : forall (C : Curve) (U : obj C -> Prop) d (st : @state C) fl, runs U empty d ->
  fst (state_save st (Fs d fl)) <> Ok tt /\ forall chain height, @state_retrieve C chain height d = Err.
Proof. exact @state_never_saved. Qed.
Print Assumptions C38_refuted.
(** an error and nothing else; without transactions, a crash *)
Theorem C38_refuted_error : forall (C : Curve) (U : obj C -> Prop) d (st : @state C) fl, runs U empty d ->
  state_save st (Fs d fl) = (match st_trx st with [] => Panic | _ => Err end, Fs d fl).
Proof. exact @state_save_error. Qed.
Print Assumptions C38_refuted_error.
Theorem C38_refuted_paths : forall chain n n',
  ((1114111 < n)%N \/ (55296 <= n <= 57343)%N) -> ((1114111 < n')%N \/ (55296 <= n' <= 57343)%N) ->
  state_file chain n = state_file chain n'.
Proof. exact state_paths_collide. Qed.
Print Assumptions C38_refuted_paths.
Theorem C38_refuted_dot_slash : forall chain, hash64 chain -> state_file chain 46 = state_file chain 47.
Proof. exact state_dot_slash. Qed.
Print Assumptions C38_refuted_dot_slash.
(** what holds: other heights have their own path *)
Theorem C38_paths_partial : forall c c' n n', hash64 c -> hash64 c' -> plain_height n -> plain_height n' ->
  state_file c n = state_file c' n' -> c = c' /\ n = n'.
Proof. exact state_file_inj. Qed.
Print Assumptions C38_paths_partial.
Example C38_case : plain_height 1 /\ plain_height 65533 /\ plain_height 1000000 /\ ~ plain_height 47 /\ ~ plain_height 56000.
Proof. unfold plain_height. repeat split; try discriminate; try (vm_compute; discriminate); intro H; decompose [and] H; vm_compute in *; tauto. Qed.

(** ** C57 *)
Theorem C57_stays : forall (C : Curve) m (U : obj C -> Prop) d d' k h o, universe m U -> reach m U d -> steps m U d d' -> covers m k ->
  retrieve_obj k h d = Ok o -> retrieve_obj k h d' = Ok o.
Proof. exact @steps_stable. Qed.
Print Assumptions C57_stays.
Example C57_case : exists l mb, plain_mlink = Ok l /\ plain_mblock = Ok mb /\ let U := fun o => In o (subobjects l mb) in
  universe All U /\ U (OMLink l) /\ U (OMBlock mb) /\ exists d, reach All U d /\ ready d (OMLink l) /\ ready d (OMBlock mb).
Proof. exact C32_case. Qed.
