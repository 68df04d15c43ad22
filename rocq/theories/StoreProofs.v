From Coq Require Import Lia ZifyBool ZifyNat ZifyN.
From Verif Require Import Base BaseFacts HashModel HashProofs HashSpec HashTreeModel HashTreeProofs SignModel EntitiesModel FloatModel
  PiastresModel PiastresSpec PiastresProofs JsonModel JsonProofs TimeModel TimeProofs FloatText MemJsonModel CodecProofs MemSpec
  MemJsonProofs TransferModel TransferProofs StoreModel StoreSpec.
From Verif Require FloatUnique.

(** ** Disks *)
Lemma kind_eqb_iff : forall a b, kind_eqb a b = true <-> a = b.
Proof. intros [] []; split; try discriminate; reflexivity. Qed.
Lemma upd_same : forall d k n c, upd d k n c k n = Some c.
Proof. intros. unfold upd. rewrite bseq_refl, (proj2 (kind_eqb_iff k k)) by reflexivity. reflexivity. Qed.
Lemma upd_other : forall d k n c k' n', (k', n') <> (k, n) -> upd d k n c k' n' = d k' n'.
Proof.
  intros d k n c k' n' H. unfold upd. destruct (kind_eqb k k') eqn:E1; [|reflexivity].
  destruct (bseq n n') eqn:E2; [|reflexivity]. apply kind_eqb_iff in E1. apply bseq_eq in E2. subst. congruence.
Qed.

(** ** Texts *)
(** a document that can be written and read back, and of which no proper prefix can be read *)
Definition documents {A} (e : A -> res json) (d : list json -> res A) (x : A) : Prop :=
  exists s, marshal e x = Ok s /\ unmarshal d s = Ok x /\ forall i, i < length s -> unmarshal d (firstn i s) = Err.
Lemma documents_codec : forall A P (e : A -> res json) d x, codec P e d ->
  (forall x j, e x = Ok j -> exists m, j = JObj m) -> P x -> yes (e x) -> documents e d x.
Proof.
  intros A P e d x K O Px [j E].
  destruct (marshal_yes _ e x) as [s M]; [exists j; exact E|]. exists s. split; [exact M|]. split.
  - eapply unmarshal_marshal; eassumption.
  - intros i Hi. exact (marshal_torn _ _ _ _ _ _ _ K O Px M Hi).
Qed.
Lemma jhash_yes : forall h, yes (jhash h). Proof. intro. apply jstr_yes. Qed.
Lemma johash_yes : forall h, yes (johash h). Proof. intro. apply jstr_yes. Qed.
Lemma jhashes_yes : forall l, yes (jlist jhash l). Proof. intro. apply jlist_yes. intros. apply jhash_yes. Qed.
Ltac tmembers :=
  apply jstruct_yes; repeat (constructor; [cbn [snd]|]); try apply Forall_nil;
  try first [apply jstr_yes | apply jhash_yes | apply johash_yes | apply jhashes_yes | apply juint_yes | (apply jtime_yes; assumption)].
Ltac documented K :=
  eapply documents_codec; [exact K|intros ? ?; apply jstruct_obj| |tmembers].

Lemma good_lock_hash : forall l, good_lock l -> hash64 (lk_hash l) /\ Forall hash64 (lk_keys l).
Proof.
  intros l G. split; [exact (lock_hash64 l G)|]. destruct G as (now & keys & created & K & E).
  apply lock_now_iff in E as (_ & _ & ->). exact K.
Qed.
Lemma good_bill_hash : forall b, good_bill b -> hash64 (bl_hash b).
Proof. intros b (now & l & a & cr & _ & _ & E). apply bill_now_iff in E as (l' & _ & _ & ->). apply from_bytes_length. Qed.
Lemma good_genesis_hash : forall g, good_genesis g -> hash64 (gn_hash g).
Proof.
  intros g (now & bs & inc & lnk & b & created & U1 & U2 & G & E). apply genesis_now_iff in E as (b' & _ & _ & _ & _ & ->).
  apply from_bytes_length.
Qed.
Lemma lock_documents : forall l, good_lock l -> dated_lock l ->
  documents e_tlock d_tlock (TLock (Immutable (lk_hash l) (im_created (lk_im l))) (lk_keys l)).
Proof. intros l G D. unfold dated_lock in D. apply good_lock_hash in G. documented tlock_codec. exact G. Qed.
Lemma bill_documents : forall b, good_bill b -> dated_bill b ->
  documents e_tbill d_tbill (TBill (Immutable (bl_hash b) (im_created (bl_im b))) (lk_hash (bl_lock b)) (bl_amount b)).
Proof.
  intros b G [_ D]. pose proof (good_bill_hash b G). pose proof (good_bill_amount b G) as [U L]. apply good_lock_hash in L as [L _].
  documented tbill_codec. repeat split; auto. cbn [tb_amount].
  destruct G as (now & l & a & cr & _ & _ & E). apply bill_now_iff in E as (l' & _ & P & ->). cbn. lia.
Qed.
Lemma genesis_documents : forall g, good_genesis g -> dated_genesis g ->
  documents e_tgenesis d_tgenesis (TGenesis (Immutable (gn_hash g) (im_created (gn_im g))) (bl_hash (gn_bill g))
    (gn_base g) (gn_increase g) (gn_link g)).
Proof.
  intros g G (_ & F & D). apply FloatUnique.float_text_ok in F as (s & Es). pose proof (good_genesis_hash g G).
  destruct G as (now & bs & inc & lnk & b & created & U1 & U2 & G & E). apply genesis_now_iff in E as (b' & Eb & P1 & P2 & P3 & ->).
  injection Eb as <-. apply good_bill_hash in G. cbn [gn_bill gn_base gn_increase gn_link] in *. documented tgenesis_codec.
  - repeat split; auto; cbn; lia.
  - unfold jfloat. cbn [tg_increase]. rewrite Es. eexists. reflexivity.
Qed.

Section WithCurve.
Context {C : Curve}.
Lemma good_expense_hash : forall e : expense, good_expense readable e -> hash64 (ex_hash e).
Proof. intros e (now & c & sigs & _ & _ & E). apply expense_now_iff in E as (c' & ss & _ & _ & _ & _ & ->). apply from_bytes_length. Qed.
Lemma good_trx_hash : forall t : transaction, good_trx readable t -> hash64 (tx_hash t).
Proof. intros e (now & a & b & f & cr & _ & _ & _ & E). apply transaction_now_iff in E as (_ & ->). apply from_bytes_length. Qed.
Lemma good_block_hash : forall b : block, good_block readable b -> hash64 (bk_hash b).
Proof. intros b (now & g & a & t & cr & _ & _ & _ & E). apply block_now_iff in E as (g' & _ & _ & ->). apply from_bytes_length. Qed.
Lemma good_mblock_hash : forall b : mined_block, good_mined_block readable unicode b -> hash64 (mb_hash b).
Proof. intros b (now & bk & m & cr & _ & _ & E). apply mined_block_now_iff in E as (g' & _ & ->). apply from_bytes_length. Qed.
Lemma good_link_hash : forall b : chain_link, good_link readable b -> hash64 (ln_hash b).
Proof. intros b (now & p & n & i & cr & _ & _ & _ & E). apply link_now_iff in E as (p' & n' & _ & _ & ->). apply from_bytes_length. Qed.
Lemma good_mlink_hash : forall b : mined_link, good_mined_link readable unicode b -> hash64 (ml_hash b).
Proof. intros b (now & bk & m & cr & _ & _ & E). apply mined_link_now_iff in E as (g' & _ & ->). apply from_bytes_length. Qed.

Lemma content_nonempty : forall now amount from lk rem created c, content_now now amount from lk rem created = Ok c -> from <> [].
Proof.
  intros now amount from lk rem created c E. apply content_now_iff in E as (l & _ & P & L & _). intros ->.
  change (total_u64 []) with 0%N in L. lia.
Qed.
Lemma expense_documents : forall e : expense, good_expense readable e -> dated_expense e ->
  documents e_texpense d_texpense (TExpense (Immutable (ex_hash e) (im_created (ct_im (ex_content e))))
    (map bl_hash (ct_from (ex_content e))) (bl_hash (ct_to (ex_content e))) (ex_sigs e)
    (option_map bl_hash (ct_remaining (ex_content e)))).
Proof.
  intros e G (_ & _ & _ & D). pose proof (good_expense_hash e G).
  destruct G as (now & c & sigs & G & S & E). apply expense_now_iff in E as (c' & ss & E1 & E2 & L & U & ->).
  injection E1 as <-. injection E2 as <-. cbn [ex_content ex_sigs] in *.
  pose proof (good_content_parts c G) as (F & T & R). documented (@texpense_codec C).
  - split; [assumption|]. split; [|split; [|split; [|split; [|split]]]]; cbn [te_from te_to te_sigs te_remaining].
    + apply Forall_map. eapply Forall_impl; [|exact F]. exact good_bill_hash.
    + apply good_bill_hash. exact T.
    + exact S.
    + intros h Eh. destruct (ct_remaining c) as [b|]; [|discriminate]. injection Eh as <-. apply good_bill_hash. auto.
    + destruct G as (now' & a & from & lk & rem & cr & _ & _ & _ & _ & E). pose proof (content_nonempty _ _ _ _ _ _ _ E) as N.
      apply content_from in E. rewrite E. destruct from; [congruence|discriminate].
    + destruct G as (now' & a & from & lk & rem & cr & _ & _ & _ & _ & E). pose proof (content_nonempty _ _ _ _ _ _ _ E) as N.
      apply content_from in E. rewrite E in L. destruct from, sigs; try congruence; discriminate.
  - apply jlist_yes. intros. apply jstr_yes.
Qed.
Lemma good_trx_parts : forall t : transaction, good_trx readable t ->
  ohash64 (tx_bucket t) /\ Forall (good_expense readable) (tx_fees t) /\
  (tx_address t <> None \/ tx_bucket t <> None \/ tx_fees t <> []).
Proof.
  intros t (now & a & b & f & cr & H1 & H2 & H3 & E). apply transaction_now_iff in E as (P & ->). auto.
Qed.
Lemma trx_documents : forall t : transaction, good_trx readable t -> dated_trx t -> tx_address t = None ->
  documents e_ttrx d_ttrx (TTrx (Immutable (tx_hash t) (im_created (tx_im t))) None (tx_bucket t) (map ex_hash (tx_fees t))).
Proof.
  intros t G (_ & _ & D) A. pose proof (good_trx_hash t G). pose proof (good_trx_parts t G) as (B & F & P). documented ttrx_codec.
  split; [assumption|]. cbn [tt_address tt_bucket tt_fees]. split; [intros h Eh; discriminate|]. split; [exact B|]. split.
  - apply Forall_map. eapply Forall_impl; [|exact F]. exact good_expense_hash.
  - destruct P as [P|[P|P]]; [congruence|auto|]. right. right. destruct (tx_fees t); [congruence|discriminate].
Qed.
Lemma good_block_parts : forall b : block, good_block readable b ->
  good_genesis (bk_genesis b) /\ is_u64 (bk_additional b) /\ Forall (good_trx readable) (bk_trx b) /\ bk_trx b <> [].
Proof.
  intros b (now & g & a & t & cr & H1 & H2 & H3 & E). apply block_now_iff in E as (g' & Eg & P & ->). injection Eg as <-. auto.
Qed.
(** the tree of a block and the hashes read from it *)
Lemma block_tree : forall hs : list hash, hs <> [] -> Forall hash64 hs -> (N.of_nat (length hs) < 2 ^ 63)%N ->
  exists ht, hashtree_of_blocks hs = Ok ht /\ tree_hashes (u64 (N.of_nat (length hs))) ht = Ok hs.
Proof.
  intros hs N F L. destruct (build_tree hs N) as (ht & k & E & P & _ & FL & LH & _). exists ht. split; [exact E|].
  assert (Q : u64 (N.of_nat (length hs)) = N.of_nat (length hs)).
  { unfold u64. apply N.mod_small. eapply N.lt_trans; [exact L|]. reflexivity. }
  rewrite Q. unfold tree_hashes, int_of_u64. destruct (N.ltb_spec (N.of_nat (length hs)) (2 ^ 63)) as [_|X]; [|lia].
  rewrite Z_nat_N || rewrite nat_N_Z. destruct (Z.leb_spec (Z.of_nat (length hs)) 0) as [X|_]; [destruct hs; [congruence|cbn [length] in X; lia]|].
  unfold leaf_hashes in LH. assert (M : map from_bytes hs = hs).
  { clear - F. induction F as [|h hs Hh F IH]; [reflexivity|]. cbn [map]. rewrite from_bytes_64, IH by exact Hh. reflexivity. }
  rewrite M in LH. clear - LH. match type of LH with _ = _ ++ ?r => revert LH; generalize r end.
  generalize (ht_block_leaves ht). intros ls rest LH.
  assert (X : length hs <= length ls). { rewrite <- (map_length leaf_head ls), LH, app_length. lia. }
  destruct (Z.ltb_spec (Z.of_nat (length ls)) (Z.of_nat (length hs))) as [Y|_]; [lia|]. rewrite Nat2Z.id. clear X.
  revert ls LH. induction hs as [|h hs IH]; intros ls LH; [reflexivity|].
  destruct ls as [|l ls]; [discriminate|]. injection LH as E1 E2. cbn [length first_heads]. rewrite IH by exact E2. cbn [rbind].
  rewrite E1. reflexivity.
Qed.
Lemma block_documents : forall b : block, good_block readable b -> dated_block b -> (N.of_nat (length (bk_trx b)) < 2 ^ 63)%N ->
  exists ht, hashtree_of_blocks (map tx_hash (bk_trx b)) = Ok ht /\
  tree_hashes (u64 (N.of_nat (length (bk_trx b)))) ht = Ok (map tx_hash (bk_trx b)) /\
  u64 (N.of_nat (length (bk_trx b))) <> 0%N /\
  documents e_tblock d_tblock (TBlock (Immutable (bk_hash b) (im_created (bk_im b))) ht
    (u64 (N.of_nat (length (bk_trx b)))) (bk_additional b)).
Proof.
  intros b G (_ & _ & D) L. pose proof (good_block_hash b G). pose proof (good_block_parts b G) as (_ & A & T & N).
  destruct (block_tree (map tx_hash (bk_trx b))) as (ht & E & R).
  - destruct (bk_trx b); [congruence|discriminate].
  - apply Forall_map. eapply Forall_impl; [|exact T]. exact good_trx_hash.
  - rewrite map_length. exact L.
  - rewrite map_length in R. exists ht. split; [exact E|]. split; [exact R|].
    assert (Z : u64 (N.of_nat (length (bk_trx b))) <> 0%N).
    { unfold u64. rewrite N.mod_small by (eapply N.lt_trans; [exact L|reflexivity]). destruct (bk_trx b); [congruence|]. cbn [length]. lia. }
    split; [exact Z|]. documented tblock_codec.
    + split; [assumption|]. split; [eexists; exact E|]. cbn [tk_amount tk_additional]. split; [|split]; auto.
      apply N.mod_lt. discriminate.
    + apply jstruct_yes. repeat (constructor; [cbn [snd]|]); [apply jstr_yes| |constructor]. apply jlist_yes.
      intros x Hx. unfold jcompact_of_tree, json_of_compact, ht_compact in Hx. cbn [c_leaves jc_leaves] in Hx.
      apply in_map_iff in Hx as (l & <- & Hl).
      destruct (build_tree (map tx_hash (bk_trx b))) as (t' & k & Ht' & _ & _ & F & _); [destruct (bk_trx b); [congruence|discriminate]|].
      assert (t' = ht) by congruence. subst t'. rewrite Forall_forall in F. destruct (F l Hl) as [h ->].
      cbn [json_of_leaf e_jleaf e_jnode]. apply jstruct_yes. repeat constructor; cbn [snd]; [apply jstr_yes|eexists; reflexivity].
Qed.
Lemma mblock_documents : forall b : mined_block, good_mined_block readable unicode b -> dated (im_created (mb_im b)) ->
  documents e_tmblock d_tmblock (TMBlock (Immutable (mb_hash b) (im_created (mb_im b))) (bk_hash (mb_block b)) (mb_mining b)).
Proof.
  intros b G D. pose proof (good_mblock_hash b G). destruct G as (now & bk & m & cr & Gb & M & E).
  apply mined_block_now_iff in E as (b' & Eb & ->). injection Eb as <-. apply good_block_hash in Gb.
  documented tmblock_codec. split; auto.
Qed.
Lemma link_documents : forall b : chain_link, good_link readable b -> dated (im_created (ln_im b)) ->
  documents e_tlink d_tlink (TLink (Immutable (ln_hash b) (im_created (ln_im b))) (ln_prev b) (bk_hash (ln_next b)) (ln_index b)).
Proof.
  intros b G D. pose proof (good_link_hash b G). destruct G as (now & p & n & i & cr & Hp & Gb & I & E).
  apply link_now_iff in E as (p' & n' & Ep & En & ->). injection Ep as <-. injection En as <-. apply good_block_hash in Gb.
  documented tlink_codec. repeat split; auto.
Qed.
Lemma mlink_documents : forall b : mined_link, good_mined_link readable unicode b -> dated (im_created (ml_im b)) ->
  documents e_tmlink d_tmlink (TMLink (Immutable (ml_hash b) (im_created (ml_im b))) (ln_hash (ml_link b)) (ml_mining b)).
Proof.
  intros b G D. pose proof (good_mlink_hash b G). destruct G as (now & bk & m & cr & Gb & M & E).
  apply mined_link_now_iff in E as (b' & Eb & ->). injection Eb as <-. apply good_link_hash in Gb.
  documented tmlink_codec. split; auto.
Qed.
End WithCurve.
