From Coq Require Import Lia ZifyBool ZifyNat ZifyN.
From Verif Require Import Base BaseFacts HashModel HashProofs HashSpec HashTreeModel HashTreeProofs SignModel EntitiesModel FloatModel
  PiastresModel PiastresSpec PiastresProofs JsonModel JsonProofs TimeModel TimeProofs FloatText MemJsonModel CodecProofs MemSpec
  MemJsonProofs TransferModel TransferProofs FileModel StoreModel StoreSpec StoreProofs StoreInvariant StoreHistory StoreTheorems StoreClear.

Ltac rb H := match type of H with rbind ?x _ = Ok _ => let E := fresh "E" in let t := fresh "t" in destruct x as [t| |] eqn:E; cbn [rbind] in H; try discriminate H end.

Section WithCurve.
Context {C : Curve}.

(** ** A lock of one key masks the lock with that hash *)
Lemma lock_masked : forall l, good_lock l -> dated_lock l -> 2 <= length (lk_keys l) ->
  exists l' d1 l'',
    lock_now 0 [lk_hash l] (Some (im_created (lk_im l))) = Ok l' /\
    lock_save l' (Fs empty []) = (Ok tt, Fs d1 []) /\ lock_save l (Fs d1 []) = (Ok tt, Fs d1 []) /\
    lock_retrieve (lk_hash l) d1 = Ok l'' /\ lk_keys l'' = [lk_hash l] /\ lk_keys l'' <> lk_keys l.
Proof.
  intros l G D L. destruct (lock_hash_ambiguous l G L 0%Z (Some (im_created (lk_im l)))) as (l' & E & Eh & _).
  set (U := fun o : obj C => o = OLock l').
  assert (HU : universe Base U).
  { split.
    - intros o p -> [].
    - intros o -> _. split.
      + exists 0%Z, [lk_hash l], (Some (im_created (lk_im l))). split; [|exact E]. constructor; [|constructor].
        apply good_lock_hash. exact G.
      + apply lock_now_iff in E as (_ & _ & ->). exact D.
    - intros o p -> -> _ _ _. cbn [same]. split; reflexivity. }
  pose proof (inv_empty Base U) as I0.
  destruct (save_works Base U HU empty (OLock l') I0 eq_refl Logic.I) as (O & o' & R & S); [discriminate|intros g Hg; discriminate|].
  unfold outcome, saved in *. cbn [save_obj kind_of hash_of retrieve_obj] in *.
  destruct (lock_save l' (Fs empty [])) as [x [d1 fl]] eqn:Es. cbn [fst snd fs_disk] in *. subst x.
  assert (Hf : fl = []).
  { destruct (sound_lock Base U HU l' eq_refl Logic.I (Fs empty []) I0 Logic.I) as (x & s' & E' & _ & _ & _ & _ & _ & F).
    rewrite E' in Es. injection Es as -> ->. destruct (F eq_refl) as [_ F']. exact F'. }
  subst fl. destruct (lock_retrieve (lk_hash l') d1) as [l''| |] eqn:Er; try discriminate. injection R as <-. destruct S as [_ S].
  exists l', d1, l''. split; [exact E|]. split; [exact Es|]. rewrite Eh in Er. split; [|split; [exact Er|]].
  - unfold lock_save, unless. cbn [fs_disk]. rewrite Er. reflexivity.
  - assert (K : lk_keys l' = [lk_hash l]) by (apply lock_now_iff in E as (_ & _ & ->); reflexivity). rewrite S, K. split; [reflexivity|].
    intro Q. rewrite <- Q in L. cbn in L. lia.
Qed.

(** ** Addresses are lost *)
Lemma trx_retrieve_shape : forall h d (t : transaction), trx_retrieve h d = Ok t ->
  tx_address t = None /\ tx_hash t = from_bytes (opt_bytes (tx_bucket t) ++ concat (map ex_hash (tx_fees t))).
Proof.
  intros h d t E. unfold trx_retrieve in E. rb E. rb E. apply transaction_now_iff in E as (_ & ->).
  split; [reflexivity|]. unfold tx_hash, from_multi. cbn [tx_im im_hash tx_bucket tx_fees opt_list app].
  change (map ad_hash []) with (@nil hash). cbn [app]. destruct (tt_bucket t0); reflexivity.
Qed.
Lemma address_never_retrieved : forall h d (t : transaction), tx_address t <> None -> trx_retrieve h d <> Ok t.
Proof. intros h d t A E. apply trx_retrieve_shape in E as [E _]. contradiction. Qed.
(** the hash changes too: the file named by the hash of such a transaction holds another one *)
Lemma address_changes_hash : forall h d (t t' : transaction), good_trx readable t -> tx_address t <> None ->
  trx_retrieve h d = Ok t' -> tx_bucket t' = tx_bucket t -> map ex_hash (tx_fees t') = map ex_hash (tx_fees t) ->
  tx_hash t' = tx_hash t -> hash_coincidence (transaction_text t') (transaction_text t).
Proof.
  intros h d t t' G A R Eb Ef Eh. destruct (trx_retrieve_shape h d t' R) as [A' Eh'].
  pose proof G as (now & ad & bk & fees & cr & Ga & Gb & Gf & E). apply transaction_now_iff in E as (_ & ->).
  unfold transaction_text. rewrite A'. rewrite Eh' in Eh. unfold tx_hash, from_multi in Eh. cbn [tx_im im_hash tx_address tx_bucket tx_fees] in *.
  destruct ad as [a|]; [|congruence]. cbn [opt_list map app concat] in *.
  assert (T : concat (opt_list bk ++ map ex_hash fees) = opt_bytes bk ++ concat (map ex_hash fees)) by (destruct bk; reflexivity).
  rewrite T in Eh. apply from_bytes_inj in Eh as [Eh|Eh]; [|exact Eh].
  exfalso. rewrite Eb, Ef in Eh. apply (f_equal (@length _)) in Eh. rewrite !app_length in Eh.
  assert (H : hash64 (ad_hash a)).
  { pose proof (Ga a eq_refl) as (n1 & s1 & r1 & u1 & c1 & _ & _ & _ & E1). apply address_now_iff in E1 as (_ & ->). apply from_bytes_length. }
  unfold hash64 in H. rewrite H in Eh. lia.
Qed.
Lemma address_only_unsaved : forall (t : transaction) s, tx_bucket t = None -> tx_fees t = [] ->
  trx_retrieve (tx_hash t) (fs_disk s) = Err -> trx_save t s = (Err, s).
Proof.
  intros t s B F R. unfold trx_save, unless. rewrite R, F. cbn [each]. unfold seq, done, lift, trx_to_transfer. rewrite B, F. reflexivity.
Qed.

(** ** Blocks of another genesis, or of none *)
Lemma block_retrieve_genesis : forall h d (b : block), block_retrieve h d = Ok b -> genesis_retrieve d = Ok (bk_genesis b).
Proof.
  intros h d b E. unfold block_retrieve in E. rb E. rb E. rb E. rb E. apply block_now_iff in E as (g & Eg & _ & ->).
  injection Eg as <-. reflexivity.
Qed.
Lemma block_without_genesis : forall (U : obj C -> Prop) d (b : block), universe Low U -> inv Low U d -> U (OBlock b) -> proper (OBlock b) ->
  d KGenesis genesis_name = None -> block_retrieve (bk_hash b) d = Err ->
  outcome (OBlock b) d = Ok tt /\ block_retrieve (bk_hash b) (saved (OBlock b) d) = Err /\
  exists s, saved (OBlock b) d KBlock (hash_string (bk_hash b)) = Some s /\ ~ @unreadable C KBlock s.
Proof.
  intros U d b HU I Ub P NG R. unfold outcome, saved. cbn [save_obj]. unfold block_save, unless. cbn [fs_disk]. rewrite R.
  assert (HT : sound Low U 4 always (each trx_save (bk_trx b)) (fun d => forall t, In t (bk_trx b) -> stored_obj U (OTrx t) d)).
  { apply (sound_each Low U 4 always _ trx_save (fun t => stored_obj U (OTrx t))).
    - apply always_grows.
    - intro x. apply (stored_grows Low U HU); exact Logic.I.
    - intros t Ht. apply (sound_trx Low U HU); [|exact Logic.I]. apply (u_parts Low U HU _ _ Ub). right. apply in_map. exact Ht. }
  destruct (HT (Fs d []) I Logic.I) as (x & [d1 fl] & E & I1 & X1 & F1 & _ & _ & Fi). destruct (Fi eq_refl) as [-> Ef].
  cbn [fs_faults fs_disk] in *. subst fl. unfold seq. rewrite E.
  destruct (text_facts (OBlock b) P) as (s & T & N & _).
  pose proof (put_is _ (block_to_transfer b) e_tblock (OBlock b) (Fs d1 []) eq_refl) as Q. cbn [kind_of hash_of file_name] in Q. rewrite Q.
  unfold put. rewrite T. cbn [lift]. unfold write. cbn [fs_disk fs_faults fst snd kind_of hash_of file_name]. split; [reflexivity|]. split.
  - assert (G : genesis_retrieve (upd d1 KBlock (hash_string (bk_hash b)) s) = Err).
    { unfold genesis_retrieve, tr_retrieve, read. rewrite upd_other by discriminate. rewrite F1 by (cbn; lia). rewrite NG. reflexivity. }
    unfold block_retrieve. destruct P as (Gb & D & L). destruct (block_documents b Gb D L) as (ht & EH & _ & NZ & DOC).
    destruct DOC as (s' & M & Un & _). unfold tr_retrieve, read. rewrite upd_same. cbn [rbind].
    assert (s' = s).
    { revert T. cbn [text_of]. unfold block_to_transfer, tblock_now. rewrite EH. cbn [rbind].
      destruct (N.eqb_spec (u64 (N.of_nat (length (bk_trx b)))) 0); [contradiction|]. cbn [rbind]. congruence. }
    subst s'. rewrite Un. cbn [rbind]. rewrite G. reflexivity.
  - exists s. split; [apply upd_same|exact N].
Qed.

(** ** Chains *)
Lemma chain_retrieve_shape : forall d (c : chain), chain_retrieve d = Ok c ->
  exists t, tr_retrieve d_tchain KChain d chain_name = Ok t /\ tc_genesis t <> gn_hash (ch_genesis c).
Proof.
  intros d c E. unfold chain_retrieve in E. rb E. exists t. split; [reflexivity|]. rb E.
  destruct (bseq (tc_genesis t) (gn_hash t0)) eqn:B; [discriminate|]. rb E. rb E.
  apply chain_now_iff in E as (g & r & h & Eg & _ & _ & _ & ->). injection Eg as <-. cbn [ch_genesis].
  intro Q. apply bseq_eq in Q. congruence.
Qed.
Definition whole_chain (c : chain) : Prop := good_chain readable unicode c.
(** the file of a chain that was written names its parts *)
Lemma chain_write_file : forall (c : chain) s s', whole_chain c -> chain_write c s = (Ok tt, s') ->
  tr_retrieve d_tchain KChain (fs_disk s') chain_name =
  Ok (TChain (Immutable (ch_hash c) (im_created (ch_im c))) (gn_hash (ch_genesis c)) (mb_hash (ch_root c)) (ml_hash (ch_head c)) (ch_total c)).
Proof.
  intros c s s' G W. unfold chain_write, seq in W. destruct (mlink_save (ch_head c) s) as [[[]| |] s1]; try discriminate.
  unfold lift, chain_to_transfer, tchain_now in W. destruct (N.eqb_spec (ch_total c) 0) as [|NZ]; [discriminate|].
  unfold tr_save, lift in W. match type of W with context [marshal ?e ?x] => destruct (marshal e x) as [txt| |] eqn:M end; try discriminate.
  assert (H : fs_disk s' KChain chain_name = Some txt).
  { unfold write in W. destruct (fs_faults s1) as [|[| |i] fl]; try discriminate W; inversion W; apply upd_same. }
  unfold tr_retrieve, read. rewrite H. cbn [rbind].
  refine (unmarshal_marshal _ _ _ _ _ _ tchain_codec _ M). clear - G NZ.
  destruct G as (now & g & r & h & t & cr & Gg & Gr & Gh & Ut & E). apply chain_now_iff in E as (g' & r' & h' & Eg & Er & Eh & _ & ->).
  injection Eg as <-. injection Er as <-. injection Eh as <-. cbn [ch_im ch_genesis ch_root ch_head ch_total im_created] in *.
  apply good_genesis_hash in Gg. apply good_mblock_hash in Gr. apply good_mlink_hash in Gh.
  repeat split; auto. apply from_bytes_length.
Qed.
Lemma chain_insert_file : forall d (c : chain) fl s', whole_chain c -> chain_retrieve d = Err -> chain_insert c (Fs d fl) = (Ok tt, s') ->
  tr_retrieve d_tchain KChain (fs_disk s') chain_name =
  Ok (TChain (Immutable (ch_hash c) (im_created (ch_im c))) (gn_hash (ch_genesis c)) (mb_hash (ch_root c)) (ml_hash (ch_head c)) (ch_total c)).
Proof.
  intros d c fl s' G E H. unfold chain_insert, unless in H. cbn [fs_disk] in H. rewrite E in H. unfold seq in H at 1.
  destruct (genesis_save (ch_genesis c) (Fs d fl)) as [[[]| |] s1]; try discriminate. unfold seq in H at 1.
  destruct (mblock_save (ch_root c) s1) as [[[]| |] s2]; try discriminate. exact (chain_write_file c s2 s' G H).
Qed.
Lemma chain_update_file : forall (a b : chain) s s', whole_chain b -> chain_update a b s = (Ok tt, s') ->
  tr_retrieve d_tchain KChain (fs_disk s') chain_name =
  Ok (TChain (Immutable (ch_hash b) (im_created (ch_im b))) (gn_hash (ch_genesis b)) (mb_hash (ch_root b)) (ml_hash (ch_head b)) (ch_total b)).
Proof.
  intros a b s s' G H. unfold chain_update in H. destruct (bseq _ _); [discriminate|]. destruct (bseq (mb_hash _) _); [discriminate|].
  exact (chain_write_file b s s' G H).
Qed.
(** whatever happened before: a chain that was written with the genesis of the store cannot be retrieved *)
Lemma chain_write_lost : forall (c : chain) s s', whole_chain c -> chain_write c s = (Ok tt, s') ->
  (forall g, genesis_retrieve (fs_disk s') = Ok g -> gn_hash g = gn_hash (ch_genesis c)) ->
  genesis_retrieve (fs_disk s') <> Panic -> chain_retrieve (fs_disk s') = Err.
Proof.
  intros c s s' G W HG NP. unfold chain_retrieve. rewrite (chain_write_file c s s' G W). cbn [rbind tc_genesis].
  destruct (genesis_retrieve (fs_disk s')) as [g| |]; [|reflexivity|congruence]. cbn [rbind]. rewrite (HG g eq_refl), bseq_refl. reflexivity.
Qed.
Lemma chain_insert_lost : forall (U : obj C -> Prop) d (c : chain) fl s', universe Base U -> runs U empty d ->
  (forall o, In o (op_objs (OpInsert c)) -> U o) -> whole_chain c ->
  chain_retrieve d = Err -> chain_insert c (Fs d fl) = (Ok tt, s') -> chain_retrieve (fs_disk s') = Err.
Proof.
  intros U d c fl s' HU R Uc G E H. cbn [op_objs] in Uc.
  destruct (runs_inv Base U HU empty d eq_refl (inv_empty Base U) R) as [I _].
  unfold chain_insert, unless in H. cbn [fs_disk] in H. rewrite E in H. unfold seq in H.
  assert (Ug : U (OGenesis (ch_genesis c))) by (apply Uc; left; reflexivity).
  destruct (genesis_save (ch_genesis c) (Fs d fl)) as [[[]| |] s1] eqn:E1; try discriminate.
  assert (S : stored_obj U (OGenesis (ch_genesis c)) (fs_disk s1) /\ inv Base U (fs_disk s1)).
  { destruct (retrieve_cases Base U d KGenesis (gn_hash (ch_genesis c)) I Logic.I) as [(h & _ & S & _)|[Fr _]].
    - destruct (stored_retrieved Base U HU _ _ _ S Logic.I) as (o & Ro & _). cbn [retrieve_obj] in Ro. unfold genesis_save in E1. cbn [fs_disk] in E1.
      destruct (genesis_retrieve d); discriminate.
    - destruct (sound_genesis Base U HU _ Ug Logic.I (Fs d fl) I Fr) as (x & s2 & E2 & I2 & _ & _ & _ & P & _).
      rewrite E2 in E1. injection E1 as -> ->. auto. }
  destruct S as [S I1].
  destruct (mblock_save (ch_root c) s1) as [[[]| |] s2] eqn:E2; try discriminate.
  destruct (keeps_mblock Base U HU (ch_root c) ltac:(discriminate) (Uc _ (or_intror (or_introl eq_refl))) s1 I1) as [I2 X2]. rewrite E2 in I2, X2. cbn [snd] in *.
  assert (W : keeps Base U (chain_write c)).
  { apply keeps_seq; [apply (keeps_mlink Base U HU); [discriminate|]; apply Uc; right; right; left; reflexivity|].
    apply keeps_lift. intros t _. apply (keeps_tr_save Base U HU). exact (fun x => x). }
  destruct (W s2 I2) as [I3 X3]. fold (chain_write c) in H. unfold seq in H. 
  assert (H' : chain_write c s2 = (Ok tt, s')) by exact H. rewrite H' in I3, X3. cbn [snd] in *.
  assert (S3 : stored U (fs_disk s') KGenesis (gn_hash (ch_genesis c))).
  { apply (stored_ext Base U HU (fs_disk s2)); [exact X3|exact Logic.I|]. apply (stored_ext Base U HU (fs_disk s1)); [exact X2|exact Logic.I|]. exact S. }
  destruct (stored_retrieved Base U HU _ _ _ S3 Logic.I) as (o & Ro & Ho). cbn [retrieve_obj] in Ro.
  apply (chain_write_lost c s2 s' G H'); destruct (genesis_retrieve (fs_disk s')) as [g| |]; try discriminate; auto.
  injection Ro as <-. intros g' Eg. injection Eg as <-. exact Ho.
Qed.
Lemma chain_update_accepts : forall (a b : chain) s s', chain_update a b s = (Ok tt, s') ->
  gn_hash (ch_genesis a) <> gn_hash (ch_genesis b) /\ mb_hash (ch_root a) <> mb_hash (ch_root b).
Proof.
  intros a b s s' H. unfold chain_update in H. destruct (bseq _ _) eqn:B1; [discriminate|]. destruct (bseq (mb_hash _) _) eqn:B2; [discriminate|].
  split; intro Q; apply bseq_eq in Q; congruence.
Qed.
Lemma chain_update_refuses : forall (a b : chain) s,
  gn_hash (ch_genesis a) = gn_hash (ch_genesis b) \/ mb_hash (ch_root a) = mb_hash (ch_root b) -> chain_update a b s = (Err, s).
Proof.
  intros a b s [H|H]; unfold chain_update; rewrite H, bseq_refl; [reflexivity|]. destruct (bseq _ _); reflexivity.
Qed.
Lemma chain_update_foreign : forall (a b : chain) s,
  gn_hash (ch_genesis a) <> gn_hash (ch_genesis b) -> mb_hash (ch_root a) <> mb_hash (ch_root b) -> chain_update a b s = chain_write b s.
Proof.
  intros a b s H1 H2. unfold chain_update. destruct (bseq _ _) eqn:B1; [apply bseq_eq in B1; contradiction|].
  destruct (bseq (mb_hash _) _) eqn:B2; [apply bseq_eq in B2; contradiction|]. reflexivity.
Qed.

(** ** States *)
Lemma state_to_transfer_fails : forall (st : state) t, state_to_transfer st <> Ok t.
Proof.
  intros st t E. unfold state_to_transfer in E. rb E. unfold tstate_now in E. destruct (_ =? 0)%N; discriminate.
Qed.
Lemma state_save_nothing : forall (st : state) s, snd (state_save st s) = s /\
  (fst (state_save st s) = Ok tt -> exists r, state_retrieve (st_chain st) (st_height st) (fs_disk s) = Ok r).
Proof.
  intros st s. unfold state_save, lift. pose proof (state_to_transfer_fails st) as H.
  destruct (state_retrieve _ _ _) as [r| |]; [destruct (_ <=? _)%nat; [split; [reflexivity|eauto]|]| |split; [reflexivity|discriminate]];
    destruct (state_to_transfer st) as [t| |]; try (destruct (H t); reflexivity); (split; [reflexivity|discriminate]).
Qed.
(** so no file of a state ever appears *)
Definition spares (a : act) : Prop := forall s n, fs_disk (snd (a s)) KState n = fs_disk s KState n.
Lemma spares_seq : forall a b, spares a -> spares b -> spares (a ;; b).
Proof.
  intros a b Ha Hb s n. unfold seq. specialize (Ha s n). destruct (a s) as [[[]| |] s1]; cbn [snd] in *; auto. rewrite Hb. exact Ha.
Qed.
Lemma spares_done : spares done.
Proof. intros s n. reflexivity. Qed.
Lemma spares_lift : forall A (x : res A) k, (forall y, spares (k y)) -> spares (lift x k).
Proof. intros A [y| |] k H s n; [apply H|reflexivity|reflexivity]. Qed.
Lemma spares_unless : forall A (r : disk -> res A) a, spares a -> spares (unless r a).
Proof. intros A r a H s n. unfold unless. destruct (r _); [reflexivity|apply H|reflexivity]. Qed.
Lemma spares_each : forall A (f : A -> act) l, (forall x, spares (f x)) -> spares (each f l).
Proof. intros A f l H. induction l; [apply spares_done|apply spares_seq; auto]. Qed.
Lemma spares_each_opt : forall A (f : A -> act) x, (forall y, spares (f y)) -> spares (each_opt f x).
Proof. intros A f [x|] H; [apply H|apply spares_done]. Qed.
Lemma spares_write : forall k n c, k <> KState -> spares (write k n c).
Proof.
  intros k n c H [d fl] n'. unfold write. cbn [fs_disk fs_faults]. destruct fl as [|[| |i] fl]; cbn [snd fs_disk]; try reflexivity;
    apply upd_other; congruence.
Qed.
Lemma spares_tr_save : forall T (e : T -> res json) k n t, k <> KState -> spares (tr_save e k n t).
Proof. intros. apply spares_lift. intro. apply spares_write. assumption. Qed.
Ltac sp := repeat first [apply spares_unless|apply spares_seq|apply spares_each; intro|apply spares_each_opt; intro|apply spares_lift; intro|
  apply spares_tr_save; discriminate|apply spares_write; discriminate].
Lemma spares_lock : forall l, spares (lock_save l). Proof. intro. unfold lock_save. sp. Qed.
Lemma spares_bill : forall l, spares (bill_save l). Proof. intro. unfold bill_save. sp; apply spares_lock. Qed.
Lemma spares_genesis : forall g, spares (genesis_save g).
Proof.
  intros g s n. unfold genesis_save. destruct (genesis_retrieve _); try reflexivity.
  assert (H : spares (bill_save (gn_bill g) ;; lift (genesis_to_transfer g) (tr_save e_tgenesis KGenesis genesis_name))) by (sp; apply spares_bill).
  apply H.
Qed.
Lemma spares_expense : forall e : expense, spares (expense_save e).
Proof. intro. unfold expense_save. sp; apply spares_bill. Qed.
Lemma spares_trx : forall t : transaction, spares (trx_save t). Proof. intro. unfold trx_save. sp; apply spares_expense. Qed.
Lemma spares_block : forall b : block, spares (block_save b). Proof. intro. unfold block_save. sp; apply spares_trx. Qed.
Lemma spares_mblock : forall b : mined_block, spares (mblock_save b). Proof. intro. unfold mblock_save. sp; apply spares_block. Qed.
Lemma spares_link : forall b : chain_link, spares (link_save b). Proof. intro. unfold link_save. sp; apply spares_block. Qed.
Lemma spares_mlink : forall b : mined_link, spares (mlink_save b). Proof. intro. unfold mlink_save. sp; apply spares_link. Qed.
Lemma spares_chain : forall c : chain, spares (chain_write c). Proof. intro. unfold chain_write. sp; apply spares_mlink. Qed.
Lemma no_state_files : forall (U : obj C -> Prop) d, runs U empty d -> forall n, d KState n = None.
Proof.
  intros U d R. induction R as [|d1 x fl R IH Ux]; intro n; [reflexivity|].
  assert (H : forall a, spares a -> fs_disk (snd (a (Fs d1 fl))) KState n = None) by (intros a Ha; rewrite Ha; apply IH).
  destruct x as [o|a|c|a b|st]; cbn [run_op].
  - apply H. destruct o; cbn [save_obj];
      auto using spares_lock, spares_bill, spares_genesis, spares_expense, spares_trx, spares_block, spares_mblock, spares_link, spares_mlink.
  - apply H. unfold address_save. sp.
  - apply H. unfold chain_insert. sp; auto using spares_genesis, spares_mblock, spares_chain.
  - unfold chain_update. destruct (bseq _ _); [apply IH|]. destruct (bseq _ _); [apply IH|]. apply H. apply spares_chain.
  - rewrite (proj1 (state_save_nothing st (Fs d1 fl))). apply IH.
Qed.
Lemma state_never_saved : forall (U : obj C -> Prop) d (st : state) fl, runs U empty d ->
  fst (state_save st (Fs d fl)) <> Ok tt /\ forall chain height, @state_retrieve C chain height d = Err.
Proof.
  intros U d st fl R. pose proof (no_state_files U d R) as N.
  assert (E : forall chain height, @state_retrieve C chain height d = Err).
  { intros chain height. unfold state_retrieve, tr_retrieve, read. rewrite N. reflexivity. }
  split; [|exact E]. intro O. destruct (state_save_nothing st (Fs d fl)) as [_ H]. destruct (H O) as [r Er]. cbn [fs_disk] in Er.
  rewrite E in Er. discriminate.
Qed.
Lemma state_save_error : forall (U : obj C -> Prop) d (st : state) fl, runs U empty d ->
  state_save st (Fs d fl) = (match st_trx st with [] => Panic | _ => Err end, Fs d fl).
Proof.
  intros U d st fl R. destruct (state_never_saved U d st fl R) as [_ N]. unfold state_save. cbn [fs_disk]. rewrite N. unfold lift, state_to_transfer.
  destruct (st_trx st) as [|x l] eqn:E.
  - cbn [map]. rewrite build_empty_panics. reflexivity.
  - destruct (build_spec (map tx_hash (x :: l))) as (t & k & -> & _); [discriminate|]. cbn [rbind]. unfold tstate_now. destruct (_ =? 0)%N; reflexivity.
Qed.
End WithCurve.

Lemma high_rune : forall n, (1114111 < n)%N -> rune_text n = utf8 65533.
Proof. intros n H. unfold rune_text. destruct (N.ltb_spec n 65536); [lia|]. destruct (N.leb_spec n 1114111); [lia|reflexivity]. Qed.
Lemma surrogate_rune : forall n, (55296 <= n <= 57343)%N -> rune_text n = utf8 65533.
Proof.
  intros n H. unfold rune_text. destruct (N.ltb_spec n 65536); [|lia]. unfold utf8.
  assert (E : ((0xD800 <=? n) && (n <=? 0xDFFF))%N = true) by lia. rewrite E. reflexivity.
Qed.
