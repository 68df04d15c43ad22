(** The store of addresses: what is retrieved is what was written last, or what was left of it. *)
From Coq Require Import Lia ZifyBool ZifyNat ZifyN.
From Verif Require Import Base BaseFacts HashModel HashProofs HashSpec SignModel EntitiesModel FloatModel PiastresModel PiastresSpec PiastresProofs
  JsonModel JsonProofs TimeModel TimeProofs FloatText MemJsonModel CodecProofs MemSpec MemJsonProofs TransferModel TransferProofs
  StoreModel StoreSpec StoreProofs StoreInvariant StoreHistory BucketMore.

(** ** Only saving an address writes addresses *)
Definition leaves (a : act) : Prop := forall s n, fs_disk (snd (a s)) KAddress n = fs_disk s KAddress n.
Lemma leaves_write : forall k n c, k <> KAddress -> leaves (write k n c).
Proof.
  intros k n c N s n'. unfold write. destruct (fs_faults s) as [|[| |i] fl]; cbn [snd fs_disk]; try reflexivity;
    apply upd_other; intro E; apply N; congruence.
Qed.
Lemma leaves_seq : forall a b, leaves a -> leaves b -> leaves (a ;; b).
Proof.
  intros a b A B s n. unfold seq. specialize (A s n). destruct (a s) as [[u| |] s']; cbn [snd] in *; [|exact A|exact A].
  rewrite B. exact A.
Qed.
Lemma leaves_lift : forall T (x : res T) k, (forall a, leaves (k a)) -> leaves (lift x k).
Proof. intros T [a| |] k H s n; [apply H|reflexivity|reflexivity]. Qed.
Lemma leaves_unless : forall T (r : disk -> res T) a, leaves a -> leaves (unless r a).
Proof. intros T r a H s n. unfold unless. destruct (r (fs_disk s)); [reflexivity|apply H|reflexivity]. Qed.
Lemma leaves_done : leaves done. Proof. intros s n. reflexivity. Qed.
Lemma leaves_each : forall T (f : T -> act) l, (forall x, leaves (f x)) -> leaves (each f l).
Proof. intros T f l H. induction l as [|x l IH]; [apply leaves_done|]. apply leaves_seq; [apply H|exact IH]. Qed.
Lemma leaves_opt : forall T (f : T -> act) o, (forall x, leaves (f x)) -> leaves (each_opt f o).
Proof. intros T f [x|] H; [apply H|apply leaves_done]. Qed.
Lemma leaves_tr : forall T (e : T -> res json) k n t, k <> KAddress -> leaves (tr_save e k n t).
Proof. intros. apply leaves_lift. intro. apply leaves_write. assumption. Qed.
Ltac leave := repeat first
  [ assumption | apply leaves_tr; discriminate | apply leaves_write; discriminate | apply leaves_unless | apply leaves_seq | apply leaves_each; intro | apply leaves_opt; intro
  | apply leaves_lift; intro ].

Section WithCurve.
Context {C : Curve}.
Lemma lock_leaves : forall l, leaves (lock_save l). Proof. intro l. unfold lock_save. leave. Qed.
Lemma bill_leaves : forall b, leaves (bill_save b). Proof. intro b. pose proof lock_leaves as H. unfold bill_save. leave; apply H. Qed.
Lemma genesis_leaves : forall g, leaves (genesis_save g).
Proof.
  intros g s n. unfold genesis_save. destruct (genesis_retrieve (fs_disk s)); [reflexivity| |reflexivity].
  pose proof bill_leaves as H. apply (leaves_seq _ _ (H _)). leave.
Qed.
Lemma expense_leaves : forall e : @expense C, leaves (expense_save e).
Proof. intro e. pose proof bill_leaves as H. unfold expense_save. leave; apply H. Qed.
Lemma trx_leaves : forall t : @transaction C, leaves (trx_save t).
Proof. intro t. pose proof expense_leaves as H. unfold trx_save. leave; apply H. Qed.
Lemma block_leaves : forall b : @block C, leaves (block_save b).
Proof. intro b. pose proof trx_leaves as H. unfold block_save. leave; apply H. Qed.
Lemma mblock_leaves : forall b : @mined_block C, leaves (mblock_save b).
Proof. intro b. pose proof block_leaves as H. unfold mblock_save. leave; apply H. Qed.
Lemma link_leaves : forall l : @chain_link C, leaves (link_save l).
Proof. intro l. pose proof block_leaves as H. unfold link_save. leave; apply H. Qed.
Lemma mlink_leaves : forall l : @mined_link C, leaves (mlink_save l).
Proof. intro l. pose proof link_leaves as H. unfold mlink_save. leave; apply H. Qed.
Lemma chain_write_leaves : forall c : @chain C, leaves (chain_write c).
Proof. intro c. pose proof mlink_leaves as H. unfold chain_write. leave; apply H. Qed.
Lemma op_leaves : forall x : op C, (forall a, x <> OpAddress a) -> leaves (run_op x).
Proof.
  intros [o|a|c|a b|st] N; cbn [run_op].
  - destruct o; cbn [save_obj]; [apply lock_leaves|apply bill_leaves|apply expense_leaves|apply trx_leaves|apply genesis_leaves|apply block_leaves|apply mblock_leaves|apply link_leaves|apply mlink_leaves].
  - exfalso. apply (N a). reflexivity.
  - unfold chain_insert. apply leaves_unless, leaves_seq; [apply genesis_leaves|]. apply leaves_seq; [apply mblock_leaves|apply chain_write_leaves].
  - intros s n. unfold chain_update. destruct (bseq (gn_hash _) _); [reflexivity|]. destruct (bseq (mb_hash _) _); [reflexivity|]. apply chain_write_leaves.
  - intros s n. unfold state_save. assert (L : leaves (lift (state_to_transfer st) (fun t => tr_save e_tstate KState (state_file (ts_chain t) (ts_height t)) t))) by leave.
    destruct (state_retrieve (st_chain st) (st_height st) (fs_disk s)) as [r| |]; [destruct (_ <=? _)%nat; [reflexivity|apply L]|apply L|reflexivity].
Qed.

(** ** Histories *)
Lemma address_documents : forall a, good_address a -> dated_address a ->
  exists s, address_to_text a = Ok s /\ address_of_text s = Ok a /\ forall i, i < length s -> address_of_text (firstn i s) = Err.
Proof.
  intros a G D. destruct (marshal_yes _ _ _ (e_address_yes a D)) as [s M]. exists s. split; [exact M|]. split; [exact (address_text_back a s G M)|].
  intros i Hi. unfold address_of_text.
  rewrite (marshal_torn _ _ _ _ _ _ _ address_codec (fun x j => jstruct_obj _ j) (js_address_raw a) M Hi). reflexivity.
Qed.
Lemma address_step : forall (x : op C) fl d h, (forall a, x = OpAddress a -> good_address a /\ dated_address a) ->
  address_retrieve h (fs_disk (snd (run_op x (Fs d fl)))) = address_after h (address_retrieve h d) (x, fl).
Proof.
  intros x fl d h G. destruct x as [o|a|c|a b|st]; try (unfold address_retrieve, read, address_after; rewrite op_leaves by discriminate; reflexivity).
  destruct (G a eq_refl) as [Ga Da]. destruct (address_documents a Ga Da) as (s & M & R & T).
  cbn [run_op address_after]. unfold address_save. rewrite M. cbn [lift]. unfold write. cbn [fs_faults fs_disk].
  assert (Same : ad_hash a = h -> forall c, address_retrieve h (upd d KAddress (hash_string (ad_hash a)) c) = address_of_text c).
  { intros <- c. unfold address_retrieve, read. rewrite upd_same. reflexivity. }
  assert (Other : ad_hash a <> h -> forall c, address_retrieve h (upd d KAddress (hash_string (ad_hash a)) c) = address_retrieve h d).
  { intros N c. unfold address_retrieve, read. rewrite upd_other; [reflexivity|]. intro Q. apply N, hash_string_inj. congruence. }
  destruct (bseq (ad_hash a) h) eqn:E.
  - apply bseq_eq in E. specialize (Same E). destruct fl as [|[| |i] fl]; cbn [snd fs_disk].
    + rewrite Same. exact R.
    + rewrite Same. exact R.
    + reflexivity.
    + rewrite Same. destruct (Nat.ltb_spec i (length s)) as [L|L]; [apply T, L|]. rewrite firstn_all2 by lia. exact R.
  - assert (N : ad_hash a <> h) by (intros <-; rewrite bseq_refl in E; discriminate). specialize (Other N).
    destruct fl as [|[| |i] fl]; cbn [snd fs_disk]; try apply Other. reflexivity.
Qed.
Lemma address_history : forall (xs : list (op C * list fault)) d h,
  (forall a fl, In (OpAddress a, fl) xs -> good_address a /\ dated_address a) ->
  address_retrieve h (after_ops xs d) = fold_left (address_after h) xs (address_retrieve h d).
Proof.
  induction xs as [|[x fl] xs IH]; intros d h G; [reflexivity|]. cbn [after_ops fold_left].
  rewrite IH by (intros a fl' Hi; apply (G a fl'); right; exact Hi).
  rewrite address_step; [reflexivity|]. intros a ->. apply (G a fl). left. reflexivity.
Qed.
Lemma address_found : forall h (d : disk) a, address_retrieve h d = Ok a -> good_address a.
Proof. intros h d a H. unfold address_retrieve in H. apply rbind_Ok in H as (c & _ & H). exact (address_of_text_good c a H). Qed.
Lemma address_retrieve_no_panic : forall h d, address_retrieve h d <> Panic.
Proof. intros h d. unfold address_retrieve, read. destruct (d KAddress (hash_string h)); [apply flat_no_panic|discriminate]. Qed.
End WithCurve.

Lemma address_stays : forall (C : Curve) (xs : list (op C * list fault)) a d, good_address a -> dated_address a ->
  (forall b fl, In (OpAddress b, fl) xs -> good_address b /\ dated_address b /\ ad_hash b <> ad_hash a) ->
  address_retrieve (ad_hash a) (after_ops ((OpAddress a, []) :: xs) d) = Ok a.
Proof.
  intros C xs a d G D H. rewrite address_history.
  - cbn [fold_left address_after]. rewrite bseq_refl.
    assert (F : forall ys, (forall b fl, In (OpAddress b, fl) ys -> ad_hash b <> ad_hash a) -> fold_left (address_after (C := C) (ad_hash a)) ys (Ok a) = Ok a).
    { induction ys as [|[x fl] ys IH]; intro N; [reflexivity|]. cbn [fold_left].
      assert (E : address_after (C := C) (ad_hash a) (Ok a) (x, fl) = Ok a).
      { destruct x as [o|b|c|b c|st]; try reflexivity. cbn [address_after]. destruct (bseq (ad_hash b) (ad_hash a)) eqn:E; [|reflexivity].
        apply bseq_eq in E. exfalso. apply (N b fl); [left; reflexivity|exact E]. }
      rewrite E. apply IH. intros b fl' Hi. apply (N b fl'). right. exact Hi. }
    apply F. intros b fl Hi. apply (H b fl Hi).
  - intros b fl [E|Hi]; [|destruct (H b fl Hi); tauto]. assert (a = b) by congruence. subst b. auto.
Qed.

Lemma address_again_loses : forall (C : Curve) a d s i, good_address a -> dated_address a -> address_to_text a = Ok s -> i < length s ->
  address_retrieve (ad_hash a) (after_ops (C := C) [(OpAddress a, [])] d) = Ok a /\
  address_retrieve (ad_hash a) (after_ops (C := C) [(OpAddress a, []); (OpAddress a, [Torn i])] d) = Err.
Proof.
  intros C a d s i G D M L. split; (rewrite address_history; [|intros b fl Hi; cbn [In] in Hi; assert (a = b) by (destruct Hi as [E|[E|[]]] || destruct Hi as [E|[]]; congruence); subst b; auto]);
    cbn [fold_left address_after]; rewrite bseq_refl; [reflexivity|]. rewrite M. destruct (Nat.ltb_spec i (length s)); [reflexivity|lia].
Qed.

Lemma address_was_saved : forall (C : Curve) (xs : list (op C * list fault)) h a,
  (forall b fl, In (OpAddress b, fl) xs -> good_address b /\ dated_address b) ->
  address_retrieve h (after_ops xs empty) = Ok a -> ad_hash a = h /\ exists fl, In (OpAddress a, fl) xs.
Proof.
  intros C xs h a G E. rewrite address_history in E by exact G. change (address_retrieve h empty) with (@Err address) in E. clear G.
  assert (F : forall ys o, fold_left (address_after (C := C) h) ys o = Ok a -> o = Ok a \/ (ad_hash a = h /\ exists fl, In (OpAddress a, fl) ys)).
  { induction ys as [|[x fl] ys IH]; intros o H; [left; exact H|]. cbn [fold_left] in H.
    destruct (IH _ H) as [K|(K & fl' & L)]; [|right; split; [exact K|]; exists fl'; right; exact L].
    destruct x as [o'|b|c|b c|st]; try (left; exact K). cbn [address_after] in K.
    destruct (bseq (ad_hash b) h) eqn:Eb; [|left; exact K]. apply bseq_eq in Eb.
    assert (S : o = Ok a \/ a = b).
    { repeat (match type of K with context [match ?x with _ => _ end] => destruct x end); try (left; exact K); try discriminate K; right; congruence. }
    destruct S as [S|S]; [left; exact S|right]. subst b. split; [exact Eb|]. exists fl. left. reflexivity. }
  destruct (F xs Err E) as [K|K]; [discriminate K|exact K].
Qed.
