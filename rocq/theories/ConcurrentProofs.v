From Coq Require Import Lia ZifyBool ZifyNat ZifyN.
From Verif Require Import Base BaseFacts HashModel HashProofs HashSpec HashTreeModel HashTreeProofs SignModel EntitiesModel FloatModel
  PiastresModel PiastresSpec PiastresProofs JsonModel JsonProofs TimeModel TimeProofs FloatText MemJsonModel CodecProofs MemSpec
  MemJsonProofs TransferModel TransferProofs StoreModel StoreSpec StoreProofs StoreInvariant StoreHistory ConcurrentModel ConcurrentSpec.

(** ** Alone, a call does what StoreModel says *)
Lemma rp_run_rb : forall A B (g : rprog A) (f : A -> rprog B) d, rp_run (rb g f) d = let! a := rp_run g d in rp_run (f a) d.
Proof.
  intros A B g f d. induction g as [[a| |]|k n c IH]; cbn [rb rp_run]; try reflexivity.
  destruct (d k n); [apply IH|reflexivity].
Qed.
Lemma rp_run_each : forall A B (f : A -> rprog B) (g : A -> res B) d l, (forall x, rp_run (f x) d = g x) ->
  rp_run (rb_each f l) d = rmapM g l.
Proof.
  intros A B f g d l H. induction l as [|x l IH]; [reflexivity|]. cbn [rb_each rmapM]. rewrite rp_run_rb, H.
  destruct (g x); cbn [rbind]; try reflexivity. rewrite rp_run_rb, IH. destruct (rmapM g l); reflexivity.
Qed.
Lemma rp_run_tr : forall T (dec : list json -> res T) k n d, rp_run (tr_get dec k n) d = tr_retrieve dec k d n.
Proof. intros. unfold tr_get, tr_retrieve, read. cbn [rp_run]. destruct (d k n); reflexivity. Qed.
Ltac runs := repeat (rewrite ?rp_run_rb, ?rp_run_tr; match goal with |- (let! a := ?x in _) = (let! b := ?x in _) => destruct x; cbn [rbind]; try reflexivity end).
Lemma rp_lock : forall h d, rp_run (lock_get h) d = lock_retrieve h d.
Proof. intros. unfold lock_get, lock_retrieve. runs. Qed.
Lemma rp_bill : forall h d, rp_run (bill_get h) d = bill_retrieve h d.
Proof. intros. unfold bill_get, bill_retrieve. runs. rewrite rp_run_rb, rp_lock. reflexivity. Qed.
Lemma rp_genesis : forall d, rp_run genesis_get d = genesis_retrieve d.
Proof. intros. unfold genesis_get, genesis_retrieve. runs. rewrite rp_run_rb, rp_bill. reflexivity. Qed.

Lemma alone_of_get : forall A B (g : rprog A) (f : res A -> prog B) s, alone (of_get g f) s = alone (f (rp_run g (fs_disk s))) s.
Proof.
  intros A B g f s. induction g as [r|k n c IH]; cbn [of_get alone rp_run]; [reflexivity|].
  destruct (fs_disk s k n); [apply IH|reflexivity].
Qed.
Lemma alone_pseq : forall A (a : prog unit) (b : prog A) s, alone (pseq a b) s =
  match alone a s with (Ok _, s) => alone b s | (Err, s) => (Err, s) | (Panic, s) => (Panic, s) end.
Proof.
  intros A a b. induction a as [[x| |]|k n f IH|k n c f IH|k n c f IH]; intro s; cbn [pseq alone]; try reflexivity.
  - apply IH.
  - destruct (write k n c s) as [r s']. apply IH.
  - destruct (fs_faults s) as [|[| |i] fl]; apply IH.
Qed.
Definition acts (p : prog unit) (a : act) : Prop := forall s, alone p s = a s.
Lemma acts_seq : forall p q a b, acts p a -> acts q b -> acts (pseq p q) (a ;; b).
Proof. intros p q a b H1 H2 s. rewrite alone_pseq, H1. unfold seq. destruct (a s) as [[[]| |] s']; auto. Qed.
Lemma acts_unless : forall A (g : rprog A) (r : disk -> res A) p a, (forall d, rp_run g d = r d) -> acts p a -> acts (punless g p) (unless r a).
Proof. intros A g r p a Hg Ha s. unfold punless, unless. rewrite alone_of_get, Hg. destruct (r (fs_disk s)); cbn [alone]; auto. Qed.
Lemma acts_put : forall T (x : res T) (enc : T -> res json) k n, acts (plift x (tr_put enc k n)) (lift x (tr_save enc k n)).
Proof.
  intros T x enc k n s. destruct x as [t| |]; cbn [plift lift alone]; try reflexivity. unfold tr_put, tr_save.
  destruct (marshal enc t); cbn [plift lift alone]; try reflexivity. destruct (write k n a s). reflexivity.
Qed.
Lemma acts_each : forall A (f : A -> prog unit) (g : A -> act) l, (forall x, acts (f x) (g x)) -> acts (peach f l) (each g l).
Proof. intros A f g l H. induction l as [|x l IH]; [intro; reflexivity|]. cbn [peach each]. apply acts_seq; auto. Qed.
Lemma acts_each_opt : forall A (f : A -> prog unit) (g : A -> act) o, (forall x, acts (f x) (g x)) -> acts (peach_opt f o) (each_opt g o).
Proof. intros A f g [x|] H; [apply H|intro; reflexivity]. Qed.
Lemma acts_lock : forall l, acts (lock_put l) (lock_save l).
Proof. intro l. apply acts_unless; [apply rp_lock|apply acts_put]. Qed.
Lemma acts_bill : forall b, acts (bill_put b) (bill_save b).
Proof. intro b. apply acts_unless; [apply rp_bill|]. apply acts_seq; [apply acts_lock|apply acts_put]. Qed.
Lemma acts_genesis : forall g, acts (genesis_put g) (genesis_save g).
Proof.
  intros g s. unfold genesis_put, genesis_save. rewrite alone_of_get, rp_genesis. destruct (genesis_retrieve (fs_disk s)); cbn [alone]; try reflexivity.
  revert s. apply acts_seq; [apply acts_bill|apply acts_put].
Qed.

(** disks with the same files *)
Definition agree (d d' : disk) : Prop := forall k n, d k n = d' k n.
Lemma agree_refl : forall d, agree d d.
Proof. unfold agree. auto. Qed.
Lemma agree_sym : forall a b, agree a b -> agree b a.
Proof. unfold agree. auto. Qed.
Lemma agree_trans : forall a b c, agree a b -> agree b c -> agree a c.
Proof. unfold agree. intros a b c H K k n. rewrite H. apply K. Qed.
Lemma agree_upd : forall d d' k n c, agree d d' -> agree (upd d k n c) (upd d' k n c).
Proof. unfold agree, upd. intros d d' k n c H k' n'. destruct (_ && _); auto. Qed.
Lemma agree_upd2 : forall d k n c c', agree (upd (upd d k n c) k n c') (upd d k n c').
Proof. unfold agree, upd. intros d k n c c' k' n'. destruct (_ && _); auto. Qed.
Lemma rp_run_agree : forall A (g : rprog A) d d', agree d d' -> rp_run g d = rp_run g d'.
Proof. intros A g d d' H. induction g as [r|k n c IH]; cbn [rp_run]; [reflexivity|]. rewrite H. destruct (d' k n); auto. Qed.
Lemma alone_agree : forall A (p : prog A) d d' fl, agree d d' ->
  let (x, s) := alone p (Fs d fl) in let (x', s') := alone p (Fs d' fl) in
  x = x' /\ fs_faults s = fs_faults s' /\ agree (fs_disk s) (fs_disk s').
Proof.
  induction p as [y|k n f IH|k n c f IH|k n c f IH]; intros d d' fl H; cbn [alone fs_disk fs_faults].
  - auto.
  - rewrite H. apply IH. exact H.
  - unfold write. cbn [fs_disk fs_faults]. destruct fl as [|[| |i] fl]; apply IH; auto using agree_upd.
  - assert (Q : content_at d k n = content_at d' k n) by (unfold content_at; rewrite H; reflexivity). rewrite Q.
    destruct fl as [|[| |i] fl]; apply IH; auto using agree_upd.
Qed.

Section WithCurve.
Context {C : Curve}.
Implicit Types o p : obj C.
Lemma rp_expense : forall h d, rp_run (expense_get (C := C) h) d = expense_retrieve h d.
Proof.
  intros. unfold expense_get, expense_retrieve. runs. rewrite rp_run_rb. unfold bills_retrieve.
  rewrite (rp_run_each _ _ bill_get (fun h => bill_retrieve h d)) by (intro; apply rp_bill).
  destruct (rmapM _ _); cbn [rbind]; try reflexivity. rewrite rp_run_rb, rp_bill. destruct (bill_retrieve _ _); cbn [rbind]; try reflexivity.
  rewrite rp_run_rb. destruct (te_remaining a) as [r|]; [|reflexivity]. rewrite rp_run_rb, rp_bill. destruct (bill_retrieve r d); reflexivity.
Qed.
Lemma rp_trx : forall h d, rp_run (trx_get (C := C) h) d = trx_retrieve h d.
Proof.
  intros. unfold trx_get, trx_retrieve. runs. rewrite rp_run_rb. unfold expenses_retrieve.
  rewrite (rp_run_each _ _ expense_get (fun h => expense_retrieve h d)) by (intro; apply rp_expense). reflexivity.
Qed.
Lemma rp_block : forall h d, rp_run (block_get (C := C) h) d = block_retrieve h d.
Proof.
  intros. unfold block_get, block_retrieve. runs. rewrite rp_run_rb, rp_genesis. destruct (genesis_retrieve d); cbn [rbind]; try reflexivity.
  rewrite rp_run_rb. cbn [rp_run]. destruct (tree_hashes _ _); cbn [rbind]; try reflexivity. rewrite rp_run_rb. unfold trxs_retrieve.
  rewrite (rp_run_each _ _ trx_get (fun h => trx_retrieve h d)) by (intro; apply rp_trx). reflexivity.
Qed.
Lemma rp_mblock : forall h d, rp_run (mblock_get (C := C) h) d = mblock_retrieve h d.
Proof. intros. unfold mblock_get, mblock_retrieve. runs. rewrite rp_run_rb, rp_block. reflexivity. Qed.
Lemma rp_link : forall h d, rp_run (link_get (C := C) h) d = link_retrieve h d.
Proof. intros. unfold link_get, link_retrieve. runs. rewrite rp_run_rb, rp_block. reflexivity. Qed.
Lemma rp_mlink : forall h d, rp_run (mlink_get (C := C) h) d = mlink_retrieve h d.
Proof. intros. unfold mlink_get, mlink_retrieve. runs. rewrite rp_run_rb, rp_link. reflexivity. Qed.
Lemma rp_obj : forall k h d, rp_run (@get_obj C k h) d = retrieve_obj k h d.
Proof.
  intros [] h d; cbn [get_obj retrieve_obj]; try reflexivity; unfold rmapP; rewrite rp_run_rb;
    rewrite ?rp_lock, ?rp_bill, ?rp_expense, ?rp_trx, ?rp_genesis, ?rp_block, ?rp_mblock, ?rp_link, ?rp_mlink; reflexivity.
Qed.
Lemma acts_expense : forall e : expense, acts (expense_put e) (expense_save e).
Proof.
  intro e. apply acts_unless; [apply rp_expense|]. repeat apply acts_seq; [apply acts_each, acts_bill|apply acts_bill| |apply acts_put].
  apply acts_each_opt, acts_bill.
Qed.
Lemma acts_trx : forall t : transaction, acts (trx_put t) (trx_save t).
Proof. intro t. apply acts_unless; [apply rp_trx|]. apply acts_seq; [apply acts_each, acts_expense|apply acts_put]. Qed.
Lemma acts_block : forall b : block, acts (block_put b) (block_save b).
Proof. intro t. apply acts_unless; [apply rp_block|]. apply acts_seq; [apply acts_each, acts_trx|apply acts_put]. Qed.
Lemma acts_mblock : forall b : mined_block, acts (mblock_put b) (mblock_save b).
Proof. intro t. apply acts_unless; [apply rp_mblock|]. apply acts_seq; [apply acts_block|apply acts_put]. Qed.
Lemma acts_link : forall b : chain_link, acts (link_put b) (link_save b).
Proof. intro t. apply acts_unless; [apply rp_link|]. apply acts_seq; [apply acts_block|apply acts_put]. Qed.
Lemma acts_mlink : forall b : mined_link, acts (mlink_put b) (mlink_save b).
Proof. intro t. apply acts_unless; [apply rp_mlink|]. apply acts_seq; [apply acts_link|apply acts_put]. Qed.
Lemma acts_obj : forall o, acts (save_prog o) (save_obj o).
Proof.
  intros []; [apply acts_lock|apply acts_bill|apply acts_expense|apply acts_trx|apply acts_genesis|apply acts_block|apply acts_mblock|
    apply acts_link|apply acts_mlink].
Qed.
Lemma start_save : forall o s, alone (start (Saves o)) s = let (r, s') := save_obj o s in (rmap (fun _ => None) r, s').
Proof.
  intros o s. cbn [start]. rewrite alone_pseq, acts_obj. destruct (save_obj o s) as [[[]| |] s']; reflexivity.
Qed.
Lemma start_retrieve : forall k h s, alone (@start C (Retrieves k h)) s = (rmap Some (retrieve_obj k h (fs_disk s)), s).
Proof. intros k h s. cbn [start]. rewrite alone_of_get, rp_obj. reflexivity. Qed.

(** ** Running a call alone among others *)
Lemma csteps_trans : forall b (x y z : disk * list (thread C)), csteps b x y -> csteps b y z -> csteps b x z.
Proof. intros b x y z H K. induction K; [exact H|]. eapply csteps_one; eauto. Qed.
Lemma csteps_head : forall b (x y z : disk * list (thread C)), cstep b x y -> csteps b y z -> csteps b x z.
Proof. intros b x y z H K. eapply csteps_trans; [|exact K]. eapply csteps_one; [apply csteps_none|exact H]. Qed.
Lemma overlay_nil : forall c, overlay c [] = c.
Proof. intro c. unfold overlay. rewrite skipn_nil, app_nil_r. reflexivity. Qed.
Lemma overlay_same : forall d k n c, overlay c (content_at (upd d k n []) k n) = c.
Proof. intros. unfold content_at. rewrite upd_same. apply overlay_nil. Qed.
Lemma alone_steps : forall (p : thread C) d fl b l r x s', alone p (Fs d fl) = (x, s') -> (b = false -> fl = []) ->
  exists d', csteps b (d, l ++ p :: r) (d', l ++ PRet x :: r) /\ agree d' (fs_disk s').
Proof.
  induction p as [y|k n f IH|k n c f IH|k n c f IH]; intros d fl b l r x s' E Hb; cbn [alone fs_disk fs_faults] in E.
  - injection E as <- <-. exists d. split; [apply csteps_none|apply agree_refl].
  - destruct (IH _ _ _ b l r _ _ E Hb) as (d' & S & A). exists d'. split; [|exact A].
    eapply csteps_head; [|exact S]. apply (cstep_intro b d l _ r Fine); [auto|reflexivity].
  - assert (W : forall e fl' y, (b = false -> e = Fine) -> (b = false -> fl' = []) -> e <> Denied ->
      forall c', pstep e (PFill k n c f) (upd d k n []) = Some (f y, upd (upd d k n []) k n c') ->
      alone (f y) (Fs (upd d k n c') fl') = (x, s') ->
      exists d', csteps b (d, l ++ PPut k n c f :: r) (d', l ++ PRet x :: r) /\ agree d' (fs_disk s')).
    { intros e fl' y He Hf ND c' P E'.
      pose proof (alone_agree _ (f y) (upd (upd d k n []) k n c') (upd d k n c') fl' (agree_upd2 d k n [] c')) as Q.
      rewrite E' in Q. destruct (alone (f y) (Fs (upd (upd d k n []) k n c') fl')) as [x2 s2] eqn:E2. destruct Q as (-> & _ & A).
      destruct (IH _ _ _ b l r _ _ E2 Hf) as (d' & S & A'). exists d'. split; [|eapply agree_trans; eassumption].
      eapply csteps_head; [apply (cstep_intro b d l _ r e (PFill k n c f) (upd d k n [])); [exact He|destruct e; [reflexivity|congruence|reflexivity]]|].
      eapply csteps_head; [|exact S]. apply (cstep_intro b _ l _ r e); [exact He|exact P]. }
    unfold write in E. cbn [fs_disk fs_faults] in E. destruct fl as [|[| |i] fl].
    + apply (W Fine [] (Ok tt)) with (c' := c); auto; [discriminate|]. cbn [pstep]. rewrite overlay_same. reflexivity.
    + apply (W Fine fl (Ok tt)) with (c' := c); auto; [intro Q; apply Hb in Q; discriminate|discriminate|]. cbn [pstep]. rewrite overlay_same. reflexivity.
    + destruct (IH _ _ _ b l r _ _ E) as (d' & S & A); [intro Q; apply Hb in Q; discriminate|]. exists d'. split; [|exact A].
      eapply csteps_head; [|exact S]. apply (cstep_intro b d l _ r Denied); [intro Q; apply Hb in Q; discriminate|reflexivity].
    + apply (W (Torn i) fl Err) with (c' := firstn i c); auto; try (intro Q; apply Hb in Q; discriminate); [discriminate|].
      cbn [pstep]. rewrite overlay_same. reflexivity.
  - assert (W : forall e fl' y d1, (b = false -> e = Fine) -> (b = false -> fl' = []) -> pstep e (PFill k n c f) d = Some (f y, d1) ->
      alone (f y) (Fs d1 fl') = (x, s') ->
      exists d', csteps b (d, l ++ PFill k n c f :: r) (d', l ++ PRet x :: r) /\ agree d' (fs_disk s')).
    { intros e fl' y d1 He Hf P E'. destruct (IH _ _ _ b l r _ _ E' Hf) as (d' & S & A). exists d'. split; [|exact A].
      eapply csteps_head; [|exact S]. apply (cstep_intro b _ l _ r e); [exact He|exact P]. }
    destruct fl as [|[| |i] fl].
    + eapply (W Fine); [| |reflexivity|exact E]; auto.
    + eapply (W Fine); [| |reflexivity|exact E]; auto; intro Q; apply Hb in Q; discriminate.
    + eapply (W Denied); [| |reflexivity|exact E]; intro Q; apply Hb in Q; discriminate.
    + eapply (W (Torn i)); [| |reflexivity|exact E]; intro Q; apply Hb in Q; discriminate.
Qed.
End WithCurve.
