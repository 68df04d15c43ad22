From Coq Require Import Lia ZifyBool ZifyNat ZifyN.
From Verif Require Import Base BaseFacts HashModel HashProofs HashSpec HashTreeModel HashTreeProofs SignModel EntitiesModel FloatModel
  PiastresModel PiastresSpec PiastresProofs JsonModel JsonProofs TimeModel TimeProofs FloatText MemJsonModel CodecProofs MemSpec
  MemJsonProofs TransferModel TransferProofs StoreModel StoreSpec StoreProofs StoreInvariant StoreHistory.

Section WithCurve.
Context {C : Curve}.
Implicit Types o p : obj C.
Section Universe.
Variable m : mode.
Variable U : obj C -> Prop.
Hypothesis HU : universe m U.
Notation covered := (covers m).
Notation inv := (inv m U).
Notation ext := (@ext C m).
Notation stored := (stored U).

Lemma always_covered : covered KLock /\ covered KBill /\ covered KGenesis.
Proof. destruct m; repeat split. Qed.
Lemma covered_dec : forall k, covered k \/ ~ covered k.
Proof. intro k. destruct m, k; cbn; tauto. Qed.
Lemma covered_all : m = All -> forall k, covered k.
Proof. intros -> []; exact I. Qed.

(** ** Actions that keep the invariant *)
Definition keeps (a : act) : Prop := forall s, inv (fs_disk s) ->
  inv (fs_disk (snd (a s))) /\ ext (fs_disk s) (fs_disk (snd (a s))).
Lemma keeps_same : forall (s : fs), inv (fs_disk s) -> inv (fs_disk s) /\ ext (fs_disk s) (fs_disk s).
Proof. intros s I. split; [exact I|apply ext_refl]. Qed.
Lemma keeps_sound : forall r pre a q, sound m U r pre a q -> (forall d, pre d) -> keeps a.
Proof. intros r pre a q H P s I. destruct (H s I (P _)) as (x & s' & -> & I' & X & _). split; assumption. Qed.
Lemma keeps_seq : forall a b, keeps a -> keeps b -> keeps (a ;; b).
Proof.
  intros a b Ha Hb s I. unfold seq. destruct (Ha s I) as [I1 X1]. destruct (a s) as [[[]| |] s1]; cbn [snd] in *; try (split; assumption).
  destruct (Hb s1 I1) as [I2 X2]. split; [exact I2|]. eapply ext_trans; eauto.
Qed.
Lemma keeps_done : keeps done.
Proof. intros s I. apply keeps_same. exact I. Qed.
Lemma keeps_lift : forall A (x : res A) k, (forall y, x = Ok y -> keeps (k y)) -> keeps (lift x k).
Proof. intros A [y| |] k H; [apply H; reflexivity|..]; intros s I; apply keeps_same; exact I. Qed.
Lemma keeps_unless : forall A (r : disk -> res A) a, keeps a -> keeps (unless r a).
Proof. intros A r a H s I. unfold unless. destruct (r (fs_disk s)); [apply keeps_same|apply H|apply keeps_same]; exact I. Qed.
Lemma keeps_each : forall A (f : A -> act) l, (forall x, In x l -> keeps (f x)) -> keeps (each f l).
Proof.
  intros A f l. induction l as [|x l IH]; intro H; [apply keeps_done|]. apply keeps_seq; [apply H; left; reflexivity|].
  apply IH. intros y Hy. apply H. right. exact Hy.
Qed.
Lemma keeps_each_opt : forall A (f : A -> act) x, (forall y, x = Some y -> keeps (f y)) -> keeps (each_opt f x).
Proof. intros A f [x|] H; [apply H; reflexivity|apply keeps_done]. Qed.
Lemma upd_uncovered : forall d k n c, ~ covered k -> inv d -> inv (upd d k n c) /\ ext d (upd d k n c).
Proof.
  intros d k n c N I.
  assert (O : forall k' n', covered k' -> upd d k n c k' n' = d k' n').
  { intros k' n' Ck. apply upd_other. intro E. injection E as -> _. contradiction. }
  assert (X : ext d (upd d k n c)) by (intros k' n' s Ck E _; rewrite O; assumption).
  split; [|exact X]. intros k' n' s Ck E. rewrite O in E by exact Ck. destruct (I k' n' s Ck E) as [T|(h & En & S)]; [left; exact T|right].
  exists h. split; [exact En|]. exact (stored_ext m U HU d _ k' h X Ck S).
Qed.
Lemma keeps_write : forall k n c, ~ covered k -> keeps (write k n c).
Proof.
  intros k n c N [d fl] I. cbn [fs_disk] in I. unfold write. cbn [fs_disk fs_faults].
  destruct fl as [|[| |i] fl]; cbn [snd fs_disk].
  - apply upd_uncovered; assumption.
  - apply upd_uncovered; assumption.
  - exact (keeps_same (Fs d []) I).
  - apply upd_uncovered; assumption.
Qed.
Lemma keeps_tr_save : forall T (e : T -> res json) k n t, ~ covered k -> keeps (tr_save e k n t).
Proof. intros T e k n t N. apply keeps_lift. intros s _. apply keeps_write. exact N. Qed.

Lemma keeps_bill : forall b, U (OBill b) -> keeps (bill_save b).
Proof. intros b Ub. eapply keeps_sound; [apply sound_bill; [exact HU|exact Ub|apply always_covered]|intro; exact Logic.I]. Qed.
Lemma keeps_lock : forall l, U (OLock l) -> keeps (lock_save l).
Proof. intros b Ub. eapply keeps_sound; [apply sound_lock; [exact HU|exact Ub|apply always_covered]|intro; exact Logic.I]. Qed.
Lemma keeps_genesis : forall g, U (OGenesis g) -> keeps (genesis_save g).
Proof.
  intros g Ug s I.
  destruct (retrieve_cases m U (fs_disk s) KGenesis (gn_hash g) I (proj2 (proj2 always_covered))) as [(h & _ & S & _)|[Fr R]].
  - destruct (stored_retrieved m U HU _ _ _ S (proj2 (proj2 always_covered))) as (o & R & _). cbn [retrieve_obj] in R. unfold genesis_save.
    destruct (genesis_retrieve (fs_disk s)); try discriminate. apply keeps_same. exact I.
  - destruct (sound_genesis m U HU g Ug (proj2 (proj2 always_covered)) s I Fr) as (x & s' & -> & I' & X & _). split; assumption.
Qed.
Lemma keeps_expense : forall e, U (OExpense e) -> keeps (expense_save e).
Proof.
  intros e Ue. destruct (covered_dec KExpense) as [K|K].
  - eapply keeps_sound; [apply sound_expense; [exact HU|exact Ue|exact K]|intro; exact Logic.I].
  - assert (B : forall b, In (OBill b) (parts (OExpense e)) -> keeps (bill_save b)) by (intros b Hb; apply keeps_bill; exact (u_parts m U HU _ _ Ue Hb)).
    cbn [parts] in B. apply keeps_unless. apply keeps_seq; [|apply keeps_seq; [|apply keeps_seq]].
    + apply keeps_each. intros b Hb. apply B. rewrite !in_app_iff. left. apply in_map. exact Hb.
    + apply B. rewrite !in_app_iff. right. left. left. reflexivity.
    + apply keeps_each_opt. intros b Hb. apply B. rewrite !in_app_iff, Hb. right. right. left. reflexivity.
    + apply keeps_lift. intros t _. apply keeps_tr_save. exact K.
Qed.
Lemma keeps_trx : forall t, U (OTrx t) -> keeps (trx_save t).
Proof.
  intros t Ut. destruct (covered_dec KTrx) as [K|K].
  - eapply keeps_sound; [apply sound_trx; [exact HU|exact Ut|exact K]|intro; exact Logic.I].
  - apply keeps_unless. apply keeps_seq.
    + apply keeps_each. intros e He. apply keeps_expense. apply (u_parts m U HU _ _ Ut). apply in_map. exact He.
    + apply keeps_lift. intros t' _. apply keeps_tr_save. exact K.
Qed.
Lemma not_all : m <> All -> ~ covered KBlock /\ ~ covered KMBlock /\ ~ covered KLink /\ ~ covered KMLink.
Proof. destruct m; cbn; tauto. Qed.
Lemma keeps_block : forall b, m <> All -> U (OBlock b) -> keeps (block_save b).
Proof.
  intros b N Ub. apply keeps_unless. apply keeps_seq.
  - apply keeps_each. intros t Ht. apply keeps_trx. apply (u_parts m U HU _ _ Ub). right. apply in_map. exact Ht.
  - apply keeps_lift. intros t' _. apply keeps_tr_save. apply not_all. exact N.
Qed.
Lemma keeps_mblock : forall b, m <> All -> U (OMBlock b) -> keeps (mblock_save b).
Proof.
  intros b N Ub. apply keeps_unless. apply keeps_seq.
  - apply keeps_block; [exact N|]. apply (u_parts m U HU _ _ Ub). left. reflexivity.
  - apply keeps_lift. intros t' _. apply keeps_tr_save. apply not_all. exact N.
Qed.
Lemma keeps_link : forall b, m <> All -> U (OLink b) -> keeps (link_save b).
Proof.
  intros b N Ub. apply keeps_unless. apply keeps_seq.
  - apply keeps_block; [exact N|]. apply (u_parts m U HU _ _ Ub). left. reflexivity.
  - apply keeps_lift. intros t' _. apply keeps_tr_save. apply not_all. exact N.
Qed.
Lemma keeps_mlink : forall b, m <> All -> U (OMLink b) -> keeps (mlink_save b).
Proof.
  intros b N Ub. apply keeps_unless. apply keeps_seq.
  - apply keeps_link; [exact N|]. apply (u_parts m U HU _ _ Ub). left. reflexivity.
  - apply keeps_lift. intros t' _. apply keeps_tr_save. apply not_all. exact N.
Qed.
Lemma keeps_save : forall o, m <> All -> U o -> keeps (save_obj o).
Proof.
  intros o N Uo. destruct o; cbn [save_obj];
    auto using keeps_lock, keeps_bill, keeps_expense, keeps_trx, keeps_genesis, keeps_block, keeps_mblock, keeps_link, keeps_mlink.
Qed.
Lemma keeps_op : forall x : op C, m = Base -> (forall o, In o (op_objs x) -> U o) -> keeps (run_op x).
Proof.
  intros x N H. assert (NA : m <> All) by congruence. destruct x as [o|a|c|c0 c|st]; cbn [run_op op_objs] in *.
  - apply keeps_save; [exact NA|]. apply H. left. reflexivity.
  - apply keeps_lift. intros s _. apply keeps_write. rewrite N. exact (fun x => x).
  - assert (W : keeps (chain_write c)).
    { apply keeps_seq; [apply keeps_mlink; [exact NA|]; apply H; right; right; left; reflexivity|].
      apply keeps_lift. intros t _. apply keeps_tr_save. rewrite N. exact (fun x => x). }
    apply keeps_unless. apply keeps_seq; [apply keeps_genesis; apply H; left; reflexivity|]. apply keeps_seq; [|exact W].
    apply keeps_mblock; [exact NA|]. apply H. right. left. reflexivity.
  - assert (W : keeps (chain_write c)).
    { apply keeps_seq; [apply keeps_mlink; [exact NA|]; apply H; right; right; left; reflexivity|].
      apply keeps_lift. intros t _. apply keeps_tr_save. rewrite N. exact (fun x => x). }
    intros s I. unfold chain_update. destruct (bseq _ _); [apply keeps_same; exact I|]. destruct (bseq _ _); [apply keeps_same; exact I|].
    apply W. exact I.
  - assert (W : keeps (lift (state_to_transfer st) (fun t => tr_save e_tstate KState (state_file (ts_chain t) (ts_height t)) t))).
    { apply keeps_lift. intros t _. apply keeps_tr_save. rewrite N. exact (fun x => x). }
    intros s I. unfold state_save. destruct (state_retrieve _ _ _); [|apply W; exact I|apply keeps_same; exact I].
    destruct (_ <=? _)%nat; [apply keeps_same|apply W]; exact I.
Qed.

(** ** Saving on a reached disk *)
Lemma ready_stored : forall d o g, inv d -> ready d o -> genesis_of o = Some g -> has_genesis U g d.
Proof.
  intros d o g I R G. destruct (R g G) as (g' & Rg & Eh).
  destruct (retrieve_cases m U d KGenesis (gn_hash g) I (proj2 (proj2 always_covered))) as [(h & _ & S & _)|[_ F]].
  - destruct (stored_retrieved m U HU _ _ _ S (proj2 (proj2 always_covered))) as (o' & R' & Ho). cbn [retrieve_obj] in R'. rewrite Rg in R'. injection R' as <-.
    cbn [hash_of] in Ho. unfold has_genesis, stored_obj. cbn [kind_of hash_of]. rewrite <- Eh, Ho. exact S.
  - cbn [retrieve_obj] in F. rewrite Rg in F. discriminate.
Qed.
Definition able o d : Prop := match o with OGenesis g => free o d | _ => forall g, genesis_of o = Some g -> has_genesis U g d end.
Lemma sound_save : forall o, U o -> covered (kind_of o) -> sound m U 9 (able o) (save_obj o) (stored_obj U o).
Proof.
  assert (A : covered KBlock \/ covered KMBlock \/ covered KLink \/ covered KMLink -> m = All) by (destruct m; cbn; tauto).
  intros o Uo K. destruct o; cbn [save_obj kind_of] in *; (eapply sound_weaken;
    [first [apply sound_lock|apply sound_bill|apply sound_expense|apply sound_trx|apply sound_genesis|apply sound_block|apply sound_mblock
           |apply sound_link|apply sound_mlink]|lia| |intros d H; exact H]); auto 6; try (intros d _; exact Logic.I);
    intros d H; cbn [able genesis_of] in H; auto.
Qed.
Lemma save_kept : forall o s, U o -> inv (fs_disk s) -> (m = All -> ready (fs_disk s) o) ->
  inv (fs_disk (snd (save_obj o s))) /\ ext (fs_disk s) (fs_disk (snd (save_obj o s))).
Proof.
  intros o s Uo I R. assert (D : m = All \/ m <> All) by (destruct m; auto; right; discriminate).
  destruct D as [D|D]; [|apply keeps_save; assumption].
  assert (G : (exists g, o = OGenesis g) \/ forall g, o <> OGenesis g) by (destruct o; eauto; right; discriminate).
  destruct G as [[g ->]|G]; [apply keeps_genesis; assumption|].
  assert (Ab : able o (fs_disk s)).
  { assert (H : forall g, genesis_of o = Some g -> has_genesis U g (fs_disk s)) by (intros g E; exact (ready_stored _ o g I (R D) E)).
    destruct o; try exact H. destruct (G g). reflexivity. }
  destruct (sound_save o Uo (covered_all D _) s I Ab) as (x & s' & -> & I' & X & _). split; assumption.
Qed.
Lemma inv_empty : inv empty.
Proof. intros k n s _ E. discriminate. Qed.
Lemma steps_inv : forall d d', inv d -> steps m U d d' -> inv d' /\ ext d d'.
Proof.
  intros d d' I S. induction S as [|d1 o fl S [I1 X1] Uo R]; [split; [exact I|apply ext_refl]|].
  destruct (save_kept o (Fs d1 fl) Uo I1 R) as [I2 X2]. split; [exact I2|]. eapply ext_trans; eauto.
Qed.
Lemma reach_inv : forall d, reach m U d -> inv d.
Proof. intros d R. apply (steps_inv empty); [apply inv_empty|exact R]. Qed.
Lemma runs_inv : forall d d', m = Base -> inv d -> runs U d d' -> inv d' /\ ext d d'.
Proof.
  intros d d' B I S. induction S as [|d1 x fl S [I1 X1] Ux]; [split; [exact I|apply ext_refl]|].
  destruct (keeps_op x B Ux (Fs d1 fl) I1) as [I2 X2]. split; [exact I2|]. eapply ext_trans; eauto.
Qed.

(** the main theorem *)
Lemma save_works : forall d o, inv d -> U o -> covered (kind_of o) -> kind_of o <> KGenesis -> ready d o ->
  outcome o d = Ok tt /\ exists o', retrieve_obj (kind_of o) (hash_of o) (saved o d) = Ok o' /\ same o' o.
Proof.
  intros d o I Uo K NG R.
  assert (Ab : able o d).
  { assert (H : forall g, genesis_of o = Some g -> has_genesis U g d) by (intros g E; exact (ready_stored _ o g I R E)).
    destruct o; try exact H. destruct NG. reflexivity. }
  destruct (sound_save o Uo K (Fs d []) I Ab) as (x & s' & E & I' & _ & _ & _ & P & F). destruct (F eq_refl) as [-> _].
  unfold outcome, saved. rewrite E. cbn [fst snd]. split; [reflexivity|].
  apply (stored_retrieve m U HU _ _ _ (P eq_refl) K o Uo); reflexivity.
Qed.
Lemma save_ok : forall d o fl, inv d -> U o -> covered (kind_of o) -> kind_of o <> KGenesis -> ready d o ->
  fst (save_obj o (Fs d fl)) <> Panic /\
  (fst (save_obj o (Fs d fl)) = Ok tt ->
   exists o', retrieve_obj (kind_of o) (hash_of o) (fs_disk (snd (save_obj o (Fs d fl)))) = Ok o' /\ same o' o) /\
  (fl = [] -> fst (save_obj o (Fs d fl)) = Ok tt).
Proof.
  intros d o fl I Uo K NG R.
  assert (Ab : able o d).
  { assert (H : forall g, genesis_of o = Some g -> has_genesis U g d) by (intros g E; exact (ready_stored _ o g I R E)).
    destruct o; try exact H. destruct NG. reflexivity. }
  destruct (sound_save o Uo K (Fs d fl) I Ab) as (x & s' & E & I' & _ & _ & NP & P & F). rewrite E. cbn [fst snd].
  split; [exact NP|]. split.
  - intros ->. apply (stored_retrieve m U HU _ _ _ (P eq_refl) K o Uo); reflexivity.
  - intros ->. apply F. reflexivity.
Qed.
Lemma genesis_save_works : forall d g, inv d -> U (OGenesis g) ->
  (genesis_retrieve d = Err /\ outcome (OGenesis g) d = Ok tt /\
     exists g', genesis_retrieve (saved (OGenesis g) d) = Ok g' /\ genesis_eq g' g) \/
  (exists g', genesis_retrieve d = Ok g').
Proof.
  intros d g I Ug. pose proof (proj2 (proj2 always_covered)) as K.
  destruct (retrieve_cases m U d KGenesis (gn_hash g) I K) as [(h & _ & S & _)|[Fr R]].
  - right. destruct (stored_retrieved m U HU _ _ _ S K) as (o & R & _). cbn [retrieve_obj] in R.
    destruct (genesis_retrieve d) as [g'| |]; try discriminate. exists g'. reflexivity.
  - left. cbn [retrieve_obj] in R. split; [destruct (genesis_retrieve d); try discriminate; reflexivity|].
    destruct (sound_save (OGenesis g) Ug K (Fs d []) I Fr) as (x & s' & E & I' & _ & _ & _ & P & F). destruct (F eq_refl) as [-> _].
    unfold outcome, saved. rewrite E. cbn [fst snd]. split; [reflexivity|].
    destruct (stored_retrieve m U HU _ _ _ (P eq_refl) K (OGenesis g) Ug eq_refl eq_refl) as (o' & R' & Sm). cbn [kind_of hash_of retrieve_obj] in R'.
    destruct (genesis_retrieve (fs_disk s')) as [g'| |]; try discriminate. injection R' as <-. exists g'. split; [reflexivity|exact Sm].
Qed.
(** every file is unreadable or belongs to an object whose parts can be retrieved *)
Lemma files_whole : forall d k n s, inv d -> covered k -> d k n = Some s ->
  unreadable k s \/ exists o, U o /\ kind_of o = k /\ n = file_name k (hash_of o) /\
    (exists o', retrieve_obj k (hash_of o) d = Ok o' /\ same o' o) /\
    forall p, In p (parts o) -> exists p', retrieve_obj (kind_of p) (hash_of p) d = Ok p' /\ same p' p.
Proof.
  intros d k n s I K E. destruct (I k n s K E) as [T|(h & En & S)]; [left; exact T|right].
  inversion S as [o s' Uo T F P E1 E2]. subst k h. exists o. split; [exact Uo|]. split; [reflexivity|]. split; [exact En|]. split.
  - exact (stored_retrieve m U HU _ _ _ S K o Uo eq_refl eq_refl).
  - intros p Hp. exact (stored_retrieve m U HU _ _ _ (P p Hp) (covered_parts m U HU o p K Hp) p (u_parts m U HU o p Uo Hp) eq_refl eq_refl).
Qed.
Lemma retrieve_total : forall d k h, inv d -> covered k -> @retrieve_obj C k h d <> Panic.
Proof.
  intros d k h I K. destruct (retrieve_cases m U d k h I K) as [(h' & En & S & Eh)|[_ R]]; [|rewrite R; discriminate].
  destruct (stored_retrieved m U HU _ _ _ S K) as (o' & R & _).
  assert (E : @retrieve_obj C k h d = retrieve_obj k h' d).
  { assert (D : k = KGenesis \/ k <> KGenesis) by (destruct k; auto; right; discriminate). destruct D as [->|D]; [reflexivity|].
    rewrite (Eh D). reflexivity. }
  rewrite E, R. discriminate.
Qed.
End Universe.

(** ** Retrieval is stable *)
Lemma tr_retrieve_ext : forall m T (dec : list json -> res T) k d d' n t, ext m d d' -> covers m k ->
  (forall s, unreadable k s -> unmarshal dec s = Err) -> tr_retrieve dec k d n = Ok t -> tr_retrieve dec k d' n = Ok t.
Proof.
  intros m T dec k d d' n t X K H E. unfold tr_retrieve, read in *. destruct (d k n) as [s|] eqn:Ed; [|discriminate]. cbn [rbind] in E.
  rewrite (X k n s K Ed); [exact E|]. intro U. apply H in U. congruence.
Qed.
Ltac rb H := match type of H with rbind ?x _ = Ok _ => let E := fresh "E" in let t := fresh "t" in destruct x as [t| |] eqn:E; cbn [rbind] in H; try discriminate H end.
Lemma rmapM_impl : forall A B (f g : A -> res B) l ys, (forall x y, f x = Ok y -> g x = Ok y) -> rmapM f l = Ok ys -> rmapM g l = Ok ys.
Proof.
  intros A B f g l. induction l as [|x l IH]; intros ys H E; [exact E|]. cbn [rmapM] in *.
  destruct (f x) as [y| |] eqn:Ef; cbn [rbind] in E; try discriminate. rewrite (H x y Ef). cbn [rbind].
  destruct (rmapM f l) as [l'| |] eqn:El; cbn [rbind] in E; try discriminate. rewrite (IH l' H eq_refl). exact E.
Qed.
Section Stable.
Variable m : mode.
Variables d d' : disk.
Hypothesis X : @ext C m d d'.
Ltac file K := match goal with E : tr_retrieve _ _ d _ = Ok _ |- _ =>
  rewrite (tr_retrieve_ext m _ _ _ _ _ _ _ X K (fun s H => H) E); cbn [rbind] end.
Lemma lock_ext : forall h x, lock_retrieve h d = Ok x -> lock_retrieve h d' = Ok x.
Proof.
  intros h x E. unfold lock_retrieve in *. rb E. file (ltac:(destruct m; exact I) : covers m KLock). exact E.
Qed.
Lemma bill_ext : forall h x, bill_retrieve h d = Ok x -> bill_retrieve h d' = Ok x.
Proof.
  intros h x E. unfold bill_retrieve in *. rb E. file (ltac:(destruct m; exact I) : covers m KBill).
  cbn [rbind]. rb E. rewrite (lock_ext _ _ E1). exact E.
Qed.
Lemma genesis_ext : forall x, genesis_retrieve d = Ok x -> genesis_retrieve d' = Ok x.
Proof.
  intros x E. unfold genesis_retrieve in *. rb E. file (ltac:(destruct m; exact I) : covers m KGenesis).
  cbn [rbind]. rb E. rewrite (bill_ext _ _ E1). exact E.
Qed.
Lemma expense_ext : forall h (x : expense), covers m KExpense -> expense_retrieve h d = Ok x -> expense_retrieve h d' = Ok x.
Proof.
  intros h x K E. unfold expense_retrieve in *. rb E. file K. cbn [rbind].
  rb E. unfold bills_retrieve in *. rewrite (rmapM_impl _ _ _ (fun h => bill_retrieve h d') _ _ bill_ext E1). cbn [rbind].
  rb E. rewrite (bill_ext _ _ E2). cbn [rbind].
  destruct (te_remaining t) as [r|]; [|exact E]. rb E. rb E3. rewrite (bill_ext _ _ E4). cbn [rbind] in *. injection E3 as <-. exact E.
Qed.
Lemma trx_ext : forall h (x : transaction), covers m KTrx -> trx_retrieve h d = Ok x -> trx_retrieve h d' = Ok x.
Proof.
  intros h x K E. unfold trx_retrieve in *. rb E. file K. cbn [rbind].
  rb E. unfold expenses_retrieve in *. rewrite (rmapM_impl _ _ _ (fun h => expense_retrieve h d') _ _) with (2 := E1); [exact E|].
  intros y z. apply expense_ext. destruct m; cbn in *; tauto.
Qed.
Lemma block_ext : forall h (x : block), m = All -> block_retrieve h d = Ok x -> block_retrieve h d' = Ok x.
Proof.
  intros h x A E. unfold block_retrieve in *. rb E. file (ltac:(rewrite A; exact I) : covers m KBlock).
  cbn [rbind]. rb E. rewrite (genesis_ext _ E1). cbn [rbind]. rb E. cbn [rbind].
  rb E. unfold trxs_retrieve in *. rewrite (rmapM_impl _ _ _ (fun h => trx_retrieve h d') _ _) with (2 := E3); [exact E|].
  intros y z. apply trx_ext. rewrite A. exact I.
Qed.
Lemma mblock_ext : forall h (x : mined_block), m = All -> mblock_retrieve h d = Ok x -> mblock_retrieve h d' = Ok x.
Proof.
  intros h x A E. unfold mblock_retrieve in *. rb E. file (ltac:(rewrite A; exact I) : covers m KMBlock).
  cbn [rbind]. rb E. rewrite (block_ext _ _ A E1). exact E.
Qed.
Lemma link_ext : forall h (x : chain_link), m = All -> link_retrieve h d = Ok x -> link_retrieve h d' = Ok x.
Proof.
  intros h x A E. unfold link_retrieve in *. rb E. file (ltac:(rewrite A; exact I) : covers m KLink).
  cbn [rbind]. rb E. rewrite (block_ext _ _ A E1). exact E.
Qed.
Lemma mlink_ext : forall h (x : mined_link), m = All -> mlink_retrieve h d = Ok x -> mlink_retrieve h d' = Ok x.
Proof.
  intros h x A E. unfold mlink_retrieve in *. rb E. file (ltac:(rewrite A; exact I) : covers m KMLink).
  cbn [rbind]. rb E. rewrite (link_ext _ _ A E1). exact E.
Qed.
Lemma retrieve_ext : forall k h o, covers m k -> retrieve_obj k h d = Ok o -> retrieve_obj k h d' = Ok o.
Proof.
  assert (A : covers m KBlock \/ covers m KMBlock \/ covers m KLink \/ covers m KMLink -> m = All) by (destruct m; cbn; tauto).
  assert (W : forall A (f : A -> obj C) (x y : res A) o, (forall a, x = Ok a -> y = Ok a) -> rmap f x = Ok o -> rmap f y = Ok o).
  { intros T f [a| |] y o H E; try discriminate. rewrite (H a eq_refl). exact E. }
  intros k h o K. destruct k; cbn [retrieve_obj]; try discriminate; apply W; intro a;
    auto 7 using lock_ext, bill_ext, expense_ext, trx_ext, genesis_ext, block_ext, mblock_ext, link_ext, mlink_ext.
Qed.
End Stable.

(** ** Put together *)
Lemma steps_app : forall m (U : obj C -> Prop) d1 d2 d3, steps m U d1 d2 -> steps m U d2 d3 -> steps m U d1 d3.
Proof. intros m U d1 d2 d3 H1 H2. induction H2 as [|d o fl S IH Uo R]; [exact H1|]. apply steps_save; assumption. Qed.
Lemma steps_stable : forall m (U : obj C -> Prop) d d' k h o, universe m U -> reach m U d -> steps m U d d' -> covers m k ->
  retrieve_obj k h d = Ok o -> retrieve_obj k h d' = Ok o.
Proof.
  intros m U d d' k h o HU R S K E. destruct (steps_inv m U HU d d' (reach_inv m U HU d R) S) as [_ X]. exact (retrieve_ext m d d' X k h o K E).
Qed.
Lemma save_later : forall m (U : obj C -> Prop) d o fl, universe m U -> reach m U d -> U o -> covers m (kind_of o) -> kind_of o <> KGenesis ->
  ready d o ->
  fst (save_obj o (Fs d fl)) <> Panic /\ (fl = [] -> fst (save_obj o (Fs d fl)) = Ok tt) /\
  (fst (save_obj o (Fs d fl)) = Ok tt -> forall d', steps m U (fs_disk (snd (save_obj o (Fs d fl)))) d' ->
   exists o', retrieve_obj (kind_of o) (hash_of o) d' = Ok o' /\ same o' o).
Proof.
  intros m U d o fl HU R Uo K NG Rd. destruct (save_ok m U HU d o fl (reach_inv m U HU d R) Uo K NG Rd) as (NP & Po & F).
  split; [exact NP|]. split; [exact F|]. intros O d' S. destruct (Po O) as (o' & E & Sm). exists o'. split; [|exact Sm].
  eapply steps_stable; [exact HU| |exact S|exact K|exact E]. apply steps_save; auto.
Qed.
Lemma ready_stable : forall m (U : obj C -> Prop) d d' o, universe m U -> reach m U d -> steps m U d d' -> ready d o -> ready d' o.
Proof.
  intros m U d d' o HU R S Rd g G. destruct (Rd g G) as (g' & E & Eh). exists g'. split; [|exact Eh].
  assert (K : covers m KGenesis) by (destruct m; exact I).
  assert (H : retrieve_obj KGenesis (gn_hash g) d = Ok (OGenesis g')) by (cbn [retrieve_obj]; rewrite E; reflexivity).
  apply (steps_stable m U d d' _ _ _ HU R S K) in H. cbn [retrieve_obj] in H.
  destruct (genesis_retrieve d'); try discriminate. injection H as <-. reflexivity.
Qed.
Lemma crash_repeat : forall m (U : obj C -> Prop) d o fl, universe m U -> reach m U d -> U o -> covers m (kind_of o) -> kind_of o <> KGenesis ->
  ready d o ->
  let d' := fs_disk (snd (save_obj o (Fs d fl))) in
  outcome o d' = Ok tt /\ exists o', retrieve_obj (kind_of o) (hash_of o) (saved o d') = Ok o' /\ same o' o.
Proof.
  intros m U d o fl HU R Uo K NG Rd d'.
  assert (S : steps m U d d') by (apply steps_save; auto; apply steps_none).
  apply (save_works m U HU); auto.
  - apply (reach_inv m U HU). eapply steps_app; eauto.
  - eapply ready_stable; eauto.
Qed.
Lemma genesis_text_hash : forall (g g' : genesis) s, @proper C (OGenesis g) -> @proper C (OGenesis g') ->
  @text_of C (OGenesis g) = Ok s -> @text_of C (OGenesis g') = Ok s -> gn_hash g = gn_hash g'.
Proof.
  assert (H : forall g s, @proper C (OGenesis g) -> @text_of C (OGenesis g) = Ok s -> exists t, unmarshal d_tgenesis s = Ok t /\ im_hash (tg_im t) = gn_hash g).
  { intros g s [G D] T. destruct (genesis_documents g G D) as (s' & M & Un & _). 
    eexists. split; [transitivity (unmarshal d_tgenesis s'); [f_equal|exact Un]|reflexivity].
    revert T. cbn [text_of]. unfold genesis_to_transfer, tgenesis_now.
    destruct (N.eqb _ _); [discriminate|]. destruct (f_le_zero _); [discriminate|]. destruct (N.eqb _ _); [discriminate|].
    cbn [rbind]. congruence. }
  intros g g' s P P' T T'. destruct (H g s P T) as (t & E & <-). destruct (H g' s P' T') as (t' & E' & <-). congruence.
Qed.
Lemma crash_repeat_genesis : forall m (U : obj C -> Prop) d g fl, universe m U -> reach m U d -> U (OGenesis g) -> genesis_retrieve d = Err ->
  let d' := fs_disk (snd (genesis_save g (Fs d fl))) in
  (exists g', genesis_retrieve d' = Ok g' /\ genesis_eq g' g) \/
  (outcome (OGenesis g) d' = Ok tt /\ exists g', genesis_retrieve (saved (OGenesis g) d') = Ok g' /\ genesis_eq g' g).
Proof.
  intros m U d g fl HU R Ug G d'.
  assert (S : steps m U d d').
  { change d' with (fs_disk (snd (save_obj (OGenesis g) (Fs d fl)))). apply steps_save; auto; [apply steps_none|]. intros _ g0 Hg. discriminate. }
  assert (I : inv m U d) by (apply (reach_inv m U HU); exact R). assert (I' : inv m U d') by (apply (steps_inv m U HU d d' I S)).
  assert (K : covers m KGenesis) by (destruct m; exact Logic.I).
  destruct (retrieve_cases m U d KGenesis (gn_hash g) I K) as [(h & _ & S1 & _)|[Fr _]].
  { destruct (stored_retrieved m U HU _ _ _ S1 K) as (o & Ro & _). cbn [retrieve_obj] in Ro. rewrite G in Ro. discriminate. }
  destruct (genesis_save_works m U HU d' g I' Ug) as [(_ & H)|(g' & E)]; [right; exact H|left].
  exists g'. split; [exact E|].
  destruct (sound_genesis m U HU g Ug K (Fs d fl) I Fr) as (x & s' & Es & _ & _ & _ & _ & P & _).
  unfold d' in E. rewrite Es in E. cbn [snd] in E.
  assert (T : fs_disk s' KGenesis genesis_name = d KGenesis genesis_name \/
              exists s, text_of (OGenesis g) = Ok s /\ exists i, fs_disk s' KGenesis genesis_name = Some (firstn i s)).
  { revert Es. unfold genesis_save. cbn [fs_disk]. rewrite G.
    assert (B : sound m U 2 always (bill_save (gn_bill g)) (stored_obj U (OBill (gn_bill g)))).
    { apply (sound_bill m U HU); [|destruct m; exact Logic.I]. apply (u_parts m U HU _ _ Ug). left. reflexivity. }
    destruct (B (Fs d fl) I Logic.I) as (x1 & s1 & E1 & _ & _ & F1 & _). unfold seq. rewrite E1. cbn [fs_disk] in F1.
    destruct x1 as [[]| |]; [|intro Q; inversion Q; subst; left; apply F1; cbn; lia|intro Q; inversion Q; subst; left; apply F1; cbn; lia].
    pose proof (put_is _ (genesis_to_transfer g) e_tgenesis (OGenesis g) s1 eq_refl) as Q. cbn [kind_of hash_of file_name] in Q. rewrite Q.
    destruct (text_facts (OGenesis g) (u_proper m U HU _ Ug K)) as (s & Ts & _ & _). unfold put. rewrite Ts. unfold lift, write.
    destruct (fs_faults s1) as [|[| |i] fl']; intro W; inversion W; cbn [fs_disk kind_of hash_of file_name].
    - right. exists s. split; [reflexivity|]. exists (length s). rewrite firstn_all. apply upd_same.
    - right. exists s. split; [reflexivity|]. exists (length s). rewrite firstn_all. apply upd_same.
    - left. apply F1. cbn. lia.
    - right. exists s. split; [reflexivity|]. exists i. apply upd_same. }
  assert (Ed : d' = fs_disk s') by (unfold d'; rewrite Es; reflexivity). rewrite Ed in I'.
  destruct (retrieve_cases m U (fs_disk s') KGenesis (gn_hash g) I' K) as [(h & _ & S1 & _)|[_ R1]].
  2: { cbn [retrieve_obj] in R1. rewrite E in R1. discriminate. }
  assert (S2 : stored U (fs_disk s') KGenesis (gn_hash g)).
  { inversion S1 as [o1 s1 U1 T1 F1 P1 K1 H1]. destruct o1 as [| | | |g1| | | |]; try discriminate K1. cbn [kind_of hash_of file_name] in *.
    assert (N1 : ~ unreadable (C := C) KGenesis s1).
    { destruct (text_facts (OGenesis g1) (u_proper m U HU _ U1 K)) as (s2 & T2 & N2 & _). assert (s2 = s1) by congruence. subst s2. exact N2. }
    destruct T as [T|(s & Ts & i & T)].
    - exfalso. apply N1. apply Fr. cbn [kind_of hash_of file_name]. rewrite <- T. exact F1.
    - assert (Q : s = s1).
      { destruct (text_facts (OGenesis g) (u_proper m U HU _ Ug K)) as (s2 & T2 & _ & Tn). assert (s2 = s) by congruence. subst s2.
        rewrite F1 in T. injection T as T. destruct (Nat.lt_ge_cases i (length s)) as [L|L].
        - exfalso. apply N1. rewrite T. apply Tn. exact L.
        - rewrite firstn_all2 in T by exact L. congruence. }
      subst s1. rewrite (genesis_text_hash g g1 s); auto; try (apply (u_proper m U HU); auto). rewrite H1. exact S1. }
  destruct (stored_retrieve m U HU _ _ _ S2 K (OGenesis g) Ug eq_refl eq_refl) as (o' & Ro & Sm). cbn [retrieve_obj] in Ro.
  rewrite E in Ro. injection Ro as <-. exact Sm.
Qed.
End WithCurve.
