From Coq Require Import Lia ZifyBool ZifyNat ZifyN.
From Verif Require Import Base BaseFacts HashModel HashProofs HashSpec HashTreeModel HashTreeProofs SignModel EntitiesModel FloatModel
  PiastresModel PiastresSpec PiastresProofs JsonModel JsonProofs TimeModel TimeProofs FloatText MemJsonModel CodecProofs MemSpec
  MemJsonProofs TransferModel TransferProofs StoreModel StoreSpec StoreProofs StoreInvariant StoreHistory ConcurrentModel ConcurrentSpec
  ConcurrentProofs ConcurrentInvariant ConcurrentTheorems.

(** ** A text and the end of another *)
Lemma print_obj_last : forall m b, exists w, print_obj b m = w ++ [x7d].
Proof.
  induction m as [|[k j] m IH]; intro b; [exists []; reflexivity|]. destruct (IH false) as (w & E). cbn [print_obj]. rewrite E.
  eexists. rewrite !app_assoc. reflexivity.
Qed.
Lemma skip_ws_last : forall w, skip_ws (w ++ [x7d]) <> [].
Proof. induction w as [|c w IH]; [discriminate|]. cbn [app skip_ws]. destruct (is_ws c); [exact IH|discriminate]. Qed.
Lemma suffix_last : forall (w : bytes) n, n < length (w ++ [x7d]) -> exists v, skipn n (w ++ [x7d]) = v ++ [x7d].
Proof.
  intros w n L. rewrite app_length in L. cbn [length] in L. rewrite skipn_app. replace (n - length w) with 0 by lia. eexists. reflexivity.
Qed.
Lemma overlay_object : forall m m', plain (JObj m) -> length (jprint (JObj m)) < length (jprint (JObj m')) ->
  jparse (overlay (jprint (JObj m)) (jprint (JObj m'))) = None.
Proof.
  intros m m' P L. unfold overlay. destruct (print_obj_last m' true) as (w & E).
  rewrite (jprint_obj m') in L |- *. rewrite E in *. change (x7b :: w ++ [x7d]) with ((x7b :: w) ++ [x7d]) in *.
  destruct (suffix_last (x7b :: w) (length (jprint (JObj m))) L) as (v & V). rewrite V.
  assert (Q : pval (S (length (jprint (JObj m)))) (jprint (JObj m)) = Some (JObj m, [])).
  { pose proof (pval_print (JObj m) P (S (length (jprint (JObj m)))) []) as Q. rewrite app_nil_r in Q. apply Q; [|exact I]. pose proof (jfuel_le _ P). lia. }
  apply (proj1 (more_input _)) with (t := v ++ [x7d]) in Q; [|left; reflexivity]. cbn [app] in Q.
  apply (pval_mono _ (S (length (jprint (JObj m) ++ v ++ [x7d])))) in Q; [|rewrite app_length; lia].
  unfold jparse. rewrite Q. destruct (skip_ws (v ++ [x7d])) eqn:K; [exfalso; exact (skip_ws_last v K)|reflexivity].
Qed.
Lemma lock_overlay : forall l s s', good_lock l -> dated_lock l -> lock_file l = Ok s -> (exists l', lock_file l' = Ok s') ->
  length s < length s' -> unmarshal d_tlock (overlay s s') = Err.
Proof.
  intros l s s' G D E (l' & E') L. unfold lock_file, lock_to_transfer, tlock_now in *. cbn [rbind] in *.
  unfold marshal in *. apply rbind_Ok in E as (j & E & Q). apply rbind_Ok in E' as (j' & E' & Q'). injection Q as <-. injection Q' as <-.
  apply good_lock_hash in G.
  destruct (tlock_codec (TLock (Immutable (lk_hash l) (im_created (lk_im l))) (lk_keys l)) j G E) as (_ & P & _). apply jstruct_obj in E as (m & ->). apply jstruct_obj in E' as (m' & ->).
  unfold unmarshal. rewrite overlay_object by assumption. reflexivity.
Qed.

Section WithCurve.
Context {C : Curve}.
Definition ended (r : res unit) : thread C := pseq (PRet r) (PRet (Ok None)).
Lemma start_lock : forall l s, lock_file l = Ok s -> exists f, @start C (Saves (OLock l)) = PGet KLock (hash_string (lk_hash l)) f /\
  f None = PPut KLock (hash_string (lk_hash l)) s ended.
Proof.
  intros l s E. eexists. split; [reflexivity|]. cbn [pseq of_get]. unfold lock_file, lock_to_transfer, tlock_now in E. cbn [rbind] in E.
  unfold lock_to_transfer, tlock_now. cbn [plift]. unfold tr_put. rewrite E. reflexivity.
Qed.
Ltac step_left := eapply csteps_head; [apply (cstep_intro false _ [] _ [_] Fine); [reflexivity|reflexivity]|]; cbn [app].
Ltac step_right := eapply csteps_head; [apply (cstep_intro false _ [_] _ [] Fine); [reflexivity|reflexivity]|]; cbn [app].

(** two Saves of a lock, created at different times *)
Lemma two_locks : forall l l' s s', good_lock l -> dated_lock l -> lk_hash l' = lk_hash l -> lock_file l = Ok s -> lock_file l' = Ok s' ->
  length s < length s' ->
  exists d, csteps false (empty, [start (Saves (OLock l)); start (Saves (OLock l'))]) (d, [PRet (Ok None); PRet (Ok None)] : list (thread C)) /\
    lock_retrieve (lk_hash l) d = Err.
Proof.
  intros l l' s s' G D EH E E' L. destruct (start_lock l s E) as (f & -> & F). destruct (start_lock l' s' E') as (f' & -> & F'). rewrite EH in *.
  eexists. split.
  - step_left. change (empty KLock (hash_string (lk_hash l))) with (@None bytes). rewrite F.
    step_right. change (empty KLock (hash_string (lk_hash l))) with (@None bytes). rewrite F'.
    step_left. step_right. step_right. step_left. apply csteps_none.
  - unfold lock_retrieve, tr_retrieve, read. rewrite upd_same. cbn [rbind].
    match goal with |- context [overlay s ?x] => replace x with s' end.
    + rewrite (lock_overlay l s s'); eauto.
    + unfold content_at. rewrite upd_same. unfold overlay. rewrite upd_same. rewrite skipn_nil, app_nil_r. reflexivity.
Qed.

(** a bill, and its lock alone *)
Definition bill_universe (b : bill) (o : obj C) : Prop := o = OBill b \/ o = OLock (bl_lock b).
Lemma bill_exact : forall b, good_bill b -> dated_bill b -> exact (bill_universe b).
Proof.
  intros b G D. constructor.
  - intros o p [->| ->] Hp; [destruct Hp as [<-|[]]; right; reflexivity|destruct Hp].
  - intros o [->| ->]; [split; assumption|]. split; [|apply D]. destruct (good_bill_amount b G) as [_ Gl]. exact Gl.
  - intros o p [->| ->] [->| ->] Ek _; try reflexivity; discriminate.
Qed.
Lemma bill_broken : forall b, good_bill b -> dated_bill b ->
  exists d p d' p', csteps false (empty, [start (Saves (OBill b)); start (Saves (OLock (bl_lock b)))]) (d, [PRet (Ok None); p] : list (thread C)) /\
    (exists b', bill_retrieve (bl_hash b) d = Ok b' /\ bill_eq b' b) /\
    cstep false (d, [PRet (Ok None); p]) (d', [PRet (Ok None); p']) /\ forall x, bill_retrieve (bl_hash b) d' <> Ok x.
Proof.
  intros b G D. pose proof (bill_exact b G D) as X. destruct (good_bill_amount b G) as [_ Gl]. pose proof D as [Dl _].
  destruct (text_facts (OLock (bl_lock b) : obj C) (conj Gl Dl)) as (s & T & NT & TT).
  destruct (start_lock (bl_lock b) s T) as (f & EL & F).
  set (P0 := start (Saves (OBill b)) : thread C).
  destruct (alone P0 (Fs empty [])) as [x s1] eqn:EA.
  destruct (alone_steps P0 empty [] false [] [f None] x s1 EA) as (d1 & S1 & _); [reflexivity|]. cbn [app] in S1.
  assert (ST : csteps false (empty, [P0; start (Saves (OLock (bl_lock b)))]) (d1, [PRet x; f None])).
  { eapply csteps_head; [|exact S1]. rewrite EL. apply (cstep_intro false empty [P0] _ [] Fine); reflexivity. }
  (* alone, to know what was returned and stored *)
  assert (A1 : forall c : call C, In c [Saves (OBill b); Saves (OLock (bl_lock b))] -> about (bill_universe b) c).
  { intros c [<-|[<-|[]]]; [left|right]; reflexivity. }
  assert (LB : left_behind (bill_universe b) empty) by constructor.
  destruct (retrieves_seen _ X empty _ false d1 [] x [f None] (Saves (OBill b)) LB A1 ST eq_refl) as (S & Po).
  assert (x = Ok None). { destruct Po as [[-> _]|[_ [Q|[Q _]]]]; [reflexivity|discriminate|discriminate]. } subst x.
  destruct (alone_steps P0 empty [] false [] [] (Ok None) s1 EA) as (d2 & S2 & AG2); [reflexivity|]. cbn [app] in S2.
  destruct (alone_steps P0 empty [] false [] [f None] (Ok None) s1 EA) as (d3 & S3 & AG3); [reflexivity|]. cbn [app] in S3.
  clear S1 ST Po S d1.
  assert (ST : csteps false (empty, [P0; start (Saves (OLock (bl_lock b)))]) (d3, [PRet (Ok None); f None])).
  { eapply csteps_head; [|exact S3]. rewrite EL. apply (cstep_intro false empty [P0] _ [] Fine); reflexivity. }
  assert (A2 : forall c : call C, In c [Saves (OBill b)] -> about (bill_universe b) c).
  { intros c [<-|[]]. left. reflexivity. }
  destruct (all_saved _ X empty [Saves (OBill b)] d2 [PRet (Ok None)] LB A2 S2) with (o := OBill b) as (o' & R & Sm).
  { repeat constructor. eexists. reflexivity. }
  { left. reflexivity. }
  { intros g Q. discriminate. }
  exists d3, (f None), (upd d3 KLock (hash_string (lk_hash (bl_lock b))) []), (PFill KLock (hash_string (lk_hash (bl_lock b))) s ended).
  split; [exact ST|]. split; [|split].
  - cbn [kind_of hash_of retrieve_obj] in R. rewrite <- rp_bill in R. rewrite <- rp_bill.
    rewrite (rp_run_agree _ _ d3 d2) by (eapply agree_trans; [exact AG3|apply agree_sym; exact AG2]).
    destruct (rp_run (bill_get (bl_hash b)) d2) as [b'| |]; try discriminate. injection R as <-. exists b'. split; [reflexivity|exact Sm].
  - rewrite F. apply (cstep_intro false d3 [PRet (Ok None)] _ [] Fine); reflexivity.
  - intros x Rx.
    assert (ST' : csteps false (empty, map start [Saves (OBill b); Saves (OLock (bl_lock b))])
      (upd d3 KLock (hash_string (lk_hash (bl_lock b))) [], [PRet (Ok None); PFill KLock (hash_string (lk_hash (bl_lock b))) s ended])).
    { eapply csteps_one; [exact ST|]. rewrite F. apply (cstep_intro false d3 [PRet (Ok None)] _ [] Fine); reflexivity. }
    destruct (left_running _ X _ _ _ _ _ LB A1 ST') as (PR & _).
    assert (Rx' : retrieve_obj (kind_of (OBill b : obj C)) (hash_of (OBill b : obj C)) (upd d3 KLock (hash_string (lk_hash (bl_lock b))) []) = Ok (OBill x)).
    { cbn [kind_of hash_of retrieve_obj]. rewrite Rx. reflexivity. }
    pose proof (retrieve_complete _ X (OBill b) _ _ (prefixed_cases _ X _ PR) (or_introl eq_refl) Rx' (OLock (bl_lock b)) s) as K.
    cbn [kind_of hash_of file_name] in K. rewrite upd_same in K.
    assert (E0 : Some [] = Some s).
    { apply K; [|exact T]. apply (deep_parts (OBill b) (OBill b)); [apply deep_self|left; reflexivity]. }
    injection E0 as E0. subst s. apply NT. unfold unreadable. reflexivity.
Qed.

(** two geneses *)
Lemma bill_upd_genesis : forall h d n c, bill_retrieve h (upd d KGenesis n c) = bill_retrieve h d.
Proof.
  intros h d n c. unfold bill_retrieve, tr_retrieve, read. rewrite upd_other by discriminate. destruct (d KBill (hash_string h)) as [s|]; cbn [rbind]; [|reflexivity].
  destruct (unmarshal d_tbill s); cbn [rbind]; reflexivity.
Qed.
Lemma two_geneses : forall U g g', universe (C := C) Base U -> U (OGenesis g) -> U (OGenesis g') ->
  exists d, csteps false (empty, [start (Saves (OGenesis g)); start (Saves (OGenesis g'))]) (d, [PRet (Ok None); PRet (Ok None)] : list (thread C)) /\
    exists g1, genesis_retrieve d = Ok g1 /\ genesis_eq g1 g.
Proof.
  intros U g g' HU Ug Ug'.
  assert (I0 : inv Base U empty) by (intros k n s _ Q; discriminate).
  assert (F0 : free (OGenesis g' : obj C) empty) by (intros s Q; discriminate).
  destruct (sound_genesis Base U HU g' Ug' I (Fs empty []) I0 F0) as (x & s1 & E1 & I1 & _ & _ & _ & _ & Fi). destruct (Fi eq_refl) as [-> Fl]. clear Fi.
  set (P' := start (Saves (OGenesis g')) : thread C).
  set (rest := pseq (pseq (bill_put (gn_bill g)) (plift (genesis_to_transfer g) (tr_put e_tgenesis KGenesis genesis_name))) (PRet (Ok None)) : thread C).
  assert (ES : exists f, start (Saves (OGenesis g)) = PGet KGenesis genesis_name f /\ f None = rest) by (eexists; split; reflexivity).
  destruct ES as (f & -> & Ff).
  assert (EA : alone P' (Fs empty []) = (Ok None, s1)) by (unfold P'; rewrite start_save; cbn [save_obj]; rewrite E1; reflexivity).
  destruct (alone_steps P' empty [] false [rest] [] (Ok None) s1 EA) as (d1 & S1 & A1); [reflexivity|]. cbn [app] in S1.
  (* the rest of the other *)
  destruct s1 as [ds fl]. cbn [fs_faults fs_disk] in *. subst fl.
  assert (Ub : U (OBill (gn_bill g))) by (apply (u_parts Base U HU (OGenesis g)); [exact Ug|left; reflexivity]).
  destruct (sound_bill Base U HU (gn_bill g) Ub I (Fs ds []) I1 I) as (x & s2 & E2 & I2 & _ & _ & _ & Po & Fi). destruct (Fi eq_refl) as [-> Fl2]. clear Fi.
  specialize (Po eq_refl). destruct s2 as [d2 fl]. cbn [fs_faults fs_disk] in *. subst fl.
  destruct (text_facts (OGenesis g : obj C) (u_proper Base U HU (OGenesis g) Ug I)) as (s & T & _).
  assert (ER : alone rest (Fs ds []) = (Ok None, Fs (upd d2 KGenesis genesis_name s) [])).
  { unfold rest. rewrite !alone_pseq, (acts_bill (gn_bill g)), E2. cbn [text_of] in T. rewrite (acts_put _ _ _ _ _ _), lift_put, T. reflexivity. }
  pose proof (alone_agree _ rest d1 ds [] A1) as Q. rewrite ER in Q. destruct (alone rest (Fs d1 [])) as [x3 s3] eqn:ER'. destruct Q as (-> & _ & A3).
  destruct (alone_steps rest d1 [] false [] [PRet (Ok None)] (Ok None) s3 ER') as (d3 & S3 & A4); [reflexivity|]. cbn [app] in S3.
  exists d3. split.
  - eapply csteps_head; [apply (cstep_intro false empty [] _ [P'] Fine); reflexivity|]. cbn [app].
    change (empty KGenesis genesis_name) with (@None bytes). rewrite Ff. eapply csteps_trans; [exact S1|exact S3].
  - assert (AG : agree d3 (upd d2 KGenesis genesis_name s)) by (eapply agree_trans; [exact A4|exact A3]).
    rewrite <- rp_genesis, (rp_run_agree _ _ _ _ AG), rp_genesis.
    pose proof (u_proper Base U HU (OGenesis g) Ug I) as [G D]. apply genesis_back; auto.
    + exists s. split; [|apply upd_same]. revert T. cbn [text_of]. unfold genesis_to_transfer, tgenesis_now.
      destruct (N.eqb _ _); [discriminate|]. destruct (f_le_zero _); [discriminate|]. destruct (N.eqb _ _); [discriminate|]. auto.
    + rewrite bill_upd_genesis. apply (retrieve_part _ (fun b => OBill b : obj C) _ bill_eq); [|auto].
      exact (stored_retrieve Base U HU d2 KBill (bl_hash (gn_bill g)) Po I (OBill (gn_bill g)) Ub eq_refl eq_refl).
Qed.
End WithCurve.
