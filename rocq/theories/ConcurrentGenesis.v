From Coq Require Import Lia ZifyBool ZifyNat ZifyN.
From Verif Require Import Base BaseFacts HashModel HashProofs HashSpec HashTreeModel HashTreeProofs SignModel EntitiesModel FloatModel
  PiastresModel PiastresSpec PiastresProofs JsonModel JsonProofs TimeModel TimeProofs FloatText MemJsonModel CodecProofs MemSpec
  MemJsonProofs TransferModel TransferProofs StoreModel StoreSpec StoreProofs StoreInvariant StoreHistory ConcurrentModel ConcurrentSpec
  ConcurrentProofs ConcurrentInvariant ConcurrentTheorems ConcurrentRefuted.

Section WithCurve.
Context {C : Curve}.

(** ** Calls that only read *)
Inductive quiet (d : disk) (r : res (option (obj C))) : thread C -> Prop :=
| quiet_ret : quiet d r (PRet r)
| quiet_get : forall k n f, quiet d r (f (d k n)) -> quiet d r (PGet k n f).
Lemma quiet_of_get : forall d r A (g : rprog A) f, quiet d r (f (rp_run g d)) -> quiet d r (of_get g f).
Proof.
  intros d r A g f. induction g as [x|k n c IH]; intro H; [exact H|]. cbn [of_get rp_run] in *. constructor. destruct (d k n); [apply IH|]; exact H.
Qed.
Lemma pseq_of_get : forall d r A (g : rprog A) (f : res A -> prog unit) (q : thread C),
  quiet d r (pseq (f (rp_run g d)) q) -> quiet d r (pseq (of_get g f) q).
Proof.
  intros d r A g f q. induction g as [x|k n c IH]; intro H; [exact H|]. cbn [of_get rp_run pseq] in *. constructor. destruct (d k n); [apply IH|]; exact H.
Qed.
Definition answer (d : disk) (c : call C) : res (option (obj C)) :=
  match c with Saves _ => Err | Retrieves k h => rmap Some (retrieve_obj k h d) end.
Lemma quiet_start : forall d g0 c, genesis_retrieve d = Ok g0 -> (forall o, c = Saves o -> exists g, o = OGenesis g) -> quiet d (answer d c) (start c).
Proof.
  intros d g0 c H K. destruct c as [o|k h]; cbn [start answer].
  - destruct (K o eq_refl) as (g & ->). cbn [save_prog]. unfold genesis_put. apply pseq_of_get. rewrite rp_genesis, H. cbn [pseq]. constructor.
  - apply quiet_of_get. rewrite rp_obj. constructor.
Qed.
Lemma quiet_steps : forall b d rs x y, csteps b x y -> fst x = d -> Forall2 (quiet d) rs (snd x) -> fst y = d /\ Forall2 (quiet d) rs (snd y).
Proof.
  intros b d rs x y H E F. induction H as [|y z H IH S]; [auto|]. destruct IH as [E1 F1]. clear H E F.
  destruct S as [d1 l p r e p' d' He P]. cbn [fst snd] in *. subst d1.
  apply Forall2_app_inv_r in F1 as (r1 & r2 & F1 & F2 & ->). inversion F2 as [|q x0 rs' l0 Q F3 E1 E2]. subst.
  destruct Q as [|k n f Q]; cbn [pstep] in P; [discriminate|]. injection P as <- <-. split; [reflexivity|]. apply Forall2_app; [exact F1|]. constructor; assumption.
Qed.
(** once a genesis is there, no Save of another changes anything *)
Lemma genesis_stays : forall b d g0 cs d' ps, genesis_retrieve d = Ok g0 ->
  (forall o, In (Saves o) cs -> exists g, o = OGenesis g) -> csteps b (d, map start cs) (d', ps) ->
  d' = d /\ forall i g r, nth_error cs i = Some (Saves (OGenesis g)) -> nth_error ps i = Some (PRet r) -> r = Err.
Proof.
  intros b d g0 cs d' ps H K S.
  assert (F : Forall2 (quiet d) (map (answer d) cs) (map start cs)).
  { clear S. induction cs as [|c cs IH]; constructor.
    - apply (quiet_start d g0); [exact H|]. intros o ->. apply K. left. reflexivity.
    - apply IH. intros o I. apply K. right. exact I. }
  destruct (quiet_steps b d _ _ _ S eq_refl F) as [E F']. cbn [fst snd] in E, F'. split; [exact E|].
  clear F S K. intros i g r N P. revert cs ps F' N P. induction i as [|i IH]; intros [|c cs] [|p ps] F' N P; try discriminate.
  - injection N as ->. injection P as ->. inversion F' as [|? ? ? ? Q]. cbn [answer] in Q. inversion Q. reflexivity.
  - inversion F' as [|? ? ? ? _ F2]. exact (IH cs ps F2 N P).
Qed.

(** ** A genesis that was there *)
Lemma read_steps : forall b A (g : rprog A) (f : res A -> prog unit) (q : thread C) d l r,
  csteps b (d, l ++ pseq (of_get g f) q :: r) (d, l ++ pseq (f (rp_run g d)) q :: r).
Proof.
  intros b A g f q d l r. induction g as [x|k n c IH]; cbn [of_get rp_run pseq]; [apply csteps_none|].
  eapply csteps_head; [apply (cstep_intro b d l _ r Fine); [reflexivity|reflexivity]|]. destruct (d k n); [apply IH|apply csteps_none].
Qed.
Lemma lock_rewritten : forall (U : obj C -> Prop) l s, U (OLock l) -> text_of (OLock l : obj C) = Ok s -> forall d k h, stored U d k h ->
  stored U (upd d KLock (hash_string (lk_hash l)) s) k h.
Proof.
  intros U l s Ul T d k h S. induction S as [o t Uo To F P IH].
  assert (Q : (exists l', o = OLock l' /\ lk_hash l' = lk_hash l) \/ (kind_of o, file_name (kind_of o) (hash_of o)) <> (KLock, hash_string (lk_hash l))).
  { destruct o as [l'|?|?|?|?|?|?|?|?]; try (right; discriminate). cbn [kind_of hash_of file_name].
    destruct (bseq (lk_hash l') (lk_hash l)) eqn:E; [left; exists l'; split; [reflexivity|apply bseq_eq; exact E]|].
    right. intro Q. injection Q as Q. apply hash_string_inj in Q. rewrite Q, bseq_refl in E. discriminate. }
  destruct Q as [(l' & -> & E)|Q].
  - cbn [kind_of hash_of]. rewrite E. apply (stored_intro U _ (OLock l) s); [exact Ul|exact T|apply upd_same|intros p []].
  - apply (stored_intro U _ o t); auto. rewrite upd_other by exact Q. exact F.
Qed.
Lemma inv_rewritten : forall (U : obj C -> Prop) l s, U (OLock l) -> text_of (OLock l : obj C) = Ok s -> forall d, inv Base U d ->
  inv Base U (upd d KLock (hash_string (lk_hash l)) s).
Proof.
  intros U l s Ul T d H k n t Ck E.
  destruct (kind_eqb k KLock && bseq n (hash_string (lk_hash l))) eqn:B.
  - apply andb_true_iff in B as [B1 B2]. apply kind_eqb_iff in B1. apply bseq_eq in B2. subst. rewrite upd_same in E. injection E as <-.
    right. exists (lk_hash l). split; [reflexivity|]. apply (stored_intro U _ (OLock l) s); [exact Ul|exact T|apply upd_same|intros p []].
  - rewrite upd_other in E.
    + destruct (H k n t Ck E) as [X|(h & -> & X)]; [left; exact X|right]. exists h. split; [reflexivity|]. apply lock_rewritten; assumption.
    + intro Q. injection Q as -> ->. rewrite bseq_refl, andb_true_r in B. assert (kind_eqb KLock KLock = true) by (apply kind_eqb_iff; reflexivity). congruence.
Qed.
Lemma bill_emptied : forall U : obj C -> Prop, universe (C := C) Base U -> forall d b, U (OBill b) -> stored_obj U (OBill b) d ->
  bill_retrieve (bl_hash b) (upd d KLock (hash_string (lk_hash (bl_lock b))) []) = Err.
Proof.
  intros U HU d b Ub S. unfold stored_obj in S. cbn [kind_of hash_of] in S. inversion S as [o s Uo T F P E1 E2]. destruct o as [?|ba|?|?|?|?|?|?|?]; try discriminate.
  cbn [kind_of hash_of file_name] in *.
  pose proof (u_proper Base U HU (OBill ba) Uo I) as [G D].
  pose proof (u_determined Base U HU (OBill ba) (OBill b) Uo Ub I eq_refl E2) as Sm. cbn [same] in Sm. destruct Sm as (_ & [Sl _] & _).
  unfold bill_retrieve.
  rewrite (holds_read _ _ _ _ _ _ _ (bill_documents ba G D)).
  - cbn [rbind tb_lock]. rewrite Sl. unfold lock_retrieve, tr_retrieve, read. rewrite upd_same. reflexivity.
  - exists s. split; [|rewrite upd_other by discriminate; exact F]. revert T. cbn [text_of]. unfold bill_to_transfer, tbill_now. destruct (N.eqb _ _); [discriminate|]. auto.
Qed.
Lemma genesis_emptied : forall U : obj C -> Prop, universe (C := C) Base U -> forall d g, U (OGenesis g) -> stored_obj U (OGenesis g) d ->
  genesis_retrieve (upd d KLock (hash_string (lk_hash (bl_lock (gn_bill g)))) []) = Err.
Proof.
  intros U HU d g Ug S. unfold stored_obj in S. cbn [kind_of hash_of] in S. inversion S as [o s Uo T F P E1 E2]. destruct o as [?|?|?|?|ga|?|?|?|?]; try discriminate.
  cbn [kind_of hash_of file_name] in *.
  pose proof (u_proper Base U HU (OGenesis ga) Uo I) as [G D].
  pose proof (u_determined Base U HU (OGenesis ga) (OGenesis g) Uo Ug I eq_refl E2) as Sm. cbn [same] in Sm.
  assert (Sb : bill_eq (gn_bill ga) (gn_bill g)) by apply Sm. destruct Sb as (_ & [Sl _] & _).
  unfold genesis_retrieve. rewrite (holds_read _ _ _ _ _ _ _ (genesis_documents ga G D)).
  - cbn [rbind tg_bill]. rewrite <- Sl. rewrite (bill_emptied U HU d (gn_bill ga)); [reflexivity| |].
    + apply (u_parts Base U HU (OGenesis ga)); [exact Uo|left; reflexivity].
    + apply (P (OBill (gn_bill ga))). left. reflexivity.
  - exists s. split; [|rewrite upd_other by discriminate; exact F]. revert T. cbn [text_of]. unfold genesis_to_transfer, tgenesis_now.
    destruct (N.eqb _ _); [discriminate|]. destruct (f_le_zero _); [discriminate|]. destruct (N.eqb _ _); [discriminate|]. auto.
Qed.

Lemma genesis_replaced : forall U g g', universe (C := C) Base U -> U (OGenesis g) -> U (OGenesis g') ->
  exists d p d', let l := bl_lock (gn_bill g) in
    csteps false (empty, [start (Saves (OGenesis g)); start (Saves (OLock l))]) (d, [PRet (Ok None); p] : list (thread C)) /\
    (exists g1, genesis_retrieve d = Ok g1 /\ genesis_eq g1 g) /\
    csteps false (d, [PRet (Ok None); p; start (Saves (OGenesis g'))]) (d', [PRet (Ok None); PRet (Ok None); PRet (Ok None)]) /\
    exists g1, genesis_retrieve d' = Ok g1 /\ genesis_eq g1 g'.
Proof.
  intros U g g' HU Ug Ug'. set (l := bl_lock (gn_bill g)).
  assert (Ub : U (OBill (gn_bill g))) by (apply (u_parts Base U HU (OGenesis g)); [exact Ug|left; reflexivity]).
  assert (Ul : U (OLock l)) by (apply (u_parts Base U HU (OBill (gn_bill g))); [exact Ub|left; reflexivity]).
  assert (Ub' : U (OBill (gn_bill g'))) by (apply (u_parts Base U HU (OGenesis g')); [exact Ug'|left; reflexivity]).
  assert (I0 : inv Base U empty) by (intros k n s _ Q; discriminate).
  assert (F0 : free (OGenesis g : obj C) empty) by (intros s Q; discriminate).
  destruct (text_facts (OLock l : obj C) (u_proper Base U HU (OLock l) Ul I)) as (s & T & _).
  destruct (start_lock l s T) as (f & EL & Ff).
  (* the first genesis *)
  destruct (sound_genesis Base U HU g Ug I (Fs empty []) I0 F0) as (x & s1 & E1 & I1 & _ & _ & _ & Po1 & Fi). destruct (Fi eq_refl) as [-> Fl]. clear Fi. specialize (Po1 eq_refl).
  destruct s1 as [ds fl]. cbn [fs_faults fs_disk] in *. subst fl.
  set (P1 := start (Saves (OGenesis g)) : thread C).
  assert (EA : alone P1 (Fs empty []) = (Ok None, Fs ds [])) by (unfold P1; rewrite start_save; cbn [save_obj]; rewrite E1; reflexivity).
  destruct (alone_steps P1 empty [] false [] [f None] (Ok None) _ EA) as (d1 & S1 & A1); [reflexivity|]. cbn [app fs_disk] in S1, A1.
  (* the disks *)
  set (n := hash_string (lk_hash l)) in *.
  set (dT := upd d1 KLock n []). set (dF := upd dT KLock n (overlay s (content_at dT KLock n))).
  assert (AF : agree dF (upd ds KLock n s)).
  { unfold dF, dT. rewrite overlay_same. eapply agree_trans; [apply agree_upd2|]. apply agree_upd. exact A1. }
  assert (RT : rp_run genesis_get dT = Err).
  { rewrite (rp_run_agree _ _ dT (upd ds KLock n [])) by (apply agree_upd; exact A1). rewrite rp_genesis. exact (genesis_emptied U HU ds g Ug Po1). }
  pose proof (inv_rewritten U l s Ul T ds I1) as IF.
  (* the rest of the second *)
  set (rest := pseq (pseq (bill_put (gn_bill g')) (plift (genesis_to_transfer g') (tr_put e_tgenesis KGenesis genesis_name))) (PRet (Ok None)) : thread C).
  destruct (sound_bill Base U HU (gn_bill g') Ub' I (Fs (upd ds KLock n s) []) IF I) as (x & s2 & E2 & I2 & _ & _ & _ & Po & Fi). destruct (Fi eq_refl) as [-> Fl2]. clear Fi.
  specialize (Po eq_refl). destruct s2 as [d2 fl]. cbn [fs_faults fs_disk] in *. subst fl.
  destruct (text_facts (OGenesis g' : obj C) (u_proper Base U HU (OGenesis g') Ug' I)) as (t & Tg & _).
  assert (ER : alone rest (Fs (upd ds KLock n s) []) = (Ok None, Fs (upd d2 KGenesis genesis_name t) [])).
  { unfold rest. rewrite !alone_pseq, (acts_bill (gn_bill g')), E2. cbn [text_of] in Tg. rewrite (acts_put _ _ _ _ _ _), lift_put, Tg. reflexivity. }
  pose proof (alone_agree _ rest dF _ [] AF) as Q. rewrite ER in Q. destruct (alone rest (Fs dF [])) as [x3 s3] eqn:ER'. destruct Q as (-> & _ & A3).
  destruct (alone_steps rest dF [] false [PRet (Ok None); PRet (Ok None)] [] (Ok None) s3 ER') as (d3 & S3 & A4); [reflexivity|]. cbn [app] in S3.
  exists d1, (f None), d3. cbv zeta. split; [|split; [|split]].
  - eapply csteps_head; [|exact S1]. rewrite EL. apply (cstep_intro false empty [P1] _ [] Fine); reflexivity.
  - rewrite <- rp_genesis, (rp_run_agree _ _ _ _ A1), rp_genesis. apply (retrieve_part _ (fun b => OGenesis b : obj C) _ genesis_eq); [|auto].
    exact (stored_retrieve Base U HU ds KGenesis (gn_hash g) Po1 I (OGenesis g) Ug eq_refl eq_refl).
  - rewrite Ff. eapply csteps_head; [apply (cstep_intro false d1 [PRet (Ok None)] _ [start (Saves (OGenesis g'))] Fine); reflexivity|]. cbn [app]. fold dT.
    eapply csteps_trans.
    { pose proof (read_steps false _ genesis_get (fun r => match r with Ok _ => PRet Err | Err => pseq (bill_put (gn_bill g')) (plift (genesis_to_transfer g') (tr_put e_tgenesis KGenesis genesis_name)) | Panic => PRet Panic end) (PRet (Ok None)) dT [PRet (Ok None); PFill KLock n s ended] []) as R.
      rewrite RT in R. cbn [app] in R. exact R. }
    fold rest. eapply csteps_head; [apply (cstep_intro false dT [PRet (Ok None)] _ [rest] Fine); reflexivity|]. cbn [app]. fold dF. exact S3.
  - assert (AG : agree d3 (upd d2 KGenesis genesis_name t)) by (eapply agree_trans; [exact A4|exact A3]).
    rewrite <- rp_genesis, (rp_run_agree _ _ _ _ AG), rp_genesis.
    pose proof (u_proper Base U HU (OGenesis g') Ug' I) as [G D]. apply genesis_back; auto.
    + exists t. split; [|apply upd_same]. revert Tg. cbn [text_of]. unfold genesis_to_transfer, tgenesis_now.
      destruct (N.eqb _ _); [discriminate|]. destruct (f_le_zero _); [discriminate|]. destruct (N.eqb _ _); [discriminate|]. auto.
    + rewrite bill_upd_genesis. apply (retrieve_part _ (fun b => OBill b : obj C) _ bill_eq); [|auto].
      exact (stored_retrieve Base U HU d2 KBill (bl_hash (gn_bill g')) Po I (OBill (gn_bill g')) Ub' eq_refl eq_refl).
Qed.
End WithCurve.
