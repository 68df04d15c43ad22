From Coq Require Import Lia SpecFloat.
From Verif Require Import Base BaseFacts HashModel HashSpec SignModel ToyCurve EntitiesModel FloatModel PiastresModel PiastresSpec PiastresProofs
  Properties_Piastres JsonModel JsonProofs TimeModel FloatText MemJsonModel MemSpec MemJsonProofs JsonFixtures TransferModel StoreModel StoreSpec
  StoreProofs StoreInvariant StoreHistory StoreFixtures ConcurrentModel ConcurrentSpec ConcurrentProofs ConcurrentInvariant ConcurrentTheorems.

Section WithCurve.
Context {C : Curve}.
Lemma end_saved : forall (U : obj C -> Prop) d cs d' ps, exact U -> left_behind U d ->
  (forall c, In c cs -> about U c) -> csteps false (d, map start cs) (d', ps) -> Forall returned ps ->
  forall o, In (Saves o) cs -> genesis_there d cs o ->
  exists o', retrieve_obj (kind_of o) (hash_of o) d' = Ok o' /\ same o' o.
Proof. intros U d cs d' ps X L A St F. exact (all_saved U X d cs d' ps L A St F). Qed.
Lemma end_kept : forall (U : obj C -> Prop) d cs d' ps, exact U -> left_behind U d ->
  (forall c, In c cs -> about U c) -> csteps false (d, map start cs) (d', ps) -> Forall returned ps ->
  forall o x, U o -> retrieve_obj (kind_of o) (hash_of o) d = Ok x ->
  exists o', retrieve_obj (kind_of o) (hash_of o) d' = Ok o' /\ same o' o.
Proof. intros U d cs d' ps X L A St F. exact (still_there U X d cs false d' ps L A St eq_refl F). Qed.
Lemma seen_retrieve : forall (U : obj C -> Prop) d cs b d' l r k h ps, exact U -> left_behind U d ->
  (forall c, In c cs -> about U c) -> csteps b (d, map start cs) (d', l ++ PRet r :: ps) -> nth_error cs (length l) = Some (Retrieves k h) ->
  r = Err \/ exists x o, r = Ok (Some x) /\ U o /\ kind_of o = k /\ file_name k (hash_of o) = file_name k h /\ same x o.
Proof.
  intros U d cs b d' l r k h ps X L A St N. destruct (retrieves_seen U X d cs b d' l r ps _ L A St N) as (S & P). exact P.
Qed.
Lemma seen_save : forall (U : obj C -> Prop) d cs b d' l r o ps, exact U -> left_behind U d ->
  (forall c, In c cs -> about U c) -> csteps b (d, map start cs) (d', l ++ PRet r :: ps) -> nth_error cs (length l) = Some (Saves o) ->
  r = Ok None \/ r = Err /\ (b = true \/ kind_of o = KGenesis).
Proof.
  intros U d cs b d' l r o ps X L A St N. destruct (retrieves_seen U X d cs b d' l r ps _ L A St N) as (S & [[-> _]|[-> P]]); auto.
  right. split; [reflexivity|]. destruct P as [P|[P _]]; auto.
Qed.
End WithCurve.

(** ** The examples *)
Lemma plain_list : forall l mb, plain_mlink = Ok l -> plain_mblock = Ok mb -> exists b t, ln_next (ml_link l) = b /\
  subobjects l mb = [OLock (bl_lock (gn_bill (bk_genesis b))); OBill (gn_bill (bk_genesis b)); OGenesis (bk_genesis b);
    OTrx t; OBlock b; OMBlock mb; OLink (ml_link l); OMLink l].
Proof.
  intros l mb El Emb. apply rget_Ok in El as (lk & El & Em). apply rget_Ok in El as (b & Eb & El).
  pose proof (plain_block_good b Eb) as (_ & _ & t & _ & Etx).
  apply link_now_iff in El as (p & n & E1 & E2 & ->). injection E1 as <-. injection E2 as <-.
  apply mined_link_now_iff in Em as (p & E1 & ->). injection E1 as <-. exists b, t. split; [reflexivity|]. unfold subobjects. cbn [ml_link ln_next]. rewrite Etx. reflexivity.
Qed.
Lemma plain_exact : forall l mb, plain_mlink = Ok l -> plain_mblock = Ok mb -> exact (fun o => In o (subobjects l mb)).
Proof.
  intros l mb El Emb. pose proof (plain_universe l mb El Emb) as HU. destruct (plain_list l mb El Emb) as (b & t & _ & L). constructor.
  - exact (u_parts _ _ HU).
  - intros o Uo. apply (u_proper _ _ HU o Uo). destruct o; exact I.
  - rewrite L. intros o p Ho Hp Ek _. cbn [In] in Ho, Hp.
    repeat destruct Ho as [<-|Ho]; repeat destruct Hp as [<-|Hp]; try reflexivity; try discriminate Ek; contradiction.
Qed.
Lemma plain_calls : forall l mb, plain_mlink = Ok l -> plain_mblock = Ok mb ->
  let cs := map Saves (subobjects l mb) ++ [Saves (OMLink l); Retrieves KMLink (ml_hash l)] in
  (forall c, In c cs -> about (fun o => In o (subobjects l mb)) c) /\ (forall o, In (Saves o) cs -> genesis_there empty cs o).
Proof.
  intros l mb El Emb cs. unfold cs. pose proof (plain_universe l mb El Emb) as HU. destruct (plain_list l mb El Emb) as (b & t & Eb & L).
  assert (Ul : In (OMLink l) (subobjects l mb)) by (rewrite L; cbn; tauto).
  assert (UG : forall o g, In o (subobjects l mb) -> genesis_of o = Some g -> In (OGenesis g) (subobjects l mb)).
  { intros o g Uo E. destruct o as [x|x|x|x|x|x|x|x|x]; try discriminate E; injection E as <-.
    - apply (u_parts _ _ HU (OBlock x)); [exact Uo|left; reflexivity].
    - apply (u_parts _ _ HU (OBlock (mb_block x))); [|left; reflexivity]. apply (u_parts _ _ HU (OMBlock x)); [exact Uo|left; reflexivity].
    - apply (u_parts _ _ HU (OBlock (ln_next x))); [|left; reflexivity]. apply (u_parts _ _ HU (OLink x)); [exact Uo|left; reflexivity].
    - apply (u_parts _ _ HU (OBlock (ln_next (ml_link x)))); [|left; reflexivity].
      apply (u_parts _ _ HU (OLink (ml_link x))); [|left; reflexivity]. apply (u_parts _ _ HU (OMLink x)); [exact Uo|left; reflexivity]. }
  assert (A : forall c, In c (map Saves (subobjects l mb) ++ [Saves (OMLink l); Retrieves KMLink (ml_hash l)]) -> about (fun o => In o (subobjects l mb)) c).
  { intros c Hc. apply in_app_iff in Hc as [Hc|[<-|[<-|[]]]]; [|exact Ul|exact I]. apply in_map_iff in Hc as (o & <- & Ho). exact Ho. }
  split; [exact A|]. intros o Ho g Eg. right. apply in_app_iff. left. apply in_map. apply (UG o); [|exact Eg]. exact (A _ Ho).
Qed.
Definition other_genesis : res genesis :=
  rget (toy_bill 5 100) (fun b => genesis_now 0 4 (S754_finite false 4503599627370496 (-53)) 2 (Some b) None).
Lemma other_genesis_good : forall g, other_genesis = Ok g -> good_genesis g /\ dated_genesis g.
Proof.
  intros g E. apply rget_Ok in E as (b & Eb & E). apply toy_bill_good in Eb as [G D]; [|reflexivity]. split.
  - do 6 eexists. split; [|split; [|split; [exact G|exact E]]]; reflexivity.
  - apply genesis_now_iff in E as (b' & E' & _ & _ & _ & ->). injection E' as <-. split; [exact D|]. split; [|in_years].
    split; [reflexivity|split; [split; discriminate|right; discriminate]].
Qed.
Lemma genesis_pair : exists g g' (U : obj toy -> Prop), toy_genesis = Ok g /\ other_genesis = Ok g' /\ gn_hash g <> gn_hash g' /\
  universe Base U /\ U (OGenesis g) /\ U (OGenesis g').
Proof.
  assert (H1 : is_ok toy_genesis = true) by (vm_compute; reflexivity). assert (H2 : is_ok other_genesis = true) by (vm_compute; reflexivity).
  apply is_ok_ex in H1 as [g E]. apply is_ok_ex in H2 as [g' E'].
  assert (H : rget toy_genesis (fun g => rget other_genesis (fun g' => Ok (bseq (gn_hash g) (gn_hash g')))) = Ok false) by (vm_compute; reflexivity).
  rewrite E, E' in H. cbn [rget] in H. injection H as H.
  assert (NE : gn_hash g <> gn_hash g') by (intro Q; rewrite Q, (proj2 (bseq_eq _ _) eq_refl) in H; discriminate H).
  pose proof E as Pg. apply toy_genesis_good in Pg. pose proof E' as Pg'. apply other_genesis_good in Pg'.
  assert (B : exists b, toy_bill 5 100 = Ok b /\ gn_bill g = b /\ gn_bill g' = b).
  { apply rget_Ok in E as (b & Eb & Eg). apply rget_Ok in E' as (b' & Eb' & Eg'). assert (b' = b) by congruence. subst b'.
    apply genesis_now_iff in Eg as (b1 & Q & _ & _ & _ & ->). injection Q as <-.
    apply genesis_now_iff in Eg' as (b1 & Q & _ & _ & _ & ->). injection Q as <-. eauto. }
  destruct B as (b & Eb & B1 & B2). pose proof Eb as Gb. apply toy_bill_good in Gb as [Gb Db]; [|reflexivity].
  destruct (good_bill_amount b Gb) as [_ Gl].
  exists g, g', (fun o => In o [OLock (bl_lock b); OBill b; OGenesis g; OGenesis g']). split; [exact E|]. split; [exact E'|]. split; [exact NE|].
  split; [|cbn; tauto]. constructor.
  - intros o p Ho Hp. cbn [In] in Ho. repeat destruct Ho as [<-|Ho]; cbn [parts] in Hp; rewrite ?B1, ?B2 in Hp; cbn [In] in Hp;
      repeat destruct Hp as [<-|Hp]; cbn [In]; tauto.
  - intros o Ho _. cbn [In] in Ho. repeat destruct Ho as [<-|Ho]; try contradiction; [split; [exact Gl|apply Db]|split; assumption|exact Pg|exact Pg'].
  - intros o p Ho Hp _ Ek Eh. cbn [In] in Ho, Hp.
    repeat destruct Ho as [<-|Ho]; repeat destruct Hp as [<-|Hp]; try contradiction; try discriminate Ek; try solve [repeat split];
      exfalso; apply NE; symmetry; exact Eh.
Qed.
