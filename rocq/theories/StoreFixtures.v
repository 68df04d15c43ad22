(** Histories over the toy curve for the examples. *)
From Coq Require Import Lia SpecFloat.
From Verif Require Import Base BaseFacts Sha512 HashModel HashProofs EntitiesModel SignModel SignSpec ToyCurve SignProofs
  FloatModel PiastresModel PiastresSpec PiastresProofs Properties_Piastres JsonModel JsonProofs TimeModel FloatText
  MemJsonModel CodecProofs MemSpec MemJsonProofs JsonFixtures TransferModel StoreModel StoreSpec StoreProofs StoreInvariant StoreHistory StoreTheorems.

(** ** One object of every kind: a mined link over a block with a transaction that only
    names a bucket *)
Definition plain_trx : res (@transaction toy) := transaction_now 7 None (Some (rhash 4)) [] None.
Definition plain_block : res (@block toy) :=
  rget toy_genesis (fun g => rget plain_trx (fun t => block_now 8 (Some g) 3 [t] None)).
Definition plain_link : res (@chain_link toy) := rget plain_block (fun b => link_now 9 (Some (rhash 6)) (Some b) 1 None).
Definition plain_mlink : res (@mined_link toy) := rget plain_link (fun l => mined_link_now 10 (Some l) (s2b "4f") None).
Definition plain_mblock : res (@mined_block toy) := rget plain_block (fun b => mined_block_now 10 (Some b) (s2b "4f") None).
Definition subobjects (l : @mined_link toy) (mb : @mined_block toy) : list (obj toy) :=
  let b := ln_next (ml_link l) in let g := bk_genesis b in
  [OLock (bl_lock (gn_bill g)); OBill (gn_bill g); OGenesis g] ++ map OTrx (bk_trx b) ++ [OBlock b; OMBlock mb; OLink (ml_link l); OMLink l].

Lemma plain_trx_good : forall t, plain_trx = Ok t -> proper (OTrx t) /\ tx_fees t = [].
Proof.
  intros t E. pose proof E as E'. apply transaction_now_iff in E as (_ & ->). split; [|reflexivity]. split; [|split; [|reflexivity]].
  - do 5 eexists. split; [|split; [|split; [|exact E']]].
    + discriminate.
    + intros h H. injection H as <-. apply rhash_64.
    + constructor.
  - split; [discriminate|]. split; [constructor|in_years].
Qed.
Lemma plain_block_good : forall b, plain_block = Ok b ->
  proper (OBlock b) /\ toy_genesis = Ok (bk_genesis b) /\ exists t, plain_trx = Ok t /\ bk_trx b = [t].
Proof.
  intros b E. apply rget_Ok in E as (g & Eg & E). pose proof Eg as Eg'. apply toy_genesis_good in Eg as [G D].
  apply rget_Ok in E as (t & Et & E). pose proof Et as Et'. apply plain_trx_good in Et as [(Gt & Dt & _) _].
  pose proof E as E'. apply block_now_iff in E as (g' & Eq & _ & ->). injection Eq as <-. cbn [bk_genesis bk_trx]. split; [|eauto].
  split; [|split].
  - do 5 eexists. split; [exact G|]. split; [|split; [|exact E']]; [reflexivity|auto].
  - split; [exact D|]. split; [|in_years]. constructor; [exact Dt|constructor].
  - reflexivity.
Qed.
Lemma plain_universe : forall l mb, plain_mlink = Ok l -> plain_mblock = Ok mb -> universe All (fun o => In o (subobjects l mb)).
Proof.
  intros l mb El Emb. apply rget_Ok in El as (lk & El & Em). apply rget_Ok in El as (b & Eb & El).
  apply rget_Ok in Emb as (b' & Eb' & Emb). assert (b' = b) by congruence. subst b'.
  pose proof (plain_block_good b Eb) as (Pb & Eg & t & Et & Etx). pose proof (plain_trx_good t Et) as [Pt Ft].
  pose proof Eg as Gg. apply toy_genesis_good in Gg as [Gg Dg].
  apply rget_Ok in Eg as (bl & Ebl & Eg). pose proof Ebl as Ebl'. apply toy_bill_good in Ebl' as [Gb Db]; [|reflexivity].
  apply rget_Ok in Ebl as (lo & Elo & Ebl). apply toy_lock_good in Elo as [Gl Dl].
  apply bill_now_iff in Ebl as (lo' & Q & _ & Ebl). injection Q as <-.
  apply genesis_now_iff in Eg as (bl' & Q & _ & _ & _ & Eg). injection Q as <-.
  assert (Pl : proper (OLink lk) /\ ln_next lk = b).
  { pose proof El as El'. apply link_now_iff in El as (p & n & E1 & E2 & ->). injection E1 as <-. injection E2 as <-. split; [|reflexivity].
    split; [|split; [apply Pb|in_years]]. do 5 eexists. split; [|split; [apply Pb|split; [|exact El']]]; [apply rhash_64|reflexivity]. }
  destruct Pl as [Pl Nl].
  assert (Pm : proper (OMLink l) /\ ml_link l = lk).
  { pose proof Em as Em'. apply mined_link_now_iff in Em as (p & E1 & ->). injection E1 as <-. split; [|reflexivity].
    split; [|split; [apply Pl|in_years]]. do 4 eexists. split; [apply Pl|split; [|exact Em']]. apply unicode_dec. reflexivity. }
  destruct Pm as [Pm Nm].
  assert (Pmb : proper (OMBlock mb) /\ mb_block mb = b).
  { pose proof Emb as Em'. apply mined_block_now_iff in Emb as (p & E1 & ->). injection E1 as <-. split; [|reflexivity].
    split; [|split; [apply Pb|in_years]]. do 4 eexists. split; [apply Pb|split; [|exact Em']]. apply unicode_dec. reflexivity. }
  destruct Pmb as [Pmb Nmb].
  assert (L : subobjects l mb = [OLock (bl_lock (gn_bill (bk_genesis b))); OBill (gn_bill (bk_genesis b)); OGenesis (bk_genesis b);
    OTrx t; OBlock b; OMBlock mb; OLink lk; OMLink l]).
  { unfold subobjects. rewrite Nm, Nl, Etx. reflexivity. }
  rewrite L. split.
  - intros o p Ho Hp. cbn [In] in Ho. repeat destruct Ho as [<-|Ho]; cbn [parts] in Hp; rewrite ?Ft, ?Etx, ?Nmb, ?Nl, ?Nm in Hp; cbn [map In] in Hp;
      repeat destruct Hp as [<-|Hp]; cbn [In]; tauto.
  - intros o Ho _. cbn [In] in Ho.
    assert (H1 : proper (C := toy) (OLock (bl_lock (gn_bill (bk_genesis b))))) by (rewrite Eg, Ebl; split; [exact Gl|exact Dl]).
    assert (H2 : proper (C := toy) (OBill (gn_bill (bk_genesis b)))) by (rewrite Eg; cbn [gn_bill]; split; [exact Gb|exact Db]).
    assert (H3 : proper (C := toy) (OGenesis (bk_genesis b))) by (split; assumption).
    repeat destruct Ho as [<-|Ho]; auto. destruct Ho.
  - intros o p Ho Hp _ Ek _. cbn [In] in Ho, Hp.
    assert (X : o = p).
    { repeat destruct Ho as [<-|Ho]; repeat destruct Hp as [<-|Hp]; try reflexivity; try discriminate Ek; contradiction. }
    subst p. assert (F2 : forall A (R : A -> A -> Prop) l, (forall x, R x x) -> Forall2 R l l) by (intros A R l0 HR; induction l0; constructor; auto).
    assert (OR : forall A (R : A -> A -> Prop) l, (forall x, R x x) -> opt_eq R l l) by (intros A R [x|] HR; cbn; auto).
    assert (B : forall x, bill_eq x x) by (intro x; repeat split).
    assert (CC : forall x, content_eq x x) by (intro x; split; [reflexivity|split; [apply F2, B|split; [apply B|apply OR, B]]]).
    assert (EE : forall x : @expense toy, expense_eq x x) by (intro x; split; [reflexivity|split; [apply CC|reflexivity]]).
    assert (TT : forall x : @transaction toy, trx_eq x x) by (intro x; split; [reflexivity|split; [reflexivity|split; [reflexivity|apply F2, EE]]]).
    assert (GG : forall x, genesis_eq x x) by (intro x; split; [reflexivity|split; [apply B|repeat split]]).
    assert (KK : forall x : @block toy, block_eq x x) by (intro x; split; [reflexivity|split; [apply GG|split; [reflexivity|apply F2, TT]]]).
    destruct o; cbn [same]; auto; repeat split; auto; try apply KK; try apply F2, TT; try apply GG.
Qed.
Lemma plain_ok : exists l mb, plain_mlink = Ok l /\ plain_mblock = Ok mb.
Proof.
  assert (H1 : is_ok plain_mlink = true) by (vm_compute; reflexivity). assert (H2 : is_ok plain_mblock = true) by (vm_compute; reflexivity).
  apply is_ok_ex in H1 as [l E1]. apply is_ok_ex in H2 as [mb E2]. eauto.
Qed.

(** ** An expense that spends one bill completely *)
Definition spending : res (@expense toy) :=
  rget (toy_bill 5 100) (fun b => rget (toy_sig b 5) (fun s => rget (toy_lock 11) (fun lk =>
  rget (content_now 0 100 [b] (Some lk) None None) (fun c => @expense_now toy 0 (Some c) (Some [s]))))).
Definition spending_objects (e : @expense toy) : list (obj toy) :=
  let c := ex_content e in
  [OExpense e; OBill (ct_to c); OLock (bl_lock (ct_to c))] ++ map OBill (ct_from c) ++ map (fun b => OLock (bl_lock b)) (ct_from c).
Lemma spending_universe : forall e, spending = Ok e -> universe Low (fun o => In o (spending_objects e)).
Proof.
  intros e E. apply rget_Ok in E as (b & Eb & E). pose proof Eb as Hb. apply toy_bill_good in Hb as [Gb Db]; [|reflexivity].
  apply rget_Ok in E as (s & Es & E). apply rget_Ok in E as (lk & El & E). pose proof El as Hl. apply toy_lock_good in Hl as [Gl Dl].
  apply rget_Ok in E as (c & Ec & E).
  assert (Gc : good_content c).
  { do 6 eexists. split; [|split; [|split; [|split; [|exact Ec]]]]; [reflexivity|auto|exact Gl|discriminate]. }
  assert (Ge : good_expense readable e).
  { exists 0%Z, c, [s]. split; [exact Gc|]. split; [|exact E]. constructor; [|constructor].
    apply (ring_sign_reduced _ _ _ _ toy_laws) in Es as [R1 R2]. apply (ring_of_ring_string _ _ _ _ toy_laws); assumption. }
  pose proof (content_value _ _ _ _ _ _ _ Ec) as (H1 & H0 & _ & H2 & _ & H3 & _). injection H2 as H2.
  destruct (content_times _ _ _ _ _ _ _ Ec) as (T1 & T2 & _). destruct (expense_fields _ _ _ _ E) as (H4 & _ & _).
  destruct (good_content_parts c Gc) as (_ & Gto & _).
  assert (R : ct_remaining c = None) by (destruct (ct_remaining c); [discriminate|reflexivity]).
  assert (L : spending_objects e = [OExpense e; OBill (ct_to c); OLock lk; OBill b; OLock (bl_lock b)]).
  { unfold spending_objects. rewrite H4, H1, H2. reflexivity. }
  assert (Dto : dated_bill (ct_to c)) by (split; [rewrite H2; exact Dl|rewrite T2; in_years]).
  assert (Glb : good_lock (bl_lock b) /\ dated_lock (bl_lock b)).
  { apply rget_Ok in Eb as (l0 & E0 & Eb). apply bill_now_iff in Eb as (l1 & Q & _ & ->). injection Q as <-. cbn [bl_lock]. apply (toy_lock_good 5). exact E0. }
  assert (NL : lk_hash lk <> lk_hash (bl_lock b)).
  { assert (X : rget (toy_lock 11) (fun l => rget (toy_bill 5 100) (fun b => Ok (bseq (lk_hash l) (lk_hash (bl_lock b))))) = Ok false)
      by (vm_compute; reflexivity).
    rewrite El in X. cbn [rget] in X. rewrite Eb in X. cbn [rget] in X. injection X as X. intro Q. rewrite Q, bseq_refl in X. discriminate. }
  assert (NB : bl_hash (ct_to c) <> bl_hash b).
  { assert (X : rget (toy_lock 11) (fun l => rget (toy_bill 5 100) (fun b => Ok (bseq (from_bytes (lk_hash l ++ dec 100)) (bl_hash b)))) = Ok false)
      by (vm_compute; reflexivity).
    rewrite El in X. cbn [rget] in X. rewrite Eb in X. cbn [rget] in X. injection X as X.
    assert (Y : bl_hash (ct_to c) = from_bytes (bill_text (ct_to c))).
    { destruct Gto as (n0 & l0 & a0 & c0 & _ & _ & E0). apply bill_now_iff in E0 as (l1 & Q1 & _ & ->). injection Q1 as <-.
      unfold bl_hash, bill_text, from_multi. cbn [bl_im im_hash bl_lock bl_amount concat]. rewrite ?app_nil_r. reflexivity. }
    rewrite Y. unfold bill_text. rewrite H2, H0. intro Q. rewrite Q, bseq_refl in X. discriminate. }
  rewrite L. split.
  - intros o p Ho Hp. cbn [In] in Ho. repeat destruct Ho as [<-|Ho]; cbn [parts] in Hp; rewrite ?H4, ?H1, ?H2, ?R in Hp; cbn [map In app opt_list] in Hp;
      repeat destruct Hp as [<-|Hp]; cbn [In]; tauto.
  - intros o Ho _. cbn [In] in Ho.
    assert (P1 : proper (OExpense e)).
    { split; [exact Ge|]. unfold dated_expense. rewrite H4. split; [rewrite H1; auto|]. split; [exact Dto|]. split; [rewrite R; discriminate|].
      rewrite T1. in_years. }
    assert (P2 : proper (C := toy) (OBill (ct_to c))) by (split; assumption).
    assert (P3 : proper (C := toy) (OLock lk)) by (split; assumption).
    assert (P4 : proper (C := toy) (OBill b)) by (split; assumption).
    assert (P5 : proper (C := toy) (OLock (bl_lock b))) by (split; apply Glb).
    repeat destruct Ho as [<-|Ho]; auto. destruct Ho.
  - intros o p Ho Hp _ Ek Eh. cbn [In] in Ho, Hp.
    assert (X : o = p).
    { repeat destruct Ho as [<-|Ho]; repeat destruct Hp as [<-|Hp]; try reflexivity; try discriminate Ek; try contradiction;
        cbn [hash_of] in Eh; congruence. }
    subst p. assert (B : forall x, bill_eq x x) by (intro x; repeat split).
    repeat destruct Ho as [<-|Ho]; try contradiction; cbn [same]; try apply B; try (split; reflexivity).
    split; [reflexivity|]. split; [|reflexivity]. split; [reflexivity|]. rewrite H4, H1, R. split; [constructor; [apply B|constructor]|].
    split; [apply B|exact I].
Qed.
Lemma spending_ok : exists e, spending = Ok e.
Proof. apply is_ok_ex. vm_compute. reflexivity. Qed.
