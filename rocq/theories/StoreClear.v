From Coq Require Import Lia ZifyBool ZifyNat ZifyN.
From Verif Require Import Base BaseFacts HashModel HashProofs HashSpec HashTreeModel HashTreeProofs SignModel EntitiesModel FloatModel
  PiastresModel PiastresSpec PiastresProofs JsonModel JsonProofs TimeModel TimeProofs FloatText MemJsonModel CodecProofs MemSpec
  MemJsonProofs TransferModel TransferProofs StoreModel StoreSpec StoreProofs StoreInvariant StoreHistory.

Lemma collision_coincidence : forall x y, sha_collision x y -> hash_coincidence x y.
Proof. intros x y [N E]. split; [exact N|left; exact E]. Qed.
Lemma concat64_inj : forall a b : list hash, Forall hash64 a -> Forall hash64 b -> concat a = concat b -> a = b.
Proof.
  intro a. induction a as [|x a IH]; intros [|y b] Ha Hb E; auto.
  - cbn in E. inversion Hb as [|? ? H _]; subst. destruct y; discriminate.
  - cbn in E. inversion Ha as [|? ? H _]; subst. destruct x; discriminate.
  - inversion Ha as [|? ? H1 H2]; inversion Hb as [|? ? H3 H4]; subst. cbn [concat] in E. unfold hash64 in *.
    apply app_inj_len in E as [-> E]; [|congruence]. f_equal. auto.
Qed.
Lemma good_built_bill : forall b, good_bill b -> built_bill b.
Proof. intros b (now & l & a & cr & G & Ua & E). exists now, l, a, cr. split; [apply good_lock_hash; exact G|]. auto. Qed.
Lemma good_built_content : forall c, good_content c -> built_content c.
Proof.
  intros c (now & a & from & l & rem & cr & Ua & Gf & Gl & Gr & E). exists now, a, from, l, rem, cr.
  split; [exact Ua|]. split; [apply good_lock_hash; exact Gl|]. split; [eapply Forall_impl; [|exact Gf]; apply good_built_bill|].
  split; [|exact E]. intros r Hr. apply good_lock_hash. auto.
Qed.
Lemma good_built_genesis : forall g, good_genesis g -> built_genesis g.
Proof.
  intros g (now & bs & inc & lnk & b & cr & U1 & U2 & Gb & E). exists now, bs, inc, lnk, b, cr.
  repeat (split; [assumption|]). split; [|exact E]. apply good_bill_hash. exact Gb.
Qed.

Section WithCurve.
Context {C : Curve}.
Implicit Types o p : obj C.
Lemma good_built_block : forall b : block, good_block readable b -> built_block b.
Proof.
  intros b (now & g & ad & trx & cr & G & Ua & Gt & E). exists now, g, ad, trx, cr.
  split; [apply good_genesis_hash; exact G|]. split; [exact Ua|]. split; [|exact E].
  eapply Forall_impl; [|exact Gt]. intro t. apply good_trx_hash.
Qed.
Lemma good_built_mblock : forall b : mined_block, good_mined_block readable unicode b -> built_mined_block b.
Proof. intros b (now & bk & mi & cr & G & _ & E). exists now, bk, mi, cr. split; [apply good_block_hash; exact G|exact E]. Qed.
Lemma good_built_link : forall b : chain_link, good_link readable b -> built_link b.
Proof.
  intros b (now & pr & nx & ix & cr & H & G & U & E). exists now, pr, nx, ix, cr. split; [exact H|]. split; [apply good_block_hash; exact G|auto].
Qed.
Lemma good_built_mlink : forall b : mined_link, good_mined_link readable unicode b -> built_mined_link b.
Proof. intros b (now & bk & mi & cr & G & _ & E). exists now, bk, mi, cr. split; [apply good_link_hash; exact G|exact E]. Qed.

Section Clear.
Variable m : mode.
Variable U : obj C -> Prop.
Hypothesis UP : forall o p, U o -> In p (parts o) -> U p.
Hypothesis PR : forall o, U o -> covers m (kind_of o) -> proper o.
Hypothesis NC : forall o p, U o -> U p -> covers m (kind_of o) -> kind_of o = kind_of p -> ~ hash_coincidence (hashed_text o) (hashed_text p).
Hypothesis UN : forall o p, U o -> U p -> covers m (kind_of o) -> unambiguous o p.

Lemma NS : forall o p, U o -> U p -> covers m (kind_of o) -> kind_of o = kind_of p -> ~ sha_collision (hashed_text o) (hashed_text p).
Proof. intros o p H1 H2 H3 H4 S. apply (NC o p H1 H2 H3 H4). apply collision_coincidence. exact S. Qed.
Lemma base_covered : covers m KLock /\ covers m KBill /\ covers m KGenesis.
Proof. destruct m; repeat split. Qed.
Lemma determined_lock : forall a b, U (OLock a) -> U (OLock b) -> lk_hash a = lk_hash b -> lock_eq a b.
Proof.
  intros a b Ua Ub E. split; [exact E|]. destruct base_covered as (K & _).
  destruct (PR _ Ua K) as [(n1 & k1 & c1 & F1 & E1) _]. destruct (PR _ Ub K) as [(n2 & k2 & c2 & F2 & E2) _].
  pose proof (NC _ _ Ua Ub K eq_refl) as N. cbn [hashed_text] in N. unfold lock_text in N.
  apply lock_now_iff in E1 as (_ & _ & ->). apply lock_now_iff in E2 as (_ & _ & ->). unfold lk_hash in E. cbn [lk_im lk_keys im_hash] in *.
  apply from_bytes_inj in E as [E|E]; [|contradiction]. apply concat64_inj; assumption.
Qed.
Lemma determined_bill : forall a b, U (OBill a) -> U (OBill b) -> bl_hash a = bl_hash b -> bill_eq a b.
Proof.
  intros a b Ua Ub E. split; [exact E|]. destruct base_covered as (_ & K & _).
  destruct (PR _ Ua K) as [Ga _]. destruct (PR _ Ub K) as [Gb _].
  destruct (bill_hash_commits a b (good_built_bill a Ga) (good_built_bill b Gb) E) as [[El Ea]|S].
  - split; [|exact Ea]. apply determined_lock; [apply (UP (OBill a))|apply (UP (OBill b))|]; auto; left; reflexivity.
  - destruct (NS _ _ Ua Ub K eq_refl S).
Qed.
Lemma determined_list : forall A (f : A -> obj C) (R : A -> A -> Prop) l1 l2,
  (forall x y, U (f x) -> U (f y) -> hash_of (f x) = hash_of (f y) -> R x y) ->
  (forall x, In x l1 -> U (f x)) -> (forall x, In x l2 -> U (f x)) ->
  map (fun x => hash_of (f x)) l1 = map (fun x => hash_of (f x)) l2 -> Forall2 R l1 l2.
Proof.
  intros A f R l1 l2 H. revert l2. induction l1 as [|x l1 IH]; intros [|y l2] H1 H2 E; try discriminate; constructor.
  - injection E as E _. apply H; [apply H1|apply H2|exact E]; left; reflexivity.
  - injection E as _ E. apply IH; [intros z Hz; apply H1|intros z Hz; apply H2|exact E]; right; exact Hz.
Qed.
Lemma good_bill_text : forall b, good_bill b -> bl_hash b = from_bytes (bill_text b).
Proof.
  intros b (now & l & a & cr & _ & _ & E). apply bill_now_iff in E as (l' & El & _ & ->). injection El as <-.
  unfold bl_hash, bill_text, from_multi. cbn [bl_im im_hash bl_lock bl_amount concat]. rewrite ?app_nil_r. reflexivity.
Qed.
Lemma bills_value : forall l1 l2, Forall2 bill_eq l1 l2 -> value l1 = value l2.
Proof. intros l1 l2 F. unfold value. f_equal. induction F as [|x y l1 l2 H F IH]; [reflexivity|]. cbn [map]. f_equal; [apply H|exact IH]. Qed.
Lemma determined_content : forall a b, covers m KExpense -> U (OExpense a) -> U (OExpense b) ->
  ct_hash (ex_content a) = ct_hash (ex_content b) -> content_eq (ex_content a) (ex_content b).
Proof.
  intros a b K Ua Ub E. destruct (PR _ Ua K) as [(n1 & c1 & s1 & G1 & _ & E1) _]. destruct (PR _ Ub K) as [(n2 & c2 & s2 & G2 & _ & E2) _].
  destruct (UN _ _ Ua Ub K) as (V1 & V2 & NC' & _).
  assert (P1 : forall x, In (OBill x) (parts (OExpense a)) -> U (OBill x)) by (intros x; apply UP; exact Ua).
  assert (P2 : forall x, In (OBill x) (parts (OExpense b)) -> U (OBill x)) by (intros x; apply UP; exact Ub).
  apply expense_fields in E1 as (E1 & _ & _). apply expense_fields in E2 as (E2 & _ & _).
  cbn [parts] in P1, P2. rewrite E1, E2 in *. clear E1 E2.
  assert (KB : covers m KBill) by apply base_covered.
  destruct (content_hash_commits c1 c2 (good_built_content _ G1) (good_built_content _ G2) V1 V2 E) as [(H1 & H2 & H3 & H4)|[S|(i & x & y & X & Y & S)]].
  - assert (F : Forall2 bill_eq (ct_from c1) (ct_from c2)).
    { apply (determined_list bill OBill bill_eq); [exact determined_bill| | |exact H3].
      - intros x Hx. apply P1. rewrite !in_app_iff. left. apply in_map. exact Hx.
      - intros x Hx. apply P2. rewrite !in_app_iff. left. apply in_map. exact Hx. }
    destruct (good_content_parts c1 G1) as (_ & GT1 & GR1). destruct (good_content_parts c2 G2) as (_ & GT2 & GR2).
    split; [exact E|]. split; [exact F|]. split.
    + apply determined_bill.
      * apply P1. rewrite !in_app_iff. right. left. left. reflexivity.
      * apply P2. rewrite !in_app_iff. right. left. left. reflexivity.
      * rewrite !good_bill_text by assumption. unfold bill_text. rewrite H1, H2. reflexivity.
    + destruct (built_content_hash c1 (good_built_content _ G1)) as (_ & _ & _ & _ & _ & _ & Pd1 & _).
      destruct (built_content_hash c2 (good_built_content _ G2)) as (_ & _ & _ & _ & _ & _ & Pd2 & _).
      rewrite <- (bills_value _ _ F) in Pd2. unfold paid in *.
      destruct (ct_remaining c1) as [r1|] eqn:R1, (ct_remaining c2) as [r2|] eqn:R2; try discriminate; cbn [opt_eq]; [|exact I].
      cbn [option_map] in H4. injection H4 as H4. apply determined_bill.
      * apply P1. rewrite !in_app_iff. right. right. left. reflexivity.
      * apply P2. rewrite !in_app_iff. right. right. left. reflexivity.
      * rewrite (good_bill_text r1), (good_bill_text r2) by auto. unfold bill_text. rewrite H4. f_equal. f_equal. f_equal. lia.
  - destruct NC'. apply collision_coincidence. exact S.
  - apply nth_error_In in X, Y. exfalso. apply (NS (OBill x) (OBill y)); auto; [apply P1|apply P2]; rewrite !in_app_iff; left; apply in_map; assumption.
Qed.
Lemma determined_expense : forall a b, covers m KExpense -> U (OExpense a) -> U (OExpense b) -> ex_hash a = ex_hash b -> expense_eq a b.
Proof.
  intros a b K Ua Ub E. split; [exact E|].
  destruct (PR _ Ua K) as [(n1 & c1 & s1 & G1 & _ & E1) _]. destruct (PR _ Ub K) as [(n2 & c2 & s2 & G2 & _ & E2) _].
  pose proof (NC _ _ Ua Ub K eq_refl) as N. cbn [hashed_text] in N. unfold expense_text in N.
  assert (H : ct_hash (ex_content a) = ct_hash (ex_content b) /\ concat (map (ring_string C) (ex_sigs a)) = concat (map (ring_string C) (ex_sigs b))).
  { assert (L1 : hash64 (ct_hash c1)) by (destruct (built_content_hash c1 (good_built_content _ G1)) as (-> & _); apply from_bytes_length).
    assert (L2 : hash64 (ct_hash c2)) by (destruct (built_content_hash c2 (good_built_content _ G2)) as (-> & _); apply from_bytes_length).
    apply expense_now_iff in E1 as (x & sx & Q1 & Q2 & _ & _ & ->). injection Q1 as <-. injection Q2 as <-.
    apply expense_now_iff in E2 as (y & sy & Q1 & Q2 & _ & _ & ->). injection Q1 as <-. injection Q2 as <-.
    unfold ex_hash, from_multi in E. cbn [ex_im im_hash ex_content ex_sigs concat] in *.
    apply from_bytes_inj in E as [E|E]; [|contradiction]. unfold hash64 in *. apply app_inj_len in E; [exact E|congruence]. }
  destruct H as [H1 H2]. split; [apply determined_content; assumption|]. apply (UN _ _ Ua Ub K). exact H2.
Qed.
Lemma determined_trx : forall a b, covers m KTrx -> U (OTrx a) -> U (OTrx b) -> tx_hash a = tx_hash b -> trx_eq a b.
Proof.
  intros a b K Ua Ub E. split; [exact E|].
  destruct (PR _ Ua K) as [G1 [_ A1]]. destruct (PR _ Ub K) as [G2 [_ A2]]. rewrite A1, A2. split; [reflexivity|].
  pose proof (NC _ _ Ua Ub K eq_refl) as N. cbn [hashed_text] in N. pose proof (UN _ _ Ua Ub K) as AB. cbn [unambiguous] in AB.
  destruct G1 as (n1 & a1 & b1 & f1 & cr1 & _ & B1 & F1 & E1). destruct G2 as (n2 & a2 & b2 & f2 & cr2 & _ & B2 & F2 & E2).
  assert (L1 : Forall hash64 (map ex_hash f1)) by (apply Forall_map; eapply Forall_impl; [|exact F1]; intro e; apply good_expense_hash).
  assert (L2 : Forall hash64 (map ex_hash f2)) by (apply Forall_map; eapply Forall_impl; [|exact F2]; intro e; apply good_expense_hash).
  assert (H : tx_bucket a = tx_bucket b /\ map ex_hash (tx_fees a) = map ex_hash (tx_fees b)).
  { apply transaction_now_iff in E1 as (_ & ->). apply transaction_now_iff in E2 as (_ & ->).
    unfold tx_hash, from_multi, transaction_text in *. cbn [tx_im im_hash tx_address tx_bucket tx_fees] in *. rewrite A1, A2 in *.
    cbn [option_map opt_list app] in *. change (map ad_hash []) with (@nil hash) in E. cbn [app] in E.
    assert (T : forall bk (f : list (@expense C)), concat (opt_list bk ++ map ex_hash f) = opt_bytes bk ++ concat (map ex_hash f)).
    { intros [bk|] f; reflexivity. }
    rewrite !T in E. apply from_bytes_inj in E as [E|E]; [|contradiction].
    destruct b1 as [h1|], b2 as [h2|]; cbn [opt_bytes app] in E.
    - specialize (B1 h1 eq_refl). specialize (B2 h2 eq_refl). unfold hash64 in B1, B2. apply app_inj_len in E as [-> E]; [|congruence].
      split; [reflexivity|]. apply concat64_inj; assumption.
    - destruct AB as [_ AB]. specialize (AB eq_refl). discriminate.
    - destruct AB as [AB _]. specialize (AB eq_refl). discriminate.
    - split; [reflexivity|]. apply concat64_inj; assumption. }
  destruct H as [H1 H2]. split; [exact H1|]. apply (determined_list expense OExpense expense_eq); [| | |exact H2].
  - intros x y. apply determined_expense. destruct m; cbn in *; tauto.
  - intros x Hx. apply (UP (OTrx a)); [exact Ua|]. apply in_map. exact Hx.
  - intros x Hx. apply (UP (OTrx b)); [exact Ub|]. apply in_map. exact Hx.
Qed.
Lemma determined_genesis : forall a b, U (OGenesis a) -> U (OGenesis b) -> gn_hash a = gn_hash b -> genesis_eq a b.
Proof.
  intros a b Ua Ub E. split; [exact E|]. destruct base_covered as (_ & _ & K).
  destruct (PR _ Ua K) as [G1 _]. destruct (PR _ Ub K) as [G2 _]. pose proof (UN _ _ Ua Ub K) as AB. cbn [unambiguous] in AB.
  destruct (genesis_hash_commits a b (good_built_genesis a G1) (good_built_genesis b G2) E) as [(H1 & H2 & H3 & _)|S].
  - destruct (AB H3) as [H4 H5]. split; [|repeat split; assumption].
    apply determined_bill; [apply (UP (OGenesis a))|apply (UP (OGenesis b))|]; auto; left; reflexivity.
  - destruct (NS _ _ Ua Ub K eq_refl S).
Qed.
Lemma determined_block : forall a b, m = All -> U (OBlock a) -> U (OBlock b) -> bk_hash a = bk_hash b -> block_eq a b.
Proof.
  intros a b A Ua Ub E. split; [exact E|]. assert (K : forall k, covers m k) by (intro k; rewrite A; destruct k; exact I).
  destruct (PR _ Ua (K _)) as [G1 _]. destruct (PR _ Ub (K _)) as [G2 _].
  destruct (block_hash_commits a b (good_built_block a G1) (good_built_block b G2) E) as [(H1 & H2 & H3)|S]; [|destruct (NS _ _ Ua Ub (K _) eq_refl S)].
  split; [|split; [exact H2|]].
  - apply determined_genesis; [apply (UP (OBlock a))|apply (UP (OBlock b))|]; auto; left; reflexivity.
  - apply (determined_list transaction OTrx trx_eq); [| | |exact H3].
    + intros x y. apply determined_trx. apply K.
    + intros x Hx. apply (UP (OBlock a)); [exact Ua|]. right. apply in_map. exact Hx.
    + intros x Hx. apply (UP (OBlock b)); [exact Ub|]. right. apply in_map. exact Hx.
Qed.
Lemma determined_link : forall a b, m = All -> U (OLink a) -> U (OLink b) -> ln_hash a = ln_hash b -> link_eq a b.
Proof.
  intros a b A Ua Ub E. split; [exact E|]. assert (K : forall k, covers m k) by (intro k; rewrite A; destruct k; exact I).
  destruct (PR _ Ua (K _)) as [G1 _]. destruct (PR _ Ub (K _)) as [G2 _].
  destruct (link_hash_commits a b (good_built_link a G1) (good_built_link b G2) E) as [(H1 & H2 & H3)|S]; [|destruct (NS _ _ Ua Ub (K _) eq_refl S)].
  split; [exact H1|]. split; [|exact H3].
  apply determined_block; auto; [apply (UP (OLink a))|apply (UP (OLink b))]; auto; left; reflexivity.
Qed.
Lemma clear_universe : universe m U.
Proof.
  split; [exact UP|exact PR|]. intros o p Uo Up K Ek Eh.
  assert (A : covers m KBlock \/ covers m KMBlock \/ covers m KLink \/ covers m KMLink -> m = All) by (destruct m; cbn; tauto).
  destruct o, p; try discriminate; cbn [kind_of hash_of same] in *;
    auto using determined_lock, determined_bill, determined_expense, determined_trx, determined_genesis, determined_block, determined_link.
  - assert (A' : m = All) by auto. destruct (PR _ Uo K) as [G1 _]. destruct (PR _ Up K) as [G2 _].
    destruct (mined_block_hash_any b b0 (good_built_mblock _ G1) (good_built_mblock _ G2) Eh) as [[H1 H2]|S].
    + split; [exact Eh|]. split; [|exact H2].
      apply determined_block; auto; [apply (UP (OMBlock b))|apply (UP (OMBlock b0))]; auto; left; reflexivity.
    + destruct (NC _ _ Uo Up K eq_refl S).
  - assert (A' : m = All) by auto. destruct (PR _ Uo K) as [G1 _]. destruct (PR _ Up K) as [G2 _].
    destruct (mined_link_hash_any l l0 (good_built_mlink _ G1) (good_built_mlink _ G2) Eh) as [[H1 H2]|S].
    + split; [exact Eh|]. split; [|exact H2].
      apply determined_link; auto; [apply (UP (OMLink l))|apply (UP (OMLink l0))]; auto; left; reflexivity.
    + destruct (NC _ _ Uo Up K eq_refl S).
Qed.
End Clear.
End WithCurve.
