From Coq Require Import Lia ZifyBool ZifyNat ZifyN Permutation.
From Verif Require Import Base BaseFacts HashModel HashSpec HashProofs EntitiesModel SignModel SignSpec SignProofs PiastresModel PiastresSpec PiastresProofs
  BucketModel BucketSpec BucketProofs BucketMore IdentityModel IdentitySpec IdentityProofs AppModel AppSpec.

Section WithCurve.
Context {C : Curve}.
Lemma identity_now_spec : forall now1 now2 seed name root ws bs created updated (i : identity),
  identity_now now1 now2 seed name root ws bs created updated = Ok i ->
  id_seed i = seed /\ id_name i = name /\ id_root i = root /\ id_wallets i = ws /\ id_buckets i = bs /\
  mu_created (id_mu i) = time_of now1 created /\ mu_updated (id_mu i) = time_of now2 updated /\
  id_hash i = from_bytes (identity_text i).
Proof.
  intros now1 now2 seed name root ws bs created updated i E. unfold identity_now in E.
  destruct (bseq seed []); [discriminate|]. destruct (bseq name []); [discriminate|]. destruct (bseq root []); [discriminate|].
  cbn [negb] in E. rewrite FromMultiBytes_ok in E. cbn [rbind] in E. apply rbind_Ok in E as (mu & M & E). injection E as <-.
  unfold mutable_now in M. match type of M with (if ?b then _ else _) = _ => destruct b eqn:Eb; [discriminate|] end. injection M as <-.
  repeat split; try reflexivity. unfold id_hash, identity_text, from_multi. cbn [id_mu mu_hash id_seed id_name id_root id_wallets id_buckets app concat].
  rewrite concat_app. reflexivity.
Qed.

(** ** the list store has the laws *)
Lemma key_eqb_spec : forall a b, reflect (a = b) (key_eqb a b).
Proof.
  intros [[a1 a2] a3] [[b1 b2] b3]. unfold key_eqb. destruct (bseq_spec a1 b1), (bseq_spec a2 b2), (bseq_spec a3 b3); cbn [andb]; constructor; congruence.
Qed.
Lemma find_filter : forall (A : Type) (f g : A -> bool) l, (forall x, In x l -> f x = true -> g x = true) -> find f (filter g l) = find f l.
Proof.
  intros A f g. induction l as [|x l IH]; intro H; [reflexivity|]. cbn [filter find]. destruct (g x) eqn:G; cbn [find].
  - destruct (f x); [reflexivity|]. apply IH. intros y Hy. apply H. right. exact Hy.
  - destruct (f x) eqn:F; [rewrite (H x (or_introl eq_refl) F) in G; discriminate|]. apply IH. intros y Hy. apply H. right. exact Hy.
Qed.
Lemma find_filter_none : forall (A : Type) (f g : A -> bool) l, (forall x, f x = true -> g x = false) -> find f (filter g l) = None.
Proof.
  intros A f g. induction l as [|x l IH]; intro H; [reflexivity|]. cbn [filter]. destruct (g x) eqn:G; [|apply IH; exact H]. cbn [find].
  destruct (f x) eqn:F; [rewrite (H x F) in G; discriminate|]. apply IH. exact H.
Qed.
Lemma list_find_cons : forall (p : bytes) (i : identity) s n q d, list_find ((p, i) :: s) n q d =
  if key_eqb (id_name i, p, id_seed i) (n, q, d) then Ok i else list_find s n q d.
Proof. intros. unfold list_find. cbn [find]. change (entry_key (p, i)) with (id_name i, p, id_seed i). destruct (key_eqb _ _); reflexivity. Qed.
Lemma list_store_laws : istore_laws list_store.
Proof.
  constructor.
  - intros s n p d i E. change (list_find s n p d = Ok i) in E. unfold list_find in E.
    destruct (find _ s) as [e|] eqn:F; [|discriminate]. injection E as <-. apply find_some in F as [_ F].
    destruct (key_eqb_spec (entry_key e) (n, p, d)) as [K|]; [|discriminate]. unfold entry_key in K. injection K. auto.
  - intros i p s s' E. cbn [is_insert list_store] in E.
    assert (s' = (p, i) :: s) by (destruct (list_find s (id_name i) p (id_seed i)); congruence). subst s'.
    cbn [is_retrieve list_store]. rewrite list_find_cons. destruct (key_eqb_spec (id_name i, p, id_seed i) (id_name i, p, id_seed i)); congruence.
  - intros i p s s' E n q d N. cbn [is_insert list_store] in E.
    assert (s' = (p, i) :: s) by (destruct (list_find s (id_name i) p (id_seed i)); congruence). subst s'.
    cbn [is_retrieve list_store]. rewrite list_find_cons. destruct (key_eqb_spec (id_name i, p, id_seed i) (n, q, d)); congruence.
  - intros h i p q s s' E. cbn [is_update list_store] in E. injection E as <-. cbn [is_retrieve list_store]. rewrite list_find_cons.
    destruct (key_eqb_spec (id_name i, q, id_seed i) (id_name i, q, id_seed i)); congruence.
  - intros h i p q s s' E n d o R H N. cbn [is_update list_store] in E. injection E as <-. cbn [is_retrieve list_store] in *. rewrite list_find_cons.
    destruct (key_eqb_spec (id_name i, q, id_seed i) (n, p, d)); [congruence|]. unfold list_find at 1. rewrite find_filter_none; [reflexivity|].
    intros x Hx. cbn beta in *. destruct (key_eqb_spec (entry_key x) (n, p, d)) as [K|]; [|discriminate]. unfold entry_key in K. injection K as -> -> ->. rewrite R.
    destruct (bseq_spec p p); [|congruence]. destruct (bseq_spec (id_hash o) h); [reflexivity|congruence].
  - intros h i p q s s' E n r d N H. cbn [is_update list_store] in E. injection E as <-. cbn [is_retrieve list_store] in *. rewrite list_find_cons.
    destruct (key_eqb_spec (id_name i, q, id_seed i) (n, r, d)); [congruence|]. unfold list_find at 1 3. rewrite find_filter; [reflexivity|].
    intros x _ Hx. cbn beta in *. destruct (key_eqb_spec (entry_key x) (n, r, d)) as [K|]; [|discriminate]. unfold entry_key in K. injection K as -> -> ->.
    destruct (bseq_spec r p) as [Er|]; [|reflexivity]. destruct (list_find s n r d) as [o| |] eqn:R; [|reflexivity|reflexivity].
    destruct (bseq_spec (id_hash o) h) as [Eh|]; [|reflexivity]. exfalso. exact (H o eq_refl Er Eh).
  - intros i p s s' E. cbn [is_delete list_store] in E. injection E as <-. cbn [is_retrieve list_store]. unfold list_find. rewrite find_filter_none; [reflexivity|].
    intros x Hx. change (negb (key_eqb (entry_key x) (id_name i, p, id_seed i)) = false). rewrite Hx. reflexivity.
  - intros i p s s' E n q d N. cbn [is_delete list_store] in E. injection E as <-. cbn [is_retrieve list_store]. unfold list_find. rewrite find_filter; [reflexivity|].
    intros x _ Hx. change (negb (key_eqb (entry_key x) (id_name i, p, id_seed i)) = true). destruct (key_eqb_spec (entry_key x) (n, q, d)) as [->|]; [|discriminate].
    destruct (key_eqb_spec (n, q, d) (id_name i, p, id_seed i)); [congruence|reflexivity].
Qed.

(** ** creating and authenticating *)
Section Laws.
Variable st : istore (C := C).
Hypothesis L : istore_laws st.

Lemma new_found : forall now1 now2 name password seed root s s', new_identity st now1 now2 name password seed root s = Ok s' ->
  exists i, is_retrieve st s' name password seed = Ok i /\ id_name i = name /\ id_seed i = seed /\ id_root i = root /\
    (forall n q d, (n, q, d) <> (name, password, seed) -> is_retrieve st s' n q d = is_retrieve st s n q d).
Proof.
  intros now1 now2 name password seed root s s' E. unfold new_identity in E. apply rbind_Ok in E as (i & Ei & E).
  apply identity_now_spec in Ei as (E1 & E2 & E3 & _). exists i.
  pose proof (la_insert st L i password s s' E) as R. rewrite E1, E2 in R. split; [exact R|]. repeat split; try assumption.
  intros n q d N. apply (la_insert_other st L i password s s' E). rewrite E1, E2. exact N.
Qed.
Lemma authenticate_swapped : forall now1 now2 name password seed root s s', new_identity st now1 now2 name password seed root s = Ok s' ->
  password <> seed -> authenticate st name seed password s' = authenticate st name seed password s.
Proof.
  intros now1 now2 name password seed root s s' E N. destruct (new_found _ _ _ _ _ _ _ _ E) as (i & _ & _ & _ & _ & O).
  unfold authenticate. rewrite (O name seed password) by congruence. reflexivity.
Qed.
Lemma authenticate_exchanged : forall now1 now2 name password seed root s s', new_identity st now1 now2 name password seed root s = Ok s' ->
  password <> seed ->
  exists a, authenticate st name password seed s' = Ok a /\ iapp_retrieve st a s' = is_retrieve st s name seed seed.
Proof.
  intros now1 now2 name password seed root s s' E N. destruct (new_found _ _ _ _ _ _ _ _ E) as (i & R & E1 & E2 & _ & O).
  unfold authenticate. rewrite R. cbn [rbind]. eexists. split; [reflexivity|]. unfold iapp_retrieve. cbn [ia_name ia_password ia_seed].
  rewrite E1, E2. apply O. congruence.
Qed.
Lemma authenticate_equal : forall now1 now2 name password root s s', new_identity st now1 now2 name password password root s = Ok s' ->
  exists a i, authenticate st name password password s' = Ok a /\ iapp_retrieve st a s' = Ok i /\
    id_name i = name /\ id_seed i = password /\ id_root i = root.
Proof.
  intros now1 now2 name password root s s' E. destruct (new_found _ _ _ _ _ _ _ _ E) as (i & R & E1 & E2 & E3 & _).
  unfold authenticate. rewrite R. cbn [rbind]. eexists. exists i. split; [reflexivity|]. unfold iapp_retrieve. cbn [ia_name ia_password ia_seed].
  rewrite E1, E2. auto.
Qed.

(** ** updating *)
Lemma update_stored : forall now1 now2 u a s a' s' i, iapp_retrieve st a s = Ok i -> iapp_update st now1 now2 u a s = Ok (a', s') ->
  exists i', is_retrieve st s' (or_else (up_name u) (ia_name a)) (or_else (up_password u) (ia_password a)) (or_else (up_seed u) (ia_seed a)) = Ok i' /\
    id_root i' = or_else (up_root u) (id_root i) /\ id_wallets i' = [] /\ id_buckets i' = [] /\
    mu_created (id_mu i') = now1 /\ mu_updated (id_mu i') = now2.
Proof.
  intros now1 now2 u a s a' s' i R E. unfold iapp_update in E. unfold iapp_retrieve in R. rewrite R in E. cbn [rbind] in E.
  destruct (la_found st L _ _ _ _ _ R) as [N D]. apply rbind_Ok in E as (i' & Ei & E). apply rbind_Ok in E as (s1 & Es & E). injection E as <- <-.
  apply identity_now_spec in Ei as (E1 & E2 & E3 & E4 & E5 & E6 & E7 & _). exists i'.
  pose proof (la_update st L _ _ _ _ _ _ Es) as R'. rewrite E1, E2, N, D in R'. repeat split; assumption.
Qed.
Lemma update_unfindable : forall now1 now2 u a s a' s', iapp_update st now1 now2 u a s = Ok (a', s') -> up_password u = None ->
  or_else (up_name u) (ia_name a) <> ia_name a \/ or_else (up_seed u) (ia_seed a) <> ia_seed a ->
  iapp_retrieve st a' s' = Err.
Proof.
  intros now1 now2 u a s a' s' E P H. unfold iapp_update in E. apply rbind_Ok in E as (i & R & E).
  destruct (la_found st L _ _ _ _ _ R) as [N D]. apply rbind_Ok in E as (i' & Ei & E). apply rbind_Ok in E as (s1 & Es & E). injection E as <- <-.
  apply identity_now_spec in Ei as (E1 & E2 & _). unfold iapp_retrieve. cbn [ia_name ia_password ia_seed]. rewrite P in *. cbn [or_else] in *.
  apply (la_update_gone st L _ _ _ _ _ _ Es _ _ i R eq_refl). rewrite E1, E2, N, D. intro X. injection X as X1 X2. destruct H; congruence.
Qed.
Lemma update_keeps : forall now1 now2 u a s a' s' i, iapp_retrieve st a s = Ok i -> iapp_update st now1 now2 u a s = Ok (a', s') ->
  or_else (up_name u) (ia_name a) = ia_name a -> or_else (up_seed u) (ia_seed a) = ia_seed a ->
  exists i', iapp_retrieve st a' s' = Ok i' /\ id_name i' = id_name i /\ id_seed i' = id_seed i /\ id_root i' = or_else (up_root u) (id_root i).
Proof.
  intros now1 now2 u a s a' s' i R E Hn Hd. destruct (update_stored _ _ _ _ _ _ _ _ R E) as (i' & R' & E1 & _).
  unfold iapp_update in E. apply rbind_Ok in E as (i0 & R0 & E). apply rbind_Ok in E as (i'' & Ei & E). apply rbind_Ok in E as (s1 & Es & E). injection E as <- <-.
  exists i'. unfold iapp_retrieve. cbn [ia_name ia_password ia_seed]. rewrite Hn, Hd in R'. split; [exact R'|].
  destruct (la_found st L _ _ _ _ _ R') as [N' D']. destruct (la_found st L _ _ _ _ _ R) as [N D]. repeat split; [congruence|congruence|exact E1].
Qed.
Lemma deleted : forall a s s', iapp_delete st a s = Ok s' -> iapp_retrieve st a s' = Err /\
  (forall n q d, (n, q, d) <> (ia_name a, ia_password a, ia_seed a) -> is_retrieve st s' n q d = is_retrieve st s n q d).
Proof.
  intros a s s' E. unfold iapp_delete in E. apply rbind_Ok in E as (i & R & E). destruct (la_found st L _ _ _ _ _ R) as [N D].
  pose proof (la_delete st L _ _ _ _ E) as X. rewrite N, D in X. split; [exact X|]. intros n q d K. apply (la_delete_other st L _ _ _ _ E). rewrite N, D. exact K.
Qed.

(** ** the genesis *)
Lemma repo_wallet_never : forall name bills created w, repo_wallet (C := C) name bills created <> Ok w.
Proof. intros. unfold repo_wallet, wallet_now. destruct (bseq name []); discriminate. Qed.
Section Genesis.
Context {G : Type} (g_retrieve : G -> res genesis) (g_save : genesis -> G -> res G).
Lemma init_never : forall mk_wbill key now later name password seed wname amount base increase link s,
  exists o, genesis_init st g_retrieve g_save mk_wbill repo_wallet key now later name password seed wname amount base increase link s = (o, [s]) /\ o <> Ok tt.
Proof.
  intros. unfold genesis_init. destruct (g_retrieve (snd s)); [exists Err; split; [reflexivity|discriminate]| |exists Panic; split; [reflexivity|discriminate]].
  match goal with |- context [match ?x with Ok _ => _ | Err => _ | Panic => _ end] => destruct x as [[g s1]| |] eqn:E end.
  - exfalso. apply rbind_Ok in E as (i & _ & E). apply rbind_Ok in E as (lk & _ & E). apply rbind_Ok in E as (b & _ & E).
    apply rbind_Ok in E as (g' & _ & E). apply rbind_Ok in E as (wb & _ & E). apply rbind_Ok in E as (w & Ew & E). exact (repo_wallet_never _ _ _ _ Ew).
  - exists Err. split; [reflexivity|discriminate].
  - exists Panic. split; [reflexivity|discriminate].
Qed.
Lemma init_ok : forall mk_wbill mk_wallet key now later name password seed wname amount base increase link s states,
  genesis_init st g_retrieve g_save mk_wbill mk_wallet key now later name password seed wname amount base increase link s = (Ok tt, states) ->
  exists i i' g w s1 g1, states = [s; (s1, snd s); (s1, g1)] /\ g_retrieve (snd s) = Err /\ is_retrieve st (fst s) name seed password = Ok i /\
    id_name i' = name /\ id_seed i' = seed /\ id_wallets i' = id_wallets i ++ [w] /\
    is_update st (id_hash i) i' password password (fst s) = Ok s1 /\ g_save g (snd s) = Ok g1.
Proof.
  intros mk_wbill mk_wallet key now later name password seed wname amount base increase link s states E. unfold genesis_init in E.
  destruct (g_retrieve (snd s)) eqn:Eg; [discriminate| |discriminate].
  match type of E with context [match ?x with Ok _ => _ | Err => _ | Panic => _ end] => destruct x as [[g s1]| |] eqn:X; try discriminate end.
  destruct (g_save g (snd s)) as [g1| |] eqn:Es; try discriminate. injection E as <-.
  apply rbind_Ok in X as (i & R & X). apply rbind_Ok in X as (lk & _ & X). apply rbind_Ok in X as (b & _ & X).
  apply rbind_Ok in X as (g' & _ & X). apply rbind_Ok in X as (wb & _ & X). apply rbind_Ok in X as (w & Ew & X).
  apply rbind_Ok in X as (i' & Ei & X). apply rbind_Ok in X as (s1' & Eu & X). injection X as -> ->.
  apply identity_now_spec in Ei as (E1 & E2 & _ & E4 & _). exists i, i', g, w, s1, g1. repeat split; assumption.
Qed.
Lemma init_crash : forall mk_wbill mk_wallet key now later name password wname amount base increase link s states i,
  is_retrieve st (fst s) name password password = Ok i ->
  genesis_init st g_retrieve g_save mk_wbill mk_wallet key now later name password password wname amount base increase link s = (Ok tt, states) ->
  exists s1 i1 w, nth_error states 1 = Some (s1, snd s) /\ g_retrieve (snd s) = Err /\
    is_retrieve st s1 name password password = Ok i1 /\ id_wallets i1 = id_wallets i ++ [w] /\
    forall mk_wbill' mk_wallet' key' now' later' wname' amount' base' increase' link' states',
      genesis_init st g_retrieve g_save mk_wbill' mk_wallet' key' now' later' name password password wname' amount' base' increase' link' (s1, snd s) = (Ok tt, states') ->
      exists s2 i2 w', nth_error states' 2 = Some s2 /\ is_retrieve st (fst s2) name password password = Ok i2 /\
        id_wallets i2 = id_wallets i ++ [w; w'].
Proof.
  intros mk_wbill mk_wallet key now later name password wname amount base increase link s states i R E.
  apply init_ok in E as (i0 & i1 & g & w & s1 & g1 & -> & Eg & R0 & En & Ed & Ew & Eu & _).
  assert (i0 = i) by congruence. subst i0. pose proof (la_update st L _ _ _ _ _ _ Eu) as R1. rewrite En, Ed in R1.
  exists s1, i1, w. split; [reflexivity|]. split; [exact Eg|]. split; [exact R1|]. split; [exact Ew|].
  intros mk_wbill' mk_wallet' key' now' later' wname' amount' base' increase' link' states' E'.
  apply init_ok in E' as (i0 & i2 & g' & w' & s2 & g2 & -> & _ & R0' & En' & Ed' & Ew' & Eu' & _). cbn [fst snd] in *.
  assert (i0 = i1) by congruence. subst i0. pose proof (la_update st L _ _ _ _ _ _ Eu') as R2. rewrite En', Ed' in R2.
  exists (s2, g2), i2, w'. split; [reflexivity|]. cbn [fst]. split; [exact R2|]. rewrite Ew', Ew, <- app_assoc. reflexivity.
Qed.
Lemma init_swapped : forall mk_wbill mk_wallet key now later now1 now2 name password seed root wname amount base increase link s s' g,
  new_identity st now1 now2 name password seed root s = Ok s' -> password <> seed -> is_retrieve st s name seed password = Err ->
  exists o, genesis_init st g_retrieve g_save mk_wbill mk_wallet key now later name password seed wname amount base increase link (s', g) = (o, [(s', g)]) /\ o <> Ok tt.
Proof.
  intros mk_wbill mk_wallet key now later now1 now2 name password seed root wname amount base increase link s s' g E N R.
  destruct (new_found _ _ _ _ _ _ _ _ E) as (i & _ & _ & _ & _ & O). unfold genesis_init. cbn [fst snd].
  destruct (g_retrieve g); [exists Err; split; [reflexivity|discriminate]| |exists Panic; split; [reflexivity|discriminate]].
  rewrite (O name seed password) by congruence. rewrite R. cbn [rbind]. exists Err. split; [reflexivity|discriminate].
Qed.
End Genesis.
End Laws.

(** ** spending *)
Section Spending.
Variables (red : Sc C -> Prop) (zero : Sc C) (sadd : Sc C -> Sc C -> Sc C).
Hypothesis laws : CurveLaws C red zero sadd.
Lemma fee_inv : forall wfetch additional d f (e : expense), fee_expense (C := C) wfetch additional d f = Ok e ->
  exists wbs remaining ct sigs, wfetch (fe_amount f) = Ok wbs /\ wbs <> [] /\ (0 < additional)%Z /\
    app_lock (dr_lock_time d) (change_keys d wbs) (Some (dr_lock_time d)) = Ok remaining /\
    content_now (dr_time d) (fe_amount f) (map wb_bill wbs) (Some (fe_lock f)) (Some remaining) (Some (dr_time d)) = Ok ct /\
    sign_bills (hash_string (ct_hash ct)) wbs = Ok sigs /\ expense_now (dr_time d) (Some ct) (Some sigs) = Ok e.
Proof.
  intros wfetch additional d f e E. unfold fee_expense in E. apply rbind_Ok in E as (wbs & Ew & E).
  destruct (Z.leb_spec additional 0); [discriminate|]. destruct wbs as [|wb wbs]; [discriminate|].
  apply rbind_Ok in E as (remaining & Er & E). apply rbind_Ok in E as (ct & Ec & E). apply rbind_Ok in E as (sigs & Es & E).
  exists (wb :: wbs), remaining, ct, sigs. repeat split; try assumption. discriminate.
Qed.
Lemma fee_collides : forall wfetch additional d f e wbs, wfetch (fe_amount f) = Ok wbs -> Forall (good_wbill red) wbs -> good_fee f ->
  fee_expense wfetch additional d f = Ok e -> wbs <> [] /\
  Forall2 (fun wb sig =>
    challenge_collision C (last_input C (signed_text e) (rs_ring sig) (rs_s sig) (rs_e sig))
                          (last_input C (verified_text wb) (rs_ring sig) (rs_s sig) (rs_e sig)) \/
    hash_coincidence (content_text (ex_content e)) (lock_text (bl_lock (wb_bill wb)))) wbs (ex_sigs e).
Proof.
  intros wfetch additional d f e wbs W F [Fa Fl] E. apply fee_inv in E as (wbs' & remaining & ct & sigs & W' & Ne & _ & Er & Ec & Es & Ee).
  assert (wbs' = wbs) by congruence. subst wbs'. split; [exact Ne|].
  pose proof (expense_accepted_iff (dr_time d) ct sigs) as A. destruct (proj1 A (ex_intro _ e Ee)) as [Ls U]. clear A.
  destruct (expense_fields _ _ _ _ Ee) as (X1 & X2 & _). rewrite X2. unfold signed_text. rewrite X1.
  apply content_now_iff in Ec as (l & El & Ha & _ & Hr & Ec). injection El as <-. cbn zeta in Ec.
  unfold sign_bills in Es. apply rmapM_Ok_iff in Es. assert (Cf : ct_from ct = map wb_bill wbs) by (rewrite Ec; reflexivity).
  rewrite Cf in U.
  assert (T : content_text ct = concat (content_parts (fe_amount f) (map wb_bill wbs) (fe_lock f) (Some remaining)) /\
    ct_hash ct = from_bytes (content_text ct)).
  { assert (T : content_text ct = concat (content_parts (fe_amount f) (map wb_bill wbs) (fe_lock f) (Some remaining))).
    { rewrite Ec. unfold content_text, content_parts, dec. cbn [ct_to ct_from ct_remaining bl_lock bl_amount opt_list map app concat].
      rewrite concat_app. cbn [concat]. rewrite app_nil_r. reflexivity. }
    split; [exact T|]. rewrite T. rewrite Ec. reflexivity. }
  destruct T as [T Th].
  assert (LT : exists k, length (content_text ct) = 64 * k + length (itoa_u64 (fe_amount f))).
  { rewrite T. unfold content_parts. cbn [app concat]. rewrite !app_length, concat_app, app_length.
    rewrite concat64_length.
    - cbn [opt_list map concat]. rewrite app_length. cbn [length].
      assert (R : length (lk_hash remaining) = 64).
      { unfold app_lock in Er. apply rbind_Ok in Er as (ks & _ & Er). apply lock_now_iff in Er as (_ & _ & ->). apply from_bytes_length. }
      unfold hash64 in Fl. rewrite R, Fl. exists (1 + length (map bl_hash (map wb_bill wbs)) + 1). lia.
    - apply Forall_map. apply Forall_map. eapply Forall_impl; [|exact F]. intros wb (_ & (n & l & am & cr & _ & _ & B) & _).
      apply bill_now_iff in B as (l' & _ & _ & ->). apply from_bytes_length. }
  pose proof (itoa_u64_length (fe_amount f) Fa) as LA. destruct LT as [k LT].
  clear - laws Es U F Th LT LA. revert sigs Es U. induction F as [|wb wbs (Hk & Hb & Hl) F IH]; intros sigs Es U.
  - inversion Es; subst. constructor.
  - inversion Es as [|? sig ? sigs' E1 E2]; subst. inversion U as [|? ? ? ? U1 U2]; subst. constructor; [|apply IH; assumption].
    apply unlock_iff in U1 as [_ V2].
    assert (Hin : In (public_key C (wb_pk wb)) (wb_ring wb)).
    { destruct (signer_index C (wb_ring wb) (public_key C (wb_pk wb))) as [j|] eqn:Ej.
      - eapply nth_error_In. eapply signer_index_some; eassumption.
      - exfalso. unfold ring_sign in E1. rewrite Ej in E1. discriminate. }
    destruct (ring_sign_verifies C red zero sadd laws (wb_pk wb) (hash_string (ct_hash ct)) (wb_ring wb) Hk Hin) as (sig' & E1' & Hr & _ & V1).
    assert (sig' = sig) by congruence. subst sig'.
    assert (NE : rs_ring sig <> []) by (rewrite Hr; intro X; rewrite X in Hin; destruct Hin).
    destruct (verify_two_messages C red zero sadd laws sig _ _ NE V1 V2) as [X|X]; [right|left; exact X].
    apply hash_string_inj in X. destruct Hl as (n & keys & cr & Fk & Hl). apply lock_now_iff in Hl as (_ & _ & Hl).
    assert (X' : from_bytes (content_text ct) = from_bytes (lock_text (bl_lock (wb_bill wb)))).
    { rewrite <- Th, X, Hl. reflexivity. }
    apply from_bytes_inj in X' as [X'|X']; [|exact X']. exfalso. apply (f_equal (@length byte)) in X'. rewrite LT in X'.
    unfold lock_text in X'. rewrite Hl in X'. cbn [lk_keys] in X'. rewrite (concat64_length keys Fk) in X'. lia.
Qed.
End Spending.
Lemma fee_whole : forall wfetch additional d f wbs, wfetch (fe_amount f) = Ok wbs -> total_u64 (map wb_bill wbs) = fe_amount f ->
  forall e, fee_expense (C := C) wfetch additional d f <> Ok e.
Proof.
  intros wfetch additional d f wbs W T e E. apply fee_inv in E as (wbs' & remaining & ct & sigs & W' & _ & _ & _ & Ec & _).
  assert (wbs' = wbs) by congruence. subst wbs'. apply content_now_iff in Ec as (l & _ & _ & _ & Hr & _). congruence.
Qed.
Lemma fee_panics : forall wfetch additional d f wbs, wfetch (fe_amount f) = Ok wbs -> (additional <= 0)%Z \/ wbs = [] ->
  fee_expense (C := C) wfetch additional d f = Panic.
Proof.
  intros wfetch additional d f wbs W H. unfold fee_expense. rewrite W. cbn [rbind]. destruct (Z.leb_spec additional 0); [reflexivity|].
  destruct H as [H| ->]; [lia|reflexivity].
Qed.
Lemma ring_keys_all : forall max index keys, (max <= index)%Z -> ring_keys (C := C) max index keys = keys.
Proof.
  intros max index keys. revert index. induction keys as [|k keys IH]; intros index H; [reflexivity|]. cbn [ring_keys].
  destruct (Z.leb_spec (index + 1) max); [lia|]. rewrite IH by lia. reflexivity.
Qed.
Lemma ring_keys_none : forall max keys, (1 <= max)%Z -> ring_keys (C := C) max 0 keys = [].
Proof. intros max [|k keys] H; [reflexivity|]. cbn [ring_keys]. destruct (Z.leb_spec (0 + 1) max); [reflexivity|lia]. Qed.
Lemma change_lost : forall d wbs, wbs <> [] -> (Z.of_nat (length wbs) <= dr_number d)%Z ->
  change_keys (C := C) d wbs = dr_shuffle d [public_key C (dr_key d)].
Proof.
  intros d wbs N H. unfold change_keys.
  assert (Q : (1 <= Z.quot (dr_number d) (Z.of_nat (length wbs)))%Z).
  { assert (0 < length wbs) by (destruct wbs; [congruence|cbn; lia]). apply Z.quot_le_lower_bound; lia. }
  cbn zeta. assert (X : concat (map (fun wb => ring_keys (C := C) (Z.quot (dr_number d) (Z.of_nat (length wbs))) 0 (wb_ring wb)) wbs) = []).
  { generalize dependent (Z.quot (dr_number d) (Z.of_nat (length wbs))). intros q Q. clear N H. induction wbs as [|wb wbs IH]; [reflexivity|].
    cbn [map concat]. rewrite ring_keys_none by exact Q. exact IH. }
  rewrite X. reflexivity.
Qed.
Lemma change_kept : forall d wbs, (0 <= dr_number d < Z.of_nat (length wbs))%Z ->
  change_keys (C := C) d wbs = dr_shuffle d (concat (map wb_ring wbs) ++ [public_key C (dr_key d)]).
Proof.
  intros d wbs H. unfold change_keys. cbn zeta. rewrite Z.quot_small by exact H.
  rewrite (map_ext (fun wb => ring_keys (C := C) 0 0 (wb_ring wb)) wb_ring); [reflexivity|]. intro wb. apply ring_keys_all. lia.
Qed.

Lemma fee_expenses_ok : forall wfetch additional draws fees es, length draws = length fees ->
  fee_expenses (C := C) wfetch additional draws fees = Ok es ->
  Forall2 (fun df e => fee_expense wfetch additional (fst df) (snd df) = Ok e) (combine draws fees) es.
Proof.
  intros wfetch additional draws fees. revert draws. induction fees as [|f fees IH]; intros [|d draws] es Hl E; try discriminate; cbn [fee_expenses] in E.
  - injection E as <-. constructor.
  - apply rbind_Ok in E as (e & Ee & E). apply rbind_Ok in E as (es' & Ees & E). injection E as <-. injection Hl as Hl. cbn [combine].
    constructor; [exact Ee|apply IH; assumption].
Qed.
Lemma bucket_inv : forall (st : istore (C := C)) bfetch wfetch transact additional now draws a path fees s t s',
  bucket_transaction st bfetch wfetch transact additional now draws a path fees s = Ok (t, s') ->
  exists i b es i', iapp_retrieve st a s = Ok i /\ bfetch i path = Ok b /\ fee_expenses (wfetch i) additional draws fees = Ok es /\
    tx_bucket t = Some (ib_hash b) /\ tx_fees t = es /\ tx_address t = None /\ transact t i = Ok i' /\
    is_update st (id_hash i) i' (ia_password a) (ia_password a) s = Ok s'.
Proof.
  intros st bfetch wfetch transact additional now draws a path fees s t s' E. unfold bucket_transaction in E.
  apply rbind_Ok in E as (i & R & E). apply rbind_Ok in E as (b & Eb & E). apply rbind_Ok in E as (es & Ee & E).
  apply rbind_Ok in E as (t' & Et & E). apply rbind_Ok in E as (i' & Ei & E). apply rbind_Ok in E as (s1 & Es & E). injection E as -> ->.
  apply transaction_now_iff in Et as (_ & Et). exists i, b, es, i'. rewrite Et in *. repeat split; assumption.
Qed.

(** ** buckets of an identity *)
Lemma add_inv : forall (st : istore (C := C)) (B : Type) read abs missing key bu_add now later a path (s : is_state st * B) s',
  bucket_add st read abs missing key bu_add now later a path s = Ok s' ->
  exists files b k ib i bs, read path = Ok files /\ bucket_now now files (Some now) = Ok b /\ key = Ok k /\
    ibucket_now abs missing later (Some b) path (Some k) (Some later) = Ok ib /\ iapp_retrieve st a (fst s) = Ok i /\
    bu_add ib (id_buckets i) = Ok bs /\
    is_update st (id_hash i) (with_buckets i bs) (ia_password a) (ia_password a) (fst s) = Ok (fst s') /\ snd s' = snd s.
Proof.
  intros st B read abs missing key bu_add now later a path s s' E. unfold bucket_add in E.
  apply rbind_Ok in E as (files & E1 & E). apply rbind_Ok in E as (b & E2 & E). apply rbind_Ok in E as (k & E3 & E).
  apply rbind_Ok in E as (ib & E4 & E). apply rbind_Ok in E as (i & E5 & E). apply rbind_Ok in E as (bs & E6 & E).
  apply rbind_Ok in E as (s1 & E7 & E). injection E as <-. exists files, b, k, ib, i, bs. repeat split; assumption.
Qed.
Lemma add_stored : forall (st : istore (C := C)) (L : istore_laws st) (B : Type) read abs missing key bu_add now later a path (s : is_state st * B) s',
  bucket_add st read abs missing key bu_add now later a path s = Ok s' ->
  exists ib i bs, built_ibucket ib /\ abs path = Ok (ib_path ib) /\ iapp_retrieve st a (fst s) = Ok i /\ bu_add ib (id_buckets i) = Ok bs /\
    iapp_retrieve st a (fst s') = Ok (with_buckets i bs) /\ snd s' = snd s.
Proof.
  intros st L B read abs missing key bu_add now later a path s s' E.
  apply add_inv in E as (files & b & k & ib & i & bs & _ & _ & _ & Ei & R & Ea & Eu & Es). exists ib, i, bs.
  split; [exists abs, missing, later, (Some b), path, (Some k), (Some later); exact Ei|]. split.
  - unfold ibucket_now in Ei. destruct (bseq path []); [discriminate|]. cbn [negb] in Ei. apply rbind_Ok in Ei as (p & Ep & Ei).
    destruct (missing p); [discriminate|]. cbn [negb] in Ei. rewrite FromBytes_ok in Ei. cbn [rbind] in Ei. rewrite immutable_now_some in Ei. injection Ei as <-. exact Ep.
  - split; [exact R|]. split; [exact Ea|]. split; [|exact Es]. destruct (la_found st L _ _ _ _ _ R) as [N D].
    pose proof (la_update st L _ _ _ _ _ _ Eu) as R'. unfold iapp_retrieve. cbn [with_buckets id_name id_seed] in R'. rewrite N, D in R'. exact R'.
Qed.
Lemma add_hash_stale : forall (st : istore (C := C)) (L : istore_laws st) (B : Type) read abs missing key bu_add now later a path (s : is_state st * B) s' i,
  (forall b bs bs', bu_add b bs = Ok bs' -> bs' = bs ++ [b]) ->
  iapp_retrieve st a (fst s) = Ok i -> id_hash i = from_bytes (identity_text i) ->
  bucket_add st read abs missing key bu_add now later a path s = Ok s' ->
  exists i', iapp_retrieve st a (fst s') = Ok i' /\ id_hash i' = id_hash i /\
    (id_hash i' = from_bytes (identity_text i') -> hash_coincidence (identity_text i) (identity_text i')).
Proof.
  intros st L B read abs missing key bu_add now later a path s s' i A R H E.
  apply (add_stored st L) in E as (ib & i0 & bs & Hb & _ & R0 & Ea & R' & _). assert (i0 = i) by congruence. subst i0.
  apply A in Ea. subst bs. exists (with_buckets i (id_buckets i ++ [ib])). split; [exact R'|]. split; [reflexivity|].
  intro H'. change (id_hash (with_buckets i (id_buckets i ++ [ib]))) with (id_hash i) in H'. rewrite H in H'.
  apply from_bytes_inj in H' as [H'|H']; [|exact H']. exfalso. apply (f_equal (@length byte)) in H'. unfold identity_text in H'.
  cbn [with_buckets id_seed id_name id_root id_wallets id_buckets] in H'. rewrite map_app, concat_app, !app_length in H'. cbn [map concat] in H'.
  rewrite app_nil_r, (ibucket_spec ib Hb), from_bytes_length in H'. lia.
Qed.
Lemma update_hash : forall (st : istore (C := C)) (L : istore_laws st) now1 now2 u a s a' s' i, iapp_retrieve st a s = Ok i -> iapp_update st now1 now2 u a s = Ok (a', s') ->
  exists i', is_retrieve st s' (or_else (up_name u) (ia_name a)) (or_else (up_password u) (ia_password a)) (or_else (up_seed u) (ia_seed a)) = Ok i' /\
    id_hash i' = from_bytes (identity_text i').
Proof.
  intros st L now1 now2 u a s a' s' i R E. unfold iapp_update in E. unfold iapp_retrieve in R. rewrite R in E. cbn [rbind] in E.
  destruct (la_found st L _ _ _ _ _ R) as [N D]. apply rbind_Ok in E as (i' & Ei & E). apply rbind_Ok in E as (s1 & Es & E). injection E as <- <-.
  apply identity_now_spec in Ei as (E1 & E2 & _ & _ & _ & _ & _ & E8). exists i'.
  pose proof (la_update st L _ _ _ _ _ _ Es) as R'. rewrite E1, E2, N, D in R'. split; assumption.
Qed.
Lemma delete_at_spec : forall bu_delete path, (forall b bs bs', bu_delete b bs = Ok bs' -> forall x, In x bs' <-> In x bs /\ x <> b) ->
  forall all bs bs', delete_at bu_delete path all bs = Ok bs' ->
  forall x, In x bs' <-> In x bs /\ ~ (In x all /\ ib_path x = path).
Proof.
  intros bu_delete path D. induction all as [|b all IH]; intros bs bs' E x; cbn [delete_at] in E.
  - injection E as <-. cbn [In]. tauto.
  - destruct (bseq_spec (ib_path b) path) as [P|P].
    + apply rbind_Ok in E as (bs1 & E1 & E). rewrite (IH _ _ E x), (D _ _ _ E1 x). cbn [In]. split.
      * intros [[H1 H2] H3]. split; [exact H1|]. intros [[H|H] H4]; [congruence|]. apply H3. auto.
      * intros [H1 H2]. split; [split; [exact H1|]|].
        -- intros ->. apply H2. auto.
        -- intros [H3 H4]. apply H2. auto.
    + rewrite (IH _ _ E x). cbn [In]. split; intros [H1 H2]; (split; [exact H1|]).
      * intros [[H|H] H4]; [congruence|]. apply H2. auto.
      * intros [H3 H4]. apply H2. auto.
Qed.
Lemma bucket_deleted : forall (st : istore (C := C)) (L : istore_laws st) bu_delete a path s s',
  (forall b bs bs', bu_delete b bs = Ok bs' -> forall x, In x bs' <-> In x bs /\ x <> b) ->
  bucket_delete st bu_delete a path s = Ok s' ->
  exists i i', iapp_retrieve st a s = Ok i /\ iapp_retrieve st a s' = Ok i' /\ id_wallets i' = id_wallets i /\
    forall x, In x (id_buckets i') <-> In x (id_buckets i) /\ ib_path x <> path.
Proof.
  intros st L bu_delete a path s s' D E. unfold bucket_delete in E. apply rbind_Ok in E as (i & R & E). apply rbind_Ok in E as (bs & Ed & E).
  destruct (la_found st L _ _ _ _ _ R) as [N S]. exists i, (with_buckets i bs). split; [exact R|].
  pose proof (la_update st L _ _ _ _ _ _ E) as R'. cbn [with_buckets id_name id_seed] in R'. rewrite N, S in R'. split; [exact R'|]. split; [reflexivity|].
  intro x. cbn [with_buckets id_buckets]. rewrite (delete_at_spec _ _ D _ _ _ Ed x). tauto.
Qed.
Lemma bucket_no_fees : forall (st : istore (C := C)) bfetch wfetch transact additional now a path s i b i' s',
  iapp_retrieve st a s = Ok i -> bfetch i path = Ok b ->
  transact (Transaction (Immutable (from_bytes (ib_hash b)) now) None (Some (ib_hash b)) []) i = Ok i' ->
  is_update st (id_hash i) i' (ia_password a) (ia_password a) s = Ok s' ->
  bucket_transaction st bfetch wfetch transact additional now [] a path [] s =
    Ok (Transaction (Immutable (from_bytes (ib_hash b)) now) None (Some (ib_hash b)) [], s').
Proof.
  intros st bfetch wfetch transact additional now a path s i b i' s' R B T U. unfold bucket_transaction. unfold iapp_retrieve in R.
  rewrite R. cbn [rbind]. rewrite B. cbn [rbind fee_expenses].
  assert (X : transaction_now now None (Some (ib_hash b)) [] (Some now) = Ok (Transaction (Immutable (from_bytes (ib_hash b)) now) None (Some (ib_hash b)) [])).
  { apply transaction_now_iff. split; [right; left; discriminate|]. unfold from_multi. cbn [opt_list map app concat]. rewrite app_nil_r. reflexivity. }
  rewrite X. cbn [rbind]. rewrite T. cbn [rbind]. rewrite U. reflexivity.
Qed.
Lemma bucket_path : forall (st : istore (C := C)) bfetch wfetch transact additional now draws a path fees s t s',
  (forall i p b, bfetch i p = Ok b -> built_ibucket b /\ ib_path b = p) ->
  bucket_transaction st bfetch wfetch transact additional now draws a path fees s = Ok (t, s') ->
  tx_bucket t = Some (from_bytes path).
Proof.
  intros st bfetch wfetch transact additional now draws a path fees s t s' F E.
  apply bucket_inv in E as (i & b & es & i' & _ & B & _ & T & _). destruct (F _ _ _ B) as [Hb P]. rewrite T, (ibucket_spec b Hb), P. reflexivity.
Qed.
End WithCurve.
