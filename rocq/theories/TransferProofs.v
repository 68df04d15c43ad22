From Coq Require Import Lia ZifyBool ZifyNat ZifyN.
From Verif Require Import Base BaseFacts HashModel HashProofs HashTreeModel HashTreeProofs SignModel EntitiesModel FloatModel
  PiastresModel PiastresSpec PiastresProofs JsonModel JsonProofs TimeModel FloatText MemJsonModel CodecProofs MemSpec
  MemJsonProofs TransferModel.

(** ** fields *)
Definition anything {A} (a : A) : Prop := True.
Lemma fc_time : fcodec anything jtime dtime.
Proof. exact (codec_fcodec _ _ _ _ time_codec). Qed.
Lemma fc_float : fcodec anything jfloat dfloat.
Proof. exact (codec_fcodec _ _ _ _ float_codec). Qed.
Lemma fc_uint : fcodec u64_ok juint duint.
Proof. exact (codec_fcodec _ _ _ _ uint_codec). Qed.
Lemma fc_str : fcodec unicode jstr dstr.
Proof. exact (codec_fcodec _ _ _ _ str_codec). Qed.
Lemma fc_hash : fcodec hash64 jhash dhash.
Proof.
  intros h j H E. injection E as <-. split; [|constructor; apply hash_string_unicode].
  unfold dhash, dstr. cbn [dlast str_value rbind]. apply FromString_hash_string. exact H.
Qed.
Definition ohash64 (o : option hash) : Prop := forall h, o = Some h -> hash64 h.
Lemma hash_string_nonnil : forall h, hash64 h -> hash_string h <> [].
Proof. intros h H E. apply (f_equal (@length byte)) in E. unfold hash_string in E. rewrite hex_encode_length in E. unfold hash64 in H. cbn in E. lia. Qed.
Lemma opt_of_opt_hash_string : forall o, ohash64 o -> opt_of_string (opt_hash_string o) = Ok o.
Proof.
  intros [h|] H; [|reflexivity]. cbn [opt_hash_string]. pose proof (H h eq_refl) as L. pose proof (hash_string_nonnil h L).
  unfold opt_of_string. destruct (hash_string h) eqn:E; [congruence|]. rewrite <- E, FromString_hash_string by exact L. reflexivity.
Qed.
Lemma fc_ohash : fcodec ohash64 johash dohash.
Proof.
  intros o j H E. injection E as <-. split.
  - unfold dohash, dstr. cbn [dlast str_value rbind]. apply opt_of_opt_hash_string. exact H.
  - constructor. destruct o; [apply hash_string_unicode|apply ascii_unicode; constructor].
Qed.
(** the list of strings, then the conversions *)
Lemma converted_codec : forall A (P : A -> Prop) (to : A -> bytes) (of : bytes -> res A), (forall a, P a -> of (to a) = Ok a /\ unicode (to a)) ->
  fcodec (Forall P) (jlist (fun a => jstr (to a))) (fun js => let! ss := dlist dstr js in rmapM of ss).
Proof.
  intros A P to of R l j Hl E.
  assert (E' : jlist jstr (map to l) = Ok j).
  { unfold jlist in *. apply rbind_Ok in E as (js & E & Ej). replace (rmapM jstr (map to l)) with (Ok js); [exact Ej|].
    symmetry. rewrite <- E. clear. induction l as [|a l IH]; [reflexivity|]. cbn [map rmapM jstr rbind]. rewrite IH. reflexivity. }
  apply (list_codec _ _ _ _ (codec_fcodec _ _ _ _ str_codec)) in E' as (D & L & _); [|apply Forall_map; eapply Forall_impl; [|exact Hl]; intros a Ha; apply (R a Ha)].
  split; [|exact L]. rewrite D. cbn [rbind]. clear - R Hl. induction Hl as [|a l Ha Hl IH]; [reflexivity|]. cbn [map rmapM]. rewrite (proj1 (R a Ha)). cbn [rbind]. rewrite IH. reflexivity.
Qed.
Lemma fc_hashes : fcodec (Forall hash64) (jlist jhash) dhashes.
Proof. apply converted_codec. intros h H. split; [exact (FromString_hash_string h H)|exact (hash_string_unicode h)]. Qed.

Ltac facts :=
  repeat match goal with
  | H : ?e ?a = Ok ?j, K : fcodec ?P ?e ?d |- _ =>
      let D := fresh "D" in assert (D : P a) by (first [exact I|assumption]);
      apply (K a j D) in H; clear D; destruct H
  end.
Ltac use_codecs :=
  pose proof fc_time; pose proof fc_float; pose proof fc_uint; pose proof fc_str; pose proof fc_hash;
  pose proof fc_ohash; pose proof fc_hashes.
Ltac tcodec E :=
  use_codecs; apply jstruct_Ok in E as (m & -> & E); jmembers; cbn -[s2b hash64 u64_ok unicode] in *; facts;
  split; [|split; [plain_members|discriminate]].
Ltac tdecode := unfold field; cbn [dstruct rbind]; rewrite ?app_nil_r; jfields; decode_members.

Definition w_tlock (t : tlock) : Prop := hash64 (im_hash (tl_im t)) /\ Forall hash64 (tl_keys t).
Lemma tlock_codec : codec w_tlock e_tlock d_tlock.
Proof. intros [[h c] keys] j (H1 & H2) E. unfold e_tlock in E. tcodec E. unfold d_tlock. tdecode. reflexivity. Qed.
Definition w_tbill (t : tbill) : Prop :=
  hash64 (im_hash (tb_im t)) /\ hash64 (tb_lock t) /\ u64_ok (tb_amount t) /\ tb_amount t <> 0%N.
Lemma tbill_codec : codec w_tbill e_tbill d_tbill.
Proof.
  intros [[h c] lk a] j (H1 & H2 & H3 & H4) E. unfold e_tbill in E. cbn [tb_amount] in H4. tcodec E. unfold d_tbill. tdecode.
  unfold tbill_now. destruct (N.eqb_spec a 0); [congruence|reflexivity].
Qed.
Definition w_tgenesis (t : tgenesis) : Prop :=
  hash64 (im_hash (tg_im t)) /\ hash64 (tg_bill t) /\ u64_ok (tg_base t) /\ u64_ok (tg_link t) /\
  tg_base t <> 0%N /\ f_le_zero (tg_increase t) = false /\ tg_link t <> 0%N.
Lemma tgenesis_codec : codec w_tgenesis e_tgenesis d_tgenesis.
Proof.
  intros [[h c] b base inc l] j (H1 & H2 & H3 & H4 & H5 & H6 & H7) E. unfold e_tgenesis in E.
  cbn [tg_base tg_increase tg_link] in H5, H6, H7. tcodec E. unfold d_tgenesis. tdecode.
  unfold tgenesis_now. rewrite H6. destruct (N.eqb_spec base 0); [congruence|]. destruct (N.eqb_spec l 0); [congruence|reflexivity].
Qed.
Definition w_ttrx (t : ttrx) : Prop :=
  hash64 (im_hash (tt_im t)) /\ ohash64 (tt_address t) /\ ohash64 (tt_bucket t) /\ Forall hash64 (tt_fees t) /\
  (tt_address t <> None \/ tt_bucket t <> None \/ tt_fees t <> []).
Lemma ttrx_now_ok : forall h a b f c, a <> None \/ b <> None \/ f <> [] -> ttrx_now h a b f c = Ok (TTrx (Immutable h c) a b f).
Proof. intros h [a|] [b|] [|f fs] c H; try reflexivity. destruct H as [H|[H|H]]; congruence. Qed.
Lemma ttrx_codec : codec w_ttrx e_ttrx d_ttrx.
Proof.
  intros [[h c] a b f] j (H1 & H2 & H3 & H4 & H5) E. unfold e_ttrx in E. cbn [tt_address tt_bucket tt_fees] in H5.
  tcodec E. unfold d_ttrx. tdecode. apply ttrx_now_ok. exact H5.
Qed.
Definition w_tmblock (t : tmblock) : Prop := hash64 (im_hash (tm_im t)) /\ hash64 (tm_block t) /\ unicode (tm_mining t).
Lemma tmblock_codec : codec w_tmblock e_tmblock d_tmblock.
Proof. intros [[h c] b mi] j (H1 & H2 & H3) E. unfold e_tmblock in E. tcodec E. unfold d_tmblock. tdecode. reflexivity. Qed.
Definition w_tlink (t : tlink) : Prop :=
  hash64 (im_hash (ti_im t)) /\ hash64 (ti_prev t) /\ hash64 (ti_next t) /\ u64_ok (ti_index t).
Lemma tlink_codec : codec w_tlink e_tlink d_tlink.
Proof. intros [[h c] p n i] j (H1 & H2 & H3 & H4) E. unfold e_tlink in E. tcodec E. unfold d_tlink. tdecode. reflexivity. Qed.
Definition w_tmlink (t : tmlink) : Prop := hash64 (im_hash (tn_im t)) /\ hash64 (tn_link t) /\ unicode (tn_mining t).
Lemma tmlink_codec : codec w_tmlink e_tmlink d_tmlink.
Proof. intros [[h c] b mi] j (H1 & H2 & H3) E. unfold e_tmlink in E. tcodec E. unfold d_tmlink. tdecode. reflexivity. Qed.
Definition w_tchain (t : tchain) : Prop :=
  hash64 (im_hash (tc_im t)) /\ hash64 (tc_genesis t) /\ hash64 (tc_root t) /\ hash64 (tc_head t) /\
  u64_ok (tc_total t) /\ tc_total t <> 0%N.
Lemma tchain_codec : codec w_tchain e_tchain d_tchain.
Proof.
  intros [[h c] g r hd t] j (H1 & H2 & H3 & H4 & H5 & H6) E. unfold e_tchain in E. cbn [tc_total] in H6. tcodec E.
  unfold d_tchain. tdecode. unfold tchain_now. destruct (N.eqb_spec t 0); [congruence|reflexivity].
Qed.

(** ** hash trees *)
Lemma fc_flat_leaf : fcodec (fun x => exists h, x = json_of_leaf (LLeaf h)) e_jleaf (fun js => d_jleaf (S (jdepths js)) js).
Proof.
  intros x j [h ->] E. cbn [json_of_leaf e_jleaf e_jnode] in E. injection E as <-. split.
  - cbn [d_jleaf]. unfold dptr. cbn [dpoints app dstruct rbind]. unfold field. rewrite ?app_nil_r. jfields. reflexivity.
  - constructor.
    + repeat constructor; apply unicode_dec; vm_compute; reflexivity.
    + repeat constructor. apply hash_string_unicode.
Qed.
Lemma jcompact_codec : forall data t, hashtree_of_blocks data = Ok t ->
  codec (eq (jcompact_of_tree t)) e_jcompact d_jcompact.
Proof.
  intros data t Ht x j <- E. unfold e_jcompact in E. use_codecs. 
  pose proof (codec_fcodec _ _ _ _ (list_codec _ _ _ _ fc_flat_leaf)) as KL.
  assert (F1 : unicode (jc_head (jcompact_of_tree t))) by (apply hash_string_unicode).
  assert (F2 : Forall (fun x => exists h, x = json_of_leaf (LLeaf h)) (jc_leaves (jcompact_of_tree t))).
  { unfold jcompact_of_tree, json_of_compact, ht_compact. cbn [c_leaves jc_leaves]. apply Forall_map.
    destruct data as [|a data]; [discriminate|]. destruct (build_tree (a :: data)) as (t' & k & Ht' & _ & _ & F & _); [discriminate|].
    assert (t' = t) by congruence. subst t'. eapply Forall_impl; [|exact F]. intros l [h ->]. exists h. reflexivity. }
  remember (jcompact_of_tree t) as x eqn:Ex. clear Ex. destruct x as [hd ls]. cbn [jc_head jc_leaves] in *.
  apply jstruct_Ok in E as (m & -> & E). jmembers. facts. split; [|split; [plain_members|discriminate]].
  unfold d_jcompact. tdecode. reflexivity.
Qed.
Lemma tree_back : forall data t, hashtree_of_blocks data = Ok t -> tree_of_jcompact (Some (jcompact_of_tree t)) = Ok t.
Proof.
  intros data t H. unfold tree_of_jcompact, jcompact_of_tree. rewrite (built_compact_json data t H). cbn [rbind].
  exact (compact_rebuild data t H).
Qed.
Definition w_tblock (t : tblock) : Prop :=
  hash64 (im_hash (tk_im t)) /\ (exists data, hashtree_of_blocks data = Ok (tk_trx t)) /\
  u64_ok (tk_amount t) /\ u64_ok (tk_additional t) /\ tk_amount t <> 0%N.
Lemma tblock_codec : codec w_tblock e_tblock d_tblock.
Proof.
  intros [[h c] t a ad] j (H1 & (data & H2) & H3 & H4 & H5) E. unfold e_tblock in E. cbn [tk_amount tk_trx] in *.
  pose proof (jcompact_codec data t H2) as KC.
  use_codecs. apply jstruct_Ok in E as (m & -> & E). jmembers. cbn [im_hash im_created tk_im tk_trx tk_amount tk_additional] in *.
  match goal with H : e_jcompact _ = Ok ?j |- _ => apply (KC _ j eq_refl) in H as (KC1 & KC2 & KC3) end.
  unfold jhash in *. assert (A : unicode (hash_string h)) by apply hash_string_unicode. facts.
  split; [|split; [plain_members|discriminate]].
  unfold d_tblock. unfold field; cbn [dstruct rbind]. rewrite ?app_nil_r. jfields. decode_members.
  match goal with |- context [dptr d_jcompact [?j]] => assert (X : dptr d_jcompact [j] = Ok (Some (jcompact_of_tree t)))
    by (unfold dptr; destruct j; try congruence; cbn [dpoints app]; rewrite KC1; reflexivity) end.
  rewrite X. cbn [rbind]. decode_members. rewrite FromString_hash_string by exact H1. cbn [rbind].
  rewrite (tree_back data t H2). cbn [rbind]. unfold tblock_now. destruct (N.eqb_spec a 0); [congruence|reflexivity].
Qed.

(** the nesting of the document is enough fuel *)
Lemma jdepths_in : forall js j, In j js -> jdepth j <= jdepths js.
Proof. intros js j H. unfold jdepths. induction js as [|a js IH]; [contradiction|]. cbn [map fold_right]. destruct H as [->|H]; [lia|]. specialize (IH H). lia. Qed.
Lemma jdepths_le : forall js n, (forall j, In j js -> jdepth j <= n) -> jdepths js <= n.
Proof. intros js n H. unfold jdepths. induction js as [|a js IH]; [cbn; lia|]. cbn [map fold_right]. pose proof (H a (or_introl eq_refl)). assert (jdepths js <= n) by (apply IH; intros; apply H; right; assumption). unfold jdepths in *. lia. Qed.
Lemma dstruct_members : forall js m k j, dstruct js = Ok m -> In (k, j) m -> jdepth j < jdepths js.
Proof.
  induction js as [|x js IH]; intros m k j E H; [injection E as <-; contradiction|].
  pose proof (jdepths_in (x :: js) x (or_introl eq_refl)) as L. assert (L' : jdepths js <= jdepths (x :: js)) by (unfold jdepths; cbn [map fold_right]; lia).
  destruct x as [| | | | | |m0]; cbn [dstruct] in E; try discriminate E.
  - pose proof (IH m k j E H). lia.
  - apply rbind_Ok in E as (m' & E & X). injection X as <-. apply in_app_iff in H as [H|H]; [|pose proof (IH m' k j E H); lia].
    cbn [jdepth] in L. assert (G : jdepth j <= fold_right Nat.max 0 (map (fun p => jdepth (snd p)) m0)).
    { clear - H. induction m0 as [|[a b] m IH]; [contradiction|]. cbn [map fold_right snd]. destruct H as [E|H]; [injection E as <- <-; lia|]. specialize (IH H). lia. }
    lia.
Qed.
Lemma jfield_depth : forall js m n, dstruct js = Ok m -> jfield n m <> [] -> jdepths (jfield n m) < jdepths js.
Proof.
  intros js m n E N. assert (G : forall j, In j (jfield n m) -> jdepth j < jdepths js).
  { intros j H. unfold jfield in H. apply in_map_iff in H as ([k j'] & <- & H). apply filter_In in H as [H _]. exact (dstruct_members js m k j' E H). }
  assert (P : jdepths (jfield n m) <= jdepths js - 1) by (apply jdepths_le; intros j H; specialize (G j H); lia).
  destruct (jfield n m) as [|j l]; [congruence|]. pose proof (G j (or_introl eq_refl)). lia.
Qed.
Lemma dpoints_same : forall A (d d' : list json -> res A) js seg, (forall s, s <> [] -> incl s (seg ++ js) -> d s = d' s) -> dpoints d seg js = dpoints d' seg js.
Proof.
  intros A d d'. induction js as [|j js IH]; intros seg H.
  - cbn [dpoints]. destruct seg; [reflexivity|]. rewrite H; [reflexivity|discriminate|rewrite app_nil_r; apply incl_refl].
  - assert (S : seg <> [] -> d seg = d' seg) by (intro N; apply H; [exact N|apply incl_appl, incl_refl]).
    assert (T : dpoints d (seg ++ [j]) js = dpoints d' (seg ++ [j]) js) by (apply IH; intros s N I; apply H; [exact N|rewrite <- app_assoc in I; exact I]).
    assert (U : dpoints d [] js = dpoints d' [] js) by (apply IH; intros s N I; apply H; [exact N|intros x X; apply in_or_app; right; right; apply I; exact X]).
    destruct j; cbn [dpoints]; try exact T. destruct seg as [|x seg]; [exact U|]. rewrite S by discriminate. rewrite U. reflexivity.
Qed.
Lemma d_jleaf_fuel : forall f js, jdepths js < f -> d_jleaf f js = d_jleaf (S (jdepths js)) js.
Proof.
  assert (G : forall f1 f2 js, jdepths js < f1 -> jdepths js < f2 -> d_jleaf f1 js = d_jleaf f2 js).
  { induction f1 as [|f1 IH]; intros f2 js H1 H2; [lia|]. destruct f2 as [|f2]; [lia|]. cbn [d_jleaf]. f_equal. unfold dptr at 1 3.
    apply dpoints_same. intros s _ I. cbn [app] in I. assert (Ls : jdepths s <= jdepths js) by (apply jdepths_le; intros j Hj; apply jdepths_in, I, Hj).
    destruct (dstruct s) as [m| |] eqn:Em; try reflexivity. cbn [rbind]. destruct (field "head" dstr m) as [hd| |]; try reflexivity. cbn [rbind]. f_equal.
    unfold field, dptr. apply dpoints_same. intros s' N I'. cbn [app] in I'.
    assert (Ls' : jdepths s' < jdepths s).
    { assert (X : jfield (s2b "node") m <> []) by (destruct s' as [|x s']; [congruence|]; intro Q; rewrite Q in I'; apply (I' x); left; reflexivity).
      pose proof (jfield_depth s m (s2b "node") Em X) as L. assert (jdepths s' <= jdepths (jfield (s2b "node") m)) by (apply jdepths_le; intros j Hj; apply jdepths_in, I', Hj). lia. }
    destruct (dstruct s') as [m'| |] eqn:Em'; try reflexivity. cbn [rbind].
    assert (K : forall n, d_jleaf f1 (jfield n m') = d_jleaf f2 (jfield n m')).
    { intro n. destruct (jfield n m') as [|x y] eqn:Ex; [apply IH; unfold jdepths; cbn; lia|]. rewrite <- Ex. pose proof (jfield_depth s' m' n Em') as L.
      apply IH; (assert (jfield n m' <> []) by congruence; specialize (L H); lia). }
    rewrite !K. reflexivity. }
  intros f js H. apply G; lia.
Qed.

(** ** expenses *)
Section WithCurve.
Context {C : Curve}.
Lemma fc_sigs : fcodec (Forall readable) (jlist (@jsig C)) dsigs.
Proof. apply converted_codec. intros s H. split; [exact H|exact (ring_string_unicode s)]. Qed.
Definition w_texpense (t : texpense C) : Prop :=
  hash64 (im_hash (te_im t)) /\ Forall hash64 (te_from t) /\ hash64 (te_to t) /\ Forall readable (te_sigs t) /\
  ohash64 (te_remaining t) /\ te_from t <> [] /\ te_sigs t <> [].
Lemma texpense_codec : codec w_texpense e_texpense d_texpense.
Proof.
  intros [[h c] from to sigs rem] j (H1 & H2 & H3 & H4 & H5 & H6 & H7) E. unfold e_texpense in E.
  pose proof fc_sigs. cbn [te_from te_sigs] in H6, H7. tcodec E.
  unfold d_texpense. tdecode. unfold texpense_now. destruct from; [congruence|]. destruct sigs; [congruence|]. reflexivity.
Qed.
End WithCurve.

(** ** texts *)
Lemma jstruct_obj : forall l j, jstruct l = Ok j -> exists m, j = JObj m.
Proof. intros l j H. apply jstruct_Ok in H as (m & -> & _). eauto. Qed.
(** a written document is read back, a torn one is not read at all *)
Lemma marshal_torn : forall A P (e : A -> res json) d x s k, codec P e d ->
  (forall x j, e x = Ok j -> exists m, j = JObj m) -> P x -> marshal e x = Ok s ->
  k < length s -> unmarshal d (firstn k s) = Err.
Proof.
  intros A P e d x s k K O Px M L. unfold marshal in M. apply rbind_Ok in M as (j & E & M). injection M as <-.
  destruct (K x j Px E) as (_ & PL & _). destruct (O x j E) as [m ->].
  unfold unmarshal. rewrite (torn_object m (firstn k (jprint (JObj m))) (skipn k (jprint (JObj m)))).
  - reflexivity.
  - exact PL.
  - symmetry. apply firstn_skipn.
  - intro X. apply (f_equal (@length byte)) in X. rewrite skipn_length in X. cbn [length] in X. lia.
Qed.
