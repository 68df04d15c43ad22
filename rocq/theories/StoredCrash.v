From Coq Require Import Lia ZifyBool ZifyNat ZifyN SpecFloat.
From Verif Require Import Base BaseFacts Sha512 HashModel HashProofs HashTreeModel HashTreeProofs SignModel EntitiesModel FloatModel PiastresModel
  JsonModel FloatText TimeModel MemJsonModel MemJsonProofs TransferModel MemberSpec MemberProofs GrammarSpec GrammarProofs CalendarSpec DocumentSpec
  DocumentProofs TransferProofs StoredSpec StoredProofs.

Lemma rbind_Panic : forall A B (r : res A) (f : A -> res B), rbind r f = Panic <-> r = Panic \/ exists a, r = Ok a /\ f a = Panic.
Proof.
  intros A B [a| |] f; cbn [rbind]; split; try (intros [H|(b & H & K)]; congruence); try discriminate; auto.
  intro H. right. eauto.
Qed.
Lemma rmapM_Panic : forall A B (f : A -> res B) l, rmapM f l = Panic <->
  exists pre y post ls, l = pre ++ y :: post /\ rmapM f pre = Ok ls /\ f y = Panic.
Proof.
  intros A B f l. split.
  - induction l as [|x l IH]; [discriminate|]. cbn [rmapM]. intro H. apply rbind_Panic in H as [H|(a & E & H)].
    + exists [], x, l, []. auto.
    + apply rbind_Panic in H as [H|(b & _ & H)]; [|discriminate H]. destruct (IH H) as (pre & y & post & ls & -> & R & P).
      exists (x :: pre), y, post, (a :: ls). split; [reflexivity|]. split; [|exact P]. cbn [rmapM]. rewrite E. cbn [rbind]. rewrite R. reflexivity.
  - intros (pre & y & post & ls & -> & R & P). revert ls R. induction pre as [|x pre IH]; intros ls R; cbn [app rmapM] in *; [rewrite P; reflexivity|].
    apply rbind_Ok in R as (a & E & R). apply rbind_Ok in R as (b & E2 & R). rewrite E. cbn [rbind]. rewrite (IH b E2). reflexivity.
Qed.
Lemma from_text_iff : forall s h, from_string s = Ok h <-> hash_text s h.
Proof. intros s h. rewrite <- FromString_from_string. apply hash_text_iff. Qed.
Lemma leaf_crash_iff : forall j, leaf_of_json j = Panic <-> leaf_crash j.
Proof.
  fix IH 1. intros [|s [|l r]]; cbn [leaf_of_json].
  - split; [constructor|reflexivity].
  - rewrite rbind_Panic. split; [intros [H|(h & _ & H)]; [destruct (from_string_no_panic s H)|discriminate H]|intro H; inversion H].
  - rewrite rbind_Panic. split.
    + intros [H|(h & E & H)]; [destruct (from_string_no_panic s H)|]. apply from_text_iff in E.
      apply rbind_Panic in H as [H|(l' & El & H)]; [apply IH in H; eapply crash_left; eassumption|].
      apply rbind_Panic in H as [H|(r' & Er & H)]; [|discriminate H]. apply IH in H. apply leaf_means_iff in El. eapply crash_right; eassumption.
    + intro H. right. inversion H as [|? h ? ? E Hl|? h ? l' ? E El Hr]; subst; apply from_text_iff in E; exists h; (split; [exact E|]).
      * apply IH in Hl. rewrite Hl. reflexivity.
      * apply IH in Hr. apply leaf_means_iff in El. rewrite El. cbn [rbind]. rewrite Hr. reflexivity.
Qed.
Lemma d_jleaf_no_panic : forall f js, d_jleaf f js <> Panic.
Proof.
  induction f as [|f IH]; intro js; [discriminate|]. rewrite d_jleaf_step. apply rbind_no_panic; [|discriminate].
  apply dptr_no_panic. intro s. unfold head_d, node_d, field. apply rbind_no_panic; [apply dstruct_no_panic|]. intros m _.
  apply rbind_no_panic; [apply dstr_no_panic|]. intros h _. apply rbind_no_panic; [|discriminate]. apply dptr_no_panic. intro s'. unfold pair_d, field.
  apply rbind_no_panic; [apply dstruct_no_panic|]. intros m' _. apply rbind_no_panic; [apply IH|]. intros l _. apply rbind_no_panic; [apply IH|discriminate].
Qed.
Lemma d_jcompact_no_panic : forall js, d_jcompact js <> Panic.
Proof.
  intro js. unfold d_jcompact, field. apply rbind_no_panic; [apply dstruct_no_panic|]. intros m _. apply rbind_no_panic; [apply dstr_no_panic|]. intros h _.
  apply rbind_no_panic; [|discriminate]. apply dlist_no_panic. intro. apply d_jleaf_no_panic.
Qed.
Lemma tree_crash_iff : forall vs, (exists o, dptr d_jcompact vs = Ok o /\ tree_of_jcompact o = Panic) <-> tree_crash vs tt.
Proof.
  intro vs. unfold tree_crash. split.
  - intros (o & E & H). apply (ptr_decodes _ _ _ compact_decodes) in E. destruct o as [x|]; [right|left; exact E].
    cbn [tree_of_jcompact] in H. apply rbind_Panic in H as [H|(c & Ec & H)].
    + unfold compact_of_json in H. apply rbind_Panic in H as [H|(h & Eh & H)]; [destruct (from_string_no_panic _ H)|].
      exists x, h. split; [exact E|]. split; [apply from_text_iff; exact Eh|]. left.
      apply rbind_Panic in H as [H|(ls & _ & H)]; [|discriminate H]. apply rmapM_Panic in H as (pre & y & post & ls & Ex & R & P).
      exists pre, y, post, ls. split; [exact Ex|]. split; [apply (Forall2_same _ _ _ _ leaf_means_iff); exact R|apply leaf_crash_iff; exact P].
    + unfold compact_of_json in Ec. apply rbind_Ok in Ec as (h & Eh & Ec). apply rbind_Ok in Ec as (ls & El & Ec). injection Ec as <-. cbn [c_leaves] in H.
      exists x, h. split; [exact E|]. split; [apply from_text_iff; exact Eh|]. right. exists ls.
      split; [apply (Forall2_same _ _ _ _ leaf_means_iff); exact El|apply rebuild_panics; exact H].
  - intros [E|(x & h & E & Eh & H)]; apply (ptr_decodes _ _ _ compact_decodes) in E; [exists None; auto|]. exists (Some x). split; [exact E|].
    cbn [tree_of_jcompact]. unfold compact_of_json. apply from_text_iff in Eh. rewrite Eh. cbn [rbind].
    destruct H as [(pre & y & post & ls & Ex & R & P)|(ls & R & P)].
    + assert (X : rmapM leaf_of_json (jc_leaves x) = Panic).
      { apply rmapM_Panic. exists pre, y, post, ls. split; [exact Ex|]. split; [apply (Forall2_same _ _ _ _ leaf_means_iff); exact R|apply leaf_crash_iff; exact P]. }
      rewrite X. reflexivity.
    + apply (Forall2_same _ _ _ _ leaf_means_iff) in R. rewrite R. cbn [rbind c_leaves]. apply rebuild_panics. exact P.
Qed.

(** ** Documents *)
Lemma dhash_no_panic : forall js, dhash js <> Panic.
Proof. intro js. apply rbind_no_panic; [apply dstr_no_panic|intros; apply FromString_no_panic]. Qed.
Lemma dhashes_no_panic : forall js, dhashes js <> Panic.
Proof. intro js. apply rbind_no_panic; [apply dlist_no_panic, dstr_no_panic|intros; apply rmapM_no_panic; intros; apply FromString_no_panic]. Qed.
Lemma dohash_no_panic : forall js, dohash js <> Panic.
Proof. intro js. apply rbind_no_panic; [apply dstr_no_panic|intros; apply opt_of_string_no_panic]. Qed.
Lemma dsigs_no_panic : forall (C : Curve) js, dsigs (C := C) js <> Panic.
Proof. intros C js. apply rbind_no_panic; [apply dlist_no_panic, dstr_no_panic|intros; apply rmapM_no_panic; intros; apply ring_of_string_no_panic]. Qed.
Ltac no_panic := repeat (apply rbind_no_panic;
  [unfold field; first [apply dstruct_no_panic|apply dhash_no_panic|apply dhashes_no_panic|apply dohash_no_panic|apply dsigs_no_panic|apply dstr_no_panic
    |apply duint_no_panic|apply dtime_no_panic|apply dfloat_no_panic]|intros ? _]).
Lemma stored_no_panic : forall js, d_tlock js <> Panic /\ d_tbill js <> Panic /\ d_tgenesis js <> Panic /\ d_ttrx js <> Panic /\ d_tmblock js <> Panic /\
  d_tlink js <> Panic /\ d_tmlink js <> Panic /\ d_tchain js <> Panic /\ forall C : Curve, @d_texpense C js <> Panic.
Proof.
  intro js. repeat match goal with |- _ /\ _ => split end; [..|intro C];
    unfold d_tlock, d_tbill, d_tgenesis, d_ttrx, d_tmblock, d_tlink, d_tmlink, d_tchain, d_texpense; no_panic;
    unfold tlock_now, tbill_now, tgenesis_now, ttrx_now, tmblock_now, tlink_now, tmlink_now, tchain_now, texpense_now;
    repeat match goal with |- (if ?b then _ else _) <> _ => destruct b | |- (match ?b with _ => _ end) <> _ => destruct b end; discriminate.
Qed.
Ltac peel H a E := apply rbind_Panic in H as [H|(a & E & H)];
  [exfalso; unfold field in H; revert H; first [apply dstruct_no_panic|apply dstr_no_panic|apply duint_no_panic|apply dtime_no_panic|apply FromString_no_panic
     |apply dptr_no_panic; exact d_jcompact_no_panic]|].
Lemma tree_member : forall m, (exists o, field "transactions" (dptr d_jcompact) m = Ok o /\ tree_of_jcompact o = Panic) <-> member tree_crash "transactions" m tt.
Proof.
  intro m. unfold member, field. rewrite tree_crash_iff. assert (F : Forall (fun c => b2n c < 128)%N (s2b "transactions")).
  { apply Forall_forall. intros c I. assert (B : ascii "transactions" = true) by reflexivity. unfold ascii in B. rewrite forallb_forall in B. specialize (B c I). lia. }
  split; [intro H; eexists; split; [apply values_iff; [exact F|reflexivity]|exact H]|].
  intros (vs & V & H). apply values_iff in V; [|exact F]. subst vs. exact H.
Qed.
Lemma hash_member : forall n m h, ascii n = true -> (exists s, field n dstr m = Ok s /\ FromString s = Ok h) <-> member hash_of n m h.
Proof.
  intros n m h A. rewrite <- (field_iff _ _ _ n m h hash_decodes A). unfold field, dhash. split.
  - intros (s & E & H). rewrite E. exact H.
  - intro H. apply rbind_Ok in H as (s & E & H). eauto.
Qed.
Lemma tblock_crash : forall js, d_tblock js = Panic <-> block_crash js.
Proof.
  intro js. unfold block_crash, says_entity. split.
  - intro H. unfold d_tblock in H. peel H m Em. peel H hs E1. peel H o E2. peel H n E3. peel H ad E4. peel H c E5. peel H h Eh.
    apply rbind_Panic in H as [H|(t & _ & H)]; [|unfold tblock_now in H; destruct (_ =? _)%N; discriminate H].
    exists m, (Immutable h c), n, ad. split; [apply dstruct_iff; exact Em|]. cbn [im_hash im_created]. split; [split|split; [|split]].
    + apply hash_member; [reflexivity|]. eauto.
    + revert E5. apply field_iff; [exact time_decodes|reflexivity].
    + apply tree_member. eauto.
    + revert E3. apply field_iff; [exact uint_decodes|reflexivity].
    + revert E4. apply field_iff; [exact uint_decodes|reflexivity].
  - intros (m & [h c] & n & a & Em & [Hh Hc] & Ht & Hn & Ha). cbn [im_hash im_created] in *. apply hash_member in Hh as (hs & E1 & Eh); [|reflexivity].
    apply tree_member in Ht as (o & E2 & Et). apply (field_iff _ _ _ "amount" m _ uint_decodes eq_refl) in Hn.
    apply (field_iff _ _ _ "additional" m _ uint_decodes eq_refl) in Ha. apply (field_iff _ _ _ "created_on" m _ time_decodes eq_refl) in Hc.
    apply dstruct_iff in Em. unfold d_tblock. rewrite Em. cbn [rbind]. rewrite E1. cbn [rbind]. rewrite E2. cbn [rbind]. rewrite Hn. cbn [rbind].
    rewrite Ha. cbn [rbind]. rewrite Hc. cbn [rbind]. rewrite Eh. cbn [rbind]. rewrite Et. reflexivity.
Qed.
Lemma tstate_crash : forall js, d_tstate js = Panic <-> state_crash js.
Proof.
  intro js. unfold state_crash, says_entity. split.
  - intro H. unfold d_tstate in H. peel H m Em. peel H hs E1. peel H cs E2. peel H ps E3. peel H n E4. peel H o E5. peel H a E6. peel H c E7.
    peel H h Eh. peel H chn Ec. peel H pr Ep.
    apply rbind_Panic in H as [H|(t & _ & H)]; [|unfold tstate_now in H; repeat destruct (_ =? _)%N; discriminate H].
    exists m, (Immutable h c), chn, pr, n, a. split; [apply dstruct_iff; exact Em|]. cbn [im_hash im_created].
    split; [split|split; [|split; [|split; [|split]]]].
    + apply hash_member; [reflexivity|]. eauto.
    + revert E7. apply field_iff; [exact time_decodes|reflexivity].
    + apply hash_member; [reflexivity|]. eauto.
    + apply hash_member; [reflexivity|]. eauto.
    + revert E4. apply field_iff; [exact uint_decodes|reflexivity].
    + apply tree_member. eauto.
    + revert E6. apply field_iff; [exact uint_decodes|reflexivity].
  - intros (m & [h c] & chn & pr & n & a & Em & [Hh Hc] & Hch & Hp & Hn & Ht & Ha). cbn [im_hash im_created] in *.
    apply hash_member in Hh as (hs & E1 & Eh); [|reflexivity]. apply hash_member in Hch as (cs & E2 & Ec); [|reflexivity].
    apply hash_member in Hp as (ps & E3 & Ep); [|reflexivity].
    apply tree_member in Ht as (o & E5 & Et). apply (field_iff _ _ _ "amount" m _ uint_decodes eq_refl) in Ha.
    apply (field_iff _ _ _ "height" m _ uint_decodes eq_refl) in Hn. apply (field_iff _ _ _ "created_on" m _ time_decodes eq_refl) in Hc.
    apply dstruct_iff in Em. unfold d_tstate. rewrite Em. cbn [rbind]. rewrite E1. cbn [rbind]. rewrite E2. cbn [rbind]. rewrite E3. cbn [rbind]. rewrite Hn. cbn [rbind].
    rewrite E5. cbn [rbind]. rewrite Ha. cbn [rbind]. rewrite Hc. cbn [rbind]. rewrite Eh. cbn [rbind]. rewrite Ec. cbn [rbind]. rewrite Ep. cbn [rbind].
    rewrite Et. reflexivity.
Qed.
Lemma unmarshal_panic : forall A (d : list json -> res A) s, unmarshal d s = Panic <-> exists j, document s j /\ d [j] = Panic.
Proof.
  intros A d s. unfold unmarshal. split.
  - destruct (jparse s) as [j|] eqn:E; [|discriminate]. intro H. exists j. split; [apply jparse_iff; exact E|exact H].
  - intros (j & D & H). apply jparse_iff in D. rewrite D. exact H.
Qed.
