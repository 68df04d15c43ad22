From Coq Require Import Lia ZifyBool ZifyNat ZifyN SpecFloat.
From Verif Require Import Base BaseFacts Sha512 HashModel HashProofs HashTreeModel HashTreeProofs SignModel EntitiesModel FloatModel PiastresModel
  JsonModel FloatText TimeModel MemJsonModel TransferModel MemberSpec MemberProofs GrammarSpec GrammarProofs CalendarSpec DocumentSpec
  DocumentProofs TransferProofs StoredSpec.

(** ** Hashes *)
Lemma hex_iff : forall s b, hex_decode s = Ok b <-> hex_text s b.
Proof.
  intros s b. split.
  - revert b. assert (G : forall n s b, length s <= n -> hex_decode s = Ok b -> hex_text s b).
    { induction n as [|n IH]; intros [|x [|y t]] b L H; cbn [hex_decode length] in *; try discriminate H; try lia;
        try (injection H as <-; constructor).
      destruct (unhexdigit x) as [u|] eqn:X; [|discriminate H]. destruct (unhexdigit y) as [v|] eqn:Y; [|discriminate H].
      apply rbind_Ok in H as (r & E & H). injection H as <-. constructor; [apply hexval_iff; exact X|apply hexval_iff; exact Y|].
      apply IH; [lia|exact E]. }
    intros b H. exact (G _ s b (le_n _) H).
  - intro H. induction H as [|x y u v s l X Y H IH]; [reflexivity|]. cbn [hex_decode]. apply hexval_iff in X, Y. rewrite X, Y, IH. reflexivity.
Qed.
Lemma hash_text_iff : forall s h, FromString s = Ok h <-> hash_text s h.
Proof.
  intros s h. rewrite FromString_from_string. unfold from_string, hash_text. split.
  - intro H. apply rbind_Ok in H as (b & E & H). injection H as <-. exists b. split; [apply hex_iff; exact E|].
    unfold from_bytes. destruct (Nat.eqb_spec (length b) 64); auto.
  - intros (b & E & H). apply hex_iff in E. rewrite E. cbn [rbind]. f_equal. unfold from_bytes.
    destruct (Nat.eqb_spec (length b) 64), H as [(L & ->)|(L & ->)]; congruence.
Qed.
Lemma bind_decodes : forall A B (d : list json -> res A) R (f : A -> res B) Q, decodes d R -> (forall a b, f a = Ok b <-> Q a b) ->
  decodes (fun js => let! a := d js in f a) (fun js b => exists a, R js a /\ Q a b).
Proof.
  intros A B d R f Q H K js b. split.
  - intro E. apply rbind_Ok in E as (a & E & F). exists a. split; [apply H; exact E|apply K; exact F].
  - intros (a & E & F). apply H in E. apply K in F. rewrite E. exact F.
Qed.
Lemma hash_decodes : decodes dhash hash_of.
Proof. exact (bind_decodes _ _ _ _ _ _ str_decodes hash_text_iff). Qed.
Lemma Forall2_same : forall A B (f : A -> res B) Q, (forall a b, f a = Ok b <-> Q a b) -> forall l m, rmapM f l = Ok m <-> Forall2 Q l m.
Proof.
  intros A B f Q H l m. rewrite rmapM_Ok_iff. split; intro F; induction F; constructor; auto; apply H; assumption.
Qed.
Lemma hashes_decodes : decodes dhashes hashes_of.
Proof. exact (bind_decodes _ _ _ _ _ _ (list_decodes _ _ _ str_decodes) (Forall2_same _ _ _ _ hash_text_iff)). Qed.
Lemma opt_text_iff : forall s o, opt_of_string s = Ok o <-> s = [] /\ o = None \/ s <> [] /\ exists h, hash_text s h /\ o = Some h.
Proof.
  intros [|c s] o; cbn [opt_of_string].
  - split; [intro H; injection H as <-; auto|intros [[_ ->]|[H _]]; congruence].
  - split.
    + intro H. apply rbind_Ok in H as (h & E & H). injection H as <-. right. split; [discriminate|]. exists h. split; [apply hash_text_iff; exact E|reflexivity].
    + intros [[H _]|[_ (h & E & ->)]]; [discriminate H|]. apply hash_text_iff in E. rewrite E. reflexivity.
Qed.
Lemma maybe_decodes : decodes dohash maybe_hash_of.
Proof. exact (bind_decodes _ _ _ _ _ _ str_decodes opt_text_iff). Qed.

(** ** Hash trees: the document *)
Lemma points_to_near : forall A (R R' : list json -> A -> Prop) js o,
  (forall s a, s <> [] -> ~ In JNull s -> incl s js -> (R s a <-> R' s a)) -> points_to R js o <-> points_to R' js o.
Proof.
  assert (X : forall A (R R' : list json -> A -> Prop) js o,
    (forall s a, s <> [] -> ~ In JNull s -> incl s js -> (R s a -> R' s a)) -> points_to R js o -> points_to R' js o).
  { intros A R R' js o E H. induction H as [|js a N Z H|seg js o N H K IH]; [constructor| |].
    - constructor; try assumption. apply E; [exact Z|exact N|apply incl_refl|exact H].
    - constructor; [exact N| |].
      + destruct seg as [|j seg]; [left; reflexivity|]. destruct H as [H|(a & H)]; [discriminate H|]. right. exists a.
        apply E; [discriminate|exact N|apply incl_appl, incl_refl|exact H].
      + apply IH. intros s a Z M I. apply E; [exact Z|exact M|]. intros x Hx. apply in_or_app. right. right. apply I. exact Hx. }
  intros A R R' js o E. split; apply X; intros s a Z N I; apply E; assumption.
Qed.
Lemma field_near : forall A (d : list json -> res A) (R : list json -> A -> Prop) name m a, ascii name = true ->
  (d (jfield (s2b name) m) = Ok a <-> R (jfield (s2b name) m) a) -> field name d m = Ok a <-> member R name m a.
Proof.
  intros A d R name m a B H. assert (F : Forall (fun c => b2n c < 128)%N (s2b name)).
  { unfold ascii in B. rewrite forallb_forall in B. apply Forall_forall. intros c I. specialize (B c I). lia. }
  unfold field, member. split.
  - intro K. apply H in K. eexists. split; [apply values_iff; [exact F|reflexivity]|exact K].
  - intros (vs & V & K). apply values_iff in V; [|exact F]. subst vs. apply H. exact K.
Qed.
Lemma jdepths_incl : forall s js, incl s js -> jdepths s <= jdepths js.
Proof. intros s js I. apply jdepths_le. intros j H. apply jdepths_in, I, H. Qed.
Lemma jfield_below : forall s m n, s <> [] -> ~ In JNull s -> dstruct s = Ok m -> jdepths (jfield n m) < jdepths s.
Proof.
  intros s m n Z N E. destruct (jfield n m) as [|j l] eqn:F; [|rewrite <- F; apply jfield_depth; [exact E|rewrite F; discriminate]].
  destruct s as [|x s]; [congruence|]. assert (X : 0 < jdepth x).
  { destruct x; try discriminate E; [destruct N; left; reflexivity|cbn [jdepth]; lia]. }
  pose proof (jdepths_in (x :: s) x (or_introl eq_refl)). change (jdepths []) with 0. lia.
Qed.
Definition pair_d (f : nat) (js : list json) : res jnode :=
  let! m := dstruct js in let! l := field "left" (d_jleaf f) m in let! r := field "right" (d_jleaf f) m in Ok (NNode l r).
Definition node_d (f : nat) (js : list json) : res (option jnode) := dptr (pair_d f) js.
Definition head_d (f : nat) (js : list json) : res jleaf :=
  let! m := dstruct js in let! head := field "head" dstr m in let! node := field "node" (node_d f) m in
  Ok (JLeaf head (match node with Some n => n | None => NNil end)).
Lemma d_jleaf_step : forall f js, d_jleaf (S f) js = let! x := dptr (head_d f) js in Ok (match x with Some x => x | None => JNil end).
Proof. reflexivity. Qed.
Lemma leaf_near : forall f js x, jdepths js < f -> d_jleaf f js = Ok x <-> says_leaf js x.
Proof.
  induction f as [|f IH]; [lia|]. intros js x D. rewrite d_jleaf_step.
  assert (P : forall s, s <> [] -> ~ In JNull s -> jdepths s <= f -> forall n, pair_d f s = Ok n <-> says_pair s n).
  { intros s Z N L n. unfold pair_d. split.
    - intro H. apply rbind_Ok in H as (m & E & H). apply rbind_Ok in H as (l & El & H). apply rbind_Ok in H as (r & Er & H). injection H as <-.
      pose proof (fun n => jfield_below s m n Z N E) as B.
      apply pair_is with (m := m); [apply dstruct_iff; exact E|..].
      + revert El. apply field_near; [reflexivity|]. apply IH. specialize (B (s2b "left")). lia.
      + revert Er. apply field_near; [reflexivity|]. apply IH. specialize (B (s2b "right")). lia.
    - intro H. destruct H as [js0 m l r Em Hl Hr]. apply dstruct_iff in Em. rewrite Em. cbn [rbind]. pose proof (fun n => jfield_below js0 m n Z N Em) as B.
      apply (field_near _ (d_jleaf f) says_leaf "left" m l) in Hl; [|reflexivity|apply IH; specialize (B (s2b "left")); lia].
      apply (field_near _ (d_jleaf f) says_leaf "right" m r) in Hr; [|reflexivity|apply IH; specialize (B (s2b "right")); lia].
      rewrite Hl, Hr. reflexivity. }
  assert (Q : forall vs n, jdepths vs <= f -> (let! o := node_d f vs in Ok (match o with Some n => n | None => NNil end)) = Ok n <-> says_node vs n).
  { intros vs n L. assert (X : forall o, node_d f vs = Ok o <-> points_to says_pair vs o).
    { intro o. unfold node_d. rewrite dptr_iff. apply points_to_near. intros s a Z N I. apply P; try assumption. pose proof (jdepths_incl s vs I). lia. }
    split.
    - intro H. apply rbind_Ok in H as (o & E & H). apply X in E. destruct o as [y|]; injection H as <-; [apply node_some|apply node_none]; exact E.
    - intro H. destruct H as [vs H|vs y H]; apply X in H; rewrite H; reflexivity. }
  assert (R : forall s, s <> [] -> ~ In JNull s -> jdepths s <= f -> forall y, head_d f s = Ok y <-> says_head s y).
  { intros s Z N L y. unfold head_d. split.
    - intro H. apply rbind_Ok in H as (m & E & H). apply rbind_Ok in H as (h & Eh & H). apply rbind_Ok in H as (o & Eo & H). injection H as <-.
      pose proof (jfield_below s m (s2b "node") Z N E) as B.
      apply head_is with (m := m); [apply dstruct_iff; exact E|revert Eh; apply field_iff; [exact str_decodes|reflexivity]|].
      assert (X : field "node" (fun vs => let! o := node_d f vs in Ok (match o with Some n => n | None => NNil end)) m = Ok (match o with Some n => n | None => NNil end)).
      { unfold field in *. rewrite Eo. reflexivity. }
      revert X. apply field_near; [reflexivity|]. apply Q. lia.
    - intro H. destruct H as [js0 m h n Em Hh Hn]. apply dstruct_iff in Em. rewrite Em. cbn [rbind]. pose proof (jfield_below js0 m (s2b "node") Z N Em) as B.
      apply (field_iff _ _ _ "head" m _ str_decodes eq_refl) in Hh. rewrite Hh. cbn [rbind].
      apply (field_near _ (fun vs => let! o := node_d f vs in Ok (match o with Some n => n | None => NNil end)) says_node "node" m n) in Hn;
        [|reflexivity|apply Q; lia].
      unfold field in *. apply rbind_Ok in Hn as (o & E & Hn). injection Hn as <-. rewrite E. reflexivity. }
  assert (X : forall o, dptr (head_d f) js = Ok o <-> points_to says_head js o).
  { intro o. rewrite dptr_iff. apply points_to_near. intros s a Z N I. apply R; try assumption. pose proof (jdepths_incl s js I). lia. }
  split.
  - intro H. apply rbind_Ok in H as (o & E & H). apply X in E. destruct o as [y|]; injection H as <-; [apply leaf_some|apply leaf_none]; exact E.
  - intro H. destruct H as [js H|js y H]; apply X in H; rewrite H; reflexivity.
Qed.
Lemma leaf_decodes : decodes (fun js => d_jleaf (S (jdepths js)) js) says_leaf.
Proof. intros js x. apply leaf_near. lia. Qed.
Lemma compact_decodes : decodes d_jcompact says_compact.
Proof.
  intros js x. unfold d_jcompact, says_compact. split.
  - intro H. apply rbind_Ok in H as (m & E & H). apply rbind_Ok in H as (h & Eh & H). apply rbind_Ok in H as (l & El & H). injection H as <-.
    exists m. split; [apply dstruct_iff; exact E|]. cbn [jc_head jc_leaves]. split.
    + revert Eh. apply field_iff; [exact str_decodes|reflexivity].
    + revert El. apply field_iff; [apply list_decodes; exact leaf_decodes|reflexivity].
  - intros (m & E & Hh & Hl). apply dstruct_iff in E. rewrite E. cbn [rbind].
    apply (field_iff _ _ _ "head" m _ str_decodes eq_refl) in Hh. apply (field_iff _ _ _ "leaves" m _ (list_decodes _ _ _ leaf_decodes) eq_refl) in Hl.
    rewrite Hh. cbn [rbind]. rewrite Hl. destruct x. reflexivity.
Qed.

(** ** Hash trees: the tree *)
Lemma leaf_means_iff : forall j x, leaf_of_json j = Ok x <-> leaf_means j x.
Proof.
  assert (T : forall s h, from_string s = Ok h <-> hash_text s h) by (intros s h; rewrite <- FromString_from_string; apply hash_text_iff).
  fix IH 1. intros [|s [|l r]] x; cbn [leaf_of_json].
  - split; intro H; [discriminate H|inversion H].
  - split; intro H.
    + apply rbind_Ok in H as (h & E & H). injection H as <-. constructor. apply T. exact E.
    + inversion H as [? h E|]; subst. apply T in E. rewrite E. reflexivity.
  - split; intro H.
    + apply rbind_Ok in H as (h & E & H). apply rbind_Ok in H as (l' & El & H). apply rbind_Ok in H as (r' & Er & H). injection H as <-.
      constructor; [apply T; exact E|apply IH; exact El|apply IH; exact Er].
    + inversion H as [|? h ? ? l' r' E Hl Hr]; subst. apply T in E. apply IH in Hl, Hr. rewrite E. cbn [rbind]. rewrite Hl. cbn [rbind]. rewrite Hr. reflexivity.
Qed.
Lemma pair_hash_iff : forall a b c, from_bytes (a ++ b) = c <-> pair_hash a b c.
Proof.
  intros a b c. unfold from_bytes, pair_hash. destruct (Nat.eqb_spec (length (a ++ b)) 64) as [L|L].
  - split; [intros <-; auto|intros [[_ ->]|[K _]]; [reflexivity|contradiction]].
  - split; [intros <-; auto|intros [[K _]|[_ ->]]; [contradiction|reflexivity]].
Qed.
Lemma children_app : forall a b cs, children cs = Ok (a ++ b) -> exists x y, cs = x ++ y /\ children x = Ok a /\ children y = Ok b.
Proof.
  induction a as [|c a IH]; intros b cs H; [exists [], cs; auto|].
  destruct cs as [|l [|r cs]]; cbn [children] in H; try discriminate H. apply rbind_Ok in H as (d & E & H). injection H as <- H.
  rewrite H in E. apply IH in E as (x & y & -> & Ex & Ey). exists (l :: r :: x), y. split; [reflexivity|]. split; [|exact Ey].
  cbn [children]. rewrite Ex. reflexivity.
Qed.
Lemma children_length : forall n cs a, length cs <= n -> children cs = Ok a -> length cs = 2 * length a.
Proof.
  induction n as [|n IH]; intros [|l [|r cs]] a L H; cbn [children length] in *; try discriminate H; try lia; try (injection H as <-; reflexivity).
  apply rbind_Ok in H as (d & E & H). injection H as <-. apply IH in E; [|lia]. cbn [length]. lia.
Qed.
Lemma grown_children : forall a x, grown a x -> forall cs, children cs = Ok a -> grown cs x.
Proof.
  intros a x H. induction H as [x|a b x y h L Ha IHa Hb IHb P]; intros cs E.
  - destruct cs as [|l [|r cs]]; cbn [children] in E; try discriminate E. apply rbind_Ok in E as (d & E & H). injection H as <- ->.
    destruct cs as [|u [|v w]]; cbn [children] in E; try discriminate E.
    + change [l; r] with ([l] ++ [r]). unfold child. apply grown_two; [reflexivity|constructor|constructor|apply pair_hash_iff; reflexivity].
    + apply rbind_Ok in E as (d & _ & E). discriminate E.
  - apply children_app in E as (u & v & -> & Eu & Ev). apply grown_two; auto.
    rewrite (children_length _ u a (le_n _) Eu), (children_length _ v b (le_n _) Ev). lia.
Qed.
Lemma leaves_grown : forall f ls t, leaves_hashtree_f f ls = Ok t -> grown ls (LNode (ht_head t) (ht_left t) (ht_right t)).
Proof.
  assert (T : forall a b, grown [a; b] (LNode (ht_head (parent_hashtree a b)) a b)).
  { intros a b. change [a; b] with ([a] ++ [b]). apply grown_two; [reflexivity|constructor|constructor|apply pair_hash_iff; reflexivity]. }
  induction f as [|f IH]; intros [|a [|b [|c ls]]] t H; try discriminate H; try (injection H as <-; apply T).
  change (leaves_hashtree_f (S f) (a :: b :: c :: ls)) with (rbind (children (a :: b :: c :: ls)) (leaves_hashtree_f f)) in H.
  apply rbind_Ok in H as (cs & E & H). exact (grown_children _ _ (IH _ _ H) _ E).
Qed.
Lemma grown_power : forall ls x, grown ls x -> exists k, length ls = 2 ^ k.
Proof.
  intros ls x H. induction H as [x|a b x y h L Ha (k & IH) Hb _ P]; [exists 0; reflexivity|].
  exists (S k). rewrite app_length, Nat.pow_succ_r'. lia.
Qed.
Lemma grown_once : forall ls x, grown ls x -> forall y, grown ls y -> x = y.
Proof.
  intros ls x H. induction H as [x|a b x y h L Ha IHa Hb IHb P]; intros z K.
  - inversion K as [|a b u v h L Ha Hb P E]; [reflexivity|]. apply grown_power in Ha as (k & Ha). apply grown_power in Hb as (k' & Hb).
    apply (f_equal (@length _)) in E. rewrite app_length in E. cbn [length] in E. pose proof (Nat.pow_nonzero 2 k). pose proof (Nat.pow_nonzero 2 k'). lia.
  - inversion K as [u E|a' b' u v h' L' Ha' Hb' P' E].
    + exfalso. apply grown_power in Ha as (k & Ha). apply grown_power in Hb as (k' & Hb). apply (f_equal (@length _)) in E. rewrite app_length in E.
      cbn [length] in E. pose proof (Nat.pow_nonzero 2 k). pose proof (Nat.pow_nonzero 2 k'). lia.
    + assert (X : a' = a /\ b' = b).
      { assert (length a' = length a) by (apply (f_equal (@length _)) in E; rewrite !app_length in E; lia).
        exact (app_inj_len _ _ _ _ H E). }
      destruct X as [-> ->]. apply IHa in Ha'. apply IHb in Hb'. subst u v. apply pair_hash_iff in P, P'. congruence.
Qed.
Lemma tree_over_iff : forall ls t, leaves_hashtree ls = Ok t <-> tree_over ls t.
Proof.
  intros ls t. unfold tree_over. split.
  - intro H. split; [exact (leaves_grown _ _ _ H)|]. destruct ls as [|a [|b ls]]; [discriminate H|discriminate H|cbn [length]; lia].
  - intros (G & L). destruct (grown_power _ _ G) as (k & K). unfold leaves_hashtree.
    destruct (leaves_hashtree_cases (length ls) ls (le_n _)) as [[_ (t' & T)]|[N _]].
    + rewrite T. f_equal. pose proof (grown_once _ _ G _ (leaves_grown _ _ _ T)) as E. injection E as E1 E2 E3. destruct t, t'. cbn in *. congruence.
    + destruct k as [|k]; [cbn in K; lia|]. destruct (N (S k)); [lia|exact K].
Qed.
Lemma tree_decodes : decodes (fun js => let! o := dptr d_jcompact js in tree_of_jcompact o) tree_of.
Proof.
  assert (T : forall s h, from_string s = Ok h <-> hash_text s h) by (intros s h; rewrite <- FromString_from_string; apply hash_text_iff).
  intros js t. unfold tree_of. split.
  - intro H. apply rbind_Ok in H as (o & E & H). apply (ptr_decodes _ _ _ compact_decodes) in E. destruct o as [x|]; [|discriminate H].
    cbn [tree_of_jcompact] in H. apply rbind_Ok in H as (c & Ec & H). unfold compact_of_json in Ec. apply rbind_Ok in Ec as (h & Eh & Ec).
    apply rbind_Ok in Ec as (ls & El & Ec). injection Ec as <-. cbn [c_leaves] in H. exists x, ls, h. split; [exact E|]. split; [apply T; exact Eh|].
    split; [apply (Forall2_same _ _ _ _ leaf_means_iff); exact El|apply tree_over_iff; exact H].
  - intros (x & ls & h & E & Eh & El & H). apply (ptr_decodes _ _ _ compact_decodes) in E. rewrite E. cbn [rbind tree_of_jcompact].
    unfold compact_of_json. apply T in Eh. rewrite Eh. cbn [rbind]. apply (Forall2_same _ _ _ _ leaf_means_iff) in El. rewrite El. cbn [rbind c_leaves].
    apply tree_over_iff. exact H.
Qed.

(** ** Documents *)
Ltac stored_known := first [exact hash_decodes|exact hashes_decodes|exact maybe_decodes|exact str_decodes|exact uint_decodes|exact time_decodes
  |exact float_decodes|exact tree_decodes|eassumption].
Ltac to_member := match goal with E : field ?n _ _ = Ok ?a |- member _ ?n _ ?a => revert E; apply field_iff; [stored_known|vm_compute; reflexivity] end.
(** the builders, with their conditions *)
Ltac built H := repeat match type of H with
  | (if (?a =? 0)%N then Err else _) = Ok _ => let Z := fresh "Z" in destruct (N.eqb_spec a 0) as [Z|Z]; [discriminate H|]
  | (if f_le_zero ?a then Err else _) = Ok _ => let Z := fresh "Z" in destruct (f_le_zero a) eqn:Z; [discriminate H|]
  end.
Ltac projections := cbn [tl_im tl_keys tb_im tb_lock tb_amount tg_im tg_bill tg_base tg_increase tg_link tt_im tt_address tt_bucket tt_fees tm_im tm_block
  tm_mining ti_im ti_prev ti_next ti_index tn_im tn_link tn_mining tc_im tc_genesis tc_root tc_head tc_total tk_im tk_trx tk_amount tk_additional
  ts_im ts_chain ts_prev ts_height ts_trx ts_amount te_im te_from te_to te_sigs te_remaining im_hash im_created] in *.
Ltac stored_forward d says now H := unfold d in H; unfold says, says_entity;
  let m := fresh "m" in let Em := fresh "Em" in apply rbind_Ok in H as (m & Em & H); exists m; split; [apply dstruct_iff; exact Em|];
  repeat (let a := fresh "a" in let Ea := fresh "Ea" in apply rbind_Ok in H as (a & Ea & H)); unfold now in H; built H.
Ltac stored_backward d m now x := unfold d;
  match goal with Em : members_of _ m |- _ => apply dstruct_iff in Em; rewrite Em; cbn [rbind]; clear Em end;
  destruct x; projections; repeat match goal with K : _ /\ _ |- _ => destruct K end;
  repeat match goal with |- rbind (field ?n ?d m) _ = _ =>
     match goal with K : member ?R n m ?a |- _ =>
       let E := fresh "E" in assert (E : field n d m = Ok a) by (revert K; apply field_iff; [stored_known|vm_compute; reflexivity]);
       rewrite E; cbn [rbind]; clear E end end;
  unfold now; repeat match goal with
  | |- (if (?a =? 0)%N then _ else _) = _ => destruct (N.eqb_spec a 0); [lia|]
  | Z : f_le_zero ?a = false |- (if f_le_zero ?a then _ else _) = _ => rewrite Z
  end;
  match goal with i : immutable |- _ => destruct i end; projections; try reflexivity.
Ltac stored_decodes d says now :=
  let js := fresh "js" in let x := fresh "x" in let H := fresh "H" in intros js x; split;
  [intro H; stored_forward d says now H; injection H as <-; projections;
   repeat match goal with |- _ /\ _ => split end; first [to_member|assumption|lia]
  |let m := fresh "m" in let Em := fresh "Em" in intros (m & Em & H); unfold says_entity in H; stored_backward d m now x].
Lemma tlock_decodes : decodes d_tlock says_tlock. Proof. stored_decodes d_tlock says_tlock tlock_now. Qed.
Lemma tbill_decodes : decodes d_tbill says_tbill. Proof. stored_decodes d_tbill says_tbill tbill_now. Qed.
Lemma tgenesis_decodes : decodes d_tgenesis says_tgenesis. Proof. stored_decodes d_tgenesis says_tgenesis tgenesis_now. Qed.
Lemma tmblock_decodes : decodes d_tmblock says_tmblock. Proof. stored_decodes d_tmblock says_tmblock tmblock_now. Qed.
Lemma tlink_decodes : decodes d_tlink says_tlink. Proof. stored_decodes d_tlink says_tlink tlink_now. Qed.
Lemma tmlink_decodes : decodes d_tmlink says_tmlink. Proof. stored_decodes d_tmlink says_tmlink tmlink_now. Qed.
Lemma tchain_decodes : decodes d_tchain says_tchain. Proof. stored_decodes d_tchain says_tchain tchain_now. Qed.
Lemma ttrx_decodes : decodes d_ttrx says_ttrx.
Proof.
  intros js x. split.
  - intro H. stored_forward d_ttrx says_ttrx ttrx_now H.
    assert (X : x = TTrx (Immutable a a3) a0 a2 a1 /\ ~ (a0 = None /\ a2 = None /\ a1 = [])).
    { destruct a0 as [u|]; [|destruct a2 as [v|]; [|destruct a1 as [|w l]; [discriminate H|]]]; injection H as <-; (split; [reflexivity|]);
        intros (X1 & X2 & X3); congruence. }
    destruct X as [-> X]. projections. repeat match goal with |- (_ /\ _) => split end; first [to_member|assumption].
  - intros (m & Em & H). unfold says_entity in H. stored_backward d_ttrx m ttrx_now x.
    match goal with |- match ?a with _ => _ end = _ => destruct a end; [reflexivity|].
    match goal with |- match ?a with _ => _ end = _ => destruct a end; [reflexivity|].
    match goal with |- match ?a with _ => _ end = _ => destruct a end; [|reflexivity].
    match goal with K : ~ _ |- _ => destruct K; auto end.
Qed.
Lemma tblock_decodes : decodes d_tblock says_tblock.
Proof.
  intros js x. split.
  - intro H. unfold d_tblock in H. unfold says_tblock, says_entity.
    apply rbind_Ok in H as (m & Em & H). exists m. split; [apply dstruct_iff; exact Em|].
    apply rbind_Ok in H as (hs & E1 & H). apply rbind_Ok in H as (o & E2 & H). apply rbind_Ok in H as (n & E3 & H).
    apply rbind_Ok in H as (ad & E4 & H). apply rbind_Ok in H as (c & E5 & H). apply rbind_Ok in H as (h & Eh & H).
    apply rbind_Ok in H as (t & Et & H). unfold tblock_now in H. built H. injection H as <-. projections.
    assert (Fh : field "hash" dhash m = Ok h) by (unfold field, dhash in *; rewrite E1; exact Eh).
    assert (Ft : field "transactions" (fun js => let! o := dptr d_jcompact js in tree_of_jcompact o) m = Ok t) by (unfold field in *; rewrite E2; exact Et).
    repeat match goal with |- _ /\ _ => split end; first [to_member|lia].
  - intros (m & Em & [Hh Hc] & Ht & Hn & Ha & P). unfold d_tblock. apply dstruct_iff in Em. rewrite Em. cbn [rbind].
    apply (field_iff _ dhash hash_of "hash" m _ hash_decodes eq_refl) in Hh. unfold field, dhash in Hh. apply rbind_Ok in Hh as (hs & E1 & Eh).
    apply (field_iff _ _ tree_of "transactions" m _ tree_decodes eq_refl) in Ht. unfold field in Ht. apply rbind_Ok in Ht as (o & E2 & Et).
    apply (field_iff _ _ _ "amount" m _ uint_decodes eq_refl) in Hn. apply (field_iff _ _ _ "additional" m _ uint_decodes eq_refl) in Ha.
    apply (field_iff _ _ _ "created_on" m _ time_decodes eq_refl) in Hc. unfold field in *.
    rewrite E1. cbn [rbind]. rewrite E2. cbn [rbind]. rewrite Hn. cbn [rbind]. rewrite Ha. cbn [rbind]. rewrite Hc. cbn [rbind]. rewrite Eh. cbn [rbind].
    rewrite Et. cbn [rbind]. unfold tblock_now. destruct (N.eqb_spec (tk_amount x) 0); [lia|]. destruct x as [[h c] ? ? ?]. reflexivity.
Qed.
Lemma tstate_decodes : decodes d_tstate says_tstate.
Proof.
  intros js x. split.
  - intro H. unfold d_tstate in H. unfold says_tstate, says_entity.
    apply rbind_Ok in H as (m & Em & H). exists m. split; [apply dstruct_iff; exact Em|].
    apply rbind_Ok in H as (hs & E1 & H). apply rbind_Ok in H as (cs & E2 & H). apply rbind_Ok in H as (ps & E3 & H).
    apply rbind_Ok in H as (n & E4 & H). apply rbind_Ok in H as (o & E5 & H). apply rbind_Ok in H as (am & E6 & H). apply rbind_Ok in H as (c & E7 & H).
    apply rbind_Ok in H as (h & Eh & H). apply rbind_Ok in H as (ch & Ec & H). apply rbind_Ok in H as (pr & Ep & H).
    apply rbind_Ok in H as (t & Et & H). unfold tstate_now in H. built H. injection H as <-. projections.
    assert (Fh : field "hash" dhash m = Ok h) by (unfold field, dhash in *; rewrite E1; exact Eh).
    assert (Fc : field "chain" dhash m = Ok ch) by (unfold field, dhash in *; rewrite E2; exact Ec).
    assert (Fp : field "previous" dhash m = Ok pr) by (unfold field, dhash in *; rewrite E3; exact Ep).
    assert (Ft : field "transactions" (fun js => let! o := dptr d_jcompact js in tree_of_jcompact o) m = Ok t) by (unfold field in *; rewrite E5; exact Et).
    repeat match goal with |- _ /\ _ => split end; first [to_member|lia].
  - intros (m & Em & [Hh Hc] & Hch & Hp & Hn & Ht & Ha & P & Q). unfold d_tstate. apply dstruct_iff in Em. rewrite Em. cbn [rbind].
    apply (field_iff _ dhash hash_of "hash" m _ hash_decodes eq_refl) in Hh. unfold field, dhash in Hh. apply rbind_Ok in Hh as (hs & E1 & Eh).
    apply (field_iff _ dhash hash_of "chain" m _ hash_decodes eq_refl) in Hch. unfold field, dhash in Hch. apply rbind_Ok in Hch as (cs & E2 & Ec).
    apply (field_iff _ dhash hash_of "previous" m _ hash_decodes eq_refl) in Hp. unfold field, dhash in Hp. apply rbind_Ok in Hp as (ps & E3 & Ep).
    apply (field_iff _ _ tree_of "transactions" m _ tree_decodes eq_refl) in Ht. unfold field in Ht. apply rbind_Ok in Ht as (o & E4 & Et).
    apply (field_iff _ _ _ "height" m _ uint_decodes eq_refl) in Hn. apply (field_iff _ _ _ "amount" m _ uint_decodes eq_refl) in Ha.
    apply (field_iff _ _ _ "created_on" m _ time_decodes eq_refl) in Hc. unfold field in *.
    rewrite E1. cbn [rbind]. rewrite E2. cbn [rbind]. rewrite E3. cbn [rbind]. rewrite Hn. cbn [rbind]. rewrite E4. cbn [rbind]. rewrite Ha. cbn [rbind].
    rewrite Hc. cbn [rbind]. rewrite Eh. cbn [rbind]. rewrite Ec. cbn [rbind]. rewrite Ep. cbn [rbind]. rewrite Et. cbn [rbind]. unfold tstate_now.
    destruct (N.eqb_spec (ts_height x) 0); [lia|]. destruct (N.eqb_spec (ts_amount x) 0); [lia|]. destruct x as [[h c] ? ? ? ? ?]. reflexivity.
Qed.
Lemma sigs_decodes : forall C : Curve, decodes (@dsigs C)
  (fun vs sigs => exists ss, elements_of text_of vs ss /\ Forall2 (fun s r => ring_of_string C s = Ok r) ss sigs).
Proof. intro C. exact (bind_decodes _ _ _ _ _ _ (list_decodes _ _ _ str_decodes) (Forall2_same _ _ _ _ (fun a b => iff_refl _))). Qed.
Lemma texpense_decodes : forall C : Curve, decodes (@d_texpense C) says_texpense.
Proof.
  intros C js x. pose proof (sigs_decodes C) as SD. split.
  - intro H. unfold d_texpense in H. unfold says_texpense, says_entity.
    apply rbind_Ok in H as (m & Em & H). exists m. split; [apply dstruct_iff; exact Em|].
    repeat (let a := fresh "a" in let Ea := fresh "Ea" in apply rbind_Ok in H as (a & Ea & H)). unfold texpense_now in H.
    destruct a0 as [|u v]; [discriminate H|]. destruct a2 as [|w l]; [discriminate H|]. injection H as <-. projections.
    repeat match goal with |- (_ /\ _) => split end; first [to_member|discriminate].
  - intros (m & Em & H). unfold says_entity in H. stored_backward (@d_texpense) m (@texpense_now) x.
    match goal with K : ?a <> [] |- match ?a with _ => _ end = _ => destruct a; [destruct K; reflexivity|] end.
    match goal with K : ?a <> [] |- match ?a with _ => _ end = _ => destruct a; [destruct K; reflexivity|] end. reflexivity.
Qed.
