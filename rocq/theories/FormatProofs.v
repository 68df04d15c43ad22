From Coq Require Import Lia ZifyBool ZifyNat ZifyN.
From Verif Require Import Base BaseFacts HashModel HashTreeModel SignModel EntitiesModel FloatModel PiastresModel JsonModel JsonProofs UnicodeProofs
  TimeModel TimeProofs FloatText IdentityModel TransferModel MemJsonModel MemSpec MemJsonProofs BuilderSpec FormatSpec NumberSpec.
From Verif Require FloatUnique.
From Verif Require CancelModel.

(** ** Lists of parts *)
Lemma commas_cons : forall x l, commas (x :: l) = x ++ match l with [] => [] | _ => x2c :: commas l end.
Proof. intros x [|y l]; cbn [commas]; [rewrite app_nil_r|]; reflexivity. Qed.
Lemma print_arr_commas : forall l,
  print_arr true l = commas (map jprint l) ++ [x5d] /\
  print_arr false l = match l with [] => [] | _ => x2c :: commas (map jprint l) end ++ [x5d].
Proof.
  induction l as [|j l [_ IH]]; [split; reflexivity|].
  cbn [print_arr map]. rewrite commas_cons, IH. split; destruct l; cbn [app map]; rewrite <- ?app_assoc; reflexivity.
Qed.
Lemma jprint_array : forall l, jprint (JArr l) = array (map jprint l).
Proof. intro l. rewrite jprint_arr. destruct (print_arr_commas l) as [-> _]. reflexivity. Qed.
Definition jmember_text (p : bytes * json) : bytes := quote (fst p) ++ x3a :: jprint (snd p).
Lemma print_obj_commas : forall m,
  print_obj true m = commas (map jmember_text m) ++ [x7d] /\
  print_obj false m = match m with [] => [] | _ => x2c :: commas (map jmember_text m) end ++ [x7d].
Proof.
  induction m as [|[k j] m [_ IH]]; [split; reflexivity|].
  cbn [print_obj map]. rewrite commas_cons, IH.
  replace (jmember_text (k, j)) with (quote k ++ x3a :: jprint j) by reflexivity.
  split; destruct m; cbn [app map]; rewrite <- ?app_assoc; cbn [app]; rewrite <- ?app_assoc; reflexivity.
Qed.
Lemma jprint_object : forall m, jprint (JObj m) = x7b :: commas (map jmember_text m) ++ [x7d].
Proof. intro m. rewrite jprint_obj. destruct (print_obj_commas m) as [-> _]. reflexivity. Qed.

(** ** Strings without anything to escape *)
Definition safe (c : byte) : bool := (b2n c <? 128)%N && bseq (quote_char c) [c].
Lemma quote_safe : forall s, forallb safe s = true -> quote s = quoted s.
Proof.
  intros s H. unfold quote, quoted. f_equal. f_equal. induction s as [|c s IH]; [reflexivity|].
  cbn [forallb] in H. apply andb_true_iff in H as [Hc H]. apply andb_true_iff in Hc as [L E].
  rewrite quote_1 by lia. apply bseq_eq in E. rewrite E, (IH H). reflexivity.
Qed.
Lemma hexdigit_safe : forall n, (n < 16)%N -> safe (hexdigit n) = true.
Proof.
  intros n Hn. assert (A : forallb (fun i => safe (hexdigit (N.of_nat i))) (seq 0 16) = true) by (vm_compute; reflexivity).
  rewrite forallb_forall in A. specialize (A (N.to_nat n)). rewrite N2Nat.id in A. apply A. apply in_seq. lia.
Qed.
Lemma hex_safe : forall h, forallb safe (hex_encode h) = true.
Proof.
  induction h as [|b h IH]; [reflexivity|]. unfold hex_encode in *. cbn [flat_map]. rewrite forallb_app. unfold hex_byte at 1. cbn [forallb].
  pose proof (b2n_lt b). rewrite !hexdigit_safe by (try apply N.mod_lt; try apply N.div_lt_upper_bound; lia). exact IH.
Qed.
Lemma b64char_safe : forall n, (n < 64)%N -> safe (b64char n) = true.
Proof.
  intros n Hn. assert (A : forallb (fun i => safe (b64char (N.of_nat i))) (seq 0 64) = true) by (vm_compute; reflexivity).
  rewrite forallb_forall in A. specialize (A (N.to_nat n)). rewrite N2Nat.id in A. apply A. apply in_seq. lia.
Qed.
Lemma b64_safe : forall n s, length s <= n -> forallb safe (b64_encode s) = true.
Proof.
  induction n as [|n IH]; intros s L; [destruct s; [reflexivity|cbn in L; lia]|].
  destruct s as [|a [|b [|c s]]]; [reflexivity| | |]; cbn [b64_encode forallb];
    pose proof (b2n_lt a); try pose proof (b2n_lt b); try pose proof (b2n_lt c);
    rewrite !b64char_safe by (try (apply N.mod_lt; discriminate); apply N.div_lt_upper_bound; lia); [reflexivity|reflexivity|].
  apply IH. cbn [length] in L. lia.
Qed.
Lemma dig_safe : forall n, safe (dig n) = true.
Proof.
  intro n. unfold dig. assert (H : (0 <= n mod 10 < 10)%Z) by (apply Z.mod_pos_bound; reflexivity).
  assert (A : forallb (fun i => safe (n2b (Z.to_N (48 + Z.of_nat i)))) (seq 0 10) = true) by (vm_compute; reflexivity).
  rewrite forallb_forall in A. specialize (A (Z.to_nat (n mod 10))). rewrite Z2Nat.id in A by lia. apply A. apply in_seq. lia.
Qed.
Lemma trim0_safe : forall s, forallb safe s = true -> forallb safe (trim0 s) = true.
Proof.
  intros s H. destruct (trim0_spec s) as [k E]. rewrite E, forallb_app in H. apply andb_true_iff in H. tauto.
Qed.
Lemma time_safe : forall t s, time_text t = Ok s -> forallb safe s = true.
Proof.
  intros t s H. unfold time_text in H. destruct (civil_of_days (t / day_ns)) as [[y m] d].
  destruct ((0 <=? y) && (y <=? 9999))%Z; [|discriminate]. apply Ok_inj in H. subst s.
  assert (P : forallb safe (frac_text (t mod day_ns mod 10 ^ 9)) = true).
  { unfold frac_text. pose proof (trim0_safe (pad9 (t mod day_ns mod 10 ^ 9))) as T.
    destruct (trim0 _); [reflexivity|]. cbn [forallb]. change (safe x2e) with true. apply T. unfold pad9. cbn [forallb].
    rewrite !dig_safe. reflexivity. }
  rewrite !forallb_app, P. unfold pad4, pad2. cbn [forallb]. rewrite !dig_safe. reflexivity.
Qed.

(** ** A value with its text, or an error *)
Definition shows (r : res json) (P : Prop) (t : bytes) : Prop := (exists j, r = Ok j /\ jprint j = t) /\ P \/ r = Err /\ ~ P.
Lemma shows_iff : forall r P Q t, shows r P t -> (P <-> Q) -> shows r Q t.
Proof. unfold shows. intros r P Q t H E. rewrite <- E. exact H. Qed.
Lemma shows_builds : forall A (e : A -> res json) x P t, shows (e x) P t -> builds (marshal e x) P t.
Proof.
  intros A e x P t [[(j & E & T) H]|[E H]]; unfold marshal; rewrite E; split; intro K; try contradiction; [|reflexivity].
  cbn [rbind]. rewrite T. reflexivity.
Qed.
Lemma shows_str : forall s, shows (jstr s) True (quote s).
Proof. intro s. left. split; [|exact I]. eexists. split; reflexivity. Qed.
Lemma shows_safe : forall s, forallb safe s = true -> shows (jstr s) True (quoted s).
Proof. intros s H. rewrite <- quote_safe by exact H. apply shows_str. Qed.
Lemma shows_hash : forall h, shows (jhash h) True (hash_text h).
Proof. intro h. apply shows_safe. apply hex_safe. Qed.
Lemma shows_hash_str : forall h, shows (jstr (hash_string h)) True (hash_text h).
Proof. exact shows_hash. Qed.
Lemma shows_maybe_str : forall o, shows (jstr (opt_hash_string o)) True (maybe_hash o).
Proof. intros [h|]; [apply shows_hash|apply shows_safe; reflexivity]. Qed.
Lemma shows_maybe_hash : forall o, shows (johash o) True (maybe_hash o).
Proof. exact shows_maybe_str. Qed.
Lemma shows_uint : forall n, shows (juint n) True (ntoa n).
Proof. intro n. left. split; [|exact I]. eexists. split; reflexivity. Qed.
Lemma shows_time : forall t, shows (jtime t) (dated t) (date t).
Proof.
  intro t. unfold shows. rewrite (jtime_yes t). unfold jtime, date, yes.
  destruct (time_text t) as [s| |] eqn:E; cbn [rbind].
  - left. split; [|eexists; reflexivity]. eexists. split; [reflexivity|]. cbn [jprint]. apply quote_safe. exact (time_safe _ _ E).
  - right. split; [reflexivity|]. intros [j H]. discriminate H.
  - exfalso. unfold time_text in E. destruct (civil_of_days (t / day_ns)) as [[y m] d]. destruct ((0 <=? y) && (y <=? 9999))%Z; discriminate E.
Qed.
Lemma shows_float : forall x, shows (jfloat x) (float_number x) (decimal x).
Proof.
  intro x. unfold shows. rewrite <- (FloatUnique.float_text_ok x). unfold jfloat, decimal. destruct (float_text x) as [s| |] eqn:E; cbn [rbind].
  - left. split; [|eexists; reflexivity]. eexists. split; reflexivity.
  - right. split; [reflexivity|]. intros [j H]. discriminate H.
  - exfalso. unfold float_text in E. destruct x; try discriminate E. destruct (find _ _); discriminate E.
Qed.
Lemma shows_null : shows (Ok JNull) True (s2b "null").
Proof. left. split; [|exact I]. eexists. split; reflexivity. Qed.

Lemma shows_list : forall A B (e : A -> res json) (f : B -> A) (P : B -> Prop) (g : B -> bytes) l,
  (forall x, In x l -> shows (e (f x)) (P x) (g x)) -> shows (jlist e (map f l)) (Forall P l) (array (map g l)).
Proof.
  intros A B e f P g l H.
  assert (M : (exists js, rmapM e (map f l) = Ok js /\ map jprint js = map g l) /\ Forall P l \/ rmapM e (map f l) = Err /\ ~ Forall P l).
  { induction l as [|x l IH]; [left; split; [exists []; split; reflexivity|constructor]|].
    cbn [map rmapM]. destruct (H x (or_introl eq_refl)) as [[(j & E & T) Px]|[E Px]]; rewrite E; cbn [rbind].
    - destruct IH as [[(js & Es & Ts) Pl]|[Es Pl]]; [intros y Hy; apply H; right; exact Hy| |]; rewrite Es; cbn [rbind].
      + left. split; [|constructor; assumption]. eexists. split; [reflexivity|]. cbn [map]. congruence.
      + right. split; [reflexivity|]. intro K. inversion K. contradiction.
    - right. split; [reflexivity|]. intro K. inversion K. contradiction. }
  unfold jlist. destruct M as [[(js & E & T) F]|[E F]]; rewrite E; cbn [rbind].
  - left. split; [|exact F]. eexists. split; [reflexivity|]. rewrite jprint_array, T. reflexivity.
  - right. split; [reflexivity|exact F].
Qed.
Lemma shows_trues : forall A (e : A -> res json) (g : A -> bytes) l,
  (forall x, shows (e x) True (g x)) -> shows (jlist e l) True (array (map g l)).
Proof.
  intros A e g l H. rewrite <- (map_id l) at 1. eapply shows_iff; [apply (shows_list _ _ e (fun x => x) (fun _ => True)); auto|].
  split; [trivial|]. intros _. apply Forall_forall. trivial.
Qed.
Lemma shows_hashes : forall l, shows (jlist jhash l) True (hashes_text l).
Proof. intro l. apply shows_trues. exact shows_hash. Qed.
Lemma shows_hash_strs : forall l, shows (jlist jstr (map hash_string l)) True (hashes_text l).
Proof.
  intro l. eapply shows_iff; [apply (shows_list _ _ jstr hash_string (fun _ => True)); intros; apply shows_hash|].
  split; [trivial|]. intros _. apply Forall_forall. trivial.
Qed.
Lemma shows_opt : forall A B (e : A -> res json) (f : B -> A) (P : B -> Prop) (g : B -> bytes) o,
  (forall x, o = Some x -> shows (e (f x)) (P x) (g x)) -> shows (jptr e (option_map f o)) (opt_if P o) (maybe g o).
Proof.
  intros A B e f P g [x|] H; cbn [option_map jptr maybe].
  - eapply shows_iff; [apply H; reflexivity|]. unfold opt_if. split; [intros Px y E; congruence|auto].
  - eapply shows_iff; [apply shows_null|]. unfold opt_if. split; [discriminate|trivial].
Qed.
Lemma shows_ptrs : forall A B (e : A -> res json) (f : B -> A) (P : B -> Prop) (g : B -> bytes) l,
  (forall x, In x l -> shows (e (f x)) (P x) (g x)) -> shows (jlist (jptr e) (map (fun x => Some (f x)) l)) (Forall P l) (array (map g l)).
Proof. intros A B e f P g l H. apply (shows_list _ _ (jptr e) (fun x => Some (f x))). exact H. Qed.

(** members *)
Definition shows_members (l : list (string * res json)) (P : Prop) (ts : list (string * bytes)) : Prop :=
  (exists m, rmapM jmember l = Ok m /\ map jmember_text m = map member ts) /\ P \/ rmapM jmember l = Err /\ ~ P.
Lemma members_nil : shows_members [] True [].
Proof. left. split; [|exact I]. exists []. split; reflexivity. Qed.
Lemma members_cons : forall n r P t l Q ts, forallb safe (s2b n) = true -> shows r P t -> shows_members l Q ts ->
  shows_members ((n, r) :: l) (P /\ Q) ((n, t) :: ts).
Proof.
  intros n r P t l Q ts S [[(j & E & T) HP]|[E HP]] H; unfold shows_members; cbn [rmapM]; unfold jmember at 1 3; cbn [fst snd]; rewrite E; cbn [rbind].
  - destruct H as [[(m & Em & Tm) HQ]|[Em HQ]]; rewrite Em; cbn [rbind].
    + left. split; [|split; assumption]. eexists. split; [reflexivity|]. cbn [map]. rewrite Tm. f_equal.
      unfold jmember_text, member. cbn [fst snd]. rewrite (quote_safe _ S), T. reflexivity.
    + right. split; [reflexivity|tauto].
  - right. split; [reflexivity|tauto].
Qed.
Lemma shows_struct : forall l P ts, shows_members l P ts -> shows (jstruct l) P (object ts).
Proof.
  intros l P ts [[(m & E & T) H]|[E H]]; unfold jstruct; rewrite E; cbn [rbind]; [left|right; split; [reflexivity|exact H]].
  split; [|exact H]. eexists. split; [reflexivity|]. rewrite jprint_object, T. reflexivity.
Qed.
Ltac value := first
  [ apply shows_hash | apply shows_hash_str | apply shows_maybe_hash | apply shows_maybe_str | apply shows_hashes | apply shows_hash_strs
  | apply shows_uint | apply shows_time | apply shows_float | apply shows_str | idtac ].
Ltac doc := eapply shows_iff; [apply shows_struct; repeat (apply members_cons; [reflexivity|value|]); try apply members_nil|].

(** ** Objects in memory *)
Lemma shows_lock : forall l, shows (e_lock (js_lock l)) (dated_lock l) (lock_doc l).
Proof. intro l. doc. unfold dated_lock. cbn [js_lock jl_created]. tauto. Qed.
Lemma shows_bill : forall b, shows (e_bill (js_bill b)) (dated_bill b) (bill_doc b).
Proof. intro b. doc; [apply shows_lock|]. unfold dated_bill. cbn [js_bill jb_created]. tauto. Qed.
Lemma shows_content : forall c, shows (e_content (js_content c)) (dated_content c) (content_doc c).
Proof.
  intro c. doc; [apply (shows_ptrs _ _ e_bill js_bill dated_bill); intros; apply shows_bill|apply shows_bill
    |apply (shows_opt _ _ e_bill js_bill dated_bill); intros; apply shows_bill|].
  unfold dated_content. cbn [js_content jct_created]. tauto.
Qed.
Lemma shows_address : forall a, shows (e_address (js_address a)) (dated_address a) (address_doc a).
Proof. intro a. doc. unfold dated_address. cbn [js_address ja_created]. tauto. Qed.
Lemma shows_genesis : forall g, shows (e_genesis (js_genesis g)) (dated_genesis g) (genesis_doc g).
Proof. intro g. doc; [apply shows_bill|]. unfold dated_genesis. cbn [js_genesis jg_created jg_increase]. tauto. Qed.

Section WithCurve.
Context {C : Curve}.
Lemma shows_sig : forall s : ringsig C, shows (jsig s) True (sig_text s).
Proof. intro s. apply shows_safe. unfold ring_string. eapply b64_safe. apply le_n. Qed.
Lemma shows_sigs : forall l : list (ringsig C), shows (jlist jsig l) True (array (map sig_text l)).
Proof. intro l. apply shows_trues. exact shows_sig. Qed.
Lemma shows_expense : forall e : expense (C := C), shows (e_expense (js_expense e)) (dated_expense e) (expense_doc e).
Proof.
  intro e. doc; [apply shows_content| |].
  - apply (shows_list _ _ jstr (ring_string C) (fun _ => True)). intros s _. apply shows_sig.
  - unfold dated_expense. split; [tauto|]. intro H. split; [exact H|]. split; [|trivial]. apply Forall_forall. trivial.
Qed.
Lemma shows_trx : forall t : transaction (C := C), shows (e_trx (js_trx t)) (dated_trx t) (trx_doc t).
Proof.
  intro t. doc; [apply (shows_opt _ _ e_address js_address dated_address); intros; apply shows_address
    |apply (shows_ptrs _ _ e_expense js_expense dated_expense); intros; apply shows_expense|].
  unfold dated_trx. cbn [js_trx jtx_created]. tauto.
Qed.
Lemma shows_block : forall b : block (C := C), shows (e_block (js_block b)) (dated_block b) (block_doc b).
Proof.
  intro b. doc; [apply shows_genesis|apply (shows_ptrs _ _ e_trx js_trx dated_trx); intros; apply shows_trx|].
  unfold dated_block. cbn [js_block jbk_created]. tauto.
Qed.
Lemma shows_link : forall l : chain_link (C := C), shows (e_link (js_link l)) (dated_link l) (link_doc l).
Proof. intro l. doc; [apply shows_block|]. unfold dated_link. cbn [js_link jln_created]. tauto. Qed.
Lemma shows_mined_link : forall l : mined_link (C := C), shows (e_mlink (js_mlink l)) (dated_mined_link l) (mined_link_doc l).
Proof. intro l. doc; [apply shows_link|]. unfold dated_mined_link. cbn [js_mlink jml_created]. tauto. Qed.
End WithCurve.

(** ** Stored documents *)
Lemma shows_tlock : forall t, shows (e_tlock t) (dated (im_created (tl_im t))) (stored_lock t).
Proof. intro t. doc. tauto. Qed.
Lemma shows_tbill : forall t, shows (e_tbill t) (dated (im_created (tb_im t))) (stored_bill t).
Proof. intro t. doc. tauto. Qed.
Lemma shows_tgenesis : forall t, shows (e_tgenesis t) (float_number (tg_increase t) /\ dated (im_created (tg_im t))) (stored_genesis t).
Proof. intro t. doc. tauto. Qed.
Lemma shows_ttrx : forall t, shows (e_ttrx t) (dated (im_created (tt_im t))) (stored_trx t).
Proof. intro t. doc. tauto. Qed.
Lemma shows_leaf : forall h, shows (e_jleaf (json_of_leaf (LLeaf h))) True (leaf_text h).
Proof. intro h. cbn [json_of_leaf e_jleaf e_jnode]. doc; [apply shows_null|]. tauto. Qed.
Lemma leaves_leaf : forall x, Forall (fun y => y = LLeaf (leaf_head y)) (leaf_leaves x).
Proof. induction x as [h|h l IHl r IHr]; cbn [leaf_leaves]; [constructor; [reflexivity|constructor]|apply Forall_app; split; assumption]. Qed.
Lemma shows_tree : forall t, shows (e_jcompact (jcompact_of_tree t)) True (tree_text t).
Proof.
  intro t. unfold e_jcompact, tree_text. doc.
  - cbn [jcompact_of_tree json_of_compact jc_leaves ht_compact c_leaves]. rewrite map_map.
    apply (shows_list _ _ e_jleaf json_of_leaf (fun _ => True)). intros x Hx.
    assert (F : Forall (fun y => y = LLeaf (leaf_head y)) (ht_block_leaves t)) by (apply Forall_app; split; apply leaves_leaf).
    rewrite Forall_forall in F. rewrite (F x Hx) at 1. apply shows_leaf.
  - split; [trivial|]. intros _. split; [trivial|]. split; [|trivial]. apply Forall_forall. trivial.
Qed.
Lemma shows_tblock : forall t, shows (e_tblock t) (dated (im_created (tk_im t))) (stored_block t).
Proof. intro t. doc; [apply shows_tree|]. tauto. Qed.
Lemma shows_tmblock : forall t, shows (e_tmblock t) (dated (im_created (tm_im t))) (stored_mined_block t).
Proof. intro t. doc. tauto. Qed.
Lemma shows_tlink : forall t, shows (e_tlink t) (dated (im_created (ti_im t))) (stored_link t).
Proof. intro t. doc. tauto. Qed.
Lemma shows_tmlink : forall t, shows (e_tmlink t) (dated (im_created (tn_im t))) (stored_mined_link t).
Proof. intro t. doc. tauto. Qed.
Lemma shows_tchain : forall t, shows (e_tchain t) (dated (im_created (tc_im t))) (stored_chain t).
Proof. intro t. doc. tauto. Qed.
Lemma shows_tstate : forall t, shows (e_tstate t) (dated (im_created (ts_im t))) (stored_state t).
Proof. intro t. doc; [apply shows_tree|]. tauto. Qed.
Lemma shows_tentry : forall t, shows (e_tentry t) (dated (im_created (IdentityModel.te_im t))) (stored_entry t).
Proof. intro t. doc. tauto. Qed.
Lemma shows_tstatement : forall t, shows (e_tstatement t) (dated (im_created (IdentityModel.ts_im t))) (stored_statement t).
Proof. intro t. doc. tauto. Qed.
Lemma shows_twallet : forall t, shows (e_twallet t) (dated (im_created (tv_im t))) (stored_wallet t).
Proof. intro t. doc. tauto. Qed.
Lemma shows_tidentity : forall t, shows (e_tidentity t) (dated (mu_created (td_mu t))) (stored_identity t).
Proof. intro t. doc. tauto. Qed.
Section WithCurve2.
Context {C : Curve}.
Lemma shows_texpense : forall t : texpense C, shows (e_texpense t) (dated (im_created (te_im t))) (stored_expense t).
Proof. intro t. doc; [apply shows_sigs|]. tauto. Qed.
Lemma shows_tcancel : forall t : CancelModel.tcancel C, shows (CancelModel.e_tcancel t) (dated (im_created (CancelModel.tn_im t))) (stored_cancel t).
Proof. intro t. doc; [apply shows_sigs|]. tauto. Qed.
Lemma shows_twbill : forall t : twbill (C := C), shows (e_twbill t) (dated (im_created (tw_im t))) (stored_wallet_bill t).
Proof. intro t. doc; [apply shows_trues; intro x; apply shows_str|]. tauto. Qed.
End WithCurve2.

(** ** Tree documents of any shape *)
Fixpoint shows_jleaf (x : jleaf) : shows (e_jleaf x) True (jleaf_doc x)
with shows_jnode (x : jnode) : shows (e_jnode x) True (jnode_doc x).
Proof.
  - destruct x as [|h n]; cbn [e_jleaf jleaf_doc]; [apply shows_null|]. pose proof (shows_jnode n) as N. clear shows_jleaf shows_jnode.
    doc; [exact N|]. tauto.
  - destruct x as [|l r]; cbn [e_jnode jnode_doc]; [apply shows_null|]. pose proof (shows_jleaf l) as L. pose proof (shows_jleaf r) as R. clear shows_jleaf shows_jnode.
    doc; [exact L|exact R|]. tauto.
Qed.
Lemma shows_jcompact : forall x, shows (e_jcompact x) True (jcompact_doc x).
Proof. intro x. doc; [apply shows_trues; exact shows_jleaf|]. tauto. Qed.
