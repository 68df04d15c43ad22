From Coq Require Import Lia ZifyBool ZifyNat ZifyN.
From Verif Require Import Base BaseFacts HashModel HashProofs HashSpec HashTreeModel HashTreeProofs SignModel EntitiesModel FloatModel
  PiastresModel PiastresSpec PiastresProofs JsonModel JsonProofs TimeModel TimeProofs FloatText MemJsonModel CodecProofs MemSpec
  MemJsonProofs TransferModel TransferProofs StoreModel StoreSpec StoreProofs StoreInvariant.

Section WithCurve.
Context {C : Curve}.
Implicit Types o p : obj C.

Notation fname := file_name.
(** what [Save] writes *)
Definition text_of o : res bytes :=
  match o with
  | OLock l => let! t := lock_to_transfer l in marshal e_tlock t
  | OBill b => let! t := bill_to_transfer b in marshal e_tbill t
  | OExpense e => let! t := expense_to_transfer e in marshal e_texpense t
  | OTrx t => let! t := trx_to_transfer t in marshal e_ttrx t
  | OGenesis g => let! t := genesis_to_transfer g in marshal e_tgenesis t
  | OBlock b => let! t := block_to_transfer b in marshal e_tblock t
  | OMBlock b => let! t := mblock_to_transfer b in marshal e_tmblock t
  | OLink l => let! t := link_to_transfer l in marshal e_tlink t
  | OMLink l => let! t := mlink_to_transfer l in marshal e_tmlink t
  end.
Definition put o : act := lift (text_of o) (write (kind_of o) (fname (kind_of o) (hash_of o))).
Lemma lift_put : forall T (x : res T) (e : T -> res json) k n s,
  lift x (tr_save e k n) s = lift (let! t := x in marshal e t) (write k n) s.
Proof. intros T [t| |] e k n s; reflexivity. Qed.

Definition failed {A} (x : res A) : Prop := x = Err.
Notation torn := (@unreadable C).
Lemma documents_torn : forall T (e : T -> res json) dec t, documents e dec t -> exists s, marshal e t = Ok s /\
  ~ failed (unmarshal dec s) /\ forall i, i < length s -> failed (unmarshal dec (firstn i s)).
Proof. intros T e dec t (s & M & R & F). exists s. split; [exact M|]. split; [|exact F]. unfold failed. rewrite R. discriminate. Qed.
Ltac doc D := destruct (documents_torn _ _ _ _ D) as (s & M & R & F); exists s; split; [|split; [exact R|exact F]].
Lemma text_facts : forall o, proper o -> exists s, text_of o = Ok s /\ ~ torn (kind_of o) s /\
  forall i, i < length s -> torn (kind_of o) (firstn i s).
Proof.
  intros [l|b|e|t|g|b|b|l|l] P; cbn [text_of kind_of unreadable].
  - destruct P as [G D]. doc (lock_documents l G D). exact M.
  - destruct P as [G D]. doc (bill_documents b G D). unfold bill_to_transfer, tbill_now.
    destruct G as (now & l & a & cr & _ & _ & E). apply bill_now_iff in E as (l' & _ & Pa & ->). cbn [bl_amount] in *.
    destruct (N.eqb_spec a 0); [lia|exact M].
  - destruct P as [G D]. doc (expense_documents e G D). unfold expense_to_transfer, texpense_now.
    destruct G as (now & c & sigs & G & S & E). apply expense_now_iff in E as (c' & ss & E1 & E2 & L & U & ->).
    injection E1 as <-. injection E2 as <-. cbn [ex_content ex_sigs] in *.
    destruct G as (now' & a & from & lk & rem & cr & _ & _ & _ & _ & E). pose proof (content_nonempty _ _ _ _ _ _ _ E) as N.
    apply content_from in E. rewrite E in *. destruct from as [|f from]; [congruence|]. destruct sigs; [discriminate|]. exact M.
  - destruct P as (G & D & A). doc (trx_documents t G D A). unfold trx_to_transfer.
    rewrite ttrx_now_ok; [exact M|]. pose proof (good_trx_parts t G) as (_ & _ & [P|[P|P]]); [congruence|auto|].
    right. right. destruct (tx_fees t); [congruence|discriminate].
  - destruct P as [G D]. doc (genesis_documents g G D). unfold genesis_to_transfer, tgenesis_now.
    destruct G as (now & bs & inc & lnk & b & cr & _ & _ & _ & E). apply genesis_now_iff in E as (b0 & Eb & P1 & P2 & P3 & ->).
    cbn [gn_base gn_increase gn_link] in *. rewrite P2. destruct (N.eqb_spec bs 0); [lia|]. destruct (N.eqb_spec lnk 0); [lia|]. exact M.
  - destruct P as (G & D & L). destruct (block_documents b G D L) as (ht & EH & _ & NZ & DOC). doc DOC.
    unfold block_to_transfer, tblock_now. rewrite EH. cbn [rbind].
    destruct (N.eqb_spec (u64 (N.of_nat (length (bk_trx b)))) 0); [contradiction|exact M].
  - destruct P as (G & _ & D). doc (mblock_documents b G D). exact M.
  - destruct P as (G & _ & D). doc (link_documents l G D). exact M.
  - destruct P as (G & _ & D). doc (mlink_documents l G D). exact M.
Qed.

(** ** Reading *)
Lemma tr_retrieve_none : forall T (dec : list json -> res T) k d n,
  (forall s, d k n = Some s -> failed (unmarshal dec s)) -> tr_retrieve dec k d n = Err.
Proof. intros T dec k d n H. unfold tr_retrieve, read. destruct (d k n) as [s|]; [exact (H s eq_refl)|reflexivity]. Qed.
Lemma retrieve_none : forall k h d, (forall s, d k (fname k h) = Some s -> torn k s) -> @retrieve_obj C k h d = Err.
Proof.
  intros [] h d H; cbn [retrieve_obj file_name unreadable] in *; try reflexivity;
    unfold lock_retrieve, bill_retrieve, expense_retrieve, trx_retrieve, genesis_retrieve, block_retrieve, mblock_retrieve,
      link_retrieve, mlink_retrieve; rewrite (tr_retrieve_none _ _ _ _ _ H); reflexivity.
Qed.
Lemma retrieve_part : forall A (f : A -> obj C) (x : res A) (R : A -> A -> Prop) a, 
  (exists o, rmap f x = Ok o /\ same o (f a)) -> (forall b, same (f b) (f a) -> R b a) -> exists b, x = Ok b /\ R b a.
Proof. intros A f [b| |] R a (o & E & S) H; try discriminate. injection E as <-. exists b. auto. Qed.
Lemma retrieve_back : forall o d s, proper o -> text_of o = Ok s -> d (kind_of o) (fname (kind_of o) (hash_of o)) = Some s ->
  (forall p, In p (parts o) -> exists p', retrieve_obj (kind_of p) (hash_of p) d = Ok p' /\ same p' p) ->
  exists o', retrieve_obj (kind_of o) (hash_of o) d = Ok o' /\ same o' o.
Proof.
  intros o d s P E H R.
  assert (W : forall A (f : A -> obj C) (x : res A) (R : A -> A -> Prop) a, (exists b, x = Ok b /\ R b a) ->
    (forall b, R b a -> same (f b) (f a)) -> exists o', rmap f x = Ok o' /\ same o' (f a)).
  { intros A f x Q a (b & -> & Hb) I. exists (f b). auto. }
  destruct o as [l|b|e|t|g|b|b|l|l]; cbn [kind_of hash_of retrieve_obj file_name parts] in *;
    (eapply W; [|intros x Hx; exact Hx]).
  - destruct P as [G D]. apply lock_back; auto. exists s. auto.
  - destruct P as [G D]. apply bill_back; auto.
    + exists s. split; [|exact H]. revert E. cbn [text_of]. unfold bill_to_transfer, tbill_now. destruct (N.eqb _ _); [discriminate|]. auto.
    + apply (retrieve_part _ OLock _ lock_eq); [|auto]. apply (R (OLock (bl_lock b))). left. reflexivity.
  - destruct P as [G D]. apply expense_back; auto.
    + exists s. split; [|exact H]. revert E. cbn [text_of]. unfold expense_to_transfer, texpense_now.
      destruct (ct_from _); [discriminate|]. destruct (ex_sigs e); [discriminate|]. auto.
    + intros b Hb. apply (retrieve_part _ OBill _ bill_eq); [|auto]. apply (R (OBill b)).
      rewrite !in_app_iff in *. destruct Hb as [Hb|[Hb|Hb]]; [left; apply in_map; exact Hb| |right; right; apply in_map; exact Hb].
      right. left. destruct Hb as [<-|[]]. left. reflexivity.
  - destruct P as (G & D & A). apply trx_back; auto.
    + exists s. split; [|exact H]. revert E. cbn [text_of]. unfold trx_to_transfer, ttrx_now.
      destruct (tx_bucket t), (tx_fees t); try discriminate; auto.
    + intros e He. apply (retrieve_part _ OExpense _ expense_eq); [|auto]. apply (R (OExpense e)). apply in_map. exact He.
  - destruct P as [G D]. apply genesis_back; auto.
    + exists s. split; [|exact H]. revert E. cbn [text_of]. unfold genesis_to_transfer, tgenesis_now.
      destruct (N.eqb _ _); [discriminate|]. destruct (f_le_zero _); [discriminate|]. destruct (N.eqb _ _); [discriminate|]. auto.
    + apply (retrieve_part _ OBill _ bill_eq); [|auto]. apply (R (OBill (gn_bill g))). left. reflexivity.
  - destruct P as (G & D & L). destruct (block_documents b G D L) as (ht & EH & _). apply (block_back d b ht); auto.
    + exists s. split; [|exact H]. revert E. cbn [text_of]. unfold block_to_transfer, tblock_now. rewrite EH. cbn [rbind].
      destruct (N.eqb _ _); [discriminate|]. auto.
    + apply (retrieve_part _ OGenesis _ genesis_eq); [|auto]. apply (R (OGenesis (bk_genesis b))). left. reflexivity.
    + intros t Ht. apply (retrieve_part _ OTrx _ trx_eq); [|auto]. apply (R (OTrx t)). right. apply in_map. exact Ht.
  - destruct P as (G & _ & D). apply mblock_back; auto.
    + exists s. auto.
    + apply (retrieve_part _ OBlock _ block_eq); [|auto]. apply (R (OBlock (mb_block b))). left. reflexivity.
  - destruct P as (G & _ & D). apply link_back; auto.
    + exists s. auto.
    + apply (retrieve_part _ OBlock _ block_eq); [|auto]. apply (R (OBlock (ln_next l))). left. reflexivity.
  - destruct P as (G & _ & D). apply mlink_back; auto.
    + exists s. auto.
    + apply (retrieve_part _ OLink _ link_eq); [|auto]. apply (R (OLink (ml_link l))). left. reflexivity.
Qed.

(** ** Equality up to times *)
Lemma Forall2_trans : forall A (R : A -> A -> Prop) l1 l2 l3, (forall x y z, R x y -> R y z -> R x z) ->
  Forall2 R l1 l2 -> Forall2 R l2 l3 -> Forall2 R l1 l3.
Proof.
  intros A R l1 l2 l3 T F. revert l3. induction F as [|x y l1 l2 H F IH]; intros l3 G; inversion G; subst; constructor; eauto.
Qed.
Lemma opt_eq_trans : forall A (R : A -> A -> Prop) a b c, (forall x y z, R x y -> R y z -> R x z) ->
  opt_eq R a b -> opt_eq R b c -> opt_eq R a c.
Proof. intros A R [a|] [b|] [c|] T; cbn; try tauto. apply T. Qed.
Lemma content_eq_trans : forall a b c, content_eq a b -> content_eq b c -> content_eq a c.
Proof.
  intros a b c (H1 & H2 & H3 & H4) (K1 & K2 & K3 & K4). split; [congruence|]. split; [|split].
  - eapply Forall2_trans; eauto using bill_eq_trans.
  - eapply bill_eq_trans; eauto.
  - eapply opt_eq_trans; eauto using bill_eq_trans.
Qed.
Lemma expense_eq_trans : forall a b c : expense, expense_eq a b -> expense_eq b c -> expense_eq a c.
Proof. intros a b c (H1 & H2 & H3) (K1 & K2 & K3). split; [congruence|]. split; [eapply content_eq_trans; eauto|congruence]. Qed.
Lemma trx_eq_trans : forall a b c : transaction, trx_eq a b -> trx_eq b c -> trx_eq a c.
Proof.
  intros a b c (H1 & H2 & H3 & H4) (K1 & K2 & K3 & K4). split; [congruence|]. split; [congruence|]. split; [congruence|].
  eapply Forall2_trans; eauto using expense_eq_trans.
Qed.
Lemma genesis_eq_trans : forall a b c, genesis_eq a b -> genesis_eq b c -> genesis_eq a c.
Proof.
  intros a b c (H1 & H2 & H3 & H4 & H5) (K1 & K2 & K3 & K4 & K5).
  split; [congruence|]. split; [eapply bill_eq_trans; eauto|]. repeat split; congruence.
Qed.
Lemma block_eq_trans : forall a b c : block, block_eq a b -> block_eq b c -> block_eq a c.
Proof.
  intros a b c (H1 & H2 & H3 & H4) (K1 & K2 & K3 & K4). split; [congruence|]. split; [eapply genesis_eq_trans; eauto|].
  split; [congruence|]. eapply Forall2_trans; eauto using trx_eq_trans.
Qed.
Lemma same_trans : forall a b c : obj C, same a b -> same b c -> same a c.
Proof.
  intros a b c. destruct a, b; cbn [same]; try contradiction; destruct c; cbn [same]; try contradiction;
    eauto using lock_eq_trans, bill_eq_trans, expense_eq_trans, trx_eq_trans, genesis_eq_trans, block_eq_trans.
  - intros (H1 & H2 & H3) (K1 & K2 & K3). split; [congruence|]. split; [eapply block_eq_trans; eauto|congruence].
  - intros (H1 & H2 & H3 & H4) (K1 & K2 & K3 & K4). split; [congruence|]. split; [congruence|]. split; [eapply block_eq_trans; eauto|congruence].
  - intros (H1 & (H2 & H3 & H4 & H5) & H6) (K1 & (K2 & K3 & K4 & K5) & K6). split; [congruence|]. split; [|congruence].
    split; [congruence|]. split; [congruence|]. split; [eapply block_eq_trans; eauto|congruence].
Qed.
Lemma same_hash : forall a b : obj C, same a b -> hash_of a = hash_of b.
Proof. intros a b. destruct a, b; cbn [same]; try contradiction; intros (H & _); exact H. Qed.

(** ** The invariant *)
Section Universe.
Variable m : mode.
Variable U : obj C -> Prop.
Hypothesis HU : universe m U.
Notation covered := (covers m).

Inductive stored (d : disk) : kind -> hash -> Prop :=
| stored_intro : forall o s, U o -> text_of o = Ok s -> d (kind_of o) (fname (kind_of o) (hash_of o)) = Some s ->
    (forall p, In p (parts o) -> stored d (kind_of p) (hash_of p)) -> stored d (kind_of o) (hash_of o).
Definition inv (d : disk) : Prop := forall k n s, covered k -> d k n = Some s ->
  torn k s \/ exists h, n = fname k h /\ stored d k h.
(** no complete file was touched *)
Definition ext (d d' : disk) : Prop := forall k n s, covered k -> d k n = Some s -> ~ torn k s -> d' k n = Some s.

Lemma ext_refl : forall d, ext d d.
Proof. unfold ext. auto. Qed.
Lemma ext_trans : forall d1 d2 d3, ext d1 d2 -> ext d2 d3 -> ext d1 d3.
Proof. unfold ext. intros d1 d2 d3 H1 H2 k n s Ck E T. eauto. Qed.
Lemma covered_parts : forall o p, covered (kind_of o) -> In p (parts o) -> covered (kind_of p).
Proof.
  intros o p L H. destruct m; [| |destruct p; exact I]; destruct o; cbn [kind_of covers] in L; try contradiction; cbn [parts] in H;
    try (destruct H as [<-|[]]; exact I).
  - rewrite !in_app_iff in H. destruct H as [H|[[<-|[]]|H]]; [| exact I |]; apply in_map_iff in H as (x & <- & _); exact I.
  - apply in_map_iff in H as (x & <- & _); exact I.
Qed.
Lemma stored_ext : forall d d' k h, ext d d' -> covered k -> stored d k h -> stored d' k h.
Proof.
  intros d d' k h X Ck S. induction S as [o s Uo T F P IH]. apply (stored_intro d' o s); auto.
  - apply X; auto. destruct (text_facts o (u_proper m U HU o Uo Ck)) as (s' & E & N & _). assert (s' = s) by congruence. subst s'. exact N.
  - intros p Hp. apply IH; [exact Hp|]. exact (covered_parts o p Ck Hp).
Qed.
Lemma stored_retrieve : forall d k h, stored d k h -> covered k -> forall o, U o -> kind_of o = k -> hash_of o = h ->
  exists o', retrieve_obj k h d = Ok o' /\ same o' o.
Proof.
  intros d k h S. induction S as [o1 s U1 T F P IH]. intros Ck o Uo Ek Eh.
  destruct (retrieve_back o1 d s (u_proper m U HU o1 U1 Ck) T F) as (o' & R & S').
  - intros p Hp. apply (IH p Hp (covered_parts o1 p Ck Hp) p); auto. exact (u_parts m U HU o1 p U1 Hp).
  - exists o'. split; [exact R|]. apply (same_trans _ o1); [exact S'|]. apply (u_determined m U HU); auto.
Qed.
Lemma stored_retrieved : forall d k h, stored d k h -> covered k -> exists o', retrieve_obj k h d = Ok o' /\ hash_of o' = h.
Proof.
  intros d k h S Ck. inversion S as [o s Uo T F P E1 E2]. destruct (stored_retrieve d k h S Ck o Uo E1 E2) as (o' & R & Sm).
  exists o'. split; [subst; exact R|]. rewrite (same_hash _ _ Sm). subst. reflexivity.
Qed.
Lemma fname_inj : forall k h h', k <> KGenesis -> fname k h = fname k h' -> h = h'.
Proof. intros k h h' N E. destruct k; try congruence; apply hash_string_inj; exact E. Qed.
(** a failed [Retrieve] means that there is no complete file *)
Lemma retrieve_cases : forall d k h, inv d -> covered k ->
  (exists h', fname k h' = fname k h /\ stored d k h' /\ (k <> KGenesis -> h' = h)) \/
  ((forall s, d k (fname k h) = Some s -> torn k s) /\ @retrieve_obj C k h d = Err).
Proof.
  intros d k h I Ck. destruct (d k (fname k h)) as [s|] eqn:E.
  - destruct (I k _ s Ck E) as [T|(h' & En & S)].
    + right. assert (X : forall s0, d k (fname k h) = Some s0 -> torn k s0) by (intros s0 E0; rewrite E in E0; injection E0 as <-; exact T).
      split; [rewrite E in X; exact X|]. apply retrieve_none. exact X.
    + left. exists h'. split; [auto|]. split; [exact S|]. intro N. apply (fname_inj k); auto.
  - right. split; [discriminate|]. apply retrieve_none. rewrite E. discriminate.
Qed.

(** ** Actions *)
(** the order in which files refer to each other *)
Definition rank (k : kind) : nat :=
  match k with
  | KLock => 0 | KBill => 1 | KExpense => 2 | KTrx => 3 | KGenesis => 4 | KBlock => 5 | KMBlock => 6 | KLink => 6 | KMLink => 7
  | KAddress | KChain | KState => 8
  end.
(** nothing of rank [r] or above was touched *)
Definition frame (r : nat) (d d' : disk) : Prop := forall k n, r <= rank k -> d' k n = d k n.
Lemma frame_refl : forall r d, frame r d d.
Proof. unfold frame. auto. Qed.
Lemma frame_trans : forall r d1 d2 d3, frame r d1 d2 -> frame r d2 d3 -> frame r d1 d3.
Proof. unfold frame. intros r d1 d2 d3 H1 H2 k n H. rewrite H2, H1; auto. Qed.
Lemma frame_up : forall r r' d d', r <= r' -> frame r d d' -> frame r' d d'.
Proof. unfold frame. intros r r' d d' L H k n Hk. apply H. lia. Qed.
(** [a] keeps the invariant and all complete files, touches only what is below [r], does
    not crash, guarantees [post] if it succeeds, and succeeds if there are no faults *)
Definition sound (r : nat) (pre : disk -> Prop) (a : act) (post : disk -> Prop) : Prop := forall s, inv (fs_disk s) -> pre (fs_disk s) ->
  exists x s', a s = (x, s') /\ inv (fs_disk s') /\ ext (fs_disk s) (fs_disk s') /\ frame r (fs_disk s) (fs_disk s') /\ x <> Panic /\
    (x = Ok tt -> post (fs_disk s')) /\ (fs_faults s = [] -> x = Ok tt /\ fs_faults s' = []).
Definition grows (r : nat) (q : disk -> Prop) : Prop := forall d d', ext d d' -> frame r d d' -> q d -> q d'.

Lemma sound_seq : forall r (pre : disk -> Prop) a (q1 : disk -> Prop) b (q2 : disk -> Prop), grows r pre -> grows r q1 ->
  sound r pre a q1 -> sound r (fun d => pre d /\ q1 d) b q2 -> sound r pre (a ;; b) (fun d => q1 d /\ q2 d).
Proof.
  intros r pre a q1 b q2 G1 G2 Ha Hb s I P. destruct (Ha s I P) as (x & s1 & E & I1 & X1 & F1 & NP & Po & Fi). unfold seq. rewrite E.
  destruct x as [[]| |]; [|exists Err, s1; repeat (split; [auto; fail|]); split; [discriminate|]; intro F; apply Fi in F as [F _]; discriminate|congruence].
  destruct (Hb s1 I1) as (x2 & s2 & E2 & I2 & X2 & F2 & NP2 & Po2 & Fi2).
  { split; [exact (G1 _ _ X1 F1 P)|apply Po; reflexivity]. }
  exists x2, s2. rewrite E2. split; [reflexivity|]. split; [exact I2|]. split; [eapply ext_trans; eauto|].
  split; [eapply frame_trans; eauto|]. split; [exact NP2|]. split.
  - intro E3. split; [|apply Po2; exact E3]. apply (G2 _ _ X2 F2). apply Po. reflexivity.
  - intro F. apply Fi in F as [_ F]. apply Fi2. exact F.
Qed.
Lemma sound_weaken : forall r r' (pre pre' : disk -> Prop) a (q q' : disk -> Prop), sound r pre a q -> r <= r' ->
  (forall d, pre' d -> pre d) -> (forall d, q d -> q' d) -> sound r' pre' a q'.
Proof.
  intros r r' pre pre' a q q' H L H1 H2 s I P. destruct (H s I (H1 _ P)) as (x & s' & E & I' & X & F & N & Po & Fi).
  exists x, s'. repeat (split; [auto; fail|]). split; [eapply frame_up; eauto|]. split; [exact N|]. split; [auto|exact Fi].
Qed.
Lemma sound_pre : forall r pre a q, grows r pre -> sound r pre a q -> sound r pre a (fun d => pre d /\ q d).
Proof.
  intros r pre a q G H s I P. destruct (H s I P) as (x & s' & E & I' & X & F & N & Po & Fi).
  exists x, s'. repeat (split; [auto; fail|]). split; [|exact Fi]. intro Ex. split; [exact (G _ _ X F P)|auto].
Qed.
Lemma sound_done : forall r pre (q : disk -> Prop), (forall d, q d) -> sound r pre done q.
Proof.
  intros r pre q Q s I P. exists (Ok tt), s. split; [reflexivity|]. split; [exact I|]. split; [apply ext_refl|]. split; [apply frame_refl|].
  split; [discriminate|]. auto.
Qed.
Lemma sound_each : forall r pre A (f : A -> act) (q : A -> disk -> Prop) l, grows r pre -> (forall x, grows r (q x)) ->
  (forall x, In x l -> sound r pre (f x) (q x)) -> sound r pre (each f l) (fun d => forall x, In x l -> q x d).
Proof.
  intros r pre A f q l G GQ. induction l as [|x l IH]; intro H; cbn [each].
  - apply sound_done. intros d x [].
  - eapply sound_weaken; [apply (sound_seq r pre (f x) (q x) (each f l) (fun d => forall x, In x l -> q x d))|auto|auto|].
    + exact G.
    + apply GQ.
    + apply H. left. reflexivity.
    + eapply sound_weaken; [apply IH; intros y Hy; apply H; right; exact Hy|auto|tauto|auto].
    + intros d [H1 H2] y [<-|Hy]; auto.
Qed.
Lemma sound_eq : forall r pre a b post, (forall s, a s = b s) -> sound r pre b post -> sound r pre a post.
Proof. intros r pre a b post E H s I P. rewrite E. apply H; assumption. Qed.

(** the final write of a [Save]; [Retrieve] failed before *)
Lemma write_inv : forall o d s c, U o -> inv d -> covered (kind_of o) -> text_of o = Ok s ->
  (forall p, In p (parts o) -> stored d (kind_of p) (hash_of p)) ->
  (forall s, d (kind_of o) (fname (kind_of o) (hash_of o)) = Some s -> torn (kind_of o) s) ->
  c = s \/ torn (kind_of o) c ->
  let d' := upd d (kind_of o) (fname (kind_of o) (hash_of o)) c in
  inv d' /\ ext d d' /\ (c = s -> stored d' (kind_of o) (hash_of o)).
Proof.
  intros o d s c Uo I Ck T P A Hc d'.
  assert (X : ext d d').
  { intros k n s' Ck' E N. unfold d'. rewrite upd_other; [exact E|]. intro Q. injection Q as -> ->. apply N. apply A. exact E. }
  assert (S : c = s -> stored d' (kind_of o) (hash_of o)).
  { intros ->. apply (stored_intro d' o s); auto; [apply upd_same|]. intros p Hp. apply (stored_ext d); auto.
    exact (covered_parts o p Ck Hp). }
  split; [|split; [exact X|exact S]].
  intros k n s' Ck' E.
  assert (Q : (k, n) = (kind_of o, fname (kind_of o) (hash_of o)) \/ (k, n) <> (kind_of o, fname (kind_of o) (hash_of o))).
  { destruct (kind_eqb k (kind_of o)) eqn:E1; [apply kind_eqb_iff in E1|right; intro Q; injection Q as Q1 Q2; apply kind_eqb_iff in Q1; congruence].
    destruct (bseq n (fname (kind_of o) (hash_of o))) eqn:E2; [apply bseq_eq in E2; left; congruence|].
    right. intro Q. injection Q as Q1 Q2. rewrite Q2, bseq_refl in E2. discriminate. }
  destruct Q as [Q|Q].
  - injection Q as -> ->. unfold d' in E. rewrite upd_same in E. injection E as <-. destruct Hc as [Hc|Hc]; [right|left; exact Hc].
    exists (hash_of o). split; [reflexivity|]. apply S. exact Hc.
  - unfold d' in E. rewrite upd_other in E by exact Q. destruct (I k n s' Ck' E) as [H|(h & En & H)]; [left; exact H|right].
    exists h. split; [exact En|]. apply (stored_ext d); auto.
Qed.
Definition stored_obj o d : Prop := stored d (kind_of o) (hash_of o).
Definition parts_stored o d : Prop := forall p, In p (parts o) -> stored_obj p d.
(** no complete file under the name of [o] *)
Definition free o d : Prop := forall s, d (kind_of o) (fname (kind_of o) (hash_of o)) = Some s -> torn (kind_of o) s.
Lemma upd_frame : forall k n c d, frame (S (rank k)) d (upd d k n c).
Proof. intros k n c d k' n' H. apply upd_other. intro E. injection E as <- <-. lia. Qed.
Lemma sound_put : forall o, U o -> covered (kind_of o) ->
  sound (S (rank (kind_of o))) (fun d => parts_stored o d /\ free o d) (put o) (stored_obj o).
Proof.
  intros o Uo Ck [d fl] I [P A]. cbn [fs_disk] in *. destruct (text_facts o (u_proper m U HU o Uo Ck)) as (s & T & N & F).
  unfold put. rewrite T. unfold lift, write. cbn [fs_disk fs_faults].
  assert (W : forall c, c = s \/ torn (kind_of o) c ->
    let d' := upd d (kind_of o) (fname (kind_of o) (hash_of o)) c in
    inv d' /\ ext d d' /\ (c = s -> stored d' (kind_of o) (hash_of o))) by (intros c Hc; exact (write_inv o d s c Uo I Ck T P A Hc)).
  cbn zeta in W.
  destruct fl as [|[| |i] fl].
  - destruct (W s (or_introl eq_refl)) as (I' & X' & S'). do 2 eexists. split; [reflexivity|]. cbn [fs_disk fs_faults].
    split; [exact I'|]. split; [exact X'|]. split; [apply upd_frame|]. split; [discriminate|]. split; [intros _; apply S'; reflexivity|auto].
  - destruct (W s (or_introl eq_refl)) as (I' & X' & S'). do 2 eexists. split; [reflexivity|]. cbn [fs_disk fs_faults].
    split; [exact I'|]. split; [exact X'|]. split; [apply upd_frame|]. split; [discriminate|]. split; [intros _; apply S'; reflexivity|discriminate].
  - do 2 eexists. split; [reflexivity|]. cbn [fs_disk fs_faults].
    split; [exact I|]. split; [apply ext_refl|]. split; [apply frame_refl|]. repeat split; discriminate.
  - destruct (W (firstn i s)) as (I' & X' & S').
    { destruct (Nat.lt_ge_cases i (length s)) as [Hi|Hi]; [right; apply F; exact Hi|left; apply firstn_all2; exact Hi]. }
    do 2 eexists. split; [reflexivity|]. cbn [fs_disk fs_faults].
    split; [exact I'|]. split; [exact X'|]. split; [apply upd_frame|]. repeat split; discriminate.
Qed.

(** ** Saving *)
Lemma stored_grows : forall r o, covered (kind_of o) -> grows r (stored_obj o).
Proof. intros r o Ck d d' X _ S. apply (stored_ext d); assumption. Qed.
Lemma parts_grow : forall r o, covered (kind_of o) -> grows r (parts_stored o).
Proof. intros r o Ck d d' X F H p Hp. apply (stored_grows r p (covered_parts o p Ck Hp) d); auto. Qed.
Lemma free_grows : forall r o, r <= rank (kind_of o) -> grows r (free o).
Proof. intros r o L d d' X F H s E. rewrite F in E by exact L. auto. Qed.
Lemma grows_and : forall r q1 q2, grows r q1 -> grows r q2 -> grows r (fun d => q1 d /\ q2 d).
Proof. intros r q1 q2 H1 H2 d d' X F [Q1 Q2]. split; eauto. Qed.
Lemma grows_up : forall r r' q, r <= r' -> grows r' q -> grows r q.
Proof. intros r r' q L H d d' X F. apply H; [exact X|eapply frame_up; eauto]. Qed.
(** the parts, then the object itself *)
Lemma sound_parts_put : forall o pre a w, U o -> covered (kind_of o) -> grows (rank (kind_of o)) pre ->
  sound (rank (kind_of o)) pre a (parts_stored o) -> (forall s, w s = put o s) ->
  sound (S (rank (kind_of o))) (fun d => pre d /\ free o d) (a ;; w) (stored_obj o).
Proof.
  intros o pre a w Uo Ck G Ha Ew s I [P Fr].
  assert (HA : sound (rank (kind_of o)) (fun d => pre d /\ free o d) a (fun d => (pre d /\ free o d) /\ parts_stored o d)).
  { apply sound_pre; [apply grows_and; [exact G|apply free_grows; auto]|]. eapply sound_weaken; [exact Ha|auto|tauto|auto]. }
  destruct (HA s I (conj P Fr)) as (x & s1 & E & I1 & X1 & F1 & NP & Po & Fi). unfold seq. rewrite E.
  destruct x as [[]| |]; [| |congruence].
  - destruct (Po eq_refl) as [[_ Fr1] Ps]. rewrite Ew.
    destruct (sound_put o Uo Ck s1 I1 (conj Ps Fr1)) as (x2 & s2 & E2 & I2 & X2 & F2 & NP2 & Po2 & Fi2).
    exists x2, s2. split; [exact E2|]. split; [exact I2|]. split; [eapply ext_trans; eauto|].
    split; [eapply frame_trans; [eapply frame_up; [|exact F1]; lia|exact F2]|]. split; [exact NP2|]. split; [exact Po2|].
    intro F. apply Fi in F as [_ F]. auto.
  - exists Err, s1. split; [reflexivity|]. split; [exact I1|]. split; [exact X1|]. split; [eapply frame_up; [|exact F1]; lia|].
    split; [discriminate|]. split; [discriminate|]. intro F. apply Fi in F as [F _]. discriminate.
Qed.
(** nothing is done if the object can be retrieved *)
Lemma sound_unless : forall A (f : A -> obj C) (r : disk -> res A) o pre a, U o -> covered (kind_of o) -> kind_of o <> KGenesis ->
  (forall d, retrieve_obj (kind_of o) (hash_of o) d = rmap f (r d)) ->
  sound (S (rank (kind_of o))) (fun d => pre d /\ free o d) a (stored_obj o) ->
  sound (S (rank (kind_of o))) pre (unless r a) (stored_obj o).
Proof.
  intros A f r o pre a Uo Ck NG Er Ha s I P. unfold unless.
  destruct (retrieve_cases (fs_disk s) (kind_of o) (hash_of o) I Ck) as [(h & _ & S & Eh)|[Fr R]].
  - specialize (Eh NG). subst h. destruct (stored_retrieved _ _ _ S Ck) as (o' & R & _). rewrite Er in R.
    destruct (r (fs_disk s)); try discriminate. exists (Ok tt), s. split; [reflexivity|]. split; [exact I|].
    split; [apply ext_refl|]. split; [apply frame_refl|]. split; [discriminate|]. auto.
  - rewrite Er in R. destruct (r (fs_disk s)); try discriminate. apply Ha; auto.
Qed.
Lemma put_is : forall T (x : res T) (e : T -> res json) o s, text_of o = (let! t := x in marshal e t) ->
  lift x (tr_save e (kind_of o) (fname (kind_of o) (hash_of o))) s = put o s.
Proof. intros T x e o s E. unfold put. rewrite E. apply lift_put. Qed.
Definition always : disk -> Prop := fun _ => True.
Lemma always_grows : forall r, grows r always.
Proof. intros r d d' _ _ H. exact H. Qed.

Lemma sound_lock : forall l, U (OLock l) -> covered KLock -> sound 1 always (lock_save l) (stored_obj (OLock l)).
Proof.
  intros l Ul Ck. apply (sound_unless _ OLock _ (OLock l)); auto; [discriminate|].
  apply (sound_weaken 1 1 (fun d => parts_stored (OLock l) d /\ free (OLock l) d) _ _ (stored_obj (OLock l)) _); auto.
  - apply (sound_eq _ _ _ (put (OLock l))); [|apply (sound_put (OLock l)); auto]. intro s. apply (put_is _ _ _ (OLock l)). reflexivity.
  - intros d [_ Fr]. split; [intros p []|exact Fr].
Qed.
Lemma sound_bill : forall b, U (OBill b) -> covered KBill -> sound 2 always (bill_save b) (stored_obj (OBill b)).
Proof.
  intros b Ub Ck. apply (sound_unless _ OBill _ (OBill b)); auto; [discriminate|].
  apply (sound_parts_put (OBill b)); auto using always_grows.
  - eapply sound_weaken; [apply (sound_lock (bl_lock b))|auto|auto|].
    + apply (u_parts m U HU (OBill b)); [exact Ub|]. left. reflexivity.
    + apply (covered_parts (OBill b) (OLock (bl_lock b)) Ck). left. reflexivity.
    + intros d H p [<-|[]]. exact H.
  - intro s. apply (put_is _ _ _ (OBill b)). reflexivity.
Qed.
Lemma sound_genesis : forall g, U (OGenesis g) -> covered KGenesis ->
  sound 5 (free (OGenesis g)) (genesis_save g) (stored_obj (OGenesis g)).
Proof.
  intros g Ug Ck s I Fr. unfold genesis_save. pose proof (retrieve_none KGenesis (gn_hash g) _ Fr) as R. cbn [retrieve_obj] in R.
  destruct (genesis_retrieve (fs_disk s)); try discriminate.
  apply (sound_parts_put (OGenesis g) always); auto using always_grows.
  - eapply sound_weaken; [apply (sound_bill (gn_bill g))|cbn; lia|auto|].
    + apply (u_parts m U HU (OGenesis g)); [exact Ug|]. left. reflexivity.
    + apply (covered_parts (OGenesis g) (OBill (gn_bill g)) Ck). left. reflexivity.
    + intros d H p [<-|[]]. exact H.
  - intro s'. apply (put_is _ _ _ (OGenesis g)). reflexivity.
  - split; [exact Logic.I|exact Fr].
Qed.
Lemma sound_expense : forall e, U (OExpense e) -> covered KExpense -> sound 3 always (expense_save e) (stored_obj (OExpense e)).
Proof.
  intros e Ue Ck. apply (sound_unless _ OExpense _ (OExpense e)); auto; [discriminate|].
  set (c := ex_content e).
  assert (B : forall b, In (OBill b) (parts (OExpense e)) -> sound 2 always (bill_save b) (stored_obj (OBill b))).
  { intros b Hb. apply sound_bill; [exact (u_parts m U HU _ _ Ue Hb)|exact (covered_parts (OExpense e) _ Ck Hb)]. }
  assert (K : covered KBill).
  { apply (covered_parts (OExpense e) (OBill (ct_to c)) Ck). cbn [parts]. rewrite !in_app_iff. right. left. left. reflexivity. }
  set (w := lift (expense_to_transfer e) (tr_save e_texpense KExpense (hash_string (ex_hash e)))).
  apply (sound_eq _ _ _ ((each bill_save (ct_from c) ;; (bill_save (ct_to c) ;; each_opt bill_save (ct_remaining c))) ;; w)).
  { intro s. unfold seq at 1 2 3 4 5 6. destruct (each bill_save (ct_from c) s) as [[[]| |] s1]; try reflexivity.
    destruct (bill_save (ct_to c) s1) as [[[]| |] s2]; reflexivity. }
  apply (sound_parts_put (OExpense e)); auto using always_grows.
  - eapply sound_weaken with (r := 2) (pre := always); [|auto|auto|].
    + apply (sound_seq 2 always _ (fun d => forall b, In b (ct_from c) -> stored_obj (OBill b) d)).
      * apply always_grows.
      * intros d d' X F H b Hb. apply (stored_grows 2 (OBill b) K d); auto.
      * apply (sound_each 2 always _ bill_save (fun b => stored_obj (OBill b))); [apply always_grows|intro x; apply stored_grows; exact K|].
        intros b Hb. apply B. cbn [parts]. rewrite !in_app_iff. left. apply in_map. exact Hb.
      * eapply sound_weaken with (r := 2) (pre := always); [|auto|unfold always; auto|].
        -- apply (sound_seq 2 always _ (stored_obj (OBill (ct_to c)))); [apply always_grows|apply stored_grows; exact K| |].
           ++ apply B. cbn [parts]. rewrite !in_app_iff. right. left. left. reflexivity.
           ++ instantiate (1 := fun d => forall b, In b (opt_list (ct_remaining c)) -> stored_obj (OBill b) d).
              destruct (ct_remaining c) as [b|] eqn:Er; cbn [each_opt opt_list].
              ** eapply sound_weaken with (r := 2) (pre := always); [apply (B b)|auto|unfold always; auto|].
                 { cbn [parts]. rewrite !in_app_iff. right. right. fold c. rewrite Er. left. reflexivity. }
                 intros d H b' [<-|[]]. exact H.
              ** apply sound_done. intros d b [].
        -- intros d H. exact H.
    + intros d (H1 & H2 & H3) p Hp. cbn [parts] in Hp. rewrite !in_app_iff in Hp. destruct Hp as [Hp|[[<-|[]]|Hp]]; [| exact H2|];
        apply in_map_iff in Hp as (b & <- & Hb); auto.
  - intro s. apply (put_is _ _ _ (OExpense e)). reflexivity.
Qed.
Lemma sound_trx : forall t, U (OTrx t) -> covered KTrx -> sound 4 always (trx_save t) (stored_obj (OTrx t)).
Proof.
  intros t Ut Ck. apply (sound_unless _ OTrx _ (OTrx t)); auto; [discriminate|].
  apply (sound_parts_put (OTrx t)); auto using always_grows.
  - eapply sound_weaken with (r := 3) (pre := always) (q := fun d => forall e, In e (tx_fees t) -> stored_obj (OExpense e) d); [|auto|auto|].
    + assert (H : forall e, In e (tx_fees t) -> In (OExpense e) (parts (OTrx t))) by (intros e He; apply in_map; exact He).
      destruct (tx_fees t) as [|e0 fees] eqn:Ef.
      * apply sound_done. intros d e [].
      * rewrite <- Ef in *. assert (K : covered KExpense).
        { apply (covered_parts (OTrx t) (OExpense e0) Ck). apply H. rewrite Ef. left. reflexivity. }
        apply (sound_each 3 always _ expense_save (fun e => stored_obj (OExpense e))); [apply always_grows|intro x; apply stored_grows; exact K|].
        intros e He. apply sound_expense; [exact (u_parts m U HU _ _ Ut (H e He))|exact K].
    + intros d H p Hp. cbn [parts] in Hp. apply in_map_iff in Hp as (e & <- & He). auto.
  - intro s. apply (put_is _ _ _ (OTrx t)). reflexivity.
Qed.
(** the genesis of the object is in the store *)
Definition has_genesis (g : genesis) (d : disk) : Prop := stored_obj (OGenesis g) d.
Lemma sound_block : forall b, U (OBlock b) -> m = All -> sound 6 (has_genesis (bk_genesis b)) (block_save b) (stored_obj (OBlock b)).
Proof.
  intros b Ub St. assert (K : forall k, covered k) by (intro k; rewrite St; destruct k; exact Logic.I).
  apply (sound_unless _ OBlock _ (OBlock b)); auto; [discriminate|].
  apply (sound_parts_put (OBlock b)); auto.
  - apply stored_grows. apply K.
  - eapply sound_weaken with (r := 5) (pre := has_genesis (bk_genesis b))
      (q := fun d => has_genesis (bk_genesis b) d /\ forall t, In t (bk_trx b) -> stored_obj (OTrx t) d); [|auto|auto|].
    + apply sound_pre; [apply stored_grows; apply K|].
      eapply sound_weaken with (r := 4) (pre := always); [|auto|intros; exact Logic.I|intros d H; exact H].
      apply (sound_each 4 always _ trx_save (fun t => stored_obj (OTrx t))); [apply always_grows|intro x; apply stored_grows; apply K|].
      intros t Ht. apply sound_trx; [|apply K]. apply (u_parts m U HU (OBlock b)); [exact Ub|]. right. apply in_map. exact Ht.
    + intros d [H1 H2] p [<-|Hp]; [exact H1|]. apply in_map_iff in Hp as (t & <- & Ht). auto.
  - intro s. apply (put_is _ _ _ (OBlock b)). reflexivity.
Qed.
Lemma sound_mblock : forall b, U (OMBlock b) -> m = All ->
  sound 7 (has_genesis (bk_genesis (mb_block b))) (mblock_save b) (stored_obj (OMBlock b)).
Proof.
  intros b Ub St. assert (K : forall k, covered k) by (intro k; rewrite St; destruct k; exact Logic.I).
  apply (sound_unless _ OMBlock _ (OMBlock b)); auto; [discriminate|].
  apply (sound_parts_put (OMBlock b)); auto.
  - apply stored_grows. apply K.
  - eapply sound_weaken; [apply (sound_block (mb_block b))|auto|auto|]; auto.
    + apply (u_parts m U HU (OMBlock b)); [exact Ub|]. left. reflexivity.
    + intros d H p [<-|[]]. exact H.
  all: intro s; apply (put_is _ _ _ (OMBlock b)); reflexivity.
Qed.
Lemma sound_link : forall l, U (OLink l) -> m = All ->
  sound 7 (has_genesis (bk_genesis (ln_next l))) (link_save l) (stored_obj (OLink l)).
Proof.
  intros l Ul St. assert (K : forall k, covered k) by (intro k; rewrite St; destruct k; exact Logic.I).
  apply (sound_unless _ OLink _ (OLink l)); auto; [discriminate|].
  apply (sound_parts_put (OLink l)); auto.
  - apply stored_grows. apply K.
  - eapply sound_weaken; [apply (sound_block (ln_next l))|auto|auto|]; auto.
    + apply (u_parts m U HU (OLink l)); [exact Ul|]. left. reflexivity.
    + intros d H p [<-|[]]. exact H.
  all: intro s; apply (put_is _ _ _ (OLink l)); reflexivity.
Qed.
Lemma sound_mlink : forall l, U (OMLink l) -> m = All ->
  sound 8 (has_genesis (bk_genesis (ln_next (ml_link l)))) (mlink_save l) (stored_obj (OMLink l)).
Proof.
  intros l Ul St. assert (K : forall k, covered k) by (intro k; rewrite St; destruct k; exact Logic.I).
  apply (sound_unless _ OMLink _ (OMLink l)); auto; [discriminate|].
  apply (sound_parts_put (OMLink l)); auto.
  - apply stored_grows. apply K.
  - eapply sound_weaken; [apply (sound_link (ml_link l))|auto|auto|]; auto.
    + apply (u_parts m U HU (OMLink l)); [exact Ul|]. left. reflexivity.
    + intros d H p [<-|[]]. exact H.
  all: intro s; apply (put_is _ _ _ (OMLink l)); reflexivity.
Qed.
End Universe.
End WithCurve.
