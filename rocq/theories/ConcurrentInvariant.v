From Coq Require Import Lia ZifyBool ZifyNat ZifyN.
From Verif Require Import Base BaseFacts HashModel HashProofs HashSpec HashTreeModel HashTreeProofs SignModel EntitiesModel FloatModel
  PiastresModel PiastresSpec PiastresProofs JsonModel JsonProofs TimeModel TimeProofs FloatText MemJsonModel CodecProofs MemSpec
  MemJsonProofs TransferModel TransferProofs StoreModel StoreSpec StoreProofs StoreInvariant StoreHistory ConcurrentModel ConcurrentSpec
  ConcurrentProofs.

Section WithCurve.
Context {C : Curve}.
Implicit Types o : obj C.
Notation fname := file_name.
Notation torn := (@unreadable C).

(** ** An object can only be retrieved if its parts can *)
Lemma rmapM_each : forall A B D (f : B -> res D) (h : A -> B) l ys, rmapM f (map h l) = Ok ys ->
  forall x, In x l -> exists y, f (h x) = Ok y.
Proof.
  intros A B D f h l. induction l as [|a l IH]; intros ys E x Hx; [destruct Hx|]. cbn [map rmapM] in E.
  apply rbind_Ok in E as (y & Ey & E). apply rbind_Ok in E as (ys' & E' & _). destruct Hx as [<-|Hx]; [eauto|]. eapply IH; eassumption.
Qed.
Lemma parts_retrieved : forall o d s x, proper o -> text_of o = Ok s -> d (kind_of o) (fname (kind_of o) (hash_of o)) = Some s ->
  retrieve_obj (kind_of o) (hash_of o) d = Ok x -> forall p, In p (parts o) -> exists y, retrieve_obj (kind_of p) (hash_of p) d = Ok y.
Proof.
  intros o d s x P E H R p Hp.
  assert (W : forall A (f : A -> obj C) (r : res A), rmap f r = Ok x -> exists a, r = Ok a).
  { intros A f [a| |] Q; try discriminate. eauto. }
  assert (V : forall A (f : A -> obj C) (r : res A) a, r = Ok a -> exists y, rmap f r = Ok y).
  { intros A f r a ->. eexists. reflexivity. }
  destruct o as [l|b|e|t|g|b|b|l|l]; cbn [kind_of hash_of retrieve_obj file_name parts] in *; apply W in R as [a R].
  - destruct Hp.
  - destruct Hp as [<-|[]]. destruct P as [G D]. unfold bill_retrieve in R.
    rewrite (holds_read _ e_tbill _ _ _ _ _ (bill_documents b G D)) in R.
    + cbn [rbind tb_lock] in R. apply rbind_Ok in R as (l & R & _). cbn [kind_of hash_of retrieve_obj]. eapply V. exact R.
    + exists s. split; [|exact H]. revert E. cbn [text_of]. unfold bill_to_transfer, tbill_now. destruct (N.eqb _ _); [discriminate|]. auto.
  - destruct P as [G D]. unfold expense_retrieve in R.
    rewrite (holds_read _ e_texpense _ _ _ _ _ (expense_documents e G D)) in R.
    + cbn [rbind te_from te_to te_remaining te_sigs te_im] in R. apply rbind_Ok in R as (from & RF & R). apply rbind_Ok in R as (to & RT & R).
      apply rbind_Ok in R as (rem & RR & _). rewrite !in_app_iff in Hp. destruct Hp as [Hp|[[<-|[]]|Hp]].
      * apply in_map_iff in Hp as (b & <- & Hb). cbn [kind_of hash_of retrieve_obj].
        destruct (rmapM_each _ _ _ _ _ _ _ RF b Hb) as (y & Ey). eapply V. exact Ey.
      * cbn [kind_of hash_of retrieve_obj]. eapply V. exact RT.
      * apply in_map_iff in Hp as (b & <- & Hb). cbn [kind_of hash_of retrieve_obj].
        destruct (ct_remaining (ex_content e)) as [r|]; [|destruct Hb]. destruct Hb as [<-|[]]. cbn [option_map] in RR.
        apply rbind_Ok in RR as (y & Ey & _). eapply V. exact Ey.
    + exists s. split; [|exact H]. revert E. cbn [text_of]. unfold expense_to_transfer, texpense_now.
      destruct (ct_from _); [discriminate|]. destruct (ex_sigs e); [discriminate|]. auto.
  - destruct P as (G & D & A). unfold trx_retrieve in R.
    rewrite (holds_read _ e_ttrx _ _ _ _ _ (trx_documents t G D A)) in R.
    + cbn [rbind tt_fees] in R. apply rbind_Ok in R as (fees & R & _). apply in_map_iff in Hp as (e & <- & He). cbn [kind_of hash_of retrieve_obj].
      destruct (rmapM_each _ _ _ _ _ _ _ R e He) as (y & Ey). eapply V. exact Ey.
    + exists s. split; [|exact H]. revert E. cbn [text_of]. unfold trx_to_transfer, ttrx_now.
      destruct (tx_bucket t), (tx_fees t); try discriminate; auto.
  - destruct Hp as [<-|[]]. destruct P as [G D]. unfold genesis_retrieve in R.
    rewrite (holds_read _ e_tgenesis _ _ _ _ _ (genesis_documents g G D)) in R.
    + cbn [rbind tg_bill] in R. apply rbind_Ok in R as (l & R & _). cbn [kind_of hash_of retrieve_obj]. eapply V. exact R.
    + exists s. split; [|exact H]. revert E. cbn [text_of]. unfold genesis_to_transfer, tgenesis_now.
      destruct (N.eqb _ _); [discriminate|]. destruct (f_le_zero _); [discriminate|]. destruct (N.eqb _ _); [discriminate|]. auto.
  - destruct P as (G & D & L). destruct (block_documents b G D L) as (ht & EH & TH & _ & DOC). unfold block_retrieve in R.
    rewrite (holds_read _ e_tblock _ _ _ _ _ DOC) in R.
    + cbn [rbind tk_amount tk_trx] in R. apply rbind_Ok in R as (g & RG & R). rewrite TH in R. cbn [rbind] in R.
      apply rbind_Ok in R as (trx & R & _). destruct Hp as [<-|Hp]; [cbn [kind_of hash_of retrieve_obj]; eapply V; exact RG|].
      apply in_map_iff in Hp as (t & <- & Ht). cbn [kind_of hash_of retrieve_obj].
      destruct (rmapM_each _ _ _ _ _ _ _ R t Ht) as (y & Ey). eapply V. exact Ey.
    + exists s. split; [|exact H]. revert E. cbn [text_of]. unfold block_to_transfer, tblock_now. rewrite EH. cbn [rbind].
      destruct (N.eqb _ _); [discriminate|]. auto.
  - destruct Hp as [<-|[]]. destruct P as (G & _ & D). unfold mblock_retrieve in R.
    rewrite (holds_read _ e_tmblock _ _ _ _ _ (mblock_documents b G D)) in R by (exists s; auto).
    cbn [rbind tm_block] in R. apply rbind_Ok in R as (l & R & _). cbn [kind_of hash_of retrieve_obj]. eapply V. exact R.
  - destruct Hp as [<-|[]]. destruct P as (G & _ & D). unfold link_retrieve in R.
    rewrite (holds_read _ e_tlink _ _ _ _ _ (link_documents l G D)) in R by (exists s; auto).
    cbn [rbind ti_next] in R. apply rbind_Ok in R as (y & R & _). cbn [kind_of hash_of retrieve_obj]. eapply V. exact R.
  - destruct Hp as [<-|[]]. destruct P as (G & _ & D). unfold mlink_retrieve in R.
    rewrite (holds_read _ e_tmlink _ _ _ _ _ (mlink_documents l G D)) in R by (exists s; auto).
    cbn [rbind tn_link] in R. apply rbind_Ok in R as (y & R & _). cbn [kind_of hash_of retrieve_obj]. eapply V. exact R.
Qed.

(** ** Files read *)
Fixpoint strict {A} (g : rprog A) : Prop :=
  match g with
  | RRet _ => True
  | RGet k n f => (forall c, torn k c -> f c = RRet Err) /\ forall c, strict (f c)
  end.
Lemma strict_rb : forall A B (g : rprog A) (f : A -> rprog B), strict g -> (forall a, strict (f a)) -> strict (rb g f).
Proof.
  intros A B g f. induction g as [[a| |]|k n c IH]; intros H K; cbn [rb strict]; try exact I; [apply K|].
  destruct H as [H1 H2]. split; [|intro s; apply IH; auto]. intros s T. rewrite (H1 s T). reflexivity.
Qed.
Lemma strict_tr : forall T B (dec : list json -> res T) k n (f : T -> rprog B), (forall c, torn k c -> unmarshal dec c = Err) -> (forall t, strict (f t)) ->
  strict (rb (tr_get dec k n) f).
Proof.
  intros T B dec k n f H K. cbn [tr_get rb strict]. split; [intros c Hc; rewrite (H c Hc); reflexivity|].
  intro c. destruct (unmarshal dec c); cbn [strict]; auto.
Qed.
Lemma strict_each : forall A B (f : A -> rprog B) l, (forall x, strict (f x)) -> strict (rb_each f l).
Proof.
  intros A B f l H. induction l as [|x l IH]; cbn [rb_each]; [exact I|]. apply strict_rb; [apply H|]. intro y.
  apply strict_rb; [exact IH|]. intros ys. exact I.
Qed.
Lemma strict_lock : forall h, strict (lock_get h).
Proof. intro h. apply strict_tr; [auto|intro; exact I]. Qed.
Lemma strict_bill : forall h, strict (bill_get h).
Proof. intro h. apply strict_tr; [auto|]. intro t. apply strict_rb; [apply strict_lock|intro; exact I]. Qed.
Lemma strict_genesis : strict genesis_get.
Proof. apply strict_tr; [auto|]. intro t. apply strict_rb; [apply strict_bill|intro; exact I]. Qed.
Lemma strict_expense : forall h, strict (expense_get (C := C) h).
Proof.
  intro h. apply strict_tr; [auto|]. intro t. apply strict_rb; [apply strict_each, strict_bill|]. intro from.
  apply strict_rb; [apply strict_bill|]. intro to. apply strict_rb; [|intro; exact I].
  destruct (te_remaining t); [|exact I]. apply strict_rb; [apply strict_bill|intro; exact I].
Qed.
Lemma strict_trx : forall h, strict (trx_get (C := C) h).
Proof. intro h. apply strict_tr; [auto|]. intro t. apply strict_rb; [apply strict_each, strict_expense|intro; exact I]. Qed.
Lemma strict_block : forall h, strict (block_get (C := C) h).
Proof.
  intro h. apply strict_tr; [auto|]. intro t. apply strict_rb; [apply strict_genesis|]. intro g.
  apply strict_rb; [exact I|]. intro hs. apply strict_rb; [apply strict_each, strict_trx|intro; exact I].
Qed.
Lemma strict_mblock : forall h, strict (mblock_get (C := C) h).
Proof. intro h. apply strict_tr; [auto|]. intro t. apply strict_rb; [apply strict_block|intro; exact I]. Qed.
Lemma strict_link : forall h, strict (link_get (C := C) h).
Proof. intro h. apply strict_tr; [auto|]. intro t. apply strict_rb; [apply strict_block|intro; exact I]. Qed.
Lemma strict_mlink : forall h, strict (mlink_get (C := C) h).
Proof. intro h. apply strict_tr; [auto|]. intro t. apply strict_rb; [apply strict_link|intro; exact I]. Qed.
Lemma strict_obj : forall k h, strict (@get_obj C k h).
Proof.
  intros [] h; cbn [get_obj]; try exact I; (apply strict_rb; [|intro; exact I]);
    auto using strict_lock, strict_bill, strict_expense, strict_trx, strict_genesis, strict_block, strict_mblock, strict_link, strict_mlink.
Qed.

Fixpoint reads {A} (g : rprog A) (d : disk) : list (kind * bytes) :=
  match g with
  | RRet _ => []
  | RGet k n f => (k, n) :: match d k n with Some c => reads (f c) d | None => [] end
  end.
Definition listed (l : list (kind * bytes)) (k : kind) (n : bytes) : bool :=
  existsb (fun x => kind_eqb (fst x) k && bseq (snd x) n) l.
Lemma listed_iff : forall l k n, listed l k n = true <-> In (k, n) l.
Proof.
  intros l k n. unfold listed. rewrite existsb_exists. split.
  - intros ([k' n'] & H & E). cbn [fst snd] in E. apply andb_prop in E as [E1 E2]. apply kind_eqb_iff in E1. apply bseq_eq in E2. subst. exact H.
  - intro H. exists (k, n). split; [exact H|]. cbn [fst snd]. rewrite bseq_refl, (proj2 (kind_eqb_iff k k)) by reflexivity. reflexivity.
Qed.
Definition restrict (d : disk) (l : list (kind * bytes)) : disk := fun k n => if listed l k n then d k n else None.
Lemma run_restrict : forall A (g : rprog A) d l, (forall x, In x (reads g d) -> In x l) -> rp_run g (restrict d l) = rp_run g d.
Proof.
  intros A g d l. induction g as [r|k n f IH]; intro H; cbn [rp_run reads] in *; [reflexivity|].
  unfold restrict at 1. rewrite (proj2 (listed_iff l k n)) by (apply H; left; reflexivity).
  destruct (d k n) as [c|]; [|reflexivity]. apply IH. intros x Hx. apply H. right. exact Hx.
Qed.

(** ** Everything an object consists of *)
Fixpoint deepn (n : nat) (o : obj C) : list (obj C) :=
  match n with
  | 0 => [o]
  | S n => o :: flat_map (deepn n) (parts o)
  end.
Definition deep o := deepn (rank (kind_of o)) o.
Lemma parts_rank : forall o p, In p (parts o) -> rank (kind_of p) < rank (kind_of o).
Proof.
  intros o p H. destruct o; cbn [parts] in H; try (destruct H as [<-|[]]; cbn; lia).
  - destruct H.
  - rewrite !in_app_iff in H. destruct H as [H|[[<-|[]]|H]]; [|cbn; lia|]; apply in_map_iff in H as (x & <- & _); cbn; lia.
  - apply in_map_iff in H as (x & <- & _). cbn. lia.
  - destruct H as [<-|H]; [cbn; lia|]. apply in_map_iff in H as (x & <- & _). cbn. lia.
Qed.
Lemma deepn_self : forall n o, In o (deepn n o).
Proof. intros [|n] o; left; reflexivity. Qed.
Lemma deepn_parts : forall n o q p, rank (kind_of o) <= n -> In q (deepn n o) -> In p (parts q) -> In p (deepn n o).
Proof.
  induction n as [|n IH]; intros o q p L Hq Hp.
  - destruct Hq as [<-|[]]. apply parts_rank in Hp. lia.
  - cbn [deepn] in *. right. destruct Hq as [<-|Hq].
    + apply in_flat_map. exists p. split; [exact Hp|apply deepn_self].
    + apply in_flat_map in Hq as (x & Hx & Hq). apply in_flat_map. exists x. split; [exact Hx|]. apply (IH x q); auto.
      apply parts_rank in Hx. lia.
Qed.
Lemma deep_self : forall o, In o (deep o).
Proof. intro. apply deepn_self. Qed.
Lemma deep_parts : forall o q p, In q (deep o) -> In p (parts q) -> In p (deep o).
Proof. intros o q p. apply deepn_parts. apply Nat.le_refl. Qed.
Lemma deep_ind : forall (P : obj C -> Prop), (forall o, (forall p, In p (parts o) -> P p) -> P o) -> forall o, P o.
Proof.
  intros P H. assert (K : forall n o, rank (kind_of o) < n -> P o).
  { induction n as [|n IH]; intros o L; [lia|]. apply H. intros p Hp. apply IH. apply parts_rank in Hp. lia. }
  intro o. apply (K (S (rank (kind_of o)))). lia.
Qed.
Lemma deepn_closed : forall (P : obj C -> Prop) n o, (forall o p, P o -> In p (parts o) -> P p) -> P o -> forall q, In q (deepn n o) -> P q.
Proof.
  intros P n. induction n as [|n IH]; intros o H Po q Hq; [destruct Hq as [<-|[]]; exact Po|]. destruct Hq as [<-|Hq]; [exact Po|].
  apply in_flat_map in Hq as (x & Hx & Hq). apply (IH x); eauto.
Qed.
Lemma deep_closed : forall (P : obj C -> Prop) o, (forall o p, P o -> In p (parts o) -> P p) -> P o -> forall q, In q (deep o) -> P q.
Proof. intros P o. apply deepn_closed. Qed.
Lemma deep_inv : forall o q, In q (deep o) -> q = o \/ exists p, In p (parts o) /\ In q (deep p).
Proof.
  intro o. apply (deep_closed (fun q => q = o \/ exists p, In p (parts o) /\ In q (deep p))); [|left; reflexivity].
  intros q r [->|(p & Hp & Hq)] Hr; right; [exists r; split; [exact Hr|apply deep_self]|]. exists p. split; [exact Hp|]. eapply deep_parts; eassumption.
Qed.
Lemma deep_trans : forall o p q, In p (parts o) -> In q (deep p) -> In q (deep o).
Proof.
  intros o p q Hp. apply (deep_closed (fun q => In q (deep o))); [intros a b; apply deep_parts|]. apply (deep_parts o o); [apply deep_self|exact Hp].
Qed.

Definition fset := kind -> bytes -> Prop.
Definition sub (S T : fset) : Prop := forall k n, S k n -> T k n.
Definition add (S : fset) (k : kind) (n : bytes) : fset := fun k' n' => S k' n' \/ (k' = k /\ n' = n).
Lemma sub_refl : forall S, sub S S. Proof. unfold sub. auto. Qed.
Lemma sub_trans : forall S T V, sub S T -> sub T V -> sub S V. Proof. unfold sub. auto. Qed.
Lemma sub_add : forall S k n, sub S (add S k n). Proof. unfold sub, add. auto. Qed.
Definition has (S : fset) o : Prop := S (kind_of o) (fname (kind_of o) (hash_of o)).
Lemma file_dec : forall (k k' : kind) (n n' : bytes), (k = k' /\ n = n') \/ (k, n) <> (k', n').
Proof.
  intros k k' n n'. destruct (kind_eqb k k') eqn:E1; [apply kind_eqb_iff in E1|right; intro Q; injection Q as Q1 Q2; apply kind_eqb_iff in Q1; congruence].
  destruct (bseq n n') eqn:E2; [apply bseq_eq in E2; left; auto|]. right. intro Q. injection Q as Q1 Q2. rewrite Q2, bseq_refl in E2. discriminate.
Qed.

Section Universe.
Variable U : obj C -> Prop.
Hypothesis X : exact U.

(** what the file of an object has to contain *)
Definition canon (k : kind) (n c : bytes) : Prop := exists o, U o /\ kind_of o = k /\ fname k (hash_of o) = n /\ text_of o = Ok c.
Lemma canon_fun : forall k n c c', canon k n c -> canon k n c' -> c = c'.
Proof.
  intros k n c c' (o & Uo & <- & En & T) (p & Up & Ek & En' & T').
  assert (o = p). { apply (x_exact U X); auto. rewrite <- Ek in *. congruence. } subst p. congruence.
Qed.
Lemma canon_obj : forall o s, U o -> text_of o = Ok s -> canon (kind_of o) (fname (kind_of o) (hash_of o)) s.
Proof. intros o s Uo T. exists o. auto. Qed.
Lemma U_deep : forall o p, U o -> In p (deep o) -> U p.
Proof. intros o p Uo. apply (deep_closed U); [apply (x_parts U X)|exact Uo]. Qed.
Lemma text_ok : forall o, U o -> exists s, text_of o = Ok s.
Proof. intros o Uo. destruct (text_facts o (x_proper U X o Uo)) as (s & T & _). eauto. Qed.

Definition complete (d : disk) o : Prop := forall p s, In p (deep o) -> text_of p = Ok s -> d (kind_of p) (fname (kind_of p) (hash_of p)) = Some s.
Lemma complete_retrieve : forall o d, U o -> complete d o -> exists o', retrieve_obj (kind_of o) (hash_of o) d = Ok o' /\ same o' o.
Proof.
  apply (deep_ind (fun o => forall d, U o -> complete d o -> exists o', retrieve_obj (kind_of o) (hash_of o) d = Ok o' /\ same o' o)).
  intros o IH d Uo K. destruct (text_ok o Uo) as (s & T). apply (retrieve_back o d s); auto.
  - apply (x_proper U X). exact Uo.
  - apply K; [apply deep_self|exact T].
  - intros p Hp. apply IH; [exact Hp|eapply x_parts; eassumption|]. intros q s' Hq. apply K. apply (deep_trans o p); assumption.
Qed.
Lemma retrieve_complete : forall o d x, (forall k n c, d k n = Some c -> canon k n c \/ torn k c) -> U o ->
  retrieve_obj (kind_of o) (hash_of o) d = Ok x -> complete d o.
Proof.
  intros o d x Hd. revert o x. apply (deep_ind (fun o => forall x, U o -> retrieve_obj (kind_of o) (hash_of o) d = Ok x -> complete d o)).
  intros o IH x Uo R. destruct (text_ok o Uo) as (s & T).
  assert (F : d (kind_of o) (fname (kind_of o) (hash_of o)) = Some s).
  { destruct (d (kind_of o) (fname (kind_of o) (hash_of o))) as [c|] eqn:E.
    - destruct (Hd _ _ _ E) as [K|K]; [rewrite (canon_fun _ _ _ _ K (canon_obj o s Uo T)); reflexivity|].
      rewrite retrieve_none in R by (intros c' E'; rewrite E in E'; injection E' as <-; exact K). discriminate.
    - rewrite retrieve_none in R by (rewrite E; discriminate). discriminate. }
  intros q s' Hq T'. apply deep_inv in Hq as [->|(p & Hp & Hq)]; [congruence|].
  destruct (parts_retrieved o d s x (x_proper U X o Uo) T F R p Hp) as (y & Ry).
  exact (IH p Hp y (x_parts U X o p Uo Hp) Ry q s' Hq T').
Qed.

(** a disk with just the files of an object *)
Definition ideal o : disk :=
  fold_right (fun p d => match text_of p with Ok s => upd d (kind_of p) (fname (kind_of p) (hash_of p)) s | _ => d end) empty (deep o).
Lemma ideal_canon : forall o, U o -> forall k n c, ideal o k n = Some c -> canon k n c.
Proof.
  intros o Uo. unfold ideal. pose proof (U_deep o) as H. revert H. generalize (deep o). induction l as [|p l IH]; intros H k n c E; [discriminate|].
  cbn [fold_right] in E. assert (Up : U p) by (apply H; [exact Uo|left; reflexivity]). destruct (text_ok p Up) as (s & T). rewrite T in E.
  destruct (file_dec k (kind_of p) n (fname (kind_of p) (hash_of p))) as [[-> ->]|Q].
  - rewrite upd_same in E. injection E as <-. apply canon_obj; assumption.
  - rewrite upd_other in E by exact Q. apply IH; auto. intros q Uq Hq. apply H; [exact Uq|right; exact Hq].
Qed.
Lemma ideal_complete : forall o, U o -> complete (ideal o) o.
Proof.
  intros o Uo p s Hp T. assert (H : exists c, ideal o (kind_of p) (fname (kind_of p) (hash_of p)) = Some c).
  { unfold ideal. pose proof (fun q => U_deep o q Uo) as H. revert H Hp. generalize (deep o). induction l as [|q l IH]; intros H Hp; [destruct Hp|].
    cbn [fold_right]. destruct (text_ok q) as (s' & T'); [apply H; left; reflexivity|]. rewrite T'.
    destruct (file_dec (kind_of p) (kind_of q) (fname (kind_of p) (hash_of p)) (fname (kind_of q) (hash_of q))) as [[E1 E2]|Q].
    - rewrite E1 in *. rewrite E2, upd_same. eauto.
    - rewrite upd_other by exact Q. apply IH; [intros r Hr; apply H; right; exact Hr|]. destruct Hp as [<-|Hp]; [congruence|exact Hp]. }
  destruct H as (c & H). rewrite H. f_equal. apply (canon_fun _ _ _ _ (ideal_canon o Uo _ _ _ H)). apply canon_obj; [|exact T].
  apply (U_deep o); assumption.
Qed.

(** ** Retrieving among others *)
Fixpoint gets {A} (K : fset -> res A -> Prop) (S : fset) (g : rprog A) : Prop :=
  match g with
  | RRet r => K S r
  | RGet k n f => (forall c, canon k n c -> gets K (add S k n) (f c)) /\ (forall c, torn k c -> gets K S (f c)) /\ K S Err
  end.
Lemma gets_run : forall A (g : rprog A) d x (K : fset -> res A -> Prop) S, strict g -> rp_run g d = Ok x ->
  (forall k n c, d k n = Some c -> canon k n c) -> (forall S', sub S S' -> K S' Err) ->
  (forall S', sub S S' -> (forall k n, In (k, n) (reads g d) -> S' k n) -> K S' (Ok x)) -> gets K S g.
Proof.
  intros A g d x K S H R D. revert S. induction g as [r|k n f IH]; intros S KE KO; cbn [gets rp_run reads strict] in *.
  - rewrite R. apply KO; [apply sub_refl|intros ? ? []].
  - destruct H as [H1 H2]. destruct (d k n) as [c|] eqn:E; [|discriminate]. split; [|split].
    + intros c' Hc'. assert (c' = c) by (eapply canon_fun; eauto). subst c'. apply IH; auto.
      * intros S' HS. apply KE. eapply sub_trans; [apply sub_add|exact HS].
      * intros S' HS Hr. apply KO; [eapply sub_trans; [apply sub_add|exact HS]|]. intros k' n' [Q|Q]; [|auto].
        injection Q as <- <-. apply HS. right. auto.
    + intros c' Hc'. rewrite (H1 c' Hc'). cbn [gets]. apply KE, sub_refl.
    + apply KE, sub_refl.
Qed.
Lemma gets_obj : forall A (f : A -> obj C) (g : rprog A) o (K : fset -> res A -> Prop) S, U o -> strict g ->
  (forall d, retrieve_obj (kind_of o) (hash_of o) d = rmap f (rp_run g d)) ->
  (forall S', sub S S' -> K S' Err) ->
  (forall S' x, sub S S' -> (forall p, In p (deep o) -> has S' p) -> same (f x) o -> K S' (Ok x)) -> gets K S g.
Proof.
  intros A f g o K S Uo Hg E KE KO. destruct (complete_retrieve o (ideal o) Uo (ideal_complete o Uo)) as (o' & R & Sm).
  pose proof R as R1. rewrite E in R1. destruct (rp_run g (ideal o)) as [x| |] eqn:G; try discriminate. injection R1 as <-.
  apply (gets_run _ g (ideal o) x); auto; [apply ideal_canon; exact Uo|]. intros S' HS Hr. apply KO; auto. intros p Hp.
  set (l := reads g (ideal o)) in *. assert (RR : retrieve_obj (kind_of o) (hash_of o) (restrict (ideal o) l) = Ok (f x)).
  { rewrite E, run_restrict by auto. rewrite G. reflexivity. }
  assert (Q : complete (restrict (ideal o) l) o).
  { eapply retrieve_complete; [|exact Uo|exact RR]. intros k n c Q. left. unfold restrict in Q. destruct (listed l k n); [|discriminate].
    exact (ideal_canon o Uo k n c Q). }
  destruct (text_ok p (U_deep o p Uo Hp)) as (s & T). specialize (Q p s Hp T). unfold restrict in Q.
  destruct (listed l _ _) eqn:L; [|discriminate]. apply listed_iff in L. apply Hr. exact L.
Qed.

(** ** Saving among others *)
Fixpoint safe {A} (b : bool) (K : fset -> res A -> Prop) (S : fset) (p : prog A) : Prop :=
  match p with
  | PRet r => K S r
  | PGet k n f => (forall c, canon k n c -> safe b K (add S k n) (f (Some c))) /\ (forall c, torn k c -> safe b K S (f (Some c))) /\
      safe b K S (f None)
  | PPut k n c f | PFill k n c f => canon k n c /\ safe b K (add S k n) (f (Ok tt)) /\ (b = true -> safe b K S (f Err))
  end.
Lemma safe_of_get : forall A B b (g : rprog A) (f : res A -> prog B) K S, gets (fun S r => safe b K S (f r)) S g -> safe b K S (of_get g f).
Proof. intros A B b g f K. induction g as [r|k n c IH]; intros S H; cbn [of_get gets safe] in *; [exact H|]. destruct H as (H1 & H2 & H3). auto. Qed.
Lemma safe_pseq : forall A b (a : prog unit) (p : prog A) K S,
  safe b (fun S r => match r with Ok _ => safe b K S p | Err => K S Err | Panic => K S Panic end) S a -> safe b K S (pseq a p).
Proof.
  intros A b a p K. induction a as [[x| |]|k n f IH|k n c f IH|k n c f IH]; intros S H; cbn [pseq safe] in *; try exact H;
    destruct H as (H1 & H2 & H3); auto.
Qed.
Lemma safe_weaken : forall A b (K K' : fset -> res A -> Prop) (p : prog A) S S', (forall S S' r, sub S S' -> K S r -> K' S' r) -> sub S S' -> 
  safe b K S p -> safe b K' S' p.
Proof.
  intros A b K K' p S S' HK. revert S S'. assert (AM : forall (S S' : fset) k n, sub S S' -> sub (add S k n) (add S' k n)).
  { unfold sub, add. intros S S' k n H k' n' [Q|Q]; auto. }
  induction p as [r|k n f IH|k n c f IH|k n c f IH]; intros S S' HS H; cbn [safe] in *; [eauto| | |];
    destruct H as (H1 & H2 & H3); split; try split; eauto.
Qed.
(** [p] succeeds, but for faults, and then has seen or written the files of [Q] *)
Definition ensures (Q : fset -> Prop) (p : prog unit) : Prop := forall b (K : fset -> res unit -> Prop) S,
  (forall S', sub S S' -> Q S' -> K S' (Ok tt)) -> (b = true -> forall S', sub S S' -> K S' Err) -> safe b K S p.
Definition mono (Q : fset -> Prop) : Prop := forall S S', sub S S' -> Q S -> Q S'.
Lemma ensures_seq : forall Q1 Q2 p q, mono Q1 -> ensures Q1 p -> ensures Q2 q -> ensures (fun S => Q1 S /\ Q2 S) (pseq p q).
Proof.
  intros Q1 Q2 p q M H1 H2 b K S KO KE. apply safe_pseq. apply H1.
  - intros S1 HS HQ. apply H2.
    + intros S2 HS2 HQ2. apply KO; [eapply sub_trans; eassumption|]. split; [exact (M _ _ HS2 HQ)|exact HQ2].
    + intros Hb S2 HS2. apply KE; [exact Hb|]. eapply sub_trans; eassumption.
  - intros Hb S1 HS. apply KE; assumption.
Qed.
Lemma ensures_weaken : forall (Q Q' : fset -> Prop) p, ensures Q p -> (forall S, Q S -> Q' S) -> ensures Q' p.
Proof. intros Q Q' p H I b K S KO KE. apply H; auto. Qed.
Lemma ensures_each : forall A (f : A -> prog unit) (Q : A -> fset -> Prop) l, (forall x, mono (Q x)) -> (forall x, In x l -> ensures (Q x) (f x)) ->
  ensures (fun S => forall x, In x l -> Q x S) (peach f l).
Proof.
  intros A f Q l M. induction l as [|x l IH]; intro H; cbn [peach].
  - intros b K S KO KE. cbn [safe]. apply KO; [apply sub_refl|intros x []].
  - eapply ensures_weaken; [apply (ensures_seq (Q x) (fun S => forall y, In y l -> Q y S))|].
    + apply M.
    + apply H. left. reflexivity.
    + apply IH. intros y Hy. apply H. right. exact Hy.
    + intros S [H1 H2] y [<-|Hy]; auto.
Qed.
Lemma mono_has : forall o, mono (fun S => has S o).
Proof. intros o S S' H. apply H. Qed.
Lemma ensures_put : forall o p, U o -> (forall s, text_of o = Ok s -> p = PPut (kind_of o) (fname (kind_of o) (hash_of o)) s PRet) ->
  ensures (fun S => has S o) p.
Proof.
  intros o p Uo E b K S KO KE. destruct (text_ok o Uo) as (s & T). rewrite (E s T). cbn [safe]. split; [apply canon_obj; assumption|]. split.
  - apply KO; [apply sub_add|]. right. auto.
  - intro Hb. apply KE; [exact Hb|apply sub_refl].
Qed.
Lemma put_eq : forall T (x : res T) (enc : T -> res json) o s, text_of o = (let! t := x in marshal enc t) -> text_of o = Ok s ->
  plift x (tr_put enc (kind_of o) (fname (kind_of o) (hash_of o))) = PPut (kind_of o) (fname (kind_of o) (hash_of o)) s PRet.
Proof.
  intros T x enc o s E E'. rewrite E' in E. destruct x as [t| |]; try discriminate. cbn [rbind plift] in *. unfold tr_put. rewrite <- E. reflexivity.
Qed.
Lemma ensures_unless : forall A (f : A -> obj C) (g : rprog A) o (Q : fset -> Prop) p, U o -> strict g ->
  (forall d, retrieve_obj (kind_of o) (hash_of o) d = rmap f (rp_run g d)) ->
  (forall S, (forall q, In q (deep o) -> has S q) -> Q S) -> ensures Q p -> ensures Q (punless g p).
Proof.
  intros A f g o Q p Uo Hg E HQ Hp b K S KO KE. unfold punless. apply safe_of_get.
  apply (gets_obj A f g o); auto.
  - intros S' HS. apply Hp; [intros S'' HS'' HQ''; apply KO; [eapply sub_trans; eassumption|exact HQ'']|].
    intros Hb S'' HS''. apply KE; [exact Hb|eapply sub_trans; eassumption].
  - intros S' x HS HD _. cbn [safe]. apply KO; auto.
Qed.

(** what [Save] stores of an object: a block's genesis it does not *)
Definition saved_parts o : list (obj C) := match o with OBlock b => map OTrx (bk_trx b) | _ => parts o end.
Inductive own (o : obj C) : obj C -> Prop :=
| own_self : own o o
| own_part : forall p q, In p (saved_parts o) -> own p q -> own o q.
Lemma saved_parts_parts : forall o p, In p (saved_parts o) -> In p (parts o).
Proof. intros [] p H; try exact H. right. exact H. Qed.
Lemma own_deep : forall o q, own o q -> In q (deep o).
Proof.
  intros o q H. induction H as [o|o p q Hp H IH]; [apply deep_self|]. apply (deep_trans o p); [apply saved_parts_parts; exact Hp|exact IH].
Qed.
Definition owned o (S : fset) : Prop := forall q, own o q -> has S q.
Lemma mono_owned : forall o, mono (owned o).
Proof. intros o S S' H K q Hq. apply H, K, Hq. Qed.
Lemma owned_intro : forall o S, has S o -> (forall p, In p (saved_parts o) -> owned p S) -> owned o S.
Proof. intros o S H K q Hq. inversion Hq as [|p q' Hp H' E]; subst; [exact H|]. apply (K p Hp q H'). Qed.
Lemma U_part : forall o p, U o -> In p (saved_parts o) -> U p.
Proof. intros o p Uo Hp. apply (x_parts U X o); [exact Uo|]. apply saved_parts_parts. exact Hp. Qed.
Lemma ensures_save : forall A (f : A -> obj C) (g : rprog A) o (Q : fset -> Prop) p q, U o -> strict g ->
  (forall d, retrieve_obj (kind_of o) (hash_of o) d = rmap f (rp_run g d)) ->
  mono Q -> ensures Q p -> (forall S, Q S -> forall p, In p (saved_parts o) -> owned p S) ->
  (forall s, text_of o = Ok s -> q = PPut (kind_of o) (fname (kind_of o) (hash_of o)) s PRet) ->
  ensures (owned o) (punless g (pseq p q)).
Proof.
  intros A f g o Q p q Uo Hg E M Hp HQ Eq. apply (ensures_unless A f g o); auto.
  - intros S H r Hr. apply H, own_deep, Hr.
  - eapply ensures_weaken; [apply (ensures_seq Q (fun S => has S o)); [exact M|exact Hp|apply ensures_put; assumption]|].
    intros S [H1 H2]. apply owned_intro; auto.
Qed.
Lemma ensures_lock : forall l, U (OLock l) -> ensures (owned (OLock l)) (lock_put l).
Proof.
  intros l Ul. apply (ensures_unless _ OLock _ (OLock l)); [exact Ul|apply strict_lock|intro d; rewrite rp_lock; reflexivity| |].
  - intros S H r Hr. apply H, own_deep, Hr.
  - eapply ensures_weaken; [apply (ensures_put (OLock l)); [exact Ul|]|].
    + intros s T. apply (put_eq _ _ _ (OLock l)); [reflexivity|exact T].
    + intros S H. apply owned_intro; [exact H|intros p []].
Qed.
Lemma ensures_bill : forall b, U (OBill b) -> ensures (owned (OBill b)) (bill_put b).
Proof.
  intros b Ub. apply (ensures_save _ OBill _ (OBill b) (owned (OLock (bl_lock b)))).
  - exact Ub.
  - apply strict_bill.
  - intro d. rewrite rp_bill. reflexivity.
  - apply mono_owned.
  - apply ensures_lock. apply (U_part (OBill b)); [exact Ub|left; reflexivity].
  - intros S H p [<-|[]]. exact H.
  - intros s T. apply (put_eq _ _ _ (OBill b)); [reflexivity|exact T].
Qed.
Lemma ensures_expense : forall e, U (OExpense e) -> ensures (owned (OExpense e)) (expense_put e).
Proof.
  intros e Ue.
  assert (UB : forall b, In (OBill b) (parts (OExpense e)) -> ensures (owned (OBill b)) (bill_put b)).
  { intros b Hb. apply ensures_bill. apply (x_parts U X (OExpense e)); assumption. }
  assert (AS : forall (a b c d : prog unit), ensures (owned (OExpense e)) (punless (expense_get (ex_hash e)) (pseq (pseq a (pseq b c)) d)) ->
    ensures (owned (OExpense e)) (punless (expense_get (ex_hash e)) (pseq a (pseq b (pseq c d))))).
  { intros a b c d H. eapply ensures_weaken; [|intros S HS; exact HS].
    intros bo K S KO KE. specialize (H bo K S KO KE). revert H.
    assert (AE : forall A bo (K : fset -> res A -> Prop) (a : prog unit) (b : prog unit) (c : prog A) S, safe bo K S (pseq (pseq a b) c) -> safe bo K S (pseq a (pseq b c))).
    { clear. intros A bo K a b c. induction a as [[x| |]|k n f IH|k n t f IH|k n t f IH]; intros S H; cbn [pseq safe] in *; try exact H;
        destruct H as (H1 & H2 & H3); split; try split; intros; auto. }
    unfold punless.
    assert (GE : forall A B (g : rprog A) (f f' : res A -> prog B) (K : fset -> res B -> Prop), (forall S r, safe bo K S (f r) -> safe bo K S (f' r)) ->
      forall S, safe bo K S (of_get g f) -> safe bo K S (of_get g f')).
    { clear. intros A B g f f' K H. induction g as [r|k n c IH]; intros S Q; cbn [of_get safe] in *; [auto|]. destruct Q as (Q1 & Q2 & Q3).
      split; [|split]; auto. }
    apply GE. intros S' [x| |]; auto. intro Q. apply AE in Q. revert Q.
    assert (SE : forall A (K : fset -> res A -> Prop) (a : prog unit) (p q : prog A), (forall S, safe bo K S p -> safe bo K S q) -> forall S, safe bo K S (pseq a p) -> safe bo K S (pseq a q)).
    { clear. intros A K a p q H. induction a as [[x| |]|k n f IH|k n t f IH|k n t f IH]; intros S Q; cbn [pseq safe] in *; auto;
        destruct Q as (Q1 & Q2 & Q3); split; try split; intros; auto. }
    apply SE. apply AE. }
  unfold expense_put. apply AS.
  apply (ensures_save _ OExpense _ (OExpense e) (fun S => (forall b, In b (ct_from (ex_content e)) -> owned (OBill b) S) /\
    owned (OBill (ct_to (ex_content e))) S /\ forall b, In b (opt_list (ct_remaining (ex_content e))) -> owned (OBill b) S)).
  - exact Ue.
  - apply strict_expense.
  - intro d. rewrite rp_expense. reflexivity.
  - intros S S' HS (H1 & H2 & H3). split; [|split]; intros; eapply mono_owned; eauto.
  - apply ensures_seq; [intros S S' HS H b Hb; eapply mono_owned; eauto| |apply ensures_seq].
    + apply (ensures_each _ bill_put (fun b => owned (OBill b))); [intro; apply mono_owned|]. intros b Hb. apply UB. cbn [parts].
      rewrite !in_app_iff. left. apply in_map. exact Hb.
    + apply mono_owned.
    + apply UB. cbn [parts]. rewrite !in_app_iff. right. left. left. reflexivity.
    + destruct (ct_remaining (ex_content e)) as [r|] eqn:ER; cbn [peach_opt opt_list].
      * eapply ensures_weaken; [apply (UB r)|intros S H b [<-|[]]; exact H]. cbn [parts]. rewrite ER, !in_app_iff. right. right. left. reflexivity.
      * intros b K S KO KE. cbn [safe]. apply KO; [apply sub_refl|intros ? []].
  - intros S (H1 & H2 & H3) p Hp. cbn [saved_parts parts] in Hp. rewrite !in_app_iff in Hp. destruct Hp as [Hp|[[<-|[]]|Hp]]; [|exact H2|];
      apply in_map_iff in Hp as (b & <- & Hb); auto.
  - intros s T. apply (put_eq _ _ _ (OExpense e)); [reflexivity|exact T].
Qed.
Lemma ensures_trx : forall t, U (OTrx t) -> ensures (owned (OTrx t)) (trx_put t).
Proof.
  intros t Ut. apply (ensures_save _ OTrx _ (OTrx t) (fun S => forall e, In e (tx_fees t) -> owned (OExpense e) S)).
  - exact Ut.
  - apply strict_trx.
  - intro d. rewrite rp_trx. reflexivity.
  - intros S S' HS H e He. eapply mono_owned; eauto.
  - apply (ensures_each _ expense_put (fun e => owned (OExpense e))); [intro; apply mono_owned|]. intros e He. apply ensures_expense.
    apply (U_part (OTrx t)); [exact Ut|]. apply in_map. exact He.
  - intros S H p Hp. apply in_map_iff in Hp as (e & <- & He). auto.
  - intros s T. apply (put_eq _ _ _ (OTrx t)); [reflexivity|exact T].
Qed.
Lemma ensures_block : forall b, U (OBlock b) -> ensures (owned (OBlock b)) (block_put b).
Proof.
  intros b Ub. apply (ensures_save _ OBlock _ (OBlock b) (fun S => forall t, In t (bk_trx b) -> owned (OTrx t) S)).
  - exact Ub.
  - apply strict_block.
  - intro d. rewrite rp_block. reflexivity.
  - intros S S' HS H e He. eapply mono_owned; eauto.
  - apply (ensures_each _ trx_put (fun e => owned (OTrx e))); [intro; apply mono_owned|]. intros e He. apply ensures_trx.
    apply (U_part (OBlock b)); [exact Ub|]. apply in_map. exact He.
  - intros S H p Hp. apply in_map_iff in Hp as (e & <- & He). auto.
  - intros s T. apply (put_eq _ _ _ (OBlock b)); [reflexivity|exact T].
Qed.
Lemma ensures_mblock : forall b, U (OMBlock b) -> ensures (owned (OMBlock b)) (mblock_put b).
Proof.
  intros b Ub. apply (ensures_save _ OMBlock _ (OMBlock b) (owned (OBlock (mb_block b)))).
  - exact Ub.
  - apply strict_mblock.
  - intro d. rewrite rp_mblock. reflexivity.
  - apply mono_owned.
  - apply ensures_block. apply (U_part (OMBlock b)); [exact Ub|left; reflexivity].
  - intros S H p [<-|[]]. exact H.
  - intros s T. apply (put_eq _ _ _ (OMBlock b)); [reflexivity|exact T].
Qed.
Lemma ensures_link : forall b, U (OLink b) -> ensures (owned (OLink b)) (link_put b).
Proof.
  intros b Ub. apply (ensures_save _ OLink _ (OLink b) (owned (OBlock (ln_next b)))).
  - exact Ub.
  - apply strict_link.
  - intro d. rewrite rp_link. reflexivity.
  - apply mono_owned.
  - apply ensures_block. apply (U_part (OLink b)); [exact Ub|left; reflexivity].
  - intros S H p [<-|[]]. exact H.
  - intros s T. apply (put_eq _ _ _ (OLink b)); [reflexivity|exact T].
Qed.
Lemma ensures_mlink : forall b, U (OMLink b) -> ensures (owned (OMLink b)) (mlink_put b).
Proof.
  intros b Ub. apply (ensures_save _ OMLink _ (OMLink b) (owned (OLink (ml_link b)))).
  - exact Ub.
  - apply strict_mlink.
  - intro d. rewrite rp_mlink. reflexivity.
  - apply mono_owned.
  - apply ensures_link. apply (U_part (OMLink b)); [exact Ub|left; reflexivity].
  - intros S H p [<-|[]]. exact H.
  - intros s T. apply (put_eq _ _ _ (OMLink b)); [reflexivity|exact T].
Qed.
Lemma ensures_obj : forall o, U o -> kind_of o <> KGenesis -> ensures (owned o) (save_prog o).
Proof.
  intros [] Uo N; cbn [save_prog]; auto using ensures_lock, ensures_bill, ensures_expense, ensures_trx, ensures_block, ensures_mblock,
    ensures_link, ensures_mlink. cbn in N. congruence.
Qed.
(** the genesis: an error also if it is there already *)
Lemma genesis_safe : forall g b (K : fset -> res unit -> Prop) S, U (OGenesis g) ->
  (forall S', sub S S' -> owned (OGenesis g) S' -> K S' (Ok tt) /\ K S' Err) -> (b = true -> forall S', sub S S' -> K S' Err) ->
  safe b K S (genesis_put g).
Proof.
  intros g b K S Ug KO KE. unfold genesis_put. apply safe_of_get. apply (gets_obj _ OGenesis _ (OGenesis g)).
  - exact Ug.
  - apply strict_genesis.
  - intro d. rewrite rp_genesis. reflexivity.
  - intros S' HS.
    assert (H : ensures (fun S => owned (OBill (gn_bill g)) S /\ has S (OGenesis g)) (pseq (bill_put (gn_bill g))
      (plift (genesis_to_transfer g) (tr_put e_tgenesis KGenesis genesis_name)))).
    { apply ensures_seq; [apply mono_owned|apply ensures_bill; apply (U_part (OGenesis g)); [exact Ug|left; reflexivity]|].
      apply ensures_put; [exact Ug|]. intros s T. apply (put_eq _ _ _ (OGenesis g)); [reflexivity|exact T]. }
    apply H.
    + intros S'' HS'' [H1 H2]. apply KO; [eapply sub_trans; eassumption|]. apply owned_intro; [exact H2|]. intros p [<-|[]]. exact H1.
    + intros Hb S'' HS''. apply KE; [exact Hb|]. eapply sub_trans; eassumption.
  - intros S' x HS HD _. cbn [safe]. apply KO; [exact HS|]. intros r Hr. apply HD, own_deep, Hr.
Qed.
End Universe.
End WithCurve.
