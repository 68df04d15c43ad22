From Coq Require Import Lia ZifyBool ZifyNat ZifyN SpecFloat.
From Verif Require Import Base BaseFacts JsonModel FloatModel FloatText TimeModel MemJsonModel MemberSpec MemberProofs GrammarSpec GrammarProofs
  CalendarSpec CalendarProofs MemJsonProofs Properties_Calendar Properties_Outcomes DocumentSpec.

(** ** The relations depend on what they are given only up to equivalence *)
Lemma points_to_ext : forall A (R R' : list json -> A -> Prop), (forall js a, R js a <-> R' js a) -> forall js o, points_to R js o <-> points_to R' js o.
Proof.
  intros A R R' E. assert (X : forall R R' : list json -> A -> Prop, (forall js a, R js a -> R' js a) -> forall js o, points_to R js o -> points_to R' js o).
  { clear. intros R R' E js o H. induction H as [|js a N Z H|seg js o N H K IH]; [constructor|constructor; auto|].
    constructor; auto. destruct H as [H|(a & H)]; [left; exact H|right; exists a; auto]. }
  intros js o. split; apply X; intros; apply E; assumption.
Qed.
Lemma elements_of_ext : forall A (R R' : list json -> A -> Prop), (forall js a, R js a <-> R' js a) -> forall js l, elements_of R js l <-> elements_of R' js l.
Proof.
  intros A R R' E. assert (X : forall R R' : list json -> A -> Prop, (forall js a, R js a -> R' js a) -> forall js l, elements_of R js l -> elements_of R' js l).
  { clear. intros R R' E js l H. assert (Y : forall ls, readable_columns R ls -> readable_columns R' ls).
    { intros ls K i N. destruct (K i N) as (a & Ka). exists a. auto. }
    induction H as [ls l F K L H|ls r js l F K Z H IH]; constructor; eauto. }
  intros js l. split; apply X; intros; apply E; assumption.
Qed.

(** ** Decoders *)
Definition decodes {A} (d : list json -> res A) (R : list json -> A -> Prop) : Prop := forall js a, d js = Ok a <-> R js a.
Lemma ptr_decodes : forall A (d : list json -> res A) R, decodes d R -> decodes (dptr d) (points_to R).
Proof. intros A d R H js o. rewrite dptr_iff. apply points_to_ext. exact H. Qed.
Lemma list_decodes : forall A (d : list json -> res A) R, decodes d R -> decodes (dlist d) (elements_of R).
Proof. intros A d R H js o. rewrite dlist_iff. apply elements_of_ext. exact H. Qed.
Lemma str_decodes : decodes dstr text_of.
Proof.
  intros js s. unfold dstr, text_of. rewrite dlast_iff. apply finally_ext. intros j a. split.
  - intro H. destruct j; try discriminate H; injection H as <-; [left|right]; reflexivity.
  - intros [->| ->]; reflexivity.
Qed.
Lemma uint_decodes : decodes duint number_of.
Proof.
  intros js n. unfold duint, number_of. rewrite dlast_iff. apply finally_ext. intros j a. split.
  - intro H. destruct j as [| |t| | | |]; try discriminate H. unfold uint_value in H. destruct t as [|c t]; [discriminate H|].
    destruct (digits_val 0 (c :: t)) as [v|] eqn:V; [|discriminate H]. destruct (N.ltb_spec v (2 ^ 64)) as [L|L]; [|discriminate H].
    injection H as <-. apply digits_val_iff in V as [F V]. exists (c :: t). split; [reflexivity|].
    split; [split; [discriminate|exact F]|]. split; [exact V|exact L].
  - intros (ds & -> & [N F] & V & L). destruct ds as [|c t]; [congruence|]. unfold uint_value.
    assert (D : digits_val 0 (c :: t) = Some a) by (apply digits_val_iff; split; [exact F|exact V]).
    rewrite D. destruct (N.ltb_spec a (2 ^ 64)); [reflexivity|lia].
Qed.
Lemma time_decodes : decodes dtime time_of.
Proof.
  intros js t. rewrite C99_member. unfold time_of. split.
  - intros (z & n & D & -> & H). eauto.
  - intros (n & D & H). eauto.
Qed.
Lemma float_decodes : decodes dfloat float_of.
Proof.
  intros js x. unfold dfloat, float_of. rewrite dlast_iff. apply finally_ext. intros j a. split.
  - intro H. destruct j; try discriminate H. eauto.
  - intros (t & -> & H). exact H.
Qed.

(** ** Members *)
Lemma values_iff : forall name m vs, Forall (fun c => b2n c < 128)%N name -> jfield name m = vs <-> values_of name m vs.
Proof.
  intros name m vs A. revert vs. induction m as [|[k j] m IH]; intro vs; unfold jfield in *; cbn [filter map fst snd].
  - split; [intros <-; constructor|]. intro H. inversion H. reflexivity.
  - destruct (bseq (fold_name k) (map lower name)) eqn:B.
    + apply (same_name_iff name k A) in B. cbn [map snd]. split.
      * intros <-. apply values_hit; [exact B|]. apply IH. reflexivity.
      * intro H. inversion H as [|? ? ? vs' S V E|? ? ? vs' S V E]; subst; [f_equal; apply IH; exact V|contradiction].
    + assert (B' : ~ same_name k name) by (intro S; apply (same_name_iff name k A) in S; congruence). split.
      * intros <-. apply values_miss; [exact B'|]. apply IH. reflexivity.
      * intro H. inversion H as [|? ? ? vs' S V E|? ? ? vs' S V E]; subst; [contradiction|apply IH; exact V].
Qed.
Definition ascii (s : string) : bool := forallb (fun c => b2n c <? 128)%N (s2b s).
Lemma field_iff : forall A (d : list json -> res A) R name m a, decodes d R -> ascii name = true -> field name d m = Ok a <-> member R name m a.
Proof.
  intros A d R name m a H B. assert (F : Forall (fun c => b2n c < 128)%N (s2b name)).
  { unfold ascii in B. rewrite forallb_forall in B. apply Forall_forall. intros c I. specialize (B c I). lia. }
  unfold field, member. split.
  - intro K. apply H in K. eexists. split; [apply values_iff; [exact F|reflexivity]|exact K].
  - intros (vs & V & K). apply values_iff in V; [|exact F]. rewrite V. apply H. exact K.
Qed.

(** ** Structs *)
Ltac known := solve [repeat (apply ptr_decodes || apply list_decodes); first [exact str_decodes|exact uint_decodes|exact time_decodes|exact float_decodes|eassumption]].
Ltac struct_decodes d says :=
  let js := fresh "js" in let x := fresh "x" in let H := fresh "H" in let m := fresh "m" in let Em := fresh "Em" in
  intros js x; unfold d, says; split;
  [intro H; apply rbind_Ok in H as (m & Em & H); exists m; split; [apply dstruct_iff; exact Em|];
   repeat (let a := fresh "a" in let Ea := fresh "Ea" in apply rbind_Ok in H as (a & Ea & H));
   injection H as <-; cbn [jl_keys jl_created jb_lock jb_amount jb_created jct_from jct_to jct_remaining jct_created jex_content jex_sigs
     ja_sender ja_recipients ja_subject ja_created jtx_address jtx_fees jtx_bucket jtx_created jg_bill jg_link jg_base jg_increase jg_created
     jbk_genesis jbk_trx jbk_additional jbk_created jln_prev jln_next jln_index jln_created jml_link jml_mining jml_created];
   repeat match goal with |- _ /\ _ => split end;
   match goal with E : field ?n _ _ = Ok ?a |- member _ ?n _ ?a => revert E; apply field_iff; [known|vm_compute; reflexivity] end
  |intros (m & Em & H); apply dstruct_iff in Em; rewrite Em; cbn [rbind]; clear Em; destruct x;
   cbn [jl_keys jl_created jb_lock jb_amount jb_created jct_from jct_to jct_remaining jct_created jex_content jex_sigs
     ja_sender ja_recipients ja_subject ja_created jtx_address jtx_fees jtx_bucket jtx_created jg_bill jg_link jg_base jg_increase jg_created
     jbk_genesis jbk_trx jbk_additional jbk_created jln_prev jln_next jln_index jln_created jml_link jml_mining jml_created] in H;
   repeat match goal with K : _ /\ _ |- _ => destruct K end;
   repeat match goal with |- rbind (field ?n ?d m) _ = _ =>
     match goal with K : member ?R n m ?a |- _ =>
       let E := fresh "E" in assert (E : field n d m = Ok a) by (revert K; apply field_iff; [known|vm_compute; reflexivity]);
       rewrite E; cbn [rbind]; clear E end end; reflexivity].

Lemma lock_decodes : decodes d_lock says_lock. Proof. struct_decodes d_lock says_lock. Qed.
Lemma bill_decodes : decodes d_bill says_bill. Proof. pose proof lock_decodes. struct_decodes d_bill says_bill. Qed.
Lemma content_decodes : decodes d_content says_content. Proof. pose proof bill_decodes. struct_decodes d_content says_content. Qed.
Lemma expense_decodes : decodes d_expense says_expense. Proof. pose proof content_decodes. struct_decodes d_expense says_expense. Qed.
Lemma address_decodes : decodes d_address says_address. Proof. struct_decodes d_address says_address. Qed.
Lemma trx_decodes : decodes d_trx says_transaction.
Proof. pose proof address_decodes. pose proof expense_decodes. struct_decodes d_trx says_transaction. Qed.
Lemma genesis_decodes : decodes d_genesis says_genesis. Proof. pose proof bill_decodes. struct_decodes d_genesis says_genesis. Qed.
Lemma block_decodes : decodes d_block says_block.
Proof. pose proof genesis_decodes. pose proof trx_decodes. struct_decodes d_block says_block. Qed.
Lemma link_decodes : decodes d_link says_link. Proof. pose proof block_decodes. struct_decodes d_link says_link. Qed.
Lemma mlink_decodes : decodes d_mlink says_mined_link. Proof. pose proof link_decodes. struct_decodes d_mlink says_mined_link. Qed.

Lemma unmarshal_iff : forall A (d : list json -> res A) R s x, decodes d R -> unmarshal d s = Ok x <-> exists j, document s j /\ R [j] x.
Proof.
  intros A d R s x H. unfold unmarshal. split.
  - destruct (jparse s) as [j|] eqn:E; [|discriminate]. intro K. exists j. split; [apply jparse_iff; exact E|apply H; exact K].
  - intros (j & D & K). apply jparse_iff in D. rewrite D. apply H. exact K.
Qed.
