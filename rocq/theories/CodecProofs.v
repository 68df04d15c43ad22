(** Encoders and decoders of JSON structs are inverse to each other. *)
From Coq Require Import Lia ZifyBool ZifyNat ZifyN SpecFloat DecimalN.
From Verif Require Import Base BaseFacts FloatModel JsonModel JsonProofs TimeModel TimeProofs FloatText MemJsonModel.
Local Open Scope N_scope.

Global Arguments jfield : simpl never.
Global Arguments dstr : simpl never.
Global Arguments duint : simpl never.
Global Arguments dtime : simpl never.
Global Arguments dfloat : simpl never.
Global Arguments dlist : simpl never.
Global Arguments dptr : simpl never.
(** [fcodec]: for fields; [codec]: never null, so that a pointer can be told from nil *)
Definition fcodec {A} (P : A -> Prop) (e : A -> res json) (d : list json -> res A) : Prop :=
  forall a j, P a -> e a = Ok j -> d [j] = Ok a /\ plain j.
Definition codec {A} (P : A -> Prop) (e : A -> res json) (d : list json -> res A) : Prop :=
  forall a j, P a -> e a = Ok j -> d [j] = Ok a /\ plain j /\ j <> JNull.

Lemma codec_fcodec : forall A P (e : A -> res json) d, codec P e d -> fcodec P e d.
Proof. intros A P e d H a j Ha He. destruct (H a j Ha He) as (? & ? & _). auto. Qed.

Lemma str_codec : codec unicode jstr dstr.
Proof. intros a j Ha He. injection He as <-. repeat split; [constructor; exact Ha|discriminate]. Qed.

(** ** numbers *)
Lemma digits_val_acc : forall d acc, digits_val (N.pos acc) (uint_bytes d) = Some (N.pos (Pos.of_uint_acc d acc)).
Proof.
  induction d; intro acc; cbn [uint_bytes digits_val Pos.of_uint_acc]; try reflexivity;
    (match goal with |- match digit_val ?c with _ => _ end = _ =>
       let v := eval vm_compute in (digit_val c) in change (digit_val c) with v end);
    cbn match;
    (match goal with |- digits_val ?x _ = Some (N.pos (Pos.of_uint_acc _ ?y)) =>
       replace x with (N.pos y) by lia end); apply IHd.
Qed.
Lemma digits_val_uint : forall d, digits_val 0 (uint_bytes d) = Some (Pos.of_uint d).
Proof.
  induction d; cbn [uint_bytes digits_val Pos.of_uint]; try reflexivity;
    (match goal with |- match digit_val ?c with _ => _ end = _ =>
       let v := eval vm_compute in (digit_val c) in change (digit_val c) with v end);
    cbn match; cbn [N.mul N.add]; try exact IHd; apply digits_val_acc.
Qed.
Lemma digits_val_ntoa : forall n, digits_val 0 (ntoa n) = Some n.
Proof.
  intro n. unfold ntoa. rewrite digits_val_uint. f_equal.
  pose proof (DecimalN.Unsigned.of_to n) as H. exact H.
Qed.

Lemma is_digit_digit : forall c, is_digit c -> is_digit_b c = true.
Proof. intros c H. unfold is_digit, is_digit_b in *. lia. Qed.
Lemma skip_digits_all : forall s, Forall is_digit s -> skip_digits s = [].
Proof.
  induction 1 as [|c s H HF IH]; [reflexivity|]. cbn [skip_digits]. rewrite (is_digit_digit c H). exact IH.
Qed.
Lemma ntoa_valid : forall n, valid_number (ntoa n) = true /\ forallb is_num_char (ntoa n) = true.
Proof.
  intro n. split.
  - pose proof (ntoa_digits n) as D. unfold ntoa in *. destruct n as [|p]; [reflexivity|].
    cbn [N.to_uint] in *. pose proof (pos_to_uint_head p) as Hd.
    pose proof (DecimalPos.Unsigned.of_to p) as E. revert E Hd D.
    destruct (Pos.to_uint p); intros E Hd D; cbn [uint_bytes] in *;
      try discriminate E; try (exfalso; eapply Hd; reflexivity);
      inversion D; subst; cbv beta iota delta [valid_number opt_char int_part digits1];
      (match goal with |- context [beq ?a x2d] => change (beq a x2d) with false end); cbn match;
      (match goal with |- context [beq ?a x30] => change (beq a x30) with false end); cbn match;
      (match goal with |- context [is_digit_b ?a] => change (is_digit_b a) with true end); cbn match;
      rewrite skip_digits_all by assumption; reflexivity.
  - apply forallb_forall. intros c Hc. pose proof (ntoa_digits n) as D. rewrite Forall_forall in D.
    unfold is_num_char. rewrite (is_digit_digit c (D c Hc)). reflexivity.
Qed.
Lemma uint_codec : codec (fun n => n < 2 ^ 64) juint duint.
Proof.
  intros n j Hn He. injection He as <-. destruct (ntoa_valid n) as [V1 V2]. split; [|split; [constructor; assumption|discriminate]].
  unfold duint. cbn [dlast]. unfold uint_value. destruct (ntoa n) as [|c s] eqn:E; [exfalso; eapply ntoa_nonnil; exact E|].
  rewrite <- E, digits_val_ntoa. replace (n <? 2 ^ 64) with true by lia. reflexivity.
Qed.

Lemma time_codec : codec (fun _ => True) jtime dtime.
Proof.
  intros t j _ He. apply dtime_jtime in He as (H1 & H2 & s & ->). split; [exact H1|split; [exact H2|discriminate]].
Qed.

Lemma same_float_eq : forall x y, same_float x y = true -> x = y.
Proof.
  intros [s|s| |s m e] [s'|s'| |s' m' e'] H; try discriminate; cbn in H.
  - apply Bool.eqb_prop in H. congruence.
  - rewrite !andb_true_iff in H. destruct H as ((H1 & H2) & H3). apply Bool.eqb_prop in H1.
    apply Pos.eqb_eq in H2. apply Z.eqb_eq in H3. congruence.
Qed.
Lemma float_codec : codec (fun _ => True) jfloat dfloat.
Proof.
  intros x j _ He. unfold jfloat in He. apply rbind_Ok in He as (t & E & He). injection He as <-.
  assert (T : parse_float t = Ok x /\ valid_number t = true /\ forallb is_num_char t = true).
  { destruct x as [s|s| |s m e]; cbn [float_text] in E; try discriminate.
    - destruct s; injection E as <-; repeat split; reflexivity.
    - destruct (find _ _) as [t'|] eqn:F; [|discriminate]. injection E as ->.
      apply find_some in F as [_ F]. unfold reads_as in F. rewrite !andb_true_iff in F.
      destruct F as ((F1 & F2) & F3). destruct (parse_float t) as [y| |]; try discriminate.
      apply same_float_eq in F3. subst. auto. }
  destruct T as (T1 & T2 & T3). split; [unfold dfloat; cbn [dlast float_value]; rewrite T1; reflexivity|split; [constructor; assumption|discriminate]].
Qed.

(** ** lists and pointers *)
Lemma rmapM_length : forall A B (f : A -> res B) l l', rmapM f l = Ok l' -> length l' = length l.
Proof. intros A B f l l' H. apply rmapM_Ok_iff in H. induction H; [reflexivity|]. cbn [length]. congruence. Qed.
Lemma dlist_one : forall A (d : list json -> res A) js l, rmapM d (map (fun j => [j]) js) = Ok l -> dlist d [JArr js] = Ok l.
Proof.
  intros A d js l H. unfold dlist. destruct js as [|j js].
  - cbn [delems rmapM rbind firstn map] in *. exact H.
  - change (delems d [] 0 [JArr (j :: js)]) with (let! l := rmapM d (map (fun j => [j]) (j :: js)) in Ok (firstn (length (j :: js)) l)).
    rewrite H. cbn [rbind]. f_equal. apply firstn_all2. rewrite (rmapM_length _ _ _ _ _ H), map_length. lia.
Qed.
Lemma list_codec : forall A P (e : A -> res json) d, fcodec P e d -> codec (Forall P) (jlist e) (dlist d).
Proof.
  intros A P e d H l j Hl He. unfold jlist in He. apply rbind_Ok in He as (js & E & He). injection He as <-.
  apply rmapM_Ok_iff in E.
  assert (T : rmapM d (map (fun j => [j]) js) = Ok l /\ Forall plain js).
  { induction E as [|a j l js Ea E IH]; [split; [reflexivity|constructor]|].
    inversion Hl; subst. destruct (H a j) as [D1 D2]; auto. destruct IH as [I1 I2]; auto.
    split; [|constructor; auto]. cbn [map rmapM]. rewrite D1. cbn [rbind]. rewrite I1. reflexivity. }
  destruct T as [T1 T2]. split; [|split; [constructor; assumption|discriminate]]. apply dlist_one, T1.
Qed.
Definition opt_all {A} (P : A -> Prop) (o : option A) : Prop := match o with Some a => P a | None => True end.
Lemma ptr_codec : forall A P (e : A -> res json) d, codec P e d -> fcodec (opt_all P) (jptr e) (dptr d).
Proof.
  intros A P e d H o j Ho He. destruct o as [a|]; cbn in Ho, He.
  - destruct (H a j Ho He) as (D1 & D2 & D3). split; [|exact D2].
    unfold dptr. destruct j; try congruence; cbn [dpoints app]; rewrite D1; reflexivity.
  - injection He as <-. split; [reflexivity|constructor].
Qed.

(** ** structs *)
Lemma jstruct_Ok : forall l j, jstruct l = Ok j ->
  exists m, j = JObj m /\ Forall2 (fun kv p => fst p = s2b (fst kv) /\ snd kv = Ok (snd p)) l m.
Proof.
  intros l j H. unfold jstruct in H. apply rbind_Ok in H as (m & E & H). injection H as <-.
  exists m. split; [reflexivity|]. apply rmapM_Ok_iff in E.
  induction E as [|kv p l m E0 E IH]; constructor; auto.
  unfold jmember in E0. apply rbind_Ok in E0 as (j & E1 & E0). injection E0 as <-. auto.
Qed.

Lemma jfield_hit : forall n k j m, bseq (fold_name k) (map lower n) = true -> jfield n ((k, j) :: m) = j :: jfield n m.
Proof. intros n k j m H. unfold jfield. cbn [filter fst]. rewrite H. reflexivity. Qed.
Lemma jfield_miss : forall n k j m, bseq (fold_name k) (map lower n) = false -> jfield n ((k, j) :: m) = jfield n m.
Proof. intros n k j m H. unfold jfield. cbn [filter fst]. rewrite H. reflexivity. Qed.
Lemma jfield_none : forall n, jfield n [] = [].
Proof. reflexivity. Qed.

Lemma unicode_dec : forall s, forallb (fun c => b2n c <? 128) s = true -> unicode s.
Proof. intros s H. apply ascii_unicode, Forall_forall. intros c Hc. rewrite forallb_forall in H. specialize (H c Hc). lia. Qed.

Ltac jfields :=
  repeat first
    [ rewrite jfield_miss by (vm_compute; reflexivity)
    | rewrite jfield_hit by (vm_compute; reflexivity)
    | rewrite jfield_none ].
Ltac jmembers :=
  repeat match goal with
         | H : Forall2 _ (_ :: _) ?m |- _ => inversion H; clear H; subst
         | H : Forall2 _ [] ?m |- _ => inversion H; clear H; subst
         | H : _ /\ _ |- _ => destruct H
         | p : (bytes * json)%type |- _ => destruct p
         end; cbn [fst snd] in *; subst.

Lemma unmarshal_marshal : forall A P (e : A -> res json) d x s, codec P e d -> P x ->
  marshal e x = Ok s -> unmarshal d s = Ok x.
Proof.
  intros A P e d x s H Hx E. unfold marshal in E. apply rbind_Ok in E as (j & E & Ej). injection Ej as <-.
  destruct (H x j Hx E) as (D1 & D2 & _). unfold unmarshal. rewrite jparse_jprint by exact D2. exact D1.
Qed.

(** ** the structs *)
Section Raw.
(** what the strings have to satisfy *)
Variable A : bytes -> Prop.
Definition u64_ok (n : N) : Prop := n < 2 ^ 64.
Definition r_lock (x : jlock) : Prop := Forall A (jl_keys x).
Definition r_bill (x : jbill) : Prop := opt_all r_lock (jb_lock x) /\ u64_ok (jb_amount x).
Definition r_content (x : jcontent) : Prop :=
  Forall (opt_all r_bill) (jct_from x) /\ opt_all r_bill (jct_to x) /\ opt_all r_bill (jct_remaining x).
Definition r_expense (x : jexpense) : Prop := opt_all r_content (jex_content x) /\ Forall A (jex_sigs x).
Definition r_address (x : jaddress) : Prop := A (ja_sender x) /\ Forall A (ja_recipients x) /\ A (ja_subject x).
Definition r_trx (x : jtrx) : Prop :=
  opt_all r_address (jtx_address x) /\ Forall (opt_all r_expense) (jtx_fees x) /\ A (jtx_bucket x).
Definition r_genesis (x : jgenesis) : Prop :=
  opt_all r_bill (jg_bill x) /\ u64_ok (jg_link x) /\ u64_ok (jg_base x).
Definition r_block (x : jblock) : Prop :=
  opt_all r_genesis (jbk_genesis x) /\ Forall (opt_all r_trx) (jbk_trx x) /\ u64_ok (jbk_additional x).
Definition r_link (x : jlink) : Prop := A (jln_prev x) /\ opt_all r_block (jln_next x) /\ u64_ok (jln_index x).
Definition r_mlink (x : jmlink) : Prop := opt_all r_link (jml_link x) /\ A (jml_mining x).
End Raw.

Create HintDb codecs.
Global Hint Resolve codec_fcodec str_codec uint_codec time_codec float_codec list_codec ptr_codec : codecs.

Ltac member_facts :=
  repeat match goal with
  | H : jtime ?a = Ok ?j |- _ =>
      let D := fresh "D" in pose proof (codec_fcodec _ _ _ _ time_codec a j I H) as D; destruct D; clear H
  | H : jfloat ?a = Ok ?j |- _ =>
      let D := fresh "D" in pose proof (codec_fcodec _ _ _ _ float_codec a j I H) as D; destruct D; clear H
  | H : juint ?a = Ok ?j, P : u64_ok ?a |- _ =>
      let D := fresh "D" in pose proof (codec_fcodec _ _ _ _ uint_codec a j P H) as D; destruct D; clear H
  | H : jstr ?a = Ok ?j, P : unicode ?a |- _ =>
      let D := fresh "D" in pose proof (codec_fcodec _ _ _ _ str_codec a j P H) as D; destruct D; clear H
  | H : jlist jstr ?a = Ok ?j, P : Forall unicode ?a |- _ =>
      let D := fresh "D" in
      pose proof (codec_fcodec _ _ _ _ (list_codec _ _ _ _ (codec_fcodec _ _ _ _ str_codec)) a j P H) as D;
      destruct D; clear H
  | H : jptr ?e ?a = Ok ?j, P : opt_all ?Q ?a, K : codec ?Q ?e ?d |- _ =>
      let D := fresh "D" in pose proof (ptr_codec _ _ _ _ K a j P H) as D; destruct D; clear H
  | H : jlist (jptr ?e) ?a = Ok ?j, P : Forall (opt_all ?Q) ?a, K : codec ?Q ?e ?d |- _ =>
      let D := fresh "D" in
      pose proof (codec_fcodec _ _ _ _ (list_codec _ _ _ _ (ptr_codec _ _ _ _ K)) a j P H) as D; destruct D; clear H
  end.
Ltac plain_members :=
  constructor; [repeat constructor; cbn [fst]; apply unicode_dec; vm_compute; reflexivity
               |repeat (constructor; [cbn [snd]; assumption|]); constructor].
Ltac struct_codec E :=
  apply jstruct_Ok in E as (m & -> & E); jmembers; cbn -[s2b] in *; member_facts;
  split; [|split; [plain_members|discriminate]].
Ltac decode_members :=
  repeat match goal with D : ?f ?x = Ok ?y |- context [?f ?x] => rewrite D; cbn [rbind] end.

Lemma lock_codec : codec (r_lock unicode) e_lock d_lock.
Proof.
  intros [keys created] j Hx E. unfold r_lock in Hx. cbn [jl_keys] in Hx. unfold e_lock in E.
  struct_codec E. unfold d_lock, field. cbn [dstruct rbind]. rewrite ?app_nil_r. jfields. decode_members. reflexivity.
Qed.
Lemma bill_codec : codec (r_bill unicode) e_bill d_bill.
Proof.
  intros [lk amount created] j (H1 & H2) E. unfold e_bill in E. pose proof lock_codec as K.
  struct_codec E. unfold d_bill, field. cbn [dstruct rbind]. rewrite ?app_nil_r. jfields. decode_members. reflexivity.
Qed.
Lemma content_codec : codec (r_content unicode) e_content d_content.
Proof.
  intros [from to rem created] j (H1 & H2 & H3) E. unfold e_content in E. pose proof bill_codec as K.
  struct_codec E. unfold d_content, field. cbn [dstruct rbind]. rewrite ?app_nil_r. jfields. decode_members. reflexivity.
Qed.
Lemma expense_codec : codec (r_expense unicode) e_expense d_expense.
Proof.
  intros [ct sigs] j (H1 & H2) E. unfold e_expense in E. pose proof content_codec as K.
  struct_codec E. unfold d_expense, field. cbn [dstruct rbind]. rewrite ?app_nil_r. jfields. decode_members. reflexivity.
Qed.
Lemma address_codec : codec (r_address unicode) e_address d_address.
Proof.
  intros [s r u created] j (H1 & H2 & H3) E. unfold e_address in E.
  struct_codec E. unfold d_address, field. cbn [dstruct rbind]. rewrite ?app_nil_r. jfields. decode_members. reflexivity.
Qed.
Lemma trx_codec : codec (r_trx unicode) e_trx d_trx.
Proof.
  intros [a f b created] j (H1 & H2 & H3) E. unfold e_trx in E. pose proof address_codec as K1. pose proof expense_codec as K2.
  struct_codec E. unfold d_trx, field. cbn [dstruct rbind]. rewrite ?app_nil_r. jfields. decode_members. reflexivity.
Qed.
Lemma genesis_codec : codec (r_genesis unicode) e_genesis d_genesis.
Proof.
  intros [b l bs inc created] j (H1 & H2 & H3) E. unfold e_genesis in E. pose proof bill_codec as K.
  struct_codec E. unfold d_genesis, field. cbn [dstruct rbind]. rewrite ?app_nil_r. jfields. decode_members. reflexivity.
Qed.
Lemma block_codec : codec (r_block unicode) e_block d_block.
Proof.
  intros [g t a created] j (H1 & H2 & H3) E. unfold e_block in E. pose proof genesis_codec as K1. pose proof trx_codec as K2.
  struct_codec E. unfold d_block, field. cbn [dstruct rbind]. rewrite ?app_nil_r. jfields. decode_members. reflexivity.
Qed.
Lemma link_codec : codec (r_link unicode) e_link d_link.
Proof.
  intros [p n i created] j (H1 & H2 & H3) E. unfold e_link in E. pose proof block_codec as K.
  struct_codec E. unfold d_link, field. cbn [dstruct rbind]. rewrite ?app_nil_r. jfields. decode_members. reflexivity.
Qed.
Lemma mlink_codec : codec (r_mlink unicode) e_mlink d_mlink.
Proof.
  intros [l m0 created] j (H1 & H2) E. unfold e_mlink in E. pose proof link_codec as K.
  struct_codec E. unfold d_mlink, field. cbn [dstruct rbind]. rewrite ?app_nil_r. jfields. decode_members. reflexivity.
Qed.
