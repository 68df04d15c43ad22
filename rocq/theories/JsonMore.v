(** Texts with something behind them, texts that are no Unicode, and the digits of the
    genesis increase. *)
From Coq Require Import Lia ZifyBool ZifyNat ZifyN SpecFloat.
From Verif Require Import Base BaseFacts HashModel HashProofs EntitiesModel SignModel SignSpec FloatModel
  PiastresModel PiastresSpec PiastresProofs JsonModel JsonProofs UnicodeProofs TimeModel FloatText MemJsonModel CodecProofs MemSpec MemJsonProofs.

(** ** Text behind a document *)
Definition blank (t : bytes) : Prop := Forall (fun c => In c [x20; x09; x0a; x0d]) t.
Lemma skip_ws_blank : forall t, skip_ws t = [] -> blank t.
Proof.
  induction t as [|c t IH]; intro H; [constructor|]. cbn [skip_ws] in H. destruct (is_ws c) eqn:W; [|discriminate H].
  constructor; [|apply IH; exact H]. destruct c; try discriminate W; cbn; auto.
Qed.
Lemma blank_skip_ws : forall t, blank t -> skip_ws t = [].
Proof.
  induction 1 as [|c t H F IH]; [reflexivity|]. cbn [skip_ws]. cbn [In] in H.
  destruct H as [<-|[<-|[<-|[<-|[]]]]]; exact IH.
Qed.

Lemma behind : forall A O (P : A -> Prop) (e : A -> res json) d (f : A -> res O) x s t, codec P e d -> P x ->
  (forall j, e x = Ok j -> exists m, j = JObj m) -> marshal e x = Ok s -> ~ blank t ->
  rbind (unmarshal d (s ++ t)) f = Err.
Proof.
  intros A O P e d f x s t K Px Ob M B. unfold marshal in M. apply rbind_Ok in M as (j & E & Ej). injection Ej as <-.
  destruct (K x j Px E) as (_ & D2 & _). destruct (Ob j E) as (m & ->). unfold unmarshal.
  rewrite jparse_behind; [reflexivity|apply plain_printable; exact D2|]. intro W. apply B, skip_ws_blank, W.
Qed.
Lemma struct_obj : forall l j, jstruct l = Ok j -> exists m, j = JObj m.
Proof. intros l j H. apply jstruct_Ok in H as (m & -> & _). exists m. reflexivity. Qed.

Lemma lock_behind : forall l s t, good_lock l -> lock_to_text l = Ok s -> ~ blank t -> lock_of_text (s ++ t) = Err.
Proof. intros l s t G. exact (behind _ _ _ _ _ _ _ _ _ lock_codec (js_lock_raw l) (struct_obj _)). Qed.
Lemma bill_behind : forall l s t, good_bill l -> bill_to_text l = Ok s -> ~ blank t -> bill_of_text (s ++ t) = Err.
Proof. intros l s t G. exact (behind _ _ _ _ _ _ _ _ _ bill_codec (js_bill_raw l G) (struct_obj _)). Qed.
Lemma address_behind : forall l s t, good_address l -> address_to_text l = Ok s -> ~ blank t -> address_of_text (s ++ t) = Err.
Proof. intros l s t G. exact (behind _ _ _ _ _ _ _ _ _ address_codec (js_address_raw l) (struct_obj _)). Qed.
Lemma genesis_behind : forall l s t, good_genesis l -> genesis_to_text l = Ok s -> ~ blank t -> genesis_of_text (s ++ t) = Err.
Proof. intros l s t G. exact (behind _ _ _ _ _ _ _ _ _ genesis_codec (js_genesis_raw l G) (struct_obj _)). Qed.

Section WithCurve.
Context {C : Curve}.
Lemma expense_behind : forall (l : expense) s t, good_expense readable l -> expense_to_text l = Ok s -> ~ blank t -> expense_of_text (C := C) (s ++ t) = Err.
Proof. intros l s t G. exact (behind _ _ _ _ _ _ _ _ _ expense_codec (js_expense_raw l G) (struct_obj _)). Qed.
Lemma trx_behind : forall (l : transaction) s t, good_trx readable l -> trx_to_text l = Ok s -> ~ blank t -> trx_of_text (C := C) (s ++ t) = Err.
Proof. intros l s t G. exact (behind _ _ _ _ _ _ _ _ _ trx_codec (js_trx_raw l G) (struct_obj _)). Qed.
Lemma block_behind : forall (l : block) s t, good_block readable l -> block_to_text l = Ok s -> ~ blank t -> block_of_text (C := C) (s ++ t) = Err.
Proof. intros l s t G. exact (behind _ _ _ _ _ _ _ _ _ block_codec (js_block_raw l G) (struct_obj _)). Qed.
Lemma link_behind : forall (l : chain_link) s t, good_link readable l -> link_to_text l = Ok s -> ~ blank t -> link_of_text (C := C) (s ++ t) = Err.
Proof. intros l s t G. exact (behind _ _ _ _ _ _ _ _ _ link_codec (js_link_raw l G) (struct_obj _)). Qed.

(** ** A mining text that is no Unicode *)
Lemma cleaned_mlink : forall (l : mined_link) j, good_link readable (ml_link l) -> e_mlink (js_mlink l) = Ok j ->
  exists j', e_mlink (JMLink (Some (js_link (ml_link l))) (clean (ml_mining l)) (im_created (ml_im l))) = Ok j' /\
    printable j /\ jclean j = j'.
Proof.
  intros l j G E. unfold e_mlink, js_mlink in *. cbn [jml_link jml_mining jml_created] in *.
  apply jstruct_Ok in E as (m & -> & E). jmembers.
  match goal with H : jstr _ = Ok _ |- _ => injection H as <- end.
  match goal with H : e_link _ = Ok ?j1, D : jtime _ = Ok ?j2 |- _ =>
    destruct (link_codec (js_link (ml_link l)) j1 (js_link_raw _ G) H) as (_ & K1 & _);
    destruct (codec_fcodec _ _ _ _ time_codec _ j2 I D) as [_ K2];
    exists (JObj [(s2b "link", j1); (s2b "mining", JStr (clean (ml_mining l))); (s2b "created_on", j2)]);
    split; [unfold jstruct, jmember; cbn [rmapM fst snd jptr]; rewrite H, D; reflexivity|];
    pose proof (plain_printable _ K1); pose proof (plain_printable _ K2)
  end.
  split; [repeat constructor; cbn [snd]; assumption|].
  cbn [jclean map fst snd]. rewrite !(plain_clean _ K1), !(plain_clean _ K2).
  rewrite !clean_id by (apply unicode_dec; vm_compute; reflexivity). reflexivity.
Qed.

Lemma mlink_cleaned : forall l : mined_link, good_mined_link readable any l -> dated_mined_link l ->
  exists t l', encode_mlink l = Ok t /\ decode_mlink t = Ok (Some l') /\ ml_link l' = ml_link l /\
    ml_mining l' = clean (ml_mining l) /\ im_created (ml_im l') = im_created (ml_im l).
Proof.
  intros l (now & k & m & created & G & _ & E) D. apply mined_link_now_iff in E as (k' & E1 & E2).
  injection E1 as <-. assert (Gk : good_link readable (ml_link l)) by (rewrite E2; exact G).
  destruct (marshal_yes _ _ _ (e_mlink_yes l D)) as (s & Es). pose proof Es as Es0. unfold marshal in Es. apply rbind_Ok in Es as (j & Ej & Es).
  injection Es as <-. destruct (cleaned_mlink l j Gk Ej) as (j' & Ej' & Pj & Cj).
  assert (X : exists l', mined_link_now 0 (Some (ml_link l)) (clean (ml_mining l)) (Some (im_created (ml_im l))) = Ok l' /\
    ml_link l' = ml_link l /\ ml_mining l' = clean (ml_mining l) /\ im_created (ml_im l') = im_created (ml_im l)).
  { eexists. split; [apply mined_link_now_iff; eexists; split; reflexivity|]. repeat split. }
  destruct X as (l' & X1 & X2 & X3 & X4). exists (b64_encode (jprint j)), l'.
  split; [unfold encode_mlink, mlink_to_text; rewrite Es0; reflexivity|]. split; [|auto].
  unfold decode_mlink. rewrite b64_decode_encode. cbn [rbind]. unfold mlink_of_text, unmarshal.
  rewrite (jparse_clean j Pj), Cj.
  destruct (mlink_codec (JMLink (Some (js_link (ml_link l))) (clean (ml_mining l)) (im_created (ml_im l))) j') as (D1 & _).
  { split; [apply js_link_raw; exact Gk|apply clean_unicode]. }
  { exact Ej'. }
  rewrite D1. cbn [rbind]. unfold of_jmlink. cbn [jml_link jml_mining jml_created deref]. rewrite of_js_link by exact Gk. cbn [rbind].
  rewrite X1. reflexivity.
Qed.
Lemma mlink_not_unicode : forall l : mined_link, good_mined_link readable any l -> dated_mined_link l -> ~ unicode (ml_mining l) ->
  exists t l', encode_mlink l = Ok t /\ decode_mlink t = Ok (Some l') /\ ml_mining l' <> ml_mining l.
Proof.
  intros l G D U. destruct (mlink_cleaned l G D) as (t & l' & H1 & H2 & _ & H3 & _). exists t, l'. repeat split; auto.
  rewrite H3. intro E. apply U, clean_iff, E.
Qed.
End WithCurve.

(** ** The digits of a float *)
(** [n] is nearest to [a / d], the even one of two *)
Definition nearest (n a d : Z) : Prop :=
  (2 * Z.abs (n * d - a) <= d)%Z /\ ((2 * Z.abs (n * d - a) = d)%Z -> Z.even n = true).
Lemma round_nearest : forall a d, (0 < d)%Z -> nearest (round_half_even a d) a d.
Proof.
  intros a d H. unfold nearest, round_half_even. pose proof (Z.div_mod a d ltac:(lia)) as E.
  pose proof (Z.mod_pos_bound a d H) as B. set (q := (a / d)%Z) in *. set (r := (a mod d)%Z) in *.
  assert (X0 : (q * d - a = - r)%Z) by nia. assert (X1 : ((q + 1) * d - a = d - r)%Z) by nia.
  destruct (Z.ltb_spec (2 * r) d); [rewrite X0; split; intros; lia|].
  destruct (Z.ltb_spec d (2 * r)); [rewrite X1; split; intros; lia|].
  destruct (Z.even q) eqn:Ev.
  - rewrite X0. split; intros; [lia|exact Ev].
  - rewrite X1. split; intros; [lia|]. rewrite Z.even_add, Ev. reflexivity.
Qed.
Lemma digits_val_zeros : forall k s, digits_val 0 (repeat x30 k ++ s) = digits_val 0 s.
Proof. induction k as [|k IH]; intro s; [reflexivity|]. cbn [repeat app digits_val]. apply IH. Qed.
Lemma itoa_ntoa : forall n, itoa (Z.of_N n) = ntoa n.
Proof. intros [|p]; reflexivity. Qed.
(** The printed form of the positive number [m * 2^e]: the nearest multiple of 10^-12. *)
Lemma printed_nearest : forall m e, exists i f t,
  format_f12 (S754_finite false m e) = ntoa i ++ [x2e] ++ t /\ length t = 12 /\ digits_val 0 t = Some f /\
  nearest (Z.of_N (i * 10 ^ 12 + f)) (Z.pos m * 2 ^ Z.max e 0 * 10 ^ 12) (2 ^ Z.max (- e) 0).
Proof.
  intros m e. set (n := scaled12 m e).
  assert (N : nearest n (Z.pos m * 2 ^ Z.max e 0 * 10 ^ 12) (2 ^ Z.max (- e) 0) /\ (0 <= n)%Z).
  { unfold n, scaled12. destruct (Z.leb_spec 0 e) as [H|H].
    - rewrite Z.max_l, Z.max_r by lia. pose proof (Z.pow_nonneg 2 e). split; [|nia].
      unfold nearest. rewrite Z.pow_0_r, Z.mul_1_r, Z.sub_diag. split; [cbn; lia|cbn; lia].
    - rewrite Z.max_r, Z.max_l by lia. rewrite Z.pow_0_r, Z.mul_1_r.
      assert (P : (0 < 2 ^ (- e))%Z) by (apply Z.pow_pos_nonneg; lia). split; [apply round_nearest; exact P|].
      unfold round_half_even. assert (0 <= Z.pos m * 10 ^ 12 / 2 ^ (- e))%Z by (apply Z.div_pos; lia).
      repeat match goal with |- context [if ?b then _ else _] => destruct b end; lia. }
  destruct N as [N Pn]. exists (Z.to_N (n / 10 ^ 12)), (Z.to_N (n mod 10 ^ 12)), (pad_left 12 (itoa (n mod 10 ^ 12))).
  pose proof (Z.mod_pos_bound n (10 ^ 12) ltac:(lia)) as B. assert (Q : (0 <= n / 10 ^ 12)%Z) by (apply Z.div_pos; lia).
  repeat split.
  - cbn [format_f12 app]. unfold fixed12. fold n. rewrite <- itoa_ntoa, Z2N.id by exact Q. reflexivity.
  - apply pad12_len. exact B.
  - unfold pad_left. rewrite digits_val_zeros. rewrite <- digits_val_ntoa, <- itoa_ntoa, Z2N.id by lia. reflexivity.
  - replace (Z.of_N (Z.to_N (n / 10 ^ 12) * 10 ^ 12 + Z.to_N (n mod 10 ^ 12))) with n; [exact (proj1 N)|].
    rewrite N2Z.inj_add, N2Z.inj_mul, !Z2N.id by lia. change (Z.of_N (10 ^ 12)) with (10 ^ 12)%Z.
    rewrite Z.mul_comm. apply Z.div_mod. lia.
  - replace (Z.of_N (Z.to_N (n / 10 ^ 12) * 10 ^ 12 + Z.to_N (n mod 10 ^ 12))) with n; [exact (proj2 N)|].
    rewrite N2Z.inj_add, N2Z.inj_mul, !Z2N.id by lia. change (Z.of_N (10 ^ 12)) with (10 ^ 12)%Z.
    rewrite Z.mul_comm. apply Z.div_mod. lia.
Qed.

(** ** Whatever is read is Unicode *)
Lemma utf8_scalar : forall n, (n < 0x10000)%N -> unicode (utf8 n).
Proof.
  intros n H. unfold utf8. set (k := if ((0xD800 <=? n) && (n <=? 0xDFFF))%N then 0xFFFD%N else n).
  assert (S : scalar k /\ (k < 0x10000)%N) by (unfold k, scalar; destruct ((0xD800 <=? n) && (n <=? 0xDFFF))%N eqn:B; lia).
  destruct S as [S L]. exists [k]. split; [constructor; [exact S|constructor]|]. cbn [flat_map]. rewrite app_nil_r. unfold rune_bytes.
  destruct (N.ltb_spec k 0x80); [reflexivity|]. destruct (N.ltb_spec k 0x800); [reflexivity|]. destruct (N.ltb_spec k 0x10000); [reflexivity|lia].
Qed.
Lemma utf8_high_scalar : forall n, (0x10000 <= n < 0x110000)%N -> unicode (utf8_high n).
Proof.
  intros n H. exists [n]. split; [constructor; [right; lia|constructor]|]. cbn [flat_map]. rewrite app_nil_r. unfold rune_bytes.
  destruct (N.ltb_spec n 0x80); [lia|]. destruct (N.ltb_spec n 0x800); [lia|]. destruct (N.ltb_spec n 0x10000); [lia|reflexivity].
Qed.
Lemma unhexdigit_lt : forall c n, unhexdigit c = Some n -> (n < 16)%N.
Proof. intros c n H. destruct c; try discriminate H; injection H as <-; reflexivity. Qed.
Lemma unhex4_lt : forall a b c d n, unhex4 a b c d = Some n -> (n < 0x10000)%N.
Proof.
  intros a b c d n H. unfold unhex4 in H. destruct (unhexdigit a) eqn:A; [|discriminate H]. destruct (unhexdigit b) eqn:B; [|discriminate H].
  destruct (unhexdigit c) eqn:K; [|discriminate H]. destruct (unhexdigit d) eqn:D; [|discriminate H]. injection H as <-.
  apply unhexdigit_lt in A, B, K, D. lia.
Qed.
Lemma second_range : forall n s m, second_half n s = Some m -> high_surrogate n = true /\ low_surrogate m = true.
Proof.
  intros n s m H. unfold second_half in H. destruct (high_surrogate n); [|discriminate H]. split; [reflexivity|].
  destruct s as [|p [|q [|a [|b [|c [|d s]]]]]]; try discriminate H. destruct (beq p x5c && beq q x75); [|discriminate H].
  destruct (unhex4 a b c d) as [k|]; [|discriminate H]. destruct (low_surrogate k) eqn:L; [|discriminate H]. injection H as <-. exact L.
Qed.
Lemma unescape_low : forall e c, unescape e = Some c -> (b2n c < 128)%N.
Proof. intros e c H. unfold unescape in H. repeat match type of H with (if ?b then _ else _) = _ => destruct b end; try discriminate H; injection H as <-; reflexivity. Qed.
Lemma pstring_unicode : forall n s t r, length s <= n -> pstring s = Some (t, r) -> unicode t.
Proof.
  induction n as [|n IH]; intros s t r L H; (destruct s as [|c s]; [discriminate H|]); cbn [length] in L; [lia|].
  destruct (N.leb_spec 128 (b2n c)) as [A|A].
  - destruct (bad c s) eqn:B.
    + rewrite pstring_bad in H by assumption. apply emit_Some in H as (v & E & ->). apply unicode_bad. eapply IH; [|exact E]. lia.
    + destruct s as [|d s]; [discriminate B|]. cbn [bad length] in *. destruct (rune2 c d) eqn:R2.
      { rewrite pstring_2 in H by assumption. apply emit_Some in H as (v & E & ->). apply unicode_2; [exact R2|]. eapply IH; [|exact E]. lia. }
      destruct s as [|e s]; [discriminate B|]. cbn [length] in *. destruct (rune3 c d e) eqn:R3.
      { rewrite pstring_3 in H by assumption. apply emit_Some in H as (v & E & ->). apply unicode_3; [exact R3|]. eapply IH; [|exact E]. lia. }
      destruct s as [|f s]; [discriminate B|]. cbn [length] in *. destruct (rune4 c d e f) eqn:R4; [|discriminate B].
      rewrite pstring_4 in H by assumption. apply emit_Some in H as (v & E & ->). apply unicode_4; [exact R4|]. eapply IH; [|exact E]. lia.
  - cbn [pstring] in H. destruct (beq c x22); [injection H as <- <-; apply unicode_nil|]. destruct (beq c x5c).
    + destruct s as [|e s1]; [discriminate H|]. cbn [length] in *. destruct (beq e x75).
      * destruct s1 as [|a [|b [|c1 [|d s2]]]]; try discriminate H. cbn [length] in *.
        destruct (unhex4 a b c1 d) as [m|] eqn:U; [|discriminate H]. apply unhex4_lt in U.
        destruct (second_half m s2) as [m2|] eqn:S2.
        -- destruct s2 as [|y1 [|y2 [|y3 [|y4 [|y5 [|y6 s3]]]]]]; try discriminate H. cbn [length] in *. apply emit_Some in H as (v & E & ->).
           apply second_range in S2 as [S2 S3]. unfold high_surrogate, low_surrogate in *.
           apply unicode_app; [apply utf8_high_scalar; unfold pair_rune; lia|]. eapply IH; [|exact E]. lia.
        -- apply emit_Some in H as (v & E & ->). apply unicode_app; [apply utf8_scalar; exact U|]. eapply IH; [|exact E]. lia.
      * destruct (unescape e) as [c'|] eqn:U; [|discriminate H]. apply unescape_low in U. apply emit_Some in H as (v & E & ->).
        apply unicode_1; [exact U|]. eapply IH; [|exact E]. lia.
    + destruct (b2n c <? 32)%N; [discriminate H|]. rewrite (proj2 (N.ltb_lt _ _) A) in H.
      apply emit_Some in H as (v & E & ->). apply unicode_1; [exact A|]. eapply IH; [|exact E]. lia.
Qed.
(** all strings of a document *)
Inductive worded : json -> Prop :=
| worded_null : worded JNull
| worded_bool : forall b, worded (JBool b)
| worded_num : forall t, worded (JNum t)
| worded_str : forall s, unicode s -> worded (JStr s)
| worded_esc : forall s, unicode s -> worded (JEsc s)
| worded_arr : forall l, Forall worded l -> worded (JArr l)
| worded_obj : forall m, Forall (fun p => worded (snd p)) m -> worded (JObj m).
Lemma lit_worded : forall p j s j' r, worded j -> lit p j s = Some (j', r) -> worded j'.
Proof. intros p j s j' r W H. unfold lit in H. destruct (prefix_of p s); [|discriminate H]. injection H as <- <-. exact W. Qed.
Lemma read_worded : forall n,
  (forall s j r, pval n s = Some (j, r) -> worded j) /\
  (forall b s l r, parr n b s = Some (l, r) -> Forall worded l) /\
  (forall b s m r, pobj n b s = Some (m, r) -> Forall (fun p => worded (snd p)) m).
Proof.
  induction n as [|n (I1 & I2 & I3)].
  { split; [|split]; intros; discriminate. }
  split; [|split].
  - intros s j r H. cbn [pval] in H. destruct (skip_ws s) as [|c s']; [discriminate H|].
    destruct (beq c x6e); [eapply lit_worded; [|exact H]; constructor|]. destruct (beq c x74); [eapply lit_worded; [|exact H]; constructor|].
    destruct (beq c x66); [eapply lit_worded; [|exact H]; constructor|].
    destruct (beq c x22).
    { destruct (pstring s') as [[t q]|] eqn:E; [|discriminate H]. injection H as <- <-.
      unfold string_read. destruct (_ && _); constructor; (eapply pstring_unicode; [|exact E]; reflexivity). }
    destruct (beq c x5b).
    { destruct (parr n true s') as [[l q]|] eqn:E; [|discriminate H]. injection H as <- <-. constructor. eapply I2. exact E. }
    destruct (beq c x7b).
    { destruct (pobj n true s') as [[l q]|] eqn:E; [|discriminate H]. injection H as <- <-. constructor. eapply I3. exact E. }
    unfold pnum in H. destruct (span_num (c :: s')) as [t q]. destruct (valid_number t); [|discriminate H]. injection H as <- <-. constructor.
  - intros b s l r H. cbn [parr] in H.
    destruct (skip_ws s) as [|c s']; [discriminate H|]. destruct (beq c x5d); [injection H as <- <-; constructor|].
    destruct (if b then Some (c :: s') else prefix_of [x2c] (c :: s')) as [s2|]; [|discriminate H].
    destruct (pval n s2) as [[j q]|] eqn:E; [|discriminate H].
    destruct (parr n false q) as [[l' r2]|] eqn:E2; [|discriminate H]. injection H as <- <-. constructor; [eapply I1; exact E|eapply I2; exact E2].
  - intros b s l r H. cbn [pobj] in H.
    destruct (skip_ws s) as [|c s']; [discriminate H|]. destruct (beq c x7d); [injection H as <- <-; constructor|].
    destruct (if b then Some (c :: s') else prefix_of [x2c] (c :: s')) as [s2|]; [|discriminate H].
    destruct (prefix_of [x22] (skip_ws s2)) as [s3|]; [|discriminate H].
    destruct (pstring s3) as [[k q]|]; [|discriminate H].
    destruct (prefix_of [x3a] (skip_ws q)) as [s4|]; [|discriminate H].
    destruct (pval n s4) as [[j r3]|] eqn:E; [|discriminate H].
    destruct (pobj n false r3) as [[l' r4]|] eqn:E2; [|discriminate H]. injection H as <- <-. constructor; [eapply I1; exact E|eapply I3; exact E2].
Qed.
Lemma jparse_worded : forall s j, jparse s = Some j -> worded j.
Proof.
  intros s j H. unfold jparse in H. destruct (pval (S (length s)) s) as [[j' r]|] eqn:E; [|discriminate H].
  destruct (skip_ws r); [|discriminate H]. injection H as <-. eapply (proj1 (read_worded _)). exact E.
Qed.
Lemma jfield_worded : forall name m, Forall (fun p => worded (snd p)) m -> Forall worded (jfield name m).
Proof.
  intros name m F. unfold jfield. apply Forall_map. apply incl_Forall with (2 := F). intros x H. apply filter_In in H. tauto.
Qed.
Lemma dstr_worded : forall js s, Forall worded js -> dstr js = Ok s -> unicode s.
Proof.
  intros js s W. unfold dstr. assert (N : unicode []) by apply unicode_nil. revert N. generalize (@nil byte).
  induction W as [|j js Wj W IH]; intros old N H; [injection H as <-; exact N|].
  destruct j as [| | |s0|s0| |]; cbn [dlast str_value rbind] in H; try discriminate H; [exact (IH old N H)|..];
    (apply (IH s0); [inversion Wj; assumption|exact H]).
Qed.
Lemma field_worded : forall name m s, Forall (fun p => worded (snd p)) m -> field name dstr m = Ok s -> unicode s.
Proof. intros name m s F H. unfold field in H. eapply dstr_worded; [|exact H]. apply jfield_worded. exact F. Qed.
Lemma dstruct_worded : forall j m, worded j -> dstruct [j] = Ok m -> Forall (fun p => worded (snd p)) m.
Proof. intros j m W H. destruct j; try discriminate H; injection H as <-; [constructor|]. rewrite app_nil_r. inversion W; assumption. Qed.

Lemma decoded_mining : forall (C : Curve) s (l : @mined_link C), decode_mlink s = Ok (Some l) -> good_mined_link any_sig unicode l.
Proof.
  intros C s l H. pose proof (decode_mlink_good C s l H) as (now & k & m & created & G & _ & E).
  exists now, k, m, created. split; [exact G|]. split; [|exact E]. apply mined_link_now_iff in E as (k' & _ & El).
  replace m with (ml_mining l) by (rewrite El; reflexivity). clear El.
  unfold decode_mlink in H. apply rbind_Ok in H as (b & _ & H). destruct (mlink_of_text b) as [l'| |] eqn:T; try discriminate H. injection H as <-.
  unfold mlink_of_text, unmarshal in T. destruct (jparse b) as [j|] eqn:J; [|discriminate T]. apply jparse_worded in J.
  apply rbind_Ok in T as (x & D & T). unfold d_mlink in D. apply rbind_Ok in D as (ms & D0 & D). pose proof (dstruct_worded _ _ J D0) as F.
  apply rbind_Ok in D as (lk & _ & D). apply rbind_Ok in D as (mi & Dm & D). apply rbind_Ok in D as (cr & _ & D). injection D as <-.
  unfold of_jmlink in T. apply rbind_Ok in T as (lk' & _ & T). cbn [jml_mining] in T. apply mined_link_now_iff in T as (k2 & _ & ->).
  cbn [ml_mining]. eapply field_worded; eassumption.
Qed.
