From Coq Require Import Lia ZifyBool ZifyNat ZifyN.
From Verif Require Import Base BaseFacts HashModel HashProofs SignModel EntitiesModel FloatModel PiastresModel
  PiastresSpec PiastresProofs JsonModel MemberSpec MemberProofs JsonProofs TimeModel TimeProofs FloatText MemJsonModel CodecProofs MemSpec.
From Verif Require FloatUnique.

(** ** objects to structs and back *)
Lemma hash_string_unicode : forall h, unicode (hash_string h).
Proof.
  intro h. apply ascii_unicode. unfold hash_string. eapply Forall_impl; [|apply hex_encode_lowhex].
  intros c H. unfold is_lowhex in H. lia.
Qed.
Lemma FromString_hash_string : forall h, hash64 h -> FromString (hash_string h) = Ok h.
Proof. intros h H. rewrite FromString_from_string. apply from_string_hash_string. exact H. Qed.
Lemma rmapM_back : forall A B (f : A -> B) (g : B -> res A) l,
  (forall x, In x l -> g (f x) = Ok x) -> rmapM g (map f l) = Ok l.
Proof.
  intros A B f g l. induction l as [|x l IH]; intro H; [reflexivity|]. cbn [map rmapM].
  rewrite (H x) by (left; reflexivity). cbn [rbind]. rewrite IH by (intros y Hy; apply H; right; exact Hy). reflexivity.
Qed.

Lemma is_u64_total : forall bs, is_u64 (total_u64 bs).
Proof. intro bs. rewrite total_value. unfold is_u64. apply N.mod_lt. discriminate. Qed.

Lemma of_js_lock : forall l, good_lock l -> of_jlock (js_lock l) = Ok l.
Proof.
  intros l (now & keys & created & K & E). apply lock_now_iff in E as (E1 & E2 & ->).
  unfold of_jlock, js_lock. cbn [lk_keys lk_im im_created jl_keys jl_created].
  rewrite rmapM_back. 2:{ intros k Hk. apply FromString_hash_string. rewrite Forall_forall in K. auto. }
  cbn [rbind]. apply lock_now_iff. auto.
Qed.
Lemma js_lock_raw : forall l, r_lock unicode (js_lock l).
Proof.
  intro l. unfold r_lock, js_lock. cbn [jl_keys]. apply Forall_forall. intros s Hs.
  apply in_map_iff in Hs as (h & <- & _). apply hash_string_unicode.
Qed.

Lemma good_bill_amount : forall b, good_bill b -> is_u64 (bl_amount b) /\ good_lock (bl_lock b).
Proof.
  intros b (now & l & amount & created & G & U & E). apply bill_now_iff in E as (l' & El & _ & ->).
  injection El as <-. auto.
Qed.
Lemma of_js_bill : forall b, good_bill b -> of_jbill (js_bill b) = Ok b.
Proof.
  intros b (now & l & amount & created & G & U & E). apply bill_now_iff in E as (l' & El & P & ->).
  injection El as <-. unfold of_jbill, js_bill. cbn [jb_lock deref bl_lock jb_amount jb_created bl_amount bl_im im_created].
  rewrite of_js_lock by exact G. cbn [rbind]. apply bill_now_iff. exists l. auto.
Qed.
Lemma js_bill_raw : forall b, good_bill b -> r_bill unicode (js_bill b).
Proof. intros b H. apply good_bill_amount in H as [H _]. split; [apply js_lock_raw|exact H]. Qed.

Lemma good_content_parts : forall c, good_content c ->
  Forall good_bill (ct_from c) /\ good_bill (ct_to c) /\ (forall b, ct_remaining c = Some b -> good_bill b).
Proof.
  intros c (now & amount & from & l & rem & created & U & F & G & R & E).
  apply content_now_iff in E as (l' & El & P & L & M & ->). injection El as <-. cbn [ct_from ct_to ct_remaining].
  split; [exact F|]. split.
  - exists now, l, amount, (Some (time_of now created)). split; [exact G|split; [exact U|]].
    apply bill_now_iff. exists l. auto.
  - intros b Eb. destruct rem as [r|]; [|discriminate]. injection Eb as <-.
    exists now, r, (total_u64 from - amount)%N, (Some (time_of now created)).
    split; [auto|]. pose proof (is_u64_total from). unfold is_u64 in *. split; [lia|].
    apply bill_now_iff. exists r. repeat split; auto. lia.
Qed.
Lemma of_js_content : forall c, good_content c -> of_jcontent (js_content c) = Ok c.
Proof.
  intros c H. pose proof (good_content_parts c H) as (P1 & P2 & P3).
  unfold of_jcontent, js_content. cbn [jct_from jct_to jct_remaining jct_created].
  rewrite rmapM_back. 2:{ intros b Hb. cbn [deref]. apply of_js_bill. rewrite Forall_forall in P1. auto. }
  cbn [rbind deref]. rewrite of_js_bill by exact P2. cbn [rbind].
  destruct H as (now & amount & from & l & rem & created & U & F & G & R & E).
  apply content_now_iff in E as (l' & El & P & L & M & ->). injection El as <-.
  cbn [ct_from ct_to ct_remaining ct_im im_created] in *.
  destruct rem as [r|]; cbn [option_map].
  - rewrite of_js_bill by (apply P3; reflexivity). cbn [rbind bl_lock bl_amount].
    apply content_now_iff. exists l. auto.
  - cbn [rbind bl_lock bl_amount]. apply content_now_iff. exists l. auto.
Qed.
Lemma js_content_raw : forall c, good_content c -> r_content unicode (js_content c).
Proof.
  intros c H. apply good_content_parts in H as (P1 & P2 & P3). unfold r_content, js_content.
  cbn [jct_from jct_to jct_remaining]. split; [|split].
  - apply Forall_map. eapply Forall_impl; [|exact P1]. intros b Hb. apply js_bill_raw. exact Hb.
  - apply js_bill_raw. exact P2.
  - destruct (ct_remaining c) as [b|]; cbn; [apply js_bill_raw; auto|exact I].
Qed.

Lemma opt_hash_string_back : forall o, (forall h, o = Some h -> hash64 h) -> opt_of_string (opt_hash_string o) = Ok o.
Proof.
  intros [h|] H; [|reflexivity]. cbn [opt_hash_string]. specialize (H h eq_refl).
  unfold opt_of_string. destruct (hash_string h) as [|c s] eqn:E.
  - exfalso. apply (f_equal (@length byte)) in E. unfold hash_string in E. rewrite hex_encode_length in E.
    unfold hash64 in H. cbn in E. lia.
  - rewrite <- E, FromString_hash_string by exact H. reflexivity.
Qed.
Lemma opt_hash_string_unicode : forall o, unicode (opt_hash_string o).
Proof. intros [h|]; [apply hash_string_unicode|apply ascii_unicode; constructor]. Qed.

Lemma of_js_address : forall a, good_address a -> of_jaddress (js_address a) = Ok a.
Proof.
  intros a (now & s & r & u & created & H1 & H2 & H3 & E). apply address_now_iff in E as (P & ->).
  unfold of_jaddress, js_address. cbn [ja_sender ja_recipients ja_subject ja_created ad_sender ad_recipients ad_subject ad_im im_created].
  rewrite opt_hash_string_back by exact H1. cbn [rbind].
  rewrite rmapM_back by (intros k Hk; apply FromString_hash_string; rewrite Forall_forall in H2; auto). cbn [rbind].
  rewrite opt_hash_string_back by exact H3. cbn [rbind]. apply address_now_iff. auto.
Qed.
Lemma js_address_raw : forall a, r_address unicode (js_address a).
Proof.
  intro a. split; [apply opt_hash_string_unicode|split; [|apply opt_hash_string_unicode]].
  cbn. apply Forall_map, Forall_forall. intros. apply hash_string_unicode.
Qed.

Lemma of_js_genesis : forall g, good_genesis g -> of_jgenesis (js_genesis g) = Ok g.
Proof.
  intros g (now & bs & inc & lnk & b & created & U1 & U2 & G & E).
  apply genesis_now_iff in E as (b' & Eb & P1 & P2 & P3 & ->). injection Eb as <-.
  unfold of_jgenesis, js_genesis. cbn [jg_bill deref gn_bill jg_base jg_increase jg_link jg_created gn_link gn_base gn_increase gn_im im_created].
  rewrite of_js_bill by exact G. cbn [rbind]. apply genesis_now_iff. exists b. auto.
Qed.
Lemma js_genesis_raw : forall g, good_genesis g -> r_genesis unicode (js_genesis g).
Proof.
  intros g (now & bs & inc & lnk & b & created & U1 & U2 & G & E).
  apply genesis_now_iff in E as (b' & Eb & P1 & P2 & P3 & ->). injection Eb as <-.
  split; [apply js_bill_raw; exact G|split; assumption].
Qed.

Section WithCurve.
Context {C : Curve}.
Definition readable (sig : ringsig C) : Prop := ring_of_string C (ring_string C sig) = Ok sig.
Notation good_expense := (good_expense readable).
Notation good_trx := (good_trx readable).
Notation good_block := (good_block readable).
Notation good_link := (good_link readable).
Notation good_mined_link := (good_mined_link readable unicode).

Lemma ring_string_unicode : forall sig, unicode (ring_string C sig).
Proof.
  intro sig. apply ascii_unicode. unfold ring_string. eapply Forall_impl; [|apply b64_encode_chars].
  intros c [(n & H & ->)| ->]; [|reflexivity]. unfold b64char.
  repeat match goal with |- context [if ?b then _ else _] => destruct b eqn:? end; try reflexivity;
  rewrite b2n_n2b; rewrite N.mod_small by lia; lia.
Qed.

Lemma of_js_expense : forall e : expense, good_expense e -> of_jexpense (js_expense e) = Ok e.
Proof.
  intros e (now & c & sigs & G & S & E). apply expense_now_iff in E as (c' & ss & E1 & E2 & L & U & ->).
  injection E1 as <-. injection E2 as <-. unfold of_jexpense, js_expense.
  cbn [jex_content jex_sigs deref ex_content ex_sigs]. rewrite of_js_content by exact G. cbn [rbind].
  rewrite rmapM_back by (intros s Hs; rewrite Forall_forall in S; apply S; exact Hs). cbn [rbind].
  apply expense_now_iff. exists c, sigs. auto 6.
Qed.
Lemma js_expense_raw : forall e : expense, good_expense e -> r_expense unicode (js_expense e).
Proof.
  intros e (now & c & sigs & G & S & E). apply expense_now_iff in E as (c' & ss & E1 & E2 & L & U & ->).
  injection E1 as <-. injection E2 as <-. split; [apply js_content_raw; exact G|].
  cbn. apply Forall_map, Forall_forall. intros. apply ring_string_unicode.
Qed.

Lemma of_js_trx : forall t : transaction, good_trx t -> of_jtrx (js_trx t) = Ok t.
Proof.
  intros t (now & a & b & fees & created & H1 & H2 & H3 & E). apply transaction_now_iff in E as (P & ->).
  unfold of_jtrx, js_trx. cbn [jtx_bucket jtx_fees jtx_address jtx_created tx_bucket tx_fees tx_address tx_im im_created].
  rewrite opt_hash_string_back by exact H2. cbn [rbind].
  rewrite rmapM_back by (intros e He; cbn [deref]; apply of_js_expense; rewrite Forall_forall in H3; auto). cbn [rbind].
  destruct a as [a|]; cbn [option_map].
  - rewrite of_js_address by (apply H1; reflexivity). cbn [rbind]. apply transaction_now_iff. auto.
  - cbn [rbind]. apply transaction_now_iff. auto.
Qed.
Lemma js_trx_raw : forall t : transaction, good_trx t -> r_trx unicode (js_trx t).
Proof.
  intros t (now & a & b & fees & created & H1 & H2 & H3 & E). apply transaction_now_iff in E as (P & ->).
  unfold r_trx, js_trx. cbn [jtx_bucket jtx_fees jtx_address tx_bucket tx_fees tx_address]. split; [|split].
  - destruct a; [apply js_address_raw|exact I].
  - apply Forall_map. eapply Forall_impl; [|exact H3]. intros e He. apply js_expense_raw. exact He.
  - apply opt_hash_string_unicode.
Qed.

Lemma of_js_block : forall b : block, good_block b -> of_jblock (js_block b) = Ok b.
Proof.
  intros b (now & g & add & trx & created & G & U & T & E). apply block_now_iff in E as (g' & Eg & P & ->).
  injection Eg as <-. unfold of_jblock, js_block.
  cbn [jbk_trx jbk_genesis jbk_additional jbk_created bk_trx bk_genesis bk_additional bk_im im_created deref].
  rewrite rmapM_back by (intros t Ht; cbn [deref]; apply of_js_trx; rewrite Forall_forall in T; auto). cbn [rbind].
  rewrite of_js_genesis by exact G. cbn [rbind]. apply block_now_iff. exists g. auto.
Qed.
Lemma js_block_raw : forall b : block, good_block b -> r_block unicode (js_block b).
Proof.
  intros b (now & g & add & trx & created & G & U & T & E). apply block_now_iff in E as (g' & Eg & P & ->).
  injection Eg as <-. split; [apply js_genesis_raw; exact G|split; [|exact U]].
  cbn. apply Forall_map. eapply Forall_impl; [|exact T]. intros t Ht. apply js_trx_raw. exact Ht.
Qed.

Lemma of_js_link : forall l : chain_link, good_link l -> of_jlink (js_link l) = Ok l.
Proof.
  intros l (now & p & n & i & created & H & G & U & E). apply link_now_iff in E as (p' & n' & E1 & E2 & ->).
  injection E1 as <-. injection E2 as <-. unfold of_jlink, js_link.
  cbn [jln_prev jln_next jln_index jln_created ln_prev ln_next ln_index ln_im im_created deref].
  rewrite FromString_hash_string by exact H. cbn [rbind]. rewrite of_js_block by exact G. cbn [rbind].
  apply link_now_iff. exists p, n. auto.
Qed.
Lemma js_link_raw : forall l : chain_link, good_link l -> r_link unicode (js_link l).
Proof.
  intros l (now & p & n & i & created & H & G & U & E). apply link_now_iff in E as (p' & n' & E1 & E2 & ->).
  injection E1 as <-. injection E2 as <-. split; [apply hash_string_unicode|split; [apply js_block_raw; exact G|exact U]].
Qed.
Lemma of_js_mlink : forall l : mined_link, good_mined_link l -> of_jmlink (js_mlink l) = Ok l.
Proof.
  intros l (now & k & m & created & G & A & E). apply mined_link_now_iff in E as (k' & E1 & ->).
  injection E1 as <-. unfold of_jmlink, js_mlink. cbn [jml_link jml_mining jml_created ml_link ml_mining ml_im im_created deref].
  rewrite of_js_link by exact G. cbn [rbind]. apply mined_link_now_iff. exists k. auto.
Qed.
Lemma js_mlink_raw : forall l : mined_link, good_mined_link l -> r_mlink unicode (js_mlink l).
Proof.
  intros l (now & k & m & created & G & A & E). apply mined_link_now_iff in E as (k' & E1 & ->).
  injection E1 as <-. split; [apply js_link_raw; exact G|exact A].
Qed.

(** ** texts *)
Lemma text_back : forall A O (P : A -> Prop) e d (f : A -> res O) x o s, codec P e d -> P x -> f x = Ok o ->
  marshal e x = Ok s -> rbind (unmarshal d s) f = Ok o.
Proof. intros A O P e d f x o s K Px F M. rewrite (unmarshal_marshal _ _ _ _ _ _ K Px M). exact F. Qed.

Lemma lock_text_back : forall l s, good_lock l -> lock_to_text l = Ok s -> lock_of_text s = Ok l.
Proof. intros l s G E. exact (text_back _ _ _ _ _ _ _ _ _ lock_codec (js_lock_raw l) (of_js_lock l G) E). Qed.
Lemma bill_text_back : forall b s, good_bill b -> bill_to_text b = Ok s -> bill_of_text s = Ok b.
Proof. intros l s G E. exact (text_back _ _ _ _ _ _ _ _ _ bill_codec (js_bill_raw l G) (of_js_bill l G) E). Qed.
Lemma content_text_back : forall c s, good_content c -> content_to_text c = Ok s -> content_of_text s = Ok c.
Proof. intros l s G E. exact (text_back _ _ _ _ _ _ _ _ _ content_codec (js_content_raw l G) (of_js_content l G) E). Qed.
Lemma address_text_back : forall a s, good_address a -> address_to_text a = Ok s -> address_of_text s = Ok a.
Proof. intros l s G E. exact (text_back _ _ _ _ _ _ _ _ _ address_codec (js_address_raw l) (of_js_address l G) E). Qed.
Lemma genesis_text_back : forall g s, good_genesis g -> genesis_to_text g = Ok s -> genesis_of_text s = Ok g.
Proof. intros l s G E. exact (text_back _ _ _ _ _ _ _ _ _ genesis_codec (js_genesis_raw l G) (of_js_genesis l G) E). Qed.
Lemma expense_text_back : forall (e : expense) s, good_expense e -> expense_to_text e = Ok s -> expense_of_text s = Ok e.
Proof. intros l s G E. exact (text_back _ _ _ _ _ _ _ _ _ expense_codec (js_expense_raw l G) (of_js_expense l G) E). Qed.
Lemma trx_text_back : forall (t : transaction) s, good_trx t -> trx_to_text t = Ok s -> trx_of_text s = Ok t.
Proof. intros l s G E. exact (text_back _ _ _ _ _ _ _ _ _ trx_codec (js_trx_raw l G) (of_js_trx l G) E). Qed.
Lemma block_text_back : forall (b : block) s, good_block b -> block_to_text b = Ok s -> block_of_text s = Ok b.
Proof. intros l s G E. exact (text_back _ _ _ _ _ _ _ _ _ block_codec (js_block_raw l G) (of_js_block l G) E). Qed.
Lemma link_text_back : forall (l : chain_link) s, good_link l -> link_to_text l = Ok s -> link_of_text s = Ok l.
Proof. intros l s G E. exact (text_back _ _ _ _ _ _ _ _ _ link_codec (js_link_raw l G) (of_js_link l G) E). Qed.
Lemma mlink_text_back : forall (l : mined_link) s, good_mined_link l -> mlink_to_text l = Ok s -> mlink_of_text s = Ok l.
Proof. intros l s G E. exact (text_back _ _ _ _ _ _ _ _ _ mlink_codec (js_mlink_raw l G) (of_js_mlink l G) E). Qed.
Lemma mlink_encode_back : forall (l : mined_link) s, good_mined_link l -> mlink_to_text l = Ok s ->
  exists t, encode_mlink l = Ok t /\ decode_mlink t = Ok (Some l).
Proof.
  intros l s G E. exists (b64_encode s). unfold encode_mlink, decode_mlink. rewrite E.
  split; [reflexivity|]. rewrite b64_decode_encode. cbn [rbind]. rewrite (mlink_text_back l s G E). reflexivity.
Qed.
End WithCurve.

(** ** what decoding guarantees *)
Definition any (_ : bytes) : Prop := True.
Lemma any_all : forall l, Forall any l.
Proof. intro l. apply Forall_forall. intros. exact I. Qed.

Lemma duint_range : forall js n, duint js = Ok n -> u64_ok n.
Proof.
  intros js n H. apply dlast_iff in H. induction H as [|js a H IH|js j a b H IH N R]; [reflexivity|exact IH|].
  unfold u64_ok. destruct j as [| |t| | | |]; cbn [uint_value] in R; try discriminate R.
  destruct t as [|c t]; [discriminate|]. destruct (digits_val 0 (c :: t)) as [m|]; [|discriminate].
  destruct (m <? 2 ^ 64)%N eqn:L; [|discriminate]. injection R as <-. apply N.ltb_lt. exact L.
Qed.
Lemma dlist_range : forall A (P : A -> Prop) d js l, (forall js a, d js = Ok a -> P a) -> dlist d js = Ok l -> Forall P l.
Proof.
  intros A P d js l H E. apply dlist_iff in E. induction E as [ls l F R L K|ls r js l F R Hr E IH]; [|exact IH].
  apply Forall_forall. intros a I. apply In_nth_error in I as [i I]. exact (H _ _ (K i a I)).
Qed.
Lemma dptr_range : forall A (P : A -> Prop) d js o, (forall js a, d js = Ok a -> P a) -> dptr d js = Ok o -> opt_all P o.
Proof. intros A P d js o H E. apply dptr_iff in E. induction E as [|js a N E R|seg js o N R E IH]; [exact I|exact (H _ _ R)|exact IH]. Qed.
Ltac invert_binds :=
  repeat match goal with
  | H : rbind _ _ = Ok _ |- _ =>
      let x := fresh "x" in let E := fresh "E" in apply rbind_Ok in H as (x & E & H)
  | H : Ok _ = Ok _ |- _ => injection H; clear H; intros; subst
  end.
Ltac ranges :=
  repeat split;
  first [apply any_all | exact I | eapply duint_range; eassumption
        | (eapply dptr_range; [|eassumption]); eassumption
        | (eapply dlist_range; [|eassumption]); intros; (eapply dptr_range; [|eassumption]); eassumption].

Lemma d_lock_range : forall j x, d_lock j = Ok x -> r_lock any x.
Proof. intros j x H. apply any_all. Qed.
Lemma d_bill_range : forall j x, d_bill j = Ok x -> r_bill any x.
Proof.
  intros j x H. unfold d_bill, field in H. pose proof d_lock_range. invert_binds. ranges.
Qed.
Lemma d_content_range : forall j x, d_content j = Ok x -> r_content any x.
Proof. intros j x H. unfold d_content, field in H. pose proof d_bill_range. invert_binds. ranges. Qed.
Lemma d_expense_range : forall j x, d_expense j = Ok x -> r_expense any x.
Proof. intros j x H. unfold d_expense, field in H. pose proof d_content_range. invert_binds. ranges. Qed.
Lemma d_address_range : forall j x, d_address j = Ok x -> r_address any x.
Proof. intros j x H. ranges. Qed.
Lemma d_trx_range : forall j x, d_trx j = Ok x -> r_trx any x.
Proof. intros j x H. unfold d_trx, field in H. pose proof d_address_range. pose proof d_expense_range. invert_binds. ranges. Qed.
Lemma d_genesis_range : forall j x, d_genesis j = Ok x -> r_genesis any x.
Proof. intros j x H. unfold d_genesis, field in H. pose proof d_bill_range. invert_binds. ranges. Qed.
Lemma d_block_range : forall j x, d_block j = Ok x -> r_block any x.
Proof. intros j x H. unfold d_block, field in H. pose proof d_genesis_range. pose proof d_trx_range. invert_binds. ranges. Qed.
Lemma d_link_range : forall j x, d_link j = Ok x -> r_link any x.
Proof. intros j x H. unfold d_link, field in H. pose proof d_block_range. invert_binds. ranges. Qed.
Lemma d_mlink_range : forall j x, d_mlink j = Ok x -> r_mlink any x.
Proof. intros j x H. unfold d_mlink, field in H. pose proof d_link_range. invert_binds. ranges. Qed.

Lemma FromString_hash64 : forall s h, FromString s = Ok h -> hash64 h.
Proof. intros s h H. rewrite FromString_from_string in H. eapply from_string_length. exact H. Qed.
Lemma rmapM_range : forall A B (P : B -> Prop) (f : A -> res B) l ys,
  (forall x y, In x l -> f x = Ok y -> P y) -> rmapM f l = Ok ys -> Forall P ys.
Proof.
  intros A B P f l ys H E. apply rmapM_Ok_iff in E. induction E as [|x y l ys Exy E IH]; constructor.
  - eapply H; [left; reflexivity|exact Exy].
  - apply IH. intros a b Ha. apply H. right. exact Ha.
Qed.
Lemma deref_Ok : forall A B (f : A -> res B) o b, deref f o = Ok b -> exists a, o = Some a /\ f a = Ok b.
Proof. intros A B f [a|] b H; [eauto|discriminate]. Qed.

Lemma of_jlock_good : forall x l, of_jlock x = Ok l -> good_lock l.
Proof.
  intros x l H. unfold of_jlock in H. invert_binds. exists 0%Z, x0, (Some (jl_created x)). split; [|exact H].
  eapply rmapM_range; [|exact E]. intros s h _. apply FromString_hash64.
Qed.
Lemma of_jbill_good : forall x b, r_bill any x -> of_jbill x = Ok b -> good_bill b.
Proof.
  intros x b (_ & U) H. unfold of_jbill in H. invert_binds. apply deref_Ok in E as (l & _ & E).
  apply of_jlock_good in E. exists 0%Z, x0, (jb_amount x), (Some (jb_created x)). auto.
Qed.
Lemma opt_all_in : forall A (P : A -> Prop) l o a, Forall (opt_all P) l -> In o l -> o = Some a -> P a.
Proof. intros A P l o a F I ->. rewrite Forall_forall in F. apply (F (Some a)). exact I. Qed.
Lemma of_jcontent_good : forall x c, r_content any x -> of_jcontent x = Ok c -> good_content c.
Proof.
  intros x c (R1 & R2 & R3) H. unfold of_jcontent in H. invert_binds.
  apply deref_Ok in E0 as (to & E0 & E2). rewrite E0 in R2. apply of_jbill_good in E2; [|exact R2].
  pose proof (good_bill_amount _ E2) as [A1 A2].
  exists 0%Z, (bl_amount x1), x0, (bl_lock x1), x2, (Some (jct_created x)).
  split; [exact A1|]. split; [|split; [exact A2|split; [|exact H]]].
  - eapply rmapM_range; [|exact E]. intros o b Ho Eb. apply deref_Ok in Eb as (r & Er & Eb).
    eapply of_jbill_good; [|exact Eb]. eapply opt_all_in; eassumption.
  - intros r ->. destruct (jct_remaining x) as [jr|]; [|discriminate]. invert_binds.
    apply of_jbill_good in E3; [|exact R3]. apply good_bill_amount in E3. tauto.
Qed.
Lemma of_jaddress_good : forall x a, of_jaddress x = Ok a -> good_address a.
Proof.
  intros x a H. unfold of_jaddress in H. invert_binds.
  assert (O : forall s o h, opt_of_string s = Ok o -> o = Some h -> hash64 h).
  { intros [|c s] o h Eo ->; cbn [opt_of_string] in Eo; [discriminate|]. invert_binds. eapply FromString_hash64. eassumption. }
  exists 0%Z, x0, x1, x2, (Some (ja_created x)). split; [|split; [|split; [|exact H]]]; eauto.
  eapply rmapM_range; [|exact E0]. intros s h _. apply FromString_hash64.
Qed.
Lemma of_jgenesis_good : forall x g, r_genesis any x -> of_jgenesis x = Ok g -> good_genesis g.
Proof.
  intros x g (R1 & R2 & R3) H. unfold of_jgenesis in H. invert_binds. apply deref_Ok in E as (b & Eb & E).
  rewrite Eb in R1. apply of_jbill_good in E; [|exact R1].
  exists 0%Z, (jg_base x), (jg_increase x), (jg_link x), x0, (Some (jg_created x)). auto 6.
Qed.

Section WithCurve2.
Context {C : Curve}.
Definition any_sig (_ : ringsig C) : Prop := True.
Lemma of_jexpense_good : forall x (e : expense), r_expense any x -> of_jexpense x = Ok e -> good_expense any_sig e.
Proof.
  intros x e (R1 & R2) H. unfold of_jexpense in H. invert_binds. apply deref_Ok in E as (c & Ec & E).
  rewrite Ec in R1. apply of_jcontent_good in E; [|exact R1]. exists 0%Z, x0, x1.
  split; [exact E|split; [|exact H]]. apply Forall_forall. intros. exact I.
Qed.
Lemma of_jtrx_good : forall x (t : transaction), r_trx any x -> of_jtrx x = Ok t -> good_trx any_sig t.
Proof.
  intros x t (R1 & R2 & R3) H. unfold of_jtrx in H. invert_binds.
  exists 0%Z, x2, x0, x1, (Some (jtx_created x)). split; [|split; [|split; [|exact H]]].
  - intros a ->. destruct (jtx_address x) as [ja|]; [|discriminate]. invert_binds. eapply of_jaddress_good. eassumption.
  - intros h ->. destruct (jtx_bucket x); cbn [opt_of_string] in E; [discriminate|]. invert_binds.
    eapply FromString_hash64. eassumption.
  - eapply rmapM_range; [|exact E0]. intros o e Ho Ee. apply deref_Ok in Ee as (r & Er & Ee).
    eapply of_jexpense_good; [|exact Ee]. eapply opt_all_in; eassumption.
Qed.
Lemma of_jblock_good : forall x (b : block), r_block any x -> of_jblock x = Ok b -> good_block any_sig b.
Proof.
  intros x b (R1 & R2 & R3) H. unfold of_jblock in H. invert_binds.
  apply deref_Ok in E0 as (g & Eg & E0). rewrite Eg in R1. apply of_jgenesis_good in E0; [|exact R1].
  exists 0%Z, x1, (jbk_additional x), x0, (Some (jbk_created x)). split; [exact E0|split; [exact R3|split; [|exact H]]].
  eapply rmapM_range; [|exact E]. intros o e Ho Ee. apply deref_Ok in Ee as (r & Er & Ee).
  eapply of_jtrx_good; [|exact Ee]. eapply opt_all_in; eassumption.
Qed.
Lemma of_jlink_good : forall x (l : chain_link), r_link any x -> of_jlink x = Ok l -> good_link any_sig l.
Proof.
  intros x l (R1 & R2 & R3) H. unfold of_jlink in H. invert_binds. apply FromString_hash64 in E.
  apply deref_Ok in E0 as (b & Eb & E0). rewrite Eb in R2. apply of_jblock_good in E0; [|exact R2].
  exists 0%Z, x0, x1, (jln_index x), (Some (jln_created x)). auto.
Qed.
Lemma of_jmlink_good : forall x (l : mined_link), r_mlink any x -> of_jmlink x = Ok l -> good_mined_link any_sig any l.
Proof.
  intros x l (R1 & R2) H. unfold of_jmlink in H. invert_binds.
  apply deref_Ok in E as (k & Ek & E). rewrite Ek in R1. apply of_jlink_good in E; [|exact R1].
  exists 0%Z, x0, (jml_mining x), (Some (jml_created x)). auto.
Qed.

Lemma unmarshal_Ok : forall A (d : list json -> res A) s x, unmarshal d s = Ok x -> exists j, d j = Ok x.
Proof. intros A d s x H. unfold unmarshal in H. destruct (jparse s); [eauto|discriminate]. Qed.
Ltac of_text := intros s x H; apply rbind_Ok in H as (r & E & H); apply unmarshal_Ok in E as (j & E).

Lemma lock_of_text_good : forall s l, lock_of_text s = Ok l -> good_lock l.
Proof. of_text. eapply of_jlock_good; exact H. Qed.
Lemma bill_of_text_good : forall s b, bill_of_text s = Ok b -> good_bill b.
Proof. of_text. eapply of_jbill_good; [eapply d_bill_range; exact E|exact H]. Qed.
Lemma content_of_text_good : forall s c, content_of_text s = Ok c -> good_content c.
Proof. of_text. eapply of_jcontent_good; [eapply d_content_range; exact E|exact H]. Qed.
Lemma address_of_text_good : forall s a, address_of_text s = Ok a -> good_address a.
Proof. of_text. eapply of_jaddress_good; exact H. Qed.
Lemma genesis_of_text_good : forall s g, genesis_of_text s = Ok g -> good_genesis g.
Proof. of_text. eapply of_jgenesis_good; [eapply d_genesis_range; exact E|exact H]. Qed.
Lemma expense_of_text_good : forall s (e : expense), expense_of_text s = Ok e -> good_expense any_sig e.
Proof. of_text. eapply of_jexpense_good; [eapply d_expense_range; exact E|exact H]. Qed.
Lemma trx_of_text_good : forall s (t : transaction), trx_of_text s = Ok t -> good_trx any_sig t.
Proof. of_text. eapply of_jtrx_good; [eapply d_trx_range; exact E|exact H]. Qed.
Lemma block_of_text_good : forall s (b : block), block_of_text s = Ok b -> good_block any_sig b.
Proof. of_text. eapply of_jblock_good; [eapply d_block_range; exact E|exact H]. Qed.
Lemma link_of_text_good : forall s (l : chain_link), link_of_text s = Ok l -> good_link any_sig l.
Proof. of_text. eapply of_jlink_good; [eapply d_link_range; exact E|exact H]. Qed.
Lemma mlink_of_text_good : forall s (l : mined_link), mlink_of_text s = Ok l -> good_mined_link any_sig any l.
Proof. of_text. eapply of_jmlink_good; [eapply d_mlink_range; exact E|exact H]. Qed.

Lemma expense_of_text_signed : forall s (e : expense), expense_of_text s = Ok e ->
  Forall2 (fun b sig => same_keys (bl_lock b) sig /\ ring_verify C sig (hash_string (lk_hash (bl_lock b))) = Ok true)
    (ct_from (ex_content e)) (ex_sigs e).
Proof.
  intros s e H. apply expense_of_text_good in H as (now & c & sigs & _ & _ & E).
  pose proof (expense_fields _ _ _ _ E) as (-> & -> & _).
  assert (X : exists e, expense_now now (Some c) (Some sigs) = Ok e) by eauto.
  apply expense_accepted_iff in X as [_ F].
  clear E. induction F as [|b sig bs ss Hb F IH]; [constructor|].
  constructor; [apply unlock_iff; exact Hb|exact IH].
Qed.

(** ** crashes *)
Lemma rmapM_no_panic : forall A B (f : A -> res B) l, (forall x, In x l -> f x <> Panic) -> rmapM f l <> Panic.
Proof.
  intros A B f. induction l as [|x l IH]; intro H; [discriminate|]. cbn [rmapM].
  pose proof (H x (or_introl eq_refl)). destruct (f x); cbn [rbind]; try congruence.
  assert (rmapM f l <> Panic) by (apply IH; intros y Hy; apply H; right; exact Hy).
  destruct (rmapM f l); cbn; congruence.
Qed.
Lemma rbind_no_panic : forall A B (x : res A) (f : A -> res B), x <> Panic -> (forall a, x = Ok a -> f a <> Panic) ->
  rbind x f <> Panic.
Proof. intros A B [a| |] f H1 H2; cbn; auto; discriminate. Qed.
Lemma FromString_no_panic : forall s, FromString s <> Panic.
Proof. intro s. rewrite FromString_from_string. apply from_string_no_panic. Qed.
Lemma lock_now_no_panic : forall now k c, lock_now now k c <> Panic.
Proof.
  intros. unfold lock_now. rewrite FromMultiBytes_ok. cbn [rbind]. rewrite immutable_now_some. cbn [rbind].
  destruct (0 <? length k), (length (mp_keys k) =? length k); discriminate.
Qed.
Lemma of_jlock_no_panic : forall x, of_jlock x <> Panic.
Proof.
  intro x. apply rbind_no_panic; [apply rmapM_no_panic; intros; apply FromString_no_panic|intros; apply lock_now_no_panic].
Qed.
Lemma bill_now_no_panic : forall now l a c, bill_now now l a c <> Panic.
Proof.
  intros now [l|] a c; [|discriminate]. unfold bill_now. rewrite FromMultiBytes_ok. cbn [rbind]. rewrite immutable_now_some. cbn [rbind].
  destruct (0 <? a)%N; discriminate.
Qed.
Lemma of_jbill_no_panic : forall x, full_bill x -> of_jbill x <> Panic.
Proof.
  intros x F. unfold full_bill in F. unfold of_jbill. destruct (jb_lock x) as [l|]; [|congruence].
  apply rbind_no_panic; [apply of_jlock_no_panic|intros; apply bill_now_no_panic].
Qed.
Lemma content_now_no_panic : forall now a f l r c, content_now now a f l r c <> Panic.
Proof.
  intros now a f [l|] r c; [|discriminate]. unfold content_now. destruct (_ <? _)%N; [discriminate|].
  destruct (match r with Some _ => _ | None => _ end); [discriminate|]. rewrite FromMultiBytes_ok. cbn [rbind].
  rewrite immutable_now_some. cbn [rbind im_created].
  apply rbind_no_panic; [apply bill_now_no_panic|]. intros b _. destruct r; [|discriminate].
  apply rbind_no_panic; [apply bill_now_no_panic|]. discriminate.
Qed.
Lemma opt_is_no_panic : forall A B (P : A -> Prop) (f : A -> res B) o, (forall a, P a -> f a <> Panic) ->
  opt_is P o -> deref f o <> Panic.
Proof. intros A B P f o H (a & -> & Ha). apply H. exact Ha. Qed.
Lemma opt_is_rmapM : forall A B (P : A -> Prop) (f : A -> res B) l, (forall a, P a -> f a <> Panic) ->
  Forall (opt_is P) l -> rmapM (deref f) l <> Panic.
Proof.
  intros A B P f l H F. apply rmapM_no_panic. intros o Ho. rewrite Forall_forall in F.
  eapply opt_is_no_panic; [exact H|]. apply F. exact Ho.
Qed.
Lemma of_jcontent_no_panic : forall x, full_content x -> of_jcontent x <> Panic.
Proof.
  intros x (F1 & F2 & F3). unfold of_jcontent.
  apply rbind_no_panic; [eapply opt_is_rmapM; [apply of_jbill_no_panic|exact F1]|intros from _].
  apply rbind_no_panic; [eapply opt_is_no_panic; [apply of_jbill_no_panic|exact F2]|intros to _].
  apply rbind_no_panic; [|intros; apply content_now_no_panic].
  destruct (jct_remaining x) as [r|]; [|discriminate].
  apply rbind_no_panic; [apply of_jbill_no_panic; apply F3; reflexivity|discriminate].
Qed.
Lemma elements_no_panic : forall A (f : bytes -> res A) l, (forall w, f w <> Panic) -> elements f l <> Panic.
Proof.
  intros A f l H. induction l as [|[|c w] l IH]; [discriminate|exact IH|]. cbn [elements].
  apply rbind_no_panic; [apply H|]. intros a _. apply rbind_no_panic; [exact IH|discriminate].
Qed.
Lemma of_opt_no_panic : forall A (o : option A), of_opt o <> Panic.
Proof. intros A [a|]; discriminate. Qed.
Lemma ring_of_string_no_panic : forall s, ring_of_string C s <> Panic.
Proof.
  intro s. unfold ring_of_string. apply rbind_no_panic; [apply b64_decode_no_panic|]. intros d _.
  assert (Q1 : forall w, point_of_string C w <> Panic)
    by (intro w; apply rbind_no_panic; [apply hex_decode_no_panic|intros; apply of_opt_no_panic]).
  assert (Q2 : forall w, scalar_of_string C w <> Panic)
    by (intro w; apply rbind_no_panic; [apply hex_decode_no_panic|intros; apply of_opt_no_panic]).
  destruct (split hashsep d) as [|a [|b [|c [|? ?]]]]; try discriminate.
  apply rbind_no_panic; [apply elements_no_panic; assumption|]. intros ring _.
  apply rbind_no_panic; [apply elements_no_panic; assumption|]. intros ss _.
  apply rbind_no_panic; [auto|discriminate].
Qed.
Lemma ring_fold_panic : forall msg ring ss e, ring_fold C msg ring ss e = Panic <-> length ss < length ring.
Proof.
  intros msg ring. induction ring as [|p ring IH]; intros ss e; cbn [ring_fold length].
  - split; [discriminate|lia].
  - destruct ss as [|s ss]; cbn [length]; [split; [lia|reflexivity]|]. rewrite IH. lia.
Qed.
Lemma unlock_ring_no_panic : forall mp ring seen, unlock_ring mp ring seen <> Panic.
Proof.
  intros mp ring. induction ring as [|p ring IH]; intro seen; [discriminate|]. cbn [unlock_ring].
  rewrite FromBytes_ok. cbn [rbind]. destruct (existsb _ mp); [apply IH|discriminate].
Qed.
Lemma unlock_no_panic : forall l (sig : ringsig C), length (rs_ring sig) <= length (rs_s sig) -> unlock l sig <> Panic.
Proof.
  intros l sig H. unfold unlock. apply rbind_no_panic; [apply unlock_ring_no_panic|]. intros seen _.
  destruct (_ =? _); [|discriminate]. apply rbind_no_panic.
  - unfold ring_verify. apply rbind_no_panic; [|discriminate]. rewrite ring_fold_panic. lia.
  - intros [|] _; discriminate.
Qed.
Lemma unlock_short_panics : forall l (sig : ringsig C), same_keys l sig ->
  length (rs_s sig) < length (rs_ring sig) -> unlock l sig = Panic.
Proof.
  intros l sig K S.
  (* all checks before the verification pass, as they do not look at the scalars *)
  unfold unlock.
  assert (MP : forall k, In (hash_string k) (mp_keys (lk_keys l)) <-> In k (lk_keys l)).
  { intro k. unfold mp_keys. rewrite map_keys_in, in_map_iff. split.
    - intros (k' & E & Hk). apply hash_string_inj in E. congruence.
    - intro Hk. exists k. auto. }
  destruct (unlock_ring_succeeds (mp_keys (lk_keys l)) (rs_ring sig) []) as [r Hr].
  { intros p Hp. apply MP, K. eauto. }
  rewrite Hr. cbn [rbind]. apply unlock_ring_ok in Hr as (H1 & H2 & H3); [|constructor].
  assert (E : length r = length (mp_keys (lk_keys l))).
  { apply same_length_incl; [exact H1|apply map_keys_nodup| |].
    - intros k Hk. apply H2 in Hk as [[]|(p & Hp & ->)]. apply H3. exact Hp.
    - intros s Hs. unfold mp_keys in Hs. rewrite map_keys_in, in_map_iff in Hs. destruct Hs as (k & <- & Hk).
      apply K in Hk as (p & Hp & ->). apply H2. right. eauto. }
  rewrite E, Nat.eqb_refl. unfold ring_verify.
  assert (F : ring_fold C (hash_string (lk_hash l)) (rs_ring sig) (rs_s sig) (rs_e sig) = Panic)
    by (apply ring_fold_panic; exact S).
  rewrite F. reflexivity.
Qed.
Lemma unlock_all_no_panic : forall from (sigs : list (ringsig C)), length sigs = length from ->
  Forall (fun sig => length (rs_ring sig) <= length (rs_s sig)) sigs -> unlock_all from sigs <> Panic.
Proof.
  induction from as [|b from IH]; intros [|s sigs] L F; try discriminate. cbn [unlock_all]. inversion F; subst.
  apply rbind_no_panic; [apply unlock_no_panic; assumption|]. intros _ _. apply IH; [cbn in L; lia|assumption].
Qed.
Lemma of_jexpense_no_panic : forall x, full_expense (C := C) x -> of_jexpense x <> Panic.
Proof.
  intros x (F1 & F2). unfold of_jexpense.
  apply rbind_no_panic; [eapply opt_is_no_panic; [apply of_jcontent_no_panic|exact F1]|intros c _].
  apply rbind_no_panic; [apply rmapM_no_panic; intros; apply ring_of_string_no_panic|intros sigs Es].
  unfold expense_now. destruct (Nat.eqb_spec (length sigs) (length (ct_from c))) as [L|L]; [|discriminate].
  apply rbind_no_panic; [|intros; rewrite FromMultiBytes_ok; discriminate].
  apply unlock_all_no_panic; [exact L|]. apply rmapM_Ok_iff in Es.
  assert (G : forall A B (R : A -> B -> Prop) (P : A -> Prop) (Q : B -> Prop) l l',
    Forall2 R l l' -> Forall P l -> (forall a b, R a b -> P a -> Q b) -> Forall Q l').
  { intros A B R P Q l l' F. induction F; intros FP I; constructor; inversion FP; subst; eauto. }
  eapply G; [exact Es|exact F2|]. intros a b Rab Pa. exact (Pa b Rab).
Qed.
Lemma address_now_no_panic : forall now s r u c, address_now now s r u c <> Panic.
Proof.
  intros. unfold address_now. rewrite FromMultiBytes_ok. cbn [rbind]. rewrite immutable_now_some. cbn [rbind].
  destruct s, r, u; discriminate.
Qed.
Lemma opt_of_string_no_panic : forall s, opt_of_string s <> Panic.
Proof. intros [|c s]; [discriminate|]. cbn [opt_of_string]. apply rbind_no_panic; [apply FromString_no_panic|discriminate]. Qed.
Lemma of_jaddress_no_panic : forall x, of_jaddress x <> Panic.
Proof.
  intro x. unfold of_jaddress.
  apply rbind_no_panic; [apply opt_of_string_no_panic|intros ? _].
  apply rbind_no_panic; [apply rmapM_no_panic; intros; apply FromString_no_panic|intros ? _].
  apply rbind_no_panic; [apply opt_of_string_no_panic|intros ? _]. apply address_now_no_panic.
Qed.
Lemma of_jtrx_no_panic : forall x, full_trx (C := C) x -> of_jtrx x <> Panic.
Proof.
  intros x F. unfold of_jtrx.
  apply rbind_no_panic; [apply opt_of_string_no_panic|intros bk _].
  apply rbind_no_panic; [eapply opt_is_rmapM; [apply of_jexpense_no_panic|exact F]|intros fees _].
  apply rbind_no_panic.
  - destruct (jtx_address x); [|discriminate]. apply rbind_no_panic; [apply of_jaddress_no_panic|discriminate].
  - intros a _. unfold transaction_now. rewrite FromMultiBytes_ok. cbn [rbind]. rewrite immutable_now_some. cbn [rbind].
    destruct a, bk, fees; discriminate.
Qed.
Lemma of_jgenesis_no_panic : forall x, full_genesis x -> of_jgenesis x <> Panic.
Proof.
  intros x F. unfold of_jgenesis.
  apply rbind_no_panic; [eapply opt_is_no_panic; [apply of_jbill_no_panic|exact F]|intros b _].
  unfold genesis_now. rewrite FromMultiBytes_ok. cbn [rbind]. rewrite immutable_now_some. cbn [rbind].
  destruct (0 <? jg_base x)%N, (negb (f_le_zero (jg_increase x))), (0 <? jg_link x)%N; discriminate.
Qed.
Lemma of_jblock_no_panic : forall x, full_block (C := C) x -> of_jblock x <> Panic.
Proof.
  intros x (F1 & F2). unfold of_jblock.
  apply rbind_no_panic; [eapply opt_is_rmapM; [apply of_jtrx_no_panic|exact F1]|intros t _].
  apply rbind_no_panic; [eapply opt_is_no_panic; [apply of_jgenesis_no_panic|exact F2]|intros g _].
  unfold block_now. rewrite FromMultiBytes_ok. cbn [rbind]. rewrite immutable_now_some. cbn [rbind].
  destruct (_ <? _); discriminate.
Qed.
Lemma of_jlink_no_panic : forall x, full_link (C := C) x -> of_jlink x <> Panic.
Proof.
  intros x F. unfold of_jlink.
  apply rbind_no_panic; [apply FromString_no_panic|intros p _].
  apply rbind_no_panic; [eapply opt_is_no_panic; [apply of_jblock_no_panic|exact F]|intros b _].
  unfold link_now. rewrite FromMultiBytes_ok. discriminate.
Qed.
Lemma of_jmlink_no_panic : forall x, full_mlink (C := C) x -> of_jmlink x <> Panic.
Proof.
  intros x F. unfold of_jmlink.
  apply rbind_no_panic; [eapply opt_is_no_panic; [apply of_jlink_no_panic|exact F]|intros b _].
  unfold mined_link_now. rewrite FromMultiBytes_ok. discriminate.
Qed.

Lemma short_signature_panics : forall jc c b sig s,
  of_jcontent jc = Ok c -> ct_from c = [b] -> ring_of_string C s = Ok sig ->
  same_keys (bl_lock b) sig -> length (rs_s sig) < length (rs_ring sig) ->
  of_jexpense (C := C) (JExpense (Some jc) [s]) = Panic.
Proof.
  intros jc c b sig s E F R K L. unfold of_jexpense. cbn [jex_content jex_sigs deref rmapM]. rewrite E. cbn [rbind].
  rewrite R. cbn [rbind]. unfold expense_now. rewrite F. cbn [length Nat.eqb unlock_all].
  rewrite (unlock_short_panics (bl_lock b) sig K L). reflexivity.
Qed.
Lemma garbage_decodes : forall s b, b64_decode s = Ok b -> jparse b = None -> decode_mlink (C := C) s = Ok None.
Proof.
  intros s b E P. unfold decode_mlink. rewrite E. cbn [rbind]. unfold mlink_of_text, unmarshal. rewrite P. reflexivity.
Qed.
End WithCurve2.

(** ** when there is a text *)
Definition yes {A} (x : res A) : Prop := exists a, x = Ok a.
Lemma jtime_yes : forall t, dated t <-> yes (jtime t).
Proof.
  intro t. unfold dated. change (-62167219200 * 10 ^ 9)%Z with year0. change (253402300800 * 10 ^ 9)%Z with year10000.
  rewrite <- time_text_iff. unfold jtime, yes. split.
  - intros [s ->]. eexists. reflexivity.
  - intros [j H]. apply rbind_Ok in H as (s & E & _). eauto.
Qed.
Lemma rmapM_yes : forall A B (f : A -> res B) l, (forall x, In x l -> yes (f x)) -> yes (rmapM f l).
Proof.
  intros A B f. induction l as [|x l IH]; intro H; [eexists; reflexivity|].
  destruct (H x (or_introl eq_refl)) as [y Ey]. destruct IH as [ys Eys]; [intros z Hz; apply H; right; exact Hz|].
  exists (y :: ys). cbn [rmapM]. rewrite Ey. cbn [rbind]. rewrite Eys. reflexivity.
Qed.
Lemma jstruct_yes : forall l, Forall (fun kv => yes (snd kv)) l -> yes (jstruct l).
Proof.
  intros l F. unfold jstruct. destruct (rmapM_yes _ _ jmember l) as [m E].
  - intros kv Hkv. rewrite Forall_forall in F. destruct (F kv Hkv) as [j Ej]. unfold jmember. rewrite Ej. eexists. reflexivity.
  - rewrite E. eexists. reflexivity.
Qed.
Lemma jlist_yes : forall A (e : A -> res json) l, (forall x, In x l -> yes (e x)) -> yes (jlist e l).
Proof. intros A e l H. unfold jlist. destruct (rmapM_yes _ _ e l H) as [js E]. rewrite E. eexists. reflexivity. Qed.
Lemma jptrs_yes : forall A B (e : A -> res json) (f : B -> A) l, (forall x, In x l -> yes (e (f x))) ->
  yes (jlist (jptr e) (map (fun x => Some (f x)) l)).
Proof. intros A B e f l H. apply jlist_yes. intros o Ho. apply in_map_iff in Ho as (x & <- & Hx). apply H. exact Hx. Qed.
Lemma jstr_yes : forall s, yes (jstr s). Proof. eexists; reflexivity. Qed.
Lemma jstrs_yes : forall l, yes (jlist jstr l). Proof. intro l. apply jlist_yes. intros. apply jstr_yes. Qed.
Lemma juint_yes : forall n, yes (juint n). Proof. eexists; reflexivity. Qed.
Lemma marshal_yes : forall A (e : A -> res json) x, yes (e x) -> yes (marshal e x).
Proof. intros A e x [j E]. unfold marshal. rewrite E. eexists. reflexivity. Qed.
Ltac members :=
  apply jstruct_yes; repeat (constructor; [cbn [snd]|]); try apply Forall_nil;
  try first [apply jstr_yes | apply jstrs_yes | apply juint_yes | (apply jtime_yes; assumption)].

Lemma e_lock_yes : forall l, dated_lock l -> yes (e_lock (js_lock l)).
Proof. intros l H. unfold dated_lock in H. members. Qed.
Lemma e_bill_yes : forall b, dated_bill b -> yes (e_bill (js_bill b)).
Proof. intros b [H1 H2]. members. apply e_lock_yes. exact H1. Qed.
Lemma e_content_yes : forall c, dated_content c -> yes (e_content (js_content c)).
Proof.
  intros c (H1 & H2 & H3 & H4). members.
  - apply jptrs_yes. intros b Hb. apply e_bill_yes. rewrite Forall_forall in H1. auto.
  - apply e_bill_yes. exact H2.
  - cbn [jct_remaining js_content]. destruct (ct_remaining c) as [b|]; [apply e_bill_yes; apply H3; reflexivity|eexists; reflexivity].
Qed.
Lemma e_address_yes : forall a, dated_address a -> yes (e_address (js_address a)).
Proof. intros a H. unfold dated_address in H. members. Qed.
Lemma e_genesis_yes : forall g, dated_genesis g -> yes (e_genesis (js_genesis g)).
Proof.
  intros g (H1 & H2 & H3). apply FloatUnique.float_text_ok in H2 as (s & Es). members; [apply e_bill_yes; exact H1|].
  unfold jfloat. cbn [jg_increase js_genesis]. rewrite Es. eexists. reflexivity.
Qed.
Section WithCurve3.
Context {C : Curve}.
Lemma e_expense_yes : forall e : expense, dated_expense e -> yes (e_expense (js_expense e)).
Proof. intros e H. members. apply e_content_yes. exact H. Qed.
Lemma e_trx_yes : forall t : transaction, dated_trx t -> yes (e_trx (js_trx t)).
Proof.
  intros t (H1 & H2 & H3). members.
  - cbn [jtx_address js_trx]. destruct (tx_address t) as [a|]; [apply e_address_yes; apply H1; reflexivity|eexists; reflexivity].
  - apply jptrs_yes. intros e He. apply e_expense_yes. rewrite Forall_forall in H2. auto.
Qed.
Lemma e_block_yes : forall b : block, dated_block b -> yes (e_block (js_block b)).
Proof.
  intros b (H1 & H2 & H3). members; [apply e_genesis_yes; exact H1|].
  apply jptrs_yes. intros t Ht. apply e_trx_yes. rewrite Forall_forall in H2. auto.
Qed.
Lemma e_link_yes : forall l : chain_link, dated_link l -> yes (e_link (js_link l)).
Proof. intros l (H1 & H2). members. apply e_block_yes. exact H1. Qed.
Lemma e_mlink_yes : forall l : mined_link, dated_mined_link l -> yes (e_mlink (js_mlink l)).
Proof. intros l (H1 & H2). members. apply e_link_yes. exact H1. Qed.

(** round trips with the existence of the text *)
Lemma text_round : forall O (P D : O -> Prop) (to : O -> res bytes) (of : bytes -> res O),
  (forall o, D o -> yes (to o)) -> (forall o s, P o -> to o = Ok s -> of s = Ok o) ->
  forall o, P o -> D o -> exists s, to o = Ok s /\ of s = Ok o.
Proof. intros O P D to of H1 H2 o Po Do. destruct (H1 o Do) as [s E]. exists s. eauto. Qed.
End WithCurve3.

(** json.Unmarshal itself never crashes *)
Lemma dlast_no_panic : forall A (d : json -> res A) js old, (forall j, d j <> Panic) -> dlast d old js <> Panic.
Proof.
  intros A d js. induction js as [|j js IH]; intros old H; [discriminate|].
  destruct j; cbn [dlast]; [apply IH; exact H|..]; (apply rbind_no_panic; [apply H|intros; apply IH; exact H]).
Qed.
Lemma dstr_no_panic : forall js, dstr js <> Panic. Proof. intro js. apply dlast_no_panic. intros []; discriminate. Qed.
Lemma duint_no_panic : forall js, duint js <> Panic.
Proof.
  intro js. apply dlast_no_panic. intros []; try discriminate. cbn [uint_value]. destruct text as [|c t]; [discriminate|].
  destruct (digits_val 0 (c :: t)); [|discriminate]. destruct (_ <? _)%N; discriminate.
Qed.
Lemma dtime_no_panic : forall js, dtime js <> Panic.
Proof. intro js. apply dlast_no_panic. intros []; try discriminate. cbn [time_value]. unfold parse_time. destruct (parse_time_opt s); discriminate. Qed.
Lemma dfloat_no_panic : forall js, dfloat js <> Panic.
Proof.
  intro js. apply dlast_no_panic. intros []; try discriminate. cbn [float_value]. unfold parse_float. destruct (parse_dec text) as [[[b m] e]|]; [|discriminate].
  destruct (float_of_dec b m e) as [|b'| |b' m' e'] eqn:E; try discriminate; intro H; rewrite ?E in H; discriminate H.
Qed.
Lemma dstruct_no_panic : forall js, dstruct js <> Panic.
Proof.
  induction js as [|[| | | | | |m] js IH]; try discriminate; [exact IH|]. cbn [dstruct]. apply rbind_no_panic; [exact IH|discriminate].
Qed.
Lemma dlist_no_panic : forall A (d : list json -> res A) j, (forall j, d j <> Panic) -> dlist d j <> Panic.
Proof.
  intros A d js H. unfold dlist. generalize (@nil (list json)) 0. induction js as [|j js IH]; intros cells n.
  - cbn [delems]. apply rbind_no_panic; [apply rmapM_no_panic; auto|discriminate].
  - assert (K : rbind (rmapM d cells) (fun _ => delems d [] 0 js) <> Panic) by (apply rbind_no_panic; [apply rmapM_no_panic; auto|intros; apply IH]).
    destruct j as [| | | | |[|j l]|]; cbn [delems]; try discriminate; [exact K|exact K|apply IH].
Qed.
Lemma dptr_no_panic : forall A (d : list json -> res A) j, (forall j, d j <> Panic) -> dptr d j <> Panic.
Proof.
  intros A d js H. unfold dptr. generalize (@nil json). induction js as [|j js IH]; intro seg.
  - cbn [dpoints]. destruct seg; [discriminate|]. apply rbind_no_panic; [apply H|discriminate].
  - destruct j; cbn [dpoints]; try apply IH. apply rbind_no_panic; [|intros; apply IH]. destruct seg; [discriminate|]. apply rbind_no_panic; [apply H|discriminate].
Qed.
Ltac no_panic :=
  repeat (apply rbind_no_panic; [|intros ? _]); try discriminate;
  unfold field; auto using dstruct_no_panic, dstr_no_panic, duint_no_panic, dtime_no_panic, dfloat_no_panic, dlist_no_panic, dptr_no_panic.
Lemma d_lock_no_panic : forall j, d_lock j <> Panic. Proof. intro j. unfold d_lock. no_panic. Qed.
Lemma d_bill_no_panic : forall j, d_bill j <> Panic. Proof. pose proof d_lock_no_panic. intro j. unfold d_bill. no_panic. Qed.
Lemma d_content_no_panic : forall j, d_content j <> Panic. Proof. pose proof d_bill_no_panic. intro j. unfold d_content. no_panic. Qed.
Lemma d_expense_no_panic : forall j, d_expense j <> Panic. Proof. pose proof d_content_no_panic. intro j. unfold d_expense. no_panic. Qed.
Lemma d_address_no_panic : forall j, d_address j <> Panic. Proof. intro j. unfold d_address. no_panic. Qed.
Lemma d_trx_no_panic : forall j, d_trx j <> Panic.
Proof. pose proof d_address_no_panic. pose proof d_expense_no_panic. intro j. unfold d_trx. no_panic. Qed.
Lemma d_genesis_no_panic : forall j, d_genesis j <> Panic. Proof. pose proof d_bill_no_panic. intro j. unfold d_genesis. no_panic. Qed.
Lemma d_block_no_panic : forall j, d_block j <> Panic.
Proof. pose proof d_genesis_no_panic. pose proof d_trx_no_panic. intro j. unfold d_block. no_panic. Qed.
Lemma d_link_no_panic : forall j, d_link j <> Panic. Proof. pose proof d_block_no_panic. intro j. unfold d_link. no_panic. Qed.
Lemma d_mlink_no_panic : forall j, d_mlink j <> Panic. Proof. pose proof d_link_no_panic. intro j. unfold d_mlink. no_panic. Qed.
Lemma of_text_no_panic : forall A O (d : list json -> res A) (f : A -> res O) s, (forall j, d j <> Panic) ->
  (forall x, unmarshal d s = Ok x -> f x <> Panic) -> rbind (unmarshal d s) f <> Panic.
Proof.
  intros A O d f s H1 H2. apply rbind_no_panic; [|exact H2]. unfold unmarshal. destruct (jparse s); [apply H1|discriminate].
Qed.
(** a document whose bill has no lock *)
Lemma no_lock_panics : forall s x, unmarshal d_bill s = Ok x -> jb_lock x = None -> bill_of_text s = Panic.
Proof. intros s x E N. unfold bill_of_text. rewrite E. cbn [rbind]. unfold of_jbill. rewrite N. reflexivity. Qed.

Lemma flat_no_panic : forall s, lock_of_text s <> Panic /\ address_of_text s <> Panic.
Proof.
  intro s. split; apply of_text_no_panic;
    auto using d_lock_no_panic, d_address_no_panic, of_jlock_no_panic, of_jaddress_no_panic.
Qed.
Lemma bill_text_no_panic : forall s, (forall x, unmarshal d_bill s = Ok x -> full_bill x) -> bill_of_text s <> Panic.
Proof. intros s H. apply of_text_no_panic; [apply d_bill_no_panic|]. auto using of_jbill_no_panic. Qed.
Lemma expense_text_no_panic : forall (C : Curve) s, (forall x, unmarshal d_expense s = Ok x -> full_expense (C := C) x) ->
  expense_of_text (C := C) s <> Panic.
Proof. intros C s H. apply of_text_no_panic; [apply d_expense_no_panic|]. auto using of_jexpense_no_panic. Qed.
Lemma mlink_text_no_panic : forall (C : Curve) s, (forall x, unmarshal d_mlink s = Ok x -> full_mlink (C := C) x) ->
  mlink_of_text (C := C) s <> Panic.
Proof. intros C s H. apply of_text_no_panic; [apply d_mlink_no_panic|]. auto using of_jmlink_no_panic. Qed.
Lemma garbage_decodes_all : forall (C : Curve) b, jparse b = None -> @decode_mlink C (b64_encode b) = Ok None.
Proof. intros C b H. eapply garbage_decodes; [apply b64_decode_encode|exact H]. Qed.
Lemma decode_mlink_good : forall (C : Curve) s (l : @mined_link C), decode_mlink s = Ok (Some l) ->
  good_mined_link any_sig any l.
Proof.
  intros C s l H. unfold decode_mlink in H. apply rbind_Ok in H as (b & _ & H).
  destruct (mlink_of_text b) as [l'| |] eqn:E; try discriminate. injection H as <-. exact (mlink_of_text_good _ _ E).
Qed.
Lemma lock_text_iff : forall l, (exists s, lock_to_text l = Ok s) <-> dated_lock l.
Proof.
  intro l. split; [|intro D; exact (marshal_yes _ _ _ (e_lock_yes l D))].
  intros [s H]. unfold lock_to_text, marshal in H. apply rbind_Ok in H as (j & E & _).
  unfold e_lock, jstruct in E. apply rbind_Ok in E as (m & E & _). cbn [rmapM jmember fst snd] in E.
  apply rbind_Ok in E as (m1 & _ & E). apply rbind_Ok in E as (m2 & E & _). apply rbind_Ok in E as (m3 & E & _).
  apply rbind_Ok in E as (j' & E & _). apply jtime_yes. eexists. exact E.
Qed.
Lemma content_times : forall now amount from lk rem created c, content_now now amount from lk rem created = Ok c ->
  im_created (ct_im c) = time_of now created /\ im_created (bl_im (ct_to c)) = time_of now created /\
  (forall r, ct_remaining c = Some r -> im_created (bl_im r) = time_of now created).
Proof.
  intros until c. intro H. apply content_now_iff in H as (l & _ & _ & _ & _ & ->). repeat split.
  intros r Hr. destruct rem; [|discriminate]. injection Hr as <-. reflexivity.
Qed.
