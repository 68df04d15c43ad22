From Coq Require Import Lia ZifyBool ZifyNat ZifyN.
From Verif Require Import Base BaseFacts HashModel HashProofs HashSpec HashTreeModel HashTreeProofs SignModel EntitiesModel FloatModel
  PiastresModel PiastresSpec PiastresProofs JsonModel JsonProofs TimeModel TimeProofs FloatText MemJsonModel CodecProofs MemSpec
  MemJsonProofs TransferModel TransferProofs StoreModel StoreSpec StoreProofs.

(** ** One kind after the other: a stored object whose parts can be retrieved can be
    retrieved *)
Definition holds {T} (e : T -> res json) (d : disk) (k : kind) (n : bytes) (t : T) : Prop :=
  exists s, marshal e t = Ok s /\ d k n = Some s.
Lemma holds_read : forall T (e : T -> res json) dec d k n t, documents e dec t -> holds e d k n t ->
  tr_retrieve dec k d n = Ok t.
Proof.
  intros T e dec d k n t (s & E & R & _) (s' & E' & H). assert (s' = s) by congruence. subst s'.
  unfold tr_retrieve, read. rewrite H. exact R.
Qed.

Lemma lock_back : forall d l, good_lock l -> dated_lock l ->
  holds e_tlock d KLock (hash_string (lk_hash l)) (TLock (Immutable (lk_hash l) (im_created (lk_im l))) (lk_keys l)) ->
  exists l', lock_retrieve (lk_hash l) d = Ok l' /\ lock_eq l' l.
Proof.
  intros d l G D H. unfold lock_retrieve. rewrite (holds_read _ _ _ _ _ _ _ (lock_documents l G D) H).
  cbn [rbind tl_keys tl_im im_created]. destruct G as (now & keys & cr & K & E). apply lock_now_iff in E as (N & U & ->).
  eexists. split; [apply lock_now_iff; split; [exact N|]; split; [exact U|reflexivity]|]. split; reflexivity.
Qed.
Lemma bill_now_eq : forall l l' a t, lock_eq l' l -> (0 < a)%N -> exists b, bill_now 0 (Some l') a (Some t) = Ok b /\
  bill_eq b (Bill (Immutable (from_multi [lk_hash l; itoa_u64 a]) t) l a).
Proof.
  intros l l' a t [E1 E2] P. eexists. split; [apply bill_now_iff; exists l'; split; [reflexivity|]; split; [exact P|reflexivity]|].
  split; [|split; [split; assumption|reflexivity]]. unfold bl_hash. cbn [bl_im im_hash]. rewrite E1. reflexivity.
Qed.
Lemma bill_eq_refl_im : forall h t t' l a, bill_eq (Bill (Immutable h t) l a) (Bill (Immutable h t') l a).
Proof. repeat split. Qed.
Lemma lock_eq_trans : forall a b c, lock_eq a b -> lock_eq b c -> lock_eq a c.
Proof. unfold lock_eq. intuition congruence. Qed.
Lemma lock_eq_sym : forall a b, lock_eq a b -> lock_eq b a.
Proof. unfold lock_eq. intuition congruence. Qed.
Lemma bill_eq_trans : forall a b c, bill_eq a b -> bill_eq b c -> bill_eq a c.
Proof. unfold bill_eq. intros a b c (H1 & H2 & H3) (H4 & H5 & H6). pose proof (lock_eq_trans _ _ _ H2 H5). intuition congruence. Qed.
Lemma bill_back : forall d b, good_bill b -> dated_bill b ->
  holds e_tbill d KBill (hash_string (bl_hash b)) (TBill (Immutable (bl_hash b) (im_created (bl_im b))) (lk_hash (bl_lock b)) (bl_amount b)) ->
  (exists l', lock_retrieve (lk_hash (bl_lock b)) d = Ok l' /\ lock_eq l' (bl_lock b)) ->
  exists b', bill_retrieve (bl_hash b) d = Ok b' /\ bill_eq b' b.
Proof.
  intros d b G D H (l' & R & L). unfold bill_retrieve. rewrite (holds_read _ _ _ _ _ _ _ (bill_documents b G D) H).
  cbn [rbind tb_lock tb_amount tb_im im_created]. rewrite R. cbn [rbind].
  destruct G as (now & l & a & cr & _ & _ & E). apply bill_now_iff in E as (l0 & El & P & ->). injection El as <-.
  exact (bill_now_eq l l' a _ L P).
Qed.
Lemma rmapM_same : forall A B (R : A -> A -> Prop) (h : A -> B) (f : B -> res A) (l : list A),
  (forall x, In x l -> exists x', f (h x) = Ok x' /\ R x' x) -> exists l', rmapM f (map h l) = Ok l' /\ Forall2 R l' l.
Proof.
  intros A B R h f l. induction l as [|x l IH]; intro H; [exists []; split; [reflexivity|constructor]|].
  destruct (H x) as (x' & E & Rx); [left; reflexivity|]. destruct IH as (l' & E' & F); [intros; apply H; right; assumption|].
  exists (x' :: l'). cbn [map rmapM]. rewrite E. cbn [rbind]. rewrite E'. split; [reflexivity|constructor; assumption].
Qed.
Lemma total_eq : forall l' l, Forall2 bill_eq l' l -> total_u64 l' = total_u64 l.
Proof.
  intros l' l F. unfold total_u64. generalize 0%N. induction F as [|x y l' l (_ & _ & E) F IH]; intro n; [reflexivity|].
  cbn [fold_left]. rewrite E. apply IH.
Qed.
Lemma hashes_eq : forall A (h : A -> hash) (R : A -> A -> Prop) l' l, (forall x y, R x y -> h x = h y) -> Forall2 R l' l ->
  map h l' = map h l.
Proof. intros A h R l' l H F. induction F as [|x y l' l E F IH]; [reflexivity|]. cbn [map]. rewrite (H x y E), IH. reflexivity. Qed.
Lemma genesis_back : forall d g, good_genesis g -> dated_genesis g ->
  holds e_tgenesis d KGenesis genesis_name (TGenesis (Immutable (gn_hash g) (im_created (gn_im g))) (bl_hash (gn_bill g))
    (gn_base g) (gn_increase g) (gn_link g)) ->
  (exists b', bill_retrieve (bl_hash (gn_bill g)) d = Ok b' /\ bill_eq b' (gn_bill g)) ->
  exists g', genesis_retrieve d = Ok g' /\ genesis_eq g' g.
Proof.
  intros d g G D H (b' & R & B). unfold genesis_retrieve. rewrite (holds_read _ _ _ _ _ _ _ (genesis_documents g G D) H).
  cbn [rbind tg_bill tg_base tg_increase tg_link tg_im im_created]. rewrite R. cbn [rbind].
  destruct G as (now & bs & inc & lnk & b & cr & _ & _ & _ & E). apply genesis_now_iff in E as (b0 & Eb & P1 & P2 & P3 & ->).
  injection Eb as <-. cbn [gn_base gn_increase gn_link gn_bill gn_im im_created] in *.
  eexists. split; [apply genesis_now_iff; exists b'; repeat split; assumption|]. repeat split; try apply B.
  unfold gn_hash. cbn [gn_im im_hash]. destruct B as (-> & _). reflexivity.
Qed.

Section WithCurve.
Context {C : Curve}.
Lemma unlock_eq : forall l' l (s : ringsig C), lock_eq l' l -> unlock l' s = unlock l s.
Proof. intros l' l s [E1 E2]. unfold unlock. rewrite E1, E2. reflexivity. Qed.
Lemma unlock_all_eq : forall l' l (ss : list (ringsig C)), Forall2 bill_eq l' l -> unlock_all l' ss = unlock_all l ss.
Proof.
  intros l' l ss F. revert ss. induction F as [|x y l' l (_ & E & _) F IH]; intro ss; [reflexivity|].
  destruct ss as [|s ss]; [reflexivity|]. cbn [unlock_all]. rewrite (unlock_eq _ _ s E), IH. reflexivity.
Qed.
Lemma Forall2_len : forall A B (R : A -> B -> Prop) l l', Forall2 R l l' -> length l = length l'.
Proof. intros A B R l l' F. induction F; cbn [length]; congruence. Qed.
(** content and expense built from equal parts *)
Lemma content_now_eq : forall now amount from lk rem created c from' to' rem' t,
  content_now now amount from (Some lk) rem created = Ok c ->
  Forall2 bill_eq from' from -> bill_eq to' (ct_to c) ->
  match rem, rem' with Some r, Some r' => lock_eq r' r | None, None => True | _, _ => False end ->
  exists c', content_now 0 (bl_amount to') from' (Some (bl_lock to')) rem' (Some t) = Ok c' /\ content_eq c' c.
Proof.
  intros now amount from lk rem created c from' to' rem' t E F (T1 & T2 & T3) R.
  apply content_now_iff in E as (l & El & P & L & M & ->). injection El as <-. cbn [ct_to bl_lock bl_amount] in *.
  pose proof (total_eq _ _ F) as TE. pose proof (hashes_eq _ bl_hash _ _ _ (fun x y (H : bill_eq x y) => proj1 H) F) as HE.
  eexists. split.
  - apply content_now_iff. exists (bl_lock to'). rewrite T3, TE. split; [reflexivity|]. split; [exact P|]. split; [exact L|].
    split; [|reflexivity]. destruct rem, rem'; try contradiction; exact M.
  - unfold content_eq, ct_hash. cbn [ct_im im_hash ct_from ct_to ct_remaining]. rewrite ?T3, ?TE. unfold content_parts. rewrite HE.
    destruct T2 as [T2 T4]. rewrite T2. split; [|split; [|split]].
    + destruct rem as [r|], rem' as [r'|]; try contradiction; [|reflexivity]. destruct R as [R _]. cbn [opt_list map]. rewrite R. reflexivity.
    + exact F.
    + repeat split; assumption.
    + destruct rem as [r|], rem' as [r'|]; try contradiction; [|exact I]. destruct R as [R R']. cbn [opt_eq]. rewrite R.
      repeat split; assumption.
Qed.
Lemma expense_back : forall d (e : expense), good_expense readable e -> dated_expense e ->
  holds e_texpense d KExpense (hash_string (ex_hash e)) (TExpense (Immutable (ex_hash e) (im_created (ct_im (ex_content e))))
    (map bl_hash (ct_from (ex_content e))) (bl_hash (ct_to (ex_content e))) (ex_sigs e)
    (option_map bl_hash (ct_remaining (ex_content e)))) ->
  (forall b, In b (ct_from (ex_content e) ++ [ct_to (ex_content e)] ++ opt_list (ct_remaining (ex_content e))) ->
    exists b', bill_retrieve (bl_hash b) d = Ok b' /\ bill_eq b' b) ->
  exists e', expense_retrieve (ex_hash e) d = Ok e' /\ expense_eq e' e.
Proof.
  intros d e G D H B. unfold expense_retrieve. rewrite (holds_read _ _ _ _ _ _ _ (expense_documents e G D) H).
  cbn [rbind te_from te_to te_sigs te_remaining te_im im_created].
  destruct G as (now & c & sigs & G & S & E). apply expense_now_iff in E as (c' & ss & E1 & E2 & L & U & ->).
  injection E1 as <-. injection E2 as <-. cbn [ex_content ex_sigs] in *. clear D H.
  destruct (rmapM_same _ _ bill_eq bl_hash (fun h => bill_retrieve h d) (ct_from c)) as (from' & EF & F).
  { intros x Hx. apply B. apply in_or_app. left. exact Hx. }
  unfold bills_retrieve. rewrite EF. cbn [rbind].
  destruct (B (ct_to c)) as (to' & ET & T). { apply in_or_app. right. left. reflexivity. }
  rewrite ET. cbn [rbind].
  assert (R : exists rem', (match option_map bl_hash (ct_remaining c) with
              | Some r => let! b := bill_retrieve r d in Ok (Some (bl_lock b))
              | None => Ok None end) = Ok rem' /\
              match ct_remaining c, rem' with Some b, Some r' => lock_eq r' (bl_lock b) | None, None => True | _, _ => False end).
  { destruct (ct_remaining c) as [r|]; cbn [option_map opt_list] in *; [|exists None; auto].
    destruct (B r) as (r' & ER & R). { apply in_or_app. right. right. left. reflexivity. }
    exists (Some (bl_lock r')). rewrite ER. split; [reflexivity|]. apply R. }
  destruct R as (rem' & ER & R). rewrite ER. cbn [rbind].
  destruct G as (now' & a & from & lk & rem & cr & _ & _ & _ & _ & EC).
  assert (EF' : from = ct_from c) by (symmetry; exact (content_from _ _ _ _ _ _ _ EC)). subst from.
  destruct (content_now_eq _ _ _ _ _ _ _ _ to' rem' (im_created (ct_im c)) EC F T) as (c1 & EC1 & CE).
  { pose proof (content_value _ _ _ _ _ _ _ EC) as (_ & _ & _ & _ & _ & V & _). subst rem.
    destruct (ct_remaining c); exact R. }
  rewrite EC1. cbn [rbind]. destruct CE as (CE1 & CE2 & CE3 & CE4).
  eexists. split.
  - apply expense_now_iff. exists c1, sigs. split; [reflexivity|]. split; [reflexivity|].
    rewrite (Forall2_len _ _ _ _ _ CE2). split; [exact L|]. rewrite (unlock_all_eq _ _ sigs CE2). split; [exact U|]. reflexivity.
  - split; [|split; [|reflexivity]].
    + unfold ex_hash. cbn [ex_im im_hash]. rewrite CE1. reflexivity.
    + cbn [ex_content]. repeat split; try assumption; try apply CE3.
Qed.
Lemma trx_back : forall d (t : transaction), good_trx readable t -> dated_trx t -> tx_address t = None ->
  holds e_ttrx d KTrx (hash_string (tx_hash t)) (TTrx (Immutable (tx_hash t) (im_created (tx_im t))) None (tx_bucket t) (map ex_hash (tx_fees t))) ->
  (forall e, In e (tx_fees t) -> exists e', expense_retrieve (ex_hash e) d = Ok e' /\ expense_eq e' e) ->
  exists t', trx_retrieve (tx_hash t) d = Ok t' /\ trx_eq t' t.
Proof.
  intros d t G D A H B. unfold trx_retrieve. rewrite (holds_read _ _ _ _ _ _ _ (trx_documents t G D A) H).
  cbn [rbind tt_fees tt_bucket tt_im im_created].
  destruct G as (now & a & bu & f & cr & _ & _ & _ & E). apply transaction_now_iff in E as (P & ->).
  cbn [tx_fees tx_address tx_bucket tx_im im_created] in *. subst a. clear D H.
  destruct (rmapM_same _ _ expense_eq ex_hash (fun h => expense_retrieve h d) f B) as (f' & EF & F).
  unfold expenses_retrieve. rewrite EF. cbn [rbind].
  eexists. split; [apply transaction_now_iff; split; [|reflexivity]|].
  - destruct P as [P|[P|P]]; [congruence|auto|]. right. right. intros ->. inversion F. congruence.
  - split; [|split; [reflexivity|split; [reflexivity|exact F]]]. unfold tx_hash. cbn [tx_im im_hash].
    rewrite (hashes_eq _ ex_hash _ _ _ (fun x y (H : expense_eq x y) => proj1 H) F). reflexivity.
Qed.
Lemma block_back : forall d (b : block) ht, good_block readable b -> dated_block b -> (N.of_nat (length (bk_trx b)) < 2 ^ 63)%N ->
  hashtree_of_blocks (map tx_hash (bk_trx b)) = Ok ht ->
  holds e_tblock d KBlock (hash_string (bk_hash b)) (TBlock (Immutable (bk_hash b) (im_created (bk_im b))) ht
    (u64 (N.of_nat (length (bk_trx b)))) (bk_additional b)) ->
  (exists g', genesis_retrieve d = Ok g' /\ genesis_eq g' (bk_genesis b)) ->
  (forall t, In t (bk_trx b) -> exists t', trx_retrieve (tx_hash t) d = Ok t' /\ trx_eq t' t) ->
  exists b', block_retrieve (bk_hash b) d = Ok b' /\ block_eq b' b.
Proof.
  intros d b ht G D L EH H (g' & RG & GE) B. unfold block_retrieve.
  destruct (block_documents b G D L) as (ht' & EH' & TH & _ & DOC). assert (ht' = ht) by congruence. subst ht'.
  rewrite (holds_read _ _ _ _ _ _ _ DOC H).
  cbn [rbind tk_amount tk_trx tk_additional tk_im im_created]. rewrite RG. cbn [rbind]. rewrite TH. cbn [rbind].
  destruct (rmapM_same _ _ trx_eq tx_hash (fun h => trx_retrieve h d) (bk_trx b) B) as (f' & EF & F).
  unfold trxs_retrieve. rewrite EF. cbn [rbind].
  destruct G as (now & g & a & t & cr & _ & _ & _ & E). apply block_now_iff in E as (g0 & Eg & P & ->). injection Eg as <-.
  cbn [bk_trx bk_genesis bk_additional bk_im im_created] in *.
  eexists. split; [apply block_now_iff; exists g'; split; [reflexivity|]; split; [|reflexivity]|].
  - intros ->. inversion F. congruence.
  - split; [|split; [exact GE|split; [reflexivity|exact F]]]. unfold bk_hash. cbn [bk_im im_hash].
    rewrite (hashes_eq _ tx_hash _ _ _ (fun x y (H : trx_eq x y) => proj1 H) F). destruct GE as (-> & _). reflexivity.
Qed.
Lemma mblock_back : forall d (b : mined_block), good_mined_block readable unicode b -> dated (im_created (mb_im b)) ->
  holds e_tmblock d KMBlock (hash_string (mb_hash b)) (TMBlock (Immutable (mb_hash b) (im_created (mb_im b))) (bk_hash (mb_block b)) (mb_mining b)) ->
  (exists b', block_retrieve (bk_hash (mb_block b)) d = Ok b' /\ block_eq b' (mb_block b)) ->
  exists b', mblock_retrieve (mb_hash b) d = Ok b' /\ mblock_eq b' b.
Proof.
  intros d b G D H (b' & R & BE). unfold mblock_retrieve. rewrite (holds_read _ _ _ _ _ _ _ (mblock_documents b G D) H).
  cbn [rbind tm_block tm_mining tm_im im_created]. rewrite R. cbn [rbind].
  destruct G as (now & bk & m & cr & _ & _ & E). apply mined_block_now_iff in E as (b0 & Eb & ->). injection Eb as <-.
  eexists. split; [apply mined_block_now_iff; exists b'; split; reflexivity|]. split; [|split; [exact BE|reflexivity]].
  unfold mb_hash. cbn [mb_im im_hash mb_mining]. destruct BE as (BE & _). cbn [mb_block] in BE. rewrite BE. reflexivity.
Qed.
Lemma link_back : forall d (b : chain_link), good_link readable b -> dated (im_created (ln_im b)) ->
  holds e_tlink d KLink (hash_string (ln_hash b)) (TLink (Immutable (ln_hash b) (im_created (ln_im b))) (ln_prev b) (bk_hash (ln_next b)) (ln_index b)) ->
  (exists b', block_retrieve (bk_hash (ln_next b)) d = Ok b' /\ block_eq b' (ln_next b)) ->
  exists b', link_retrieve (ln_hash b) d = Ok b' /\ link_eq b' b.
Proof.
  intros d b G D H (b' & R & BE). unfold link_retrieve. rewrite (holds_read _ _ _ _ _ _ _ (link_documents b G D) H).
  cbn [rbind ti_next ti_prev ti_index ti_im im_created]. rewrite R. cbn [rbind].
  destruct G as (now & p & n & i & cr & _ & _ & _ & E). apply link_now_iff in E as (p0 & n0 & Ep & En & ->).
  injection Ep as <-. injection En as <-.
  eexists. split; [apply link_now_iff; do 2 eexists; split; [reflexivity|split; reflexivity]|].
  split; [|split; [reflexivity|split; [exact BE|reflexivity]]].
  unfold ln_hash. cbn [ln_im im_hash ln_prev ln_index]. destruct BE as (BE & _). cbn [ln_next] in BE. rewrite BE. reflexivity.
Qed.
Lemma mlink_back : forall d (b : mined_link), good_mined_link readable unicode b -> dated (im_created (ml_im b)) ->
  holds e_tmlink d KMLink (hash_string (ml_hash b)) (TMLink (Immutable (ml_hash b) (im_created (ml_im b))) (ln_hash (ml_link b)) (ml_mining b)) ->
  (exists b', link_retrieve (ln_hash (ml_link b)) d = Ok b' /\ link_eq b' (ml_link b)) ->
  exists b', mlink_retrieve (ml_hash b) d = Ok b' /\ mlink_eq b' b.
Proof.
  intros d b G D H (b' & R & BE). unfold mlink_retrieve. rewrite (holds_read _ _ _ _ _ _ _ (mlink_documents b G D) H).
  cbn [rbind tn_link tn_mining tn_im im_created]. rewrite R. cbn [rbind].
  destruct G as (now & bk & m & cr & _ & _ & E). apply mined_link_now_iff in E as (b0 & Eb & ->). injection Eb as <-.
  eexists. split; [apply mined_link_now_iff; exists b'; split; reflexivity|]. split; [|split; [exact BE|reflexivity]].
  unfold ml_hash. cbn [ml_im im_hash ml_mining]. destruct BE as (BE & _). cbn [ml_link] in BE. rewrite BE. reflexivity.
Qed.
End WithCurve.
