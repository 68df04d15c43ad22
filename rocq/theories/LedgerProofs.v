From Coq Require Import Lia ZifyBool ZifyNat ZifyN.
From Verif Require Import Base BaseFacts HashModel HashProofs EntitiesModel SignModel SignSpec SignProofs FloatModel PiastresModel PiastresSpec PiastresProofs
  JsonModel TimeModel FloatText MemJsonModel MemSpec TransferModel StoreModel StoreSpec StoreProofs StoreTheorems StoreRefuted StoreMore PeersModel PeersProofs LedgerSpec.

Section WithCurve.
Context {C : Curve}.

(** ** Spending twice *)
Lemma transaction_any_fees : forall now bucket (fees : list expense) created, fees <> [] ->
  exists t, transaction_now now None bucket fees created = Ok t /\ tx_fees t = fees /\ tx_address t = None.
Proof.
  intros now bucket fees created F. eexists. split; [apply transaction_now_iff; split; [right; right; exact F|reflexivity]|]. split; reflexivity.
Qed.
Lemma block_any_trx : forall now g additional (trx : list transaction) created, trx <> [] ->
  exists b, block_now now (Some g) additional trx created = Ok b /\ bk_trx b = trx /\ bk_genesis b = g.
Proof.
  intros now g additional trx created F. eexists. split; [apply block_now_iff; exists g; split; [reflexivity|]; split; [exact F|reflexivity]|]. split; reflexivity.
Qed.
Lemma spent_twice : forall (e e' : expense) h, spends h e -> spends h e' -> ~ no_double_spend [e; e'].
Proof.
  intros e e' h A B D. unfold no_double_spend in D. cbn [map concat] in D. rewrite app_nil_r in D. unfold spends in A, B.
  apply in_split in A as (l1 & l2 & A). rewrite A, <- app_assoc in D. cbn [app] in D. apply NoDup_remove_2 in D. apply D.
  rewrite !in_app_iff. auto.
Qed.
(** any accepted expense, together with a replay of it for any other recipient, in one
    transaction of a block *)
Lemma double_spend_block : forall now now1 amount from lk rem created c (sigs : list (ringsig C)) e,
  content_now now1 amount from (Some lk) rem created = Ok c -> expense_now now (Some c) (Some sigs) = Ok e ->
  forall thief amount' g additional, (0 < amount' <= total_u64 from)%N ->
  exists e' t b, ct_from (ex_content e') = from /\ bl_lock (ct_to (ex_content e')) = thief /\ bl_amount (ct_to (ex_content e')) = amount' /\
    transaction_now now None None [e; e'] created = Ok t /\ block_now now (Some g) additional [t] created = Ok b /\
    expenses_of (bk_trx b) = [e; e'] /\ ~ no_double_spend (expenses_of (bk_trx b)).
Proof.
  intros now now1 amount from lk rem created c sigs e Hc He thief amount' g additional A.
  destruct (replay_any_recipient _ _ _ _ _ _ _ _ _ _ Hc He thief amount' A) as (c' & e' & Hc' & He' & E1 & E2 & E3 & _).
  destruct (transaction_any_fees now None [e; e'] created) as (t & Ht & Ft & _); [discriminate|].
  destruct (block_any_trx now g additional [t] created) as (b & Hb & Fb & _); [discriminate|].
  exists e', t, b. rewrite E1. split; [eapply content_from; exact Hc'|]. split; [exact E2|]. split; [exact E3|]. split; [exact Ht|]. split; [exact Hb|].
  assert (X : expenses_of (bk_trx b) = [e; e']). { unfold expenses_of. rewrite Fb. cbn [map concat]. rewrite Ft. reflexivity. }
  split; [exact X|]. rewrite X.
  pose proof (content_value _ _ _ _ _ _ _ Hc) as (Fc & _ & _ & _ & _).
  destruct from as [|b0 from]; [cbn in A; lia|]. apply (spent_twice e e' (bl_hash b0)); unfold spends.
  - apply expense_fields in He as (-> & _). rewrite Fc. left. reflexivity.
  - rewrite E1. apply content_from in Hc'. rewrite Hc'. left. reflexivity.
Qed.
(** both are stored, whatever they spend *)
Lemma both_stored : forall (U : obj C -> Prop) d e1 e2, universe Low U -> reach Low U d -> U (OExpense e1) -> U (OExpense e2) ->
  let d1 := saved (OExpense e1) d in let d2 := saved (OExpense e2) d1 in
  outcome (OExpense e1) d = Ok tt /\ outcome (OExpense e2) d1 = Ok tt /\
  (exists e1', expense_retrieve (ex_hash e1) d2 = Ok e1' /\ expense_eq e1' e1) /\
  (exists e2', expense_retrieve (ex_hash e2) d2 = Ok e2' /\ expense_eq e2' e2).
Proof.
  intros U d e1 e2 HU R U1 U2 d1 d2.
  destruct (low_saved U d (OExpense e1) [] HU R U1) as (_ & O1 & P1); [auto|]. specialize (O1 eq_refl).
  assert (R1 : reach Low U d1). { apply (steps_save Low U empty d (OExpense e1) []); [exact R|exact U1|discriminate]. }
  destruct (low_saved U d1 (OExpense e2) [] HU R1 U2) as (_ & O2 & P2); [auto|]. specialize (O2 eq_refl).
  split; [exact O1|]. split; [exact O2|].
  assert (S2 : steps Low U d1 d2). { apply (steps_save Low U d1 d1 (OExpense e2) []); [apply steps_none|exact U2|discriminate]. }
  split.
  - destruct (P1 O1 d2 S2) as (o & Ro & So). cbn [retrieve_obj kind_of hash_of] in Ro. match type of Ro with rmap _ ?x = _ => destruct x as [e| |] eqn:E; try discriminate end; injection Ro as <-; exists e; auto.
  - destruct (P2 O2 d2 (steps_none _ _ _)) as (o & Ro & So). cbn [retrieve_obj kind_of hash_of] in Ro. match type of Ro with rmap _ ?x = _ => destruct x as [e| |] eqn:E; try discriminate end; injection Ro as <-; exists e; auto.
Qed.

(** ** Money from nowhere *)
Lemma money_from_nowhere : forall red zero sadd, CurveLaws C red zero sadd ->
  forall now ring x created lk, red x -> In (public_key C x) ring -> lock_now now (map (pstr C) ring) created = Ok lk ->
  forall amount to g additional, (0 < amount < 2 ^ 64)%N ->
  exists b sig c e t bk, bill_now now (Some lk) amount created = Ok b /\ ring_sign C x (hash_string (lk_hash lk)) ring = Ok sig /\
    content_now now amount [b] (Some to) None created = Ok c /\ expense_now now (Some c) (Some [sig]) = Ok e /\
    transaction_now now None None [e] created = Ok t /\ block_now now (Some g) additional [t] created = Ok bk /\
    expenses_of (bk_trx bk) = [e] /\ bl_lock (ct_to (ex_content e)) = to /\ bl_amount (ct_to (ex_content e)) = amount /\
    (bl_hash b <> bl_hash (gn_bill g) -> ~ sourced g (expenses_of (bk_trx bk))).
Proof.
  intros red zero sadd L now ring x created lk Rx I Hl amount to g additional A.
  destruct (text_lock_opens _ _ _ L now ring x created lk Rx I Hl) as (sig & Hs & Hu).
  set (b := Bill (Immutable (from_multi [lk_hash lk; itoa_u64 amount]) (time_of now created)) lk amount).
  assert (Hb : bill_now now (Some lk) amount created = Ok b).
  { apply bill_now_iff. exists lk. split; [reflexivity|]. split; [lia|reflexivity]. }
  assert (V : (value [b] mod 2 ^ 64 = amount)%N).
  { unfold value, b. cbn [map fold_right bl_amount]. rewrite N.add_0_r. apply N.mod_small. lia. }
  destruct (proj2 (content_accepts now amount [b] (Some to) None created)) as [c Hc].
  { rewrite V. split; [discriminate|]. split; [lia|]. split; [lia|]. split; auto. }
  destruct (proj2 (expense_accepted_iff now c [sig])) as [e He].
  { pose proof (content_from _ _ _ _ _ _ _ Hc) as F. rewrite F. split; [reflexivity|]. constructor; [exact Hu|constructor]. }
  destruct (transaction_any_fees now None [e] created) as (t & Ht & Ft & _); [discriminate|].
  destruct (block_any_trx now g additional [t] created) as (bk & Hk & Fb & _); [discriminate|].
  exists b, sig, c, e, t, bk. split; [exact Hb|]. split; [exact Hs|]. split; [exact Hc|]. split; [exact He|]. split; [exact Ht|]. split; [exact Hk|].
  assert (X : expenses_of (bk_trx bk) = [e]). { unfold expenses_of. rewrite Fb. cbn [map concat]. rewrite Ft. reflexivity. }
  split; [exact X|]. apply expense_fields in He as (Ec & _). rewrite Ec.
  pose proof (content_value _ _ _ _ _ _ _ Hc) as (F & Am & _ & Lk & _). split; [congruence|]. split; [exact Am|].
  intros N S. rewrite X in S. specialize (S [] e [] b eq_refl). rewrite Ec, F in S. specialize (S (or_introl eq_refl)).
  cbn [map concat In] in S. destruct S as [S|[]]. congruence.
Qed.

(** *** The kinds an action writes *)
Definition only (K : kind -> Prop) (a : act) : Prop := forall s k n, ~ K k -> fs_disk (snd (a s)) k n = fs_disk s k n.
Lemma only_seq : forall K a b, only K a -> only K b -> only K (a ;; b).
Proof.
  intros K a b A B s k n N. unfold seq. specialize (A s k n N). destruct (a s) as [[u| |] s1]; cbn [snd] in *; [|exact A|exact A].
  rewrite (B s1 k n N). exact A.
Qed.
Lemma only_done : forall K, only K done. Proof. intros K s k n _. reflexivity. Qed.
Lemma only_lift : forall K A (x : res A) f, (forall y, only K (f y)) -> only K (lift x f).
Proof. intros K A [y| |] f F s k n N; cbn [lift snd]; [apply (F y s k n N)|reflexivity|reflexivity]. Qed.
Lemma only_unless : forall K A (r : disk -> res A) a, only K a -> only K (unless r a).
Proof. intros K A r a H s k n N. unfold unless. destruct (r (fs_disk s)); [reflexivity|apply H; exact N|reflexivity]. Qed.
Lemma only_each : forall K A (f : A -> act) l, (forall x, only K (f x)) -> only K (each f l).
Proof. intros K A f l F. induction l as [|x l IH]; cbn [each]; [apply only_done|apply only_seq; [apply F|exact IH]]. Qed.
Lemma only_each_opt : forall K A (f : A -> act) x, (forall y, only K (f y)) -> only K (each_opt f x).
Proof. intros K A f [x|] F; cbn [each_opt]; [apply F|apply only_done]. Qed.
Lemma only_write : forall (K : kind -> Prop) k n c, K k -> only K (write k n c).
Proof.
  intros K k n c H s k' n' N. unfold write. assert (X : forall t, upd (fs_disk s) k n t k' n' = fs_disk s k' n').
  { intro t. unfold upd. destruct (kind_eqb k k') eqn:E; [|reflexivity]. destruct k, k'; cbn in E; try discriminate; contradiction. }
  destruct (fs_faults s) as [|[| |i] fl]; cbn [snd fs_disk]; auto.
Qed.
Lemma only_tr_save : forall (K : kind -> Prop) T (e : T -> res json) k n t, K k -> only K (tr_save e k n t).
Proof. intros. unfold tr_save. apply only_lift. intro. apply only_write. assumption. Qed.
Definition low_kinds (k : kind) : Prop := k = KLock \/ k = KBill \/ k = KExpense \/ k = KTrx.
Ltac onl := repeat ((apply only_tr_save; unfold low_kinds; auto) || apply only_unless || apply only_seq || (apply only_lift; intro)
  || (apply only_each; intro) || (apply only_each_opt; intro)).
Lemma only_lock : forall l, only low_kinds (lock_save l). Proof. intro. unfold lock_save. onl. Qed.
Lemma only_bill : forall b, only low_kinds (bill_save b). Proof. intro. unfold bill_save. onl; apply only_lock. Qed.
Lemma only_expense : forall e : expense, only low_kinds (expense_save e). Proof. intro. unfold expense_save. onl; apply only_bill. Qed.
Lemma only_trx : forall t : transaction, only low_kinds (trx_save t). Proof. intro. unfold trx_save. onl; apply only_expense. Qed.

(** an expense is stored on a disk that never saw a genesis *)
Lemma stored_without_genesis : forall (U : obj C -> Prop) e, universe Low U -> U (OExpense e) ->
  let d := saved (OExpense e) empty in
  outcome (OExpense e) empty = Ok tt /\ (exists e', expense_retrieve (ex_hash e) d = Ok e' /\ expense_eq e' e) /\ genesis_retrieve d = Err.
Proof.
  intros U e HU Ue d. destruct (both_stored U empty e e HU (steps_none _ _ _) Ue Ue) as (O & _ & _ & _).
  split; [exact O|]. destruct (low_saved U empty (OExpense e) [] HU (steps_none _ _ _) Ue) as (_ & _ & P); [auto|].
  split.
  - destruct (P O d (steps_none _ _ _)) as (o & Ro & So). cbn [retrieve_obj kind_of hash_of] in Ro.
    match type of Ro with rmap _ ?x = _ => destruct x as [e'| |] eqn:E; try discriminate end. injection Ro as <-. exists e'. auto.
  - unfold genesis_retrieve, tr_retrieve, read. replace (d KGenesis genesis_name) with (@None bytes); [reflexivity|].
    unfold d, saved. cbn [save_obj]. rewrite (only_expense e (Fs empty []) KGenesis genesis_name); [reflexivity|].
    unfold low_kinds. intuition discriminate.
Qed.

(** ** Chains *)
Lemma chain_any_parts : forall now g root head total created, (known_trx root head <= total)%N ->
  exists c, chain_now now (Some g) (Some root) (Some head) total created = Ok c /\
    ch_genesis c = g /\ ch_root c = root /\ ch_head c = head /\ ch_total c = total.
Proof.
  intros now g root head total created L. eexists. split.
  - apply chain_now_iff. exists g, root, head. split; [reflexivity|]. split; [reflexivity|]. split; [reflexivity|]. split; [exact L|reflexivity].
  - repeat split.
Qed.
Lemma link_any_parts : forall now prev (next : block) index created,
  exists l, link_now now (Some prev) (Some next) index created = Ok l /\ ln_prev l = prev /\ ln_next l = next /\ ln_index l = index.
Proof.
  intros now prev next index created. eexists. split.
  - apply link_now_iff. exists prev, next. split; [reflexivity|]. split; [reflexivity|reflexivity].
  - repeat split.
Qed.
Lemma chain_mixed : forall now g root head total created, (known_trx root head <= total)%N ->
  bk_genesis (mb_block root) <> g \/ bk_genesis (ln_next (ml_link head)) <> g ->
  exists c, chain_now now (Some g) (Some root) (Some head) total created = Ok c /\ ~ one_genesis c.
Proof.
  intros now g root head total created L D. destruct (chain_any_parts now g root head total created L) as (c & E & A & B & D' & _).
  exists c. split; [exact E|]. unfold one_genesis. rewrite A, B, D'. tauto.
Qed.
Lemma retrieved_one_genesis : forall d c, chain_retrieve d = Ok c -> one_genesis c.
Proof.
  intros d c H. unfold chain_retrieve in H. apply rbind_Ok in H as (t & _ & H). apply rbind_Ok in H as (g & Hg & H).
  destruct (bseq (tc_genesis t) (gn_hash g)); [discriminate|]. apply rbind_Ok in H as (root & Hr & H). apply rbind_Ok in H as (head & Hh & H).
  apply chain_now_iff in H as (g' & r' & h' & E1 & E2 & E3 & _ & ->). injection E1 as <-. injection E2 as <-. injection E3 as <-.
  unfold one_genesis. cbn [ch_root ch_head ch_genesis]. split.
  - unfold mblock_retrieve in Hr. apply rbind_Ok in Hr as (tm & _ & Hr). apply rbind_Ok in Hr as (b & Hb & Hr).
    apply mined_block_now_iff in Hr as (b' & E & ->). injection E as <-. cbn [mb_block]. apply block_retrieve_genesis in Hb. congruence.
  - unfold mlink_retrieve in Hh. apply rbind_Ok in Hh as (tm & _ & Hh). apply rbind_Ok in Hh as (l & Hl & Hh).
    apply mined_link_now_iff in Hh as (l' & E & ->). injection E as <-. cbn [ml_link].
    unfold link_retrieve in Hl. apply rbind_Ok in Hl as (tl & _ & Hl). apply rbind_Ok in Hl as (b & Hb & Hl).
    apply link_now_iff in Hl as (p' & n' & _ & E & ->). injection E as <-. cbn [ln_next]. apply block_retrieve_genesis in Hb. congruence.
Qed.

(** ** Totals *)
Lemma biggest_total : forall local (ask : peer -> res remote_chain) ps diff best, (forall p, In p ps -> exists r, ask p = Ok r) ->
  exists r, biggest local ask ps diff best = Ok r.
Proof.
  intros local ask ps. induction ps as [|p ps IH]; intros diff best A; cbn [biggest]; [eauto|].
  destruct (A p (or_introl eq_refl)) as (r & ->). cbn [rbind]. destruct (diff <? _)%Z; apply IH; intros q Q; apply A; right; exact Q.
Qed.
Lemma liar_chosen : forall now g root head created bound, (known_trx root head <= bound)%N -> (bound < 2 ^ 63 - 1)%N ->
  exists c, chain_now now (Some g) (Some root) (Some head) (bound + 1) created = Ok c /\ ch_root c = root /\ ch_head c = head /\
    forall at_index local ask ps p, (local <= bound)%N -> In p ps -> ask p = Ok (Remote c at_index) ->
      (forall q, In q ps -> exists r, ask q = Ok r /\ (r = Remote c at_index \/ (ch_total (rc_chain r) <= bound)%N)) ->
      biggest local ask ps 0 None = Ok (Some (Remote c at_index)).
Proof.
  intros now g root head created bound K B.
  destruct (chain_any_parts now g root head (bound + 1) created ltac:(lia)) as (c & E & _ & Er & Eh & Et).
  exists c. split; [exact E|]. split; [exact Er|]. split; [exact Eh|]. intros at_index local ask ps p L I A F.
  destruct (biggest_total local ask ps 0 None) as (r & R); [intros q Q; destruct (F q Q) as (r & X & _); eauto|].
  rewrite R. f_equal. pose proof R as R'. apply biggest_spec in R' as [(-> & M)|(q & x & -> & Q & Ex & D & M)].
  - specialize (M p _ I A). cbn [rc_chain] in M. rewrite Et in M. lia.
  - destruct (F q Q) as (r & X & [->|Y]); [congruence|]. rewrite Ex in X. injection X as <-. specialize (M p _ I A). cbn [rc_chain] in M. lia.
  - lia.
  - intros q r' Q X. destruct (F q Q) as (r'' & X' & Y). rewrite X in X'. injection X' as <-. destruct Y as [->|Y]; cbn [rc_chain]; lia.
Qed.
Lemma total_at_least : forall now g root head total created c, chain_now now g root head total created = Ok c ->
  (count_trx [mb_block (ch_root c); ln_next (ml_link (ch_head c))] < 2 ^ 64)%N ->
  (count_trx [mb_block (ch_root c); ln_next (ml_link (ch_head c))] <= ch_total c)%N.
Proof.
  intros now g root head total created c H. apply chain_now_iff in H as (g' & r & h & _ & _ & _ & L & ->).
  cbn [ch_root ch_head ch_total]. unfold known_trx, u64 in L. unfold count_trx. cbn [map concat]. rewrite app_nil_r, app_length.
  intro S. rewrite N.mod_small in L by exact S. exact L.
Qed.

(** ** Times *)
Lemma content_any_time : forall now amount from lk rem created c, content_now now amount from lk rem created = Ok c ->
  forall t, exists c', content_now now amount from lk rem (Some t) = Ok c' /\ im_created (ct_im c') = t /\ ct_from c' = from.
Proof.
  intros now amount from lk rem created c H t. apply content_now_iff in H as (l & -> & P & L & R & _).
  eexists. split; [apply content_now_iff; exists l; split; [reflexivity|]; split; [exact P|]; split; [exact L|]; split; [exact R|reflexivity]|].
  split; reflexivity.
Qed.
Lemma block_any_time : forall now g additional (trx : list transaction) created b, block_now now g additional trx created = Ok b ->
  forall t, exists b', block_now now g additional trx (Some t) = Ok b' /\ im_created (bk_im b') = t /\ bk_trx b' = trx.
Proof.
  intros now g additional trx created b H t. apply block_now_iff in H as (g' & -> & N & _).
  eexists. split; [apply block_now_iff; exists g'; split; [reflexivity|]; split; [exact N|reflexivity]|]. split; reflexivity.
Qed.
Lemma content_one_time : forall now amount from lk rem created c, content_now now amount from lk rem created = Ok c ->
  im_created (ct_im c) = time_of now created /\ im_created (bl_im (ct_to c)) = time_of now created /\
  (forall r, ct_remaining c = Some r -> im_created (bl_im r) = time_of now created) /\
  forall now' (sigs : list (ringsig C)) e, expense_now now' (Some c) (Some sigs) = Ok e -> im_created (ex_im e) = time_of now created.
Proof.
  intros now amount from lk rem created c H. pose proof H as H'. apply content_now_iff in H as (l & -> & P & L & R & ->).
  cbn [ct_im ct_to ct_remaining bl_im im_created]. split; [reflexivity|]. split; [reflexivity|]. split.
  - intros r E. destruct rem; [|discriminate]. injection E as <-. reflexivity.
  - intros now' sigs e E. apply expense_fields in E as (_ & _ & ->). reflexivity.
Qed.
End WithCurve.
