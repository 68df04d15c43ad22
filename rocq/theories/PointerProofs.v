From Coq Require Import Lia ZifyBool ZifyNat ZifyN.
From Verif Require Import Base BaseFacts HashModel HashSpec HashProofs EntitiesModel SignModel PiastresModel PiastresSpec PiastresProofs SliceModel SliceProofs PointerModel PointerSpec.

Definition ab_pointers (b : abuilder) : list nat := opt_nats (ab_sender b) ++ opt_nats (ab_subject b).

Lemma deref_write_same : forall m p v old, nth_error m p = Some old -> deref (put_at p v m) (Some p) = Some v.
Proof. intros m p v old H. cbn [deref]. apply put_at_nth. apply nth_error_Some. rewrite H. discriminate. Qed.
Lemma deref_write_other : forall m p v o, ~ In p (opt_nats o) -> deref (put_at p v m) o = deref m o.
Proof. intros m p v [q|] H; [|reflexivity]. cbn [deref opt_nats In] in *. apply put_at_other. intro. apply H. auto. Qed.
Lemma deref_more : forall m m' o, (forall p, In p (opt_nats o) -> p < length m) -> deref (m ++ m') o = deref m o.
Proof. intros m m' [q|] H; [|reflexivity]. cbn [deref opt_nats In] in *. apply nth_error_app1. apply H. auto. Qed.
Lemma deref_None_write : forall m p v o, deref (put_at p v m) o = None <-> deref m o = None.
Proof. intros m p v [q|]; [|reflexivity]. cbn [deref]. rewrite !nth_error_None, put_at_length. reflexivity. Qed.

Lemma paddress_at_once : forall m now b a, paddress_now m now b = Ok a ->
  address_now now (deref m (ab_sender b)) (ab_recipients b) (deref m (ab_subject b)) (ab_created b) = Ok (paddress_seen m a) /\
  pa_sender a = ab_sender b /\ pa_recipients a = ab_recipients b /\ pa_subject a = ab_subject b.
Proof.
  intros m now b a H. apply rbind_Ok in H as (k & E & H). injection H as <-. unfold paddress_seen. cbn [pa_im pa_sender pa_recipients pa_subject].
  split; [|auto]. rewrite E. f_equal. apply address_now_iff in E as (_ & ->). reflexivity.
Qed.

Lemma opt_len_none : forall A (o o' : option A), (o = None <-> o' = None) -> length (opt_list o) = length (opt_list o').
Proof. intros A [x|] [y|] H; try reflexivity; exfalso; destruct H as [H1 H2]; [specialize (H2 eq_refl)|specialize (H1 eq_refl)]; discriminate. Qed.

Lemma paddress_changes : forall m now b a p old v, paddress_now m now b = Ok a -> nth_error m p = Some old -> v <> old ->
  let m' := put_at p v m in
  ad_hash (paddress_seen m' a) = ad_hash (paddress_seen m a) /\
  (pa_sender a = Some p -> ad_sender (paddress_seen m a) = Some old /\ ad_sender (paddress_seen m' a) = Some v) /\
  (pa_subject a = Some p -> ad_subject (paddress_seen m a) = Some old /\ ad_subject (paddress_seen m' a) = Some v) /\
  (In p (pa_pointers a) -> built_address (paddress_seen m a) -> forall x, built_address x ->
     ad_sender x = ad_sender (paddress_seen m' a) -> ad_recipients x = ad_recipients (paddress_seen m' a) -> ad_subject x = ad_subject (paddress_seen m' a) ->
     ad_hash x = ad_hash (paddress_seen m' a) -> sha_collision (address_text (paddress_seen m a)) (address_text x)).
Proof.
  intros m now b a p old v H N D m'. assert (W := deref_write_same m p v old N). change (put_at p v m) with m' in W.
  split; [reflexivity|]. split; [|split].
  - intro E. unfold paddress_seen. cbn [ad_sender]. rewrite E. split; [exact N|exact W].
  - intro E. unfold paddress_seen. cbn [ad_subject]. rewrite E. split; [exact N|exact W].
  - intros I B x Bx Es Er Eu Eh. change (ad_hash (paddress_seen m' a)) with (ad_hash (paddress_seen m a)) in Eh.
    assert (S : ad_sender (paddress_seen m a) = None <-> ad_sender x = None).
    { rewrite Es. unfold paddress_seen, m'. cbn [ad_sender]. symmetry. apply deref_None_write. }
    assert (U : ad_subject (paddress_seen m a) = None <-> ad_subject x = None).
    { rewrite Eu. unfold paddress_seen, m'. cbn [ad_subject]. symmetry. apply deref_None_write. }
    destruct (address_hash_commits _ _ B Bx S U) as [(K1 & _ & K2)|X]; [|symmetry; exact Eh| |exact X].
    + unfold address_parts. rewrite (opt_len_none _ _ _ S), (opt_len_none _ _ _ U), Er. reflexivity.
    + exfalso. rewrite Es in K1. rewrite Eu in K2. unfold paddress_seen in K1, K2. cbn [ad_sender ad_subject] in K1, K2.
      unfold pa_pointers in I. apply in_app_iff in I as [I|I].
      * destruct (pa_sender a) as [q|]; [|destruct I]. destruct I as [->|[]]. rewrite W in K1. cbn [deref] in K1. rewrite N in K1. injection K1 as K1. auto.
      * destruct (pa_subject a) as [q|]; [|destruct I]. destruct I as [->|[]]. rewrite W in K2. cbn [deref] in K2. rewrite N in K2. injection K2 as K2. auto.
Qed.

Section WithCurve.
Context {C : Curve}.

Lemma ptransaction_at_once : forall m now (b : tbuilder) t, ptransaction_now m now b = Ok t ->
  transaction_now now (option_map (paddress_seen m) (tb_address b)) (deref m (tb_bucket b)) (tb_fees b) (tb_created b) = Ok (ptransaction_seen m t) /\
  px_address t = tb_address b /\ px_bucket t = tb_bucket b /\ px_fees t = tb_fees b.
Proof.
  intros m now b t H. apply rbind_Ok in H as (k & E & H). injection H as <-. unfold ptransaction_seen. cbn [px_im px_address px_bucket px_fees].
  split; [|auto]. rewrite E. f_equal. apply transaction_now_iff in E as (_ & ->). reflexivity.
Qed.
Lemma ptransaction_changes : forall m now (b : tbuilder) t p old v, ptransaction_now m now b = Ok t -> nth_error m p = Some old -> v <> old ->
  let m' := put_at p v m in
  tx_hash (ptransaction_seen m' t) = tx_hash (ptransaction_seen m t) /\
  (forall a, px_address t = Some a -> pa_sender a = Some p ->
     option_map ad_sender (tx_address (ptransaction_seen m t)) = Some (Some old) /\ option_map ad_sender (tx_address (ptransaction_seen m' t)) = Some (Some v)) /\
  (px_bucket t = Some p -> tx_bucket (ptransaction_seen m t) = Some old /\ tx_bucket (ptransaction_seen m' t) = Some v /\
     (built_transaction (ptransaction_seen m t) -> forall x, built_transaction x ->
        tx_address x = tx_address (ptransaction_seen m' t) -> tx_bucket x = tx_bucket (ptransaction_seen m' t) -> tx_fees x = tx_fees (ptransaction_seen m' t) ->
        tx_hash x = tx_hash (ptransaction_seen m' t) -> sha_collision (transaction_text (ptransaction_seen m t)) (transaction_text x))).
Proof.
  intros m now b t p old v H N D m'. assert (W := deref_write_same m p v old N). change (put_at p v m) with m' in W.
  split; [reflexivity|]. split.
  - intros a Ea Es. unfold ptransaction_seen. cbn [tx_address]. rewrite Ea. cbn [option_map]. unfold paddress_seen. cbn [ad_sender]. rewrite Es, W.
    cbn [deref]. rewrite N. auto.
  - intro E. unfold ptransaction_seen at 1 2. cbn [tx_bucket]. rewrite E, W. cbn [deref]. split; [exact N|]. split; [reflexivity|].
    intros B x Bx Ea Eb Ef Eh. change (tx_hash (ptransaction_seen m' t)) with (tx_hash (ptransaction_seen m t)) in Eh.
    assert (Bo : tx_bucket (ptransaction_seen m t) = Some old) by (unfold ptransaction_seen; cbn [tx_bucket]; rewrite E; exact N).
    assert (Bn : tx_bucket x = Some v) by (rewrite Eb; unfold ptransaction_seen; cbn [tx_bucket]; rewrite E; exact W).
    assert (S : tx_address (ptransaction_seen m t) = None <-> tx_address x = None).
    { rewrite Ea. unfold ptransaction_seen. cbn [tx_address]. destruct (px_address t); cbn [option_map]; split; intro Z; try discriminate Z; reflexivity. }
    assert (U : tx_bucket (ptransaction_seen m t) = None <-> tx_bucket x = None) by (rewrite Bo, Bn; split; discriminate).
    destruct (transaction_hash_commits _ _ B Bx S U) as [(_ & K & _)|X]; [|symmetry; exact Eh| |exact X].
    + unfold transaction_parts. rewrite (opt_len_none _ _ _ S), (opt_len_none _ _ _ U), Ef. reflexivity.
    + exfalso. rewrite Bo, Bn in K. injection K as K. auto.
Qed.

(** ** Histories *)
(** all pointers have been made *)
Definition made (m : memory) (l : list nat) : Prop := forall p, In p l -> p < length m.
Definition tb_pointers (b : tbuilder) : list nat := match tb_address b with Some a => pa_pointers a | None => [] end ++ opt_nats (tb_bucket b).
Definition fine (w : world C) : Prop :=
  made (w_memory w) (ab_pointers (w_ab w)) /\ made (w_memory w) (tb_pointers (w_tb w)) /\
  (forall a, In a (w_addresses w) -> made (w_memory w) (pa_pointers a)) /\ (forall t, In t (w_transactions w) -> made (w_memory w) (px_pointers t)).
Lemma made_more : forall m m' l, made m l -> made (m ++ m') l.
Proof. intros m m' l H p I. rewrite app_length. specialize (H p I). lia. Qed.
Lemma made_app : forall m l l', made m (l ++ l') <-> made m l /\ made m l'.
Proof. intros m l l'. unfold made. split; [intro H; split; intros p I; apply H; apply in_app_iff; auto|intros [H1 H2] p I; apply in_app_iff in I as [I|I]; auto]. Qed.
Lemma made_new : forall m (h : hash), made (m ++ [h]) [length m].
Proof. intros m h p [<-|[]]. rewrite app_length. cbn [length]. lia. Qed.
Lemma made_put : forall m p v l, made m l -> made (put_at p v m) l.
Proof. intros m p v l H q I. rewrite put_at_length. apply H. exact I. Qed.

Lemma step_fine : forall (w : world C) x, fine w -> fine (act_step w x).
Proof.
  intros [m ab tb az tz] x (F1 & F2 & F3 & F4). cbn [w_memory w_ab w_tb w_addresses w_transactions] in *.
  assert (F1' := F1). apply made_app in F1' as (F1a & F1b). assert (F2' := F2). apply made_app in F2' as (F2a & F2b).
  destruct x as [|h|l|h|t|now| |i|h|l|t|now|p h]; unfold fine; cbn [act_step w_memory w_ab w_tb w_addresses w_transactions].
  - split; [intros p []|]. auto.
  - split; [apply made_app; split; [apply made_new|apply made_more; exact F1b]|].
    split; [apply made_more; exact F2|]. split; intros; apply made_more; auto.
  - auto.
  - split; [apply made_app; split; [apply made_more; exact F1a|apply made_new]|].
    split; [apply made_more; exact F2|]. split; intros; apply made_more; auto.
  - auto.
  - destruct (paddress_now m now ab) as [a| |] eqn:E; cbn [w_memory w_ab w_tb w_addresses w_transactions]; auto.
    apply paddress_at_once in E as (_ & E1 & _ & E2). split; [exact F1|]. split; [exact F2|]. split; [|exact F4].
    intros a' I. apply in_app_iff in I as [I|[<-|[]]]; [auto|]. unfold pa_pointers. rewrite E1, E2. exact F1.
  - split; [exact F1|]. split; [intros p []|]. auto.
  - destruct (nth_error az i) as [a|] eqn:E; cbn [w_memory w_ab w_tb w_addresses w_transactions]; auto.
    split; [exact F1|]. split; [apply made_app; split; [apply F3; apply nth_error_In in E; exact E|exact F2b]|]. auto.
  - split; [apply made_more; exact F1|]. split; [apply made_app; split; [apply made_more; exact F2a|apply made_new]|]. split; intros; apply made_more; auto.
  - auto.
  - auto.
  - destruct (ptransaction_now m now tb) as [t| |] eqn:E; cbn [w_memory w_ab w_tb w_addresses w_transactions]; auto.
    apply ptransaction_at_once in E as (_ & E1 & E2 & _). split; [exact F1|]. split; [exact F2|]. split; [exact F3|].
    intros t' I. apply in_app_iff in I as [I|[<-|[]]]; [auto|]. unfold px_pointers. rewrite E1, E2. exact F2.
  - split; [apply made_put; exact F1|]. split; [apply made_put; exact F2|]. split; intros; apply made_put; auto.
Qed.
Lemma acts_fine : forall xs (w : world C), fine w -> fine (acts w xs).
Proof. intro xs. induction xs as [|x xs IH]; intros w F; [exact F|]. apply (IH (act_step w x)). apply step_fine. exact F. Qed.
Lemma world0_fine : fine (world0 : world C).
Proof. split; [intros p []|]. split; [intros p []|]. split; intros ? []. Qed.

(** the memory only grows, and only Write changes it *)
Lemma step_memory : forall (w : world C) x o, made (w_memory w) (opt_nats o) -> not_to (opt_nats o) x ->
  deref (w_memory (act_step w x)) o = deref (w_memory w) o.
Proof.
  intros [m ab tb az tz] x o M N. cbn [w_memory] in *.
  destruct x as [|h|l|h|t|now| |i|h|l|t|now|p h]; cbn [act_step w_memory]; try reflexivity; try (apply deref_more; exact M).
  - destruct (paddress_now m now ab); reflexivity.
  - destruct (nth_error az i); reflexivity.
  - destruct (ptransaction_now m now tb); reflexivity.
  - apply deref_write_other. exact N.
Qed.
Lemma step_longer : forall (w : world C) x, length (w_memory w) <= length (w_memory (act_step w x)).
Proof.
  intros [m ab tb az tz] x. cbn [w_memory].
  destruct x as [|h|l|h|t|now| |i|h|l|t|now|p h]; cbn [act_step w_memory]; rewrite ?app_length, ?put_at_length; try lia.
  - destruct (paddress_now m now ab); cbn [w_memory]; lia.
  - destruct (nth_error az i); cbn [w_memory]; lia.
  - destruct (ptransaction_now m now tb); cbn [w_memory]; lia.
Qed.
Lemma acts_longer : forall xs (w : world C), length (w_memory w) <= length (w_memory (acts w xs)).
Proof.
  intro xs. induction xs as [|x xs IH]; intro w; [apply Nat.le_refl|].
  eapply Nat.le_trans; [apply (step_longer w x)|]. apply (IH (act_step w x)).
Qed.
Lemma acts_memory : forall xs (w : world C) o, made (w_memory w) (opt_nats o) -> Forall (not_to (opt_nats o)) xs ->
  deref (w_memory (acts w xs)) o = deref (w_memory w) o.
Proof.
  intro xs. induction xs as [|x xs IH]; intros w o M F; [reflexivity|]. apply Forall_cons_iff in F as [N F].
  change (acts w (x :: xs)) with (acts (act_step w x) xs). rewrite IH; [apply step_memory; assumption| |exact F].
  intros p I. eapply Nat.lt_le_trans; [apply M; exact I|apply step_longer].
Qed.
Lemma not_to_part : forall l l' xs, (forall p, In p l -> In p l') -> Forall (not_to l') xs -> Forall (not_to l) xs.
Proof. intros l l' xs S F. eapply Forall_impl; [|exact F]. intros x N. destruct x; try exact I. cbn [not_to] in *. auto. Qed.
Lemma paddress_same : forall xs (w : world C) a, made (w_memory w) (pa_pointers a) -> Forall (not_to (pa_pointers a)) xs ->
  paddress_seen (w_memory (acts w xs)) a = paddress_seen (w_memory w) a.
Proof.
  intros xs w a M F. apply made_app in M as (M1 & M2). unfold paddress_seen.
  rewrite !acts_memory; auto; (eapply not_to_part; [|exact F]); intros p I; apply in_app_iff; auto.
Qed.
Lemma ptransaction_same : forall xs (w : world C) t, made (w_memory w) (px_pointers t) -> Forall (not_to (px_pointers t)) xs ->
  ptransaction_seen (w_memory (acts w xs)) t = ptransaction_seen (w_memory w) t.
Proof.
  intros xs w t M F. apply made_app in M as (M1 & M2). unfold ptransaction_seen.
  rewrite (acts_memory xs w (px_bucket t)); auto; [|eapply not_to_part; [|exact F]; intros p I; apply in_app_iff; auto].
  f_equal. unfold px_pointers in F. destruct (px_address t) as [a|]; [|reflexivity]. cbn [option_map]. f_equal.
  apply paddress_same; [exact M1|]. eapply not_to_part; [|exact F]. intros p I. apply in_app_iff. auto.
Qed.
Lemma history_keeps : forall before after : list (act C),
  (forall a, In a (w_addresses (acts world0 before)) -> Forall (not_to (pa_pointers a)) after ->
     paddress_seen (w_memory (acts world0 (before ++ after))) a = paddress_seen (w_memory (acts world0 before)) a) /\
  (forall t, In t (w_transactions (acts world0 before)) -> Forall (not_to (px_pointers t)) after ->
     ptransaction_seen (w_memory (acts world0 (before ++ after))) t = ptransaction_seen (w_memory (acts world0 before)) t).
Proof.
  intros before after. destruct (acts_fine before world0 world0_fine) as (_ & _ & FA & FT).
  assert (E : acts (world0 : world C) (before ++ after) = acts (acts world0 before) after) by (unfold acts; apply fold_left_app). rewrite E.
  split; intros x I F; [apply (paddress_same after (acts world0 before))|apply (ptransaction_same after (acts world0 before))]; auto.
Qed.

(** ** One builder for several addresses *)
Lemma kept_sender : forall xs (w : world C), Forall sender_kept xs -> ab_sender (w_ab (acts w xs)) = ab_sender (w_ab w).
Proof.
  intro xs. induction xs as [|x xs IH]; intros w F; [reflexivity|]. apply Forall_cons_iff in F as [N F].
  change (acts w (x :: xs)) with (acts (act_step w x) xs). rewrite IH by exact F. destruct w as [m ab tb az tz].
  destruct x as [|h|l|h|t|now| |i|h|l|t|now|p h]; cbn [sender_kept] in N; try destruct N; cbn [act_step w_ab ab_sender]; try reflexivity.
  - destruct (paddress_now m now ab); reflexivity.
  - destruct (nth_error az i); reflexivity.
  - destruct (ptransaction_now m now tb); reflexivity.
Qed.
Lemma shared_sender : forall before between now1 now2 (a1 a2 : paddress) p v,
  let w1 := acts (world0 : world C) before in let w2 := acts w1 (NowA now1 :: between) in
  paddress_now (w_memory w1) now1 (w_ab w1) = Ok a1 -> Forall sender_kept between ->
  paddress_now (w_memory w2) now2 (w_ab w2) = Ok a2 -> pa_sender a2 = Some p ->
  pa_sender a1 = Some p /\
  ad_sender (paddress_seen (put_at p v (w_memory w2)) a1) = Some v /\ ad_sender (paddress_seen (put_at p v (w_memory w2)) a2) = Some v /\
  ad_hash (paddress_seen (put_at p v (w_memory w2)) a1) = ad_hash (paddress_seen (w_memory w1) a1).
Proof.
  intros before between now1 now2 a1 a2 p v w1 w2 H1 K H2 P.
  assert (F2 : fine w2) by (apply acts_fine; apply acts_fine; exact world0_fine).
  apply paddress_at_once in H1 as (_ & S1 & _ & _). apply paddress_at_once in H2 as (_ & S2 & _ & _).
  assert (S : ab_sender (w_ab w2) = ab_sender (w_ab w1)).
  { unfold w2. apply (kept_sender (NowA now1 :: between) w1). constructor; [exact I|exact K]. }
  assert (P1 : pa_sender a1 = Some p) by congruence.
  assert (B : ab_sender (w_ab w2) = Some p) by congruence.
  destruct F2 as (F2 & _). assert (L : p < length (w_memory w2)).
  { apply F2. unfold ab_pointers. rewrite B. left. reflexivity. }
  split; [exact P1|]. unfold paddress_seen at 1 2. cbn [ad_sender]. rewrite P1, P. cbn [deref].
  rewrite (put_at_nth _ p v _ L). auto.
Qed.

(** ** A builder of its own *)
Lemma step_later : forall (w : world C) x n, (forall p, In p (ab_pointers (w_ab w)) -> n <= p) -> n <= length (w_memory w) ->
  (forall p, In p (ab_pointers (w_ab (act_step w x))) -> n <= p) /\
  exists more, w_addresses (act_step w x) = w_addresses w ++ more /\ forall a p, In a more -> In p (pa_pointers a) -> n <= p.
Proof.
  intros [m ab tb az tz] x n H L. cbn [w_memory w_ab w_addresses] in *.
  assert (Ha : forall p, In p (opt_nats (ab_sender ab)) -> n <= p) by (intros p I; apply H; apply in_app_iff; auto).
  assert (Hb : forall p, In p (opt_nats (ab_subject ab)) -> n <= p) by (intros p I; apply H; apply in_app_iff; auto).
  assert (Z : forall ab', (forall p, In p (ab_pointers ab') -> n <= p) ->
    (forall p, In p (ab_pointers ab') -> n <= p) /\ exists more, az = az ++ more /\ forall a p, In a more -> In p (pa_pointers a) -> n <= p).
  { intros ab' Q. split; [exact Q|]. exists []. rewrite app_nil_r. split; [reflexivity|]. intros a p []. }
  destruct x as [|h|l|h|t|now| |i|h|l|t|now|p h]; cbn [act_step w_ab w_addresses]; try (apply Z; exact H).
  - apply Z. intros p [].
  - apply Z. intros p I. unfold ab_pointers in I. cbn [ab_sender ab_subject opt_nats] in I. apply in_app_iff in I as [[<-|[]]|I]; auto.
  - apply Z. intros p I. unfold ab_pointers in I. cbn [ab_sender ab_subject opt_nats] in I. apply in_app_iff in I as [I|[<-|[]]]; auto.
  - destruct (paddress_now m now ab) as [a| |] eqn:E; cbn [w_ab w_addresses]; try (apply Z; exact H).
    split; [exact H|]. exists [a]. split; [reflexivity|]. intros a' p [<-|[]] I.
    apply paddress_at_once in E as (_ & E1 & _ & E2). unfold pa_pointers in I. rewrite E1, E2 in I. apply H. exact I.
  - destruct (nth_error az i); cbn [w_ab w_addresses]; apply Z; exact H.
  - destruct (ptransaction_now m now tb); cbn [w_ab w_addresses]; apply Z; exact H.
Qed.
Lemma acts_later : forall xs (w : world C) n, (forall p, In p (ab_pointers (w_ab w)) -> n <= p) -> n <= length (w_memory w) ->
  exists more, w_addresses (acts w xs) = w_addresses w ++ more /\ forall a p, In a more -> In p (pa_pointers a) -> n <= p.
Proof.
  intro xs. induction xs as [|x xs IH]; intros w n H L.
  - exists []. split; [symmetry; apply app_nil_r|]. intros a p [].
  - destruct (step_later w x n H L) as (H' & m1 & E1 & Q1).
    destruct (IH (act_step w x) n H') as (m2 & E2 & Q2); [eapply Nat.le_trans; [exact L|apply step_longer]|].
    exists (m1 ++ m2). change (acts w (x :: xs)) with (acts (act_step w x) xs). rewrite E2, E1, app_assoc. split; [reflexivity|].
    intros a p I. apply in_app_iff in I as [I|I]; eauto.
Qed.
Lemma own_builder : forall before after : list (act C),
  let w1 := acts world0 before in let w2 := acts world0 (before ++ CreateA :: after) in
  exists more, w_addresses w2 = w_addresses w1 ++ more /\
  forall a1 a2, In a1 (w_addresses w1) -> In a2 more -> forall p v, In p (pa_pointers a2) ->
    paddress_seen (put_at p v (w_memory w2)) a1 = paddress_seen (w_memory w2) a1.
Proof.
  intros before after w1 w2. destruct (acts_fine before world0 world0_fine) as (_ & _ & FA & _). fold w1 in FA.
  assert (Ew : w2 = acts (act_step w1 CreateA) after) by (unfold w2, w1, acts; rewrite fold_left_app; reflexivity).
  destruct (acts_later after (act_step w1 CreateA) (length (w_memory w1))) as (more & E & Q).
  - destruct w1 as [m ab tb az tz]. intros p [].
  - apply step_longer.
  - exists more. rewrite Ew, E. split; [destruct w1; reflexivity|].
    intros a1 a2 I1 I2 p v Ip. specialize (Q a2 p I2 Ip). specialize (FA a1 I1). apply made_app in FA as (M1 & M2).
    unfold paddress_seen. rewrite !deref_write_other; [reflexivity| |]; intro J; [specialize (M2 p J)|specialize (M1 p J)]; lia.
Qed.
End WithCurve.
