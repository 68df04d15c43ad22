(** Money is conserved by expenses that spend bills once and spend bills that were made. *)
From Coq Require Import Lia ZifyBool ZifyNat ZifyN.
From Verif Require Import Base BaseFacts HashModel HashProofs HashSpec EntitiesModel SignModel PiastresModel PiastresSpec PiastresProofs LedgerSpec.
Local Open Scope N_scope.

Section WithCurve.
Context {C : Curve}.

Definition sum (l : list N) : N := fold_right N.add 0 l.
Lemma sum_app : forall a b, sum (a ++ b) = sum a + sum b.
Proof. induction a as [|x a IH]; intro b; [reflexivity|]. cbn [app sum fold_right]. change (fold_right N.add 0) with sum. rewrite IH. lia. Qed.
(** the amounts of some of the bills are at most the amounts of all *)
Lemma sum_incl : forall (f : hash -> N) (l m : list hash), NoDup l -> incl l m -> sum (map f l) <= sum (map f m).
Proof.
  intros f. induction l as [|x l IH]; intros m D I; [cbn; lia|]. inversion D as [|? ? X D']; subst.
  destruct (in_split x m (I x (or_introl eq_refl))) as (m1 & m2 & ->).
  assert (L : sum (map f l) <= sum (map f (m1 ++ m2))).
  { apply IH; [exact D'|]. intros y Y. pose proof (I y (or_intror Y)) as W. rewrite in_app_iff in *. cbn [In] in W. destruct W as [W|[W|W]]; auto. subst. contradiction. }
  rewrite map_app, sum_app in *. cbn [map sum fold_right]. change (fold_right N.add 0) with sum. lia.
Qed.
Lemma nodup_parts : forall (a b : list hash), NoDup (a ++ b) -> NoDup a /\ NoDup b /\ forall h, In h a -> ~ In h b.
Proof.
  induction a as [|x a IH]; intros b H; [split; [constructor|split; [exact H|intros h []]]|]. cbn [app] in H. inversion H as [|? ? X D]; subst.
  apply IH in D as (D1 & D2 & D3). rewrite in_app_iff in X. split; [constructor; tauto|]. split; [exact D2|]. intros h [<-|I]; [tauto|apply D3; exact I].
Qed.

Section Amounts.
Variable f : hash -> N.
Variable g : genesis.
(** hashes that were made and not spent, in any prefix *)
Lemma conserved_hashes : forall es : list (@expense C),
  (forall b, In b (all_bills g es) -> bl_amount b = f (bl_hash b)) ->
  (forall e, In e es -> paid (ex_content e) <= value (ct_from (ex_content e))) ->
  sourced g es -> no_double_spend es ->
  forall l, NoDup l -> incl l (map bl_hash (made g es)) -> (forall h, In h l -> ~ In h (spent es)) ->
  sum (map f l) <= bl_amount (gn_bill g).
Proof.
  induction es as [|e es IH] using rev_ind; intros A P S D l Dl I N.
  - assert (G : bl_amount (gn_bill g) = f (bl_hash (gn_bill g))) by (apply A; left; reflexivity).
    pose proof (sum_incl f l _ Dl I) as H. unfold made in H. cbn [map concat sum fold_right] in H. lia.
  - assert (MA : made g (es ++ [e]) = made g es ++ makes e).
    { unfold made. rewrite map_app, concat_app. cbn [map concat]. rewrite app_nil_r. reflexivity. }
    assert (SA : spent (es ++ [e]) = spent es ++ map bl_hash (ct_from (ex_content e))).
    { unfold spent. rewrite map_app, concat_app. cbn [map concat]. rewrite app_nil_r. reflexivity. }
    assert (AA : forall b, In b (all_bills g es) \/ In b (makes e) \/ In b (ct_from (ex_content e)) -> bl_amount b = f (bl_hash b)).
    { intros b H. apply A. unfold all_bills. rewrite MA, map_app, concat_app. cbn [map concat]. rewrite app_nil_r. unfold all_bills in H.
      rewrite !in_app_iff in *. tauto. }
    set (inputs := map bl_hash (ct_from (ex_content e))) in *.
    assert (D2 : NoDup (spent es ++ inputs)) by (rewrite <- SA; exact D).
    assert (SI : incl inputs (map bl_hash (made g es))).
    { intros h H. apply in_map_iff in H as (b & <- & H). apply (S es e [] b); [reflexivity|exact H]. }
    set (old := filter (fun h => existsb (bseq h) (map bl_hash (made g es))) l).
    set (new := filter (fun h => negb (existsb (bseq h) (map bl_hash (made g es)))) l).
    assert (SP : sum (map f l) = sum (map f old) + sum (map f new)).
    { unfold old, new. clear. induction l as [|x l IH]; [reflexivity|]. cbn [filter]. destruct (existsb (bseq x) _); cbn [negb map sum fold_right]; change (fold_right N.add 0) with sum; lia. }
    assert (OI : forall h, In h old <-> In h l /\ In h (map bl_hash (made g es))).
    { intro h. unfold old. rewrite filter_In, existsb_exists. split.
      - intros [H (x & X & E)]. apply bseq_eq in E. subst. auto.
      - intros [H X]. split; [exact H|]. exists h. split; [exact X|apply bseq_eq; reflexivity]. }
    assert (NI : incl new (map bl_hash (makes e))).
    { intros h H. unfold new in H. apply filter_In in H as [H X]. pose proof (I h H) as W. rewrite MA, map_app, in_app_iff in W. destruct W as [W|W]; [|exact W].
      exfalso. apply negb_true_iff in X. assert (existsb (bseq h) (map bl_hash (made g es)) = true); [|congruence].
      apply existsb_exists. exists h. split; [exact W|apply bseq_eq; reflexivity]. }
    assert (ND : sum (map f new) <= paid (ex_content e)).
    { eapply N.le_trans; [apply (sum_incl f new (map bl_hash (makes e))); [apply NoDup_filter; exact Dl|exact NI]|].
      rewrite map_map. rewrite (map_ext_in _ bl_amount) by (intros b H; symmetry; apply AA; auto).
      unfold makes, paid. destruct (ct_remaining (ex_content e)); cbn [opt_list map sum fold_right]; lia. }
    assert (PI : paid (ex_content e) <= sum (map f inputs)).
    { eapply N.le_trans; [apply P; apply in_or_app; right; left; reflexivity|]. unfold inputs. rewrite map_map.
      rewrite (map_ext_in (fun x => f (bl_hash x)) bl_amount) by (intros b H; symmetry; apply AA; auto). unfold value, sum. lia. }
    assert (R : sum (map f (old ++ inputs)) <= bl_amount (gn_bill g)).
    { apply IH.
      - intros b H. apply AA. auto.
      - intros x H. apply P. apply in_or_app. auto.
      - intros before x after b E H. apply (S before x (after ++ [e]) b); [rewrite E, <- app_assoc; reflexivity|exact H].
      - unfold no_double_spend. change (NoDup (spent es)). apply nodup_parts in D2. tauto.
      - assert (X : forall h, In h old -> ~ In h inputs).
        { intros h H K. apply OI in H as [H _]. apply (N h H). rewrite SA. apply in_or_app. auto. }
        assert (Di : NoDup inputs) by (apply nodup_parts in D2; tauto).
        assert (Do : NoDup old) by (apply NoDup_filter; exact Dl). clearbody old inputs. clear - X Di Do.
        induction old as [|y o IHo]; [exact Di|]. inversion Do; subst. cbn [app]. constructor.
        + rewrite in_app_iff. intros [K|K]; [contradiction|]. exact (X y (or_introl eq_refl) K).
        + apply IHo; [intros h H; apply X; right; exact H|assumption].
      - intros h H. apply in_app_or in H as [H|H]; [apply OI in H; tauto|apply SI; exact H].
      - intros h H K. apply in_app_or in H as [H|H].
        + apply OI in H as [H _]. apply (N h H). rewrite SA. apply in_or_app. auto.
        + apply nodup_parts in D2 as (_ & _ & D3). exact (D3 h K H). }
    rewrite map_app, sum_app in R. lia.
Qed.
End Amounts.

Lemma content_bills : forall c, built_content c -> Forall built_bill (ct_to c :: opt_list (ct_remaining c)) /\ Forall built_bill (ct_from c) /\ paid c <= value (ct_from c).
Proof.
  intros c H. pose proof (built_content_hash c H) as (_ & _ & _ & _ & F & _ & P & _).
  split; [|split; [exact F|rewrite P; apply N.mod_le; discriminate]].
  destruct H as (now & amount & from & l & rem & created & U & Hl & Hb & Hr & H). apply content_now_iff in H as (l' & E & A & L & R & ->).
  injection E as <-. cbn [ct_to ct_remaining]. assert (T : is_u64 (total_u64 from)) by (rewrite total_value; apply N.mod_lt; discriminate).
  constructor.
  - exists now, l, amount, created. split; [exact Hl|]. split; [exact U|]. apply bill_now_iff. exists l. auto.
  - destruct rem as [r|]; [|constructor]. constructor; [|constructor]. exists now, r, (total_u64 from - amount), created.
    split; [apply Hr; reflexivity|]. split; [unfold is_u64 in *; lia|]. apply bill_now_iff. exists r. split; [reflexivity|]. split; [lia|reflexivity].
Qed.
Lemma all_built : forall g (es : list (@expense C)), built_bill (gn_bill g) -> Forall (fun e => built_content (ex_content e)) es -> Forall built_bill (all_bills g es).
Proof.
  intros g es G F. unfold all_bills, made. cbn [app]. constructor; [exact G|]. apply Forall_app.
  induction F as [|e es H F [IH1 IH2]]; [split; constructor|]. apply content_bills in H as (H1 & H2 & _). cbn [map concat].
  split; apply Forall_app; split; assumption.
Qed.

(** the first bill with the hash gives the amount *)
Definition amount_in (bs : list bill) (h : hash) : N := match find (fun b => bseq (bl_hash b) h) bs with Some b => bl_amount b | None => 0 end.
Theorem money_conserved : forall g (es : list (@expense C)) bs,
  built_bill (gn_bill g) -> Forall (fun e => built_content (ex_content e)) es ->
  (forall b1 b2, In b1 (all_bills g es) -> In b2 (all_bills g es) -> ~ sha_collision (bill_text b1) (bill_text b2)) ->
  sourced g es -> no_double_spend es -> unspent g es bs -> value bs <= bl_amount (gn_bill g).
Proof.
  intros g es bs G F NC S D [Dl U]. pose proof (all_built g es G F) as B. rewrite Forall_forall in B.
  assert (A : forall b, In b (all_bills g es) -> bl_amount b = amount_in (all_bills g es) (bl_hash b)).
  { intros b H. unfold amount_in. destruct (find _ _) as [b'|] eqn:E.
    - apply find_some in E as [H' E]. apply bseq_eq in E. destruct (bill_hash_commits b b' (B b H) (B b' H') (eq_sym E)) as [[_ X]|X]; [exact X|]. destruct (NC b b' H H' X).
    - pose proof (find_none _ _ E b H) as X. cbn beta in X. rewrite bseq_refl in X. discriminate. }
  pose proof (conserved_hashes (amount_in (all_bills g es)) g es A) as K.
  unfold value. rewrite (map_ext_in bl_amount (fun b => amount_in (all_bills g es) (bl_hash b))) by (intros b H; apply A; unfold all_bills; apply in_or_app; left; apply U; exact H).
  rewrite <- map_map. apply K; try assumption.
  - intros e H. rewrite Forall_forall in F. apply content_bills. apply F. exact H.
  - intros h H. apply in_map_iff in H as (b & <- & H). apply in_map. apply U. exact H.
  - intros h H. apply in_map_iff in H as (b & <- & H). apply U. exact H.
Qed.
End WithCurve.
