From Coq Require Import Lia ZifyBool ZifyNat ZifyN.
From Verif Require Import Base BaseFacts JsonModel PeersModel PeersSpec PeersProofs GrammarSpec GrammarProofs CalendarSpec CalendarProofs UrlModel UrlSpec.

(** ** Cutting *)
Lemma cut_some : forall c s a b, cut c s = Some (a, b) -> s = a ++ c :: b /\ ~ In c a.
Proof.
  induction s as [|x s IH]; intros a b H; [discriminate|]. cbn [cut] in H. destruct (beq x c) eqn:E.
  - injection H as <- <-. apply beq_eq in E. subst. split; [reflexivity|intros []].
  - destruct (cut c s) as [[a' b']|]; [|discriminate]. cbn [option_map fst snd] in H. injection H as <- <-. destruct (IH a' b' eq_refl) as [-> N]. split; [reflexivity|].
    intros [->|I]; [rewrite beq_refl in E; discriminate|exact (N I)].
Qed.
Lemma cut_none : forall c s, cut c s = None -> ~ In c s.
Proof.
  induction s as [|x s IH]; intros H I; [exact I|]. cbn [cut] in H. destruct (beq x c) eqn:E; [discriminate|]. destruct (cut c s); [discriminate|].
  destruct I as [->|I]; [rewrite beq_refl in E; discriminate|exact (IH eq_refl I)].
Qed.
Lemma cut_app : forall c a b, ~ In c a -> cut c (a ++ c :: b) = Some (a, b).
Proof.
  induction a as [|x a IH]; intros b N; cbn [app cut]; [rewrite beq_refl; reflexivity|].
  destruct (beq x c) eqn:E; [apply beq_eq in E; subst; destruct N; left; reflexivity|]. rewrite IH by (intro I; apply N; right; exact I). reflexivity.
Qed.
Lemma cut_nin : forall c s, ~ In c s -> cut c s = None.
Proof. intros c s N. destruct (cut c s) as [[a b]|] eqn:E; [|reflexivity]. apply cut_some in E as [-> _]. destruct N. apply in_or_app. right. left. reflexivity. Qed.
Lemma cut_last_some : forall c s a b, cut_last c s = Some (a, b) -> s = a ++ c :: b /\ ~ In c b.
Proof.
  induction s as [|x s IH]; intros a b H; [discriminate|]. cbn [cut_last] in H. destruct (cut_last c s) as [[a' b']|] eqn:E.
  - injection H as <- <-. destruct (IH a' b' eq_refl) as [-> N]. split; [reflexivity|exact N].
  - destruct (beq x c) eqn:B; [|discriminate]. injection H as <- <-. apply beq_eq in B. subst. split; [reflexivity|].
    clear IH. revert E. induction s as [|x s IH]; intros E I; [exact I|]. cbn [cut_last] in E. destruct (cut_last c s) as [[? ?]|]; [discriminate|].
    destruct (beq x c) eqn:B; [discriminate|]. destruct I as [->|I]; [rewrite beq_refl in B; discriminate|exact (IH eq_refl I)].
Qed.
Lemma cut_last_none : forall c s, cut_last c s = None -> ~ In c s.
Proof.
  induction s as [|x s IH]; intros E I; [exact I|]. cbn [cut_last] in E. destruct (cut_last c s) as [[? ?]|]; [discriminate|].
  destruct (beq x c) eqn:B; [discriminate|]. destruct I as [->|I]; [rewrite beq_refl in B; discriminate|exact (IH eq_refl I)].
Qed.
Lemma cut_last_nin : forall c s, ~ In c s -> cut_last c s = None.
Proof. intros c s N. destruct (cut_last c s) as [[a b]|] eqn:E; [|reflexivity]. apply cut_last_some in E as [-> _]. destruct N. apply in_or_app. right. left. reflexivity. Qed.
Lemma cut_last_app : forall c a b, ~ In c b -> cut_last c (a ++ c :: b) = Some (a, b).
Proof.
  induction a as [|x a IH]; intros b N; cbn [app cut_last]; [rewrite (cut_last_nin c b N), beq_refl; reflexivity|]. rewrite (IH b N). reflexivity.
Qed.
Lemma prefix_iff : forall p s, has_prefix p s = true <-> exists r, s = p ++ r.
Proof.
  induction p as [|x p IH]; intro s; cbn [has_prefix]; [split; [exists s; reflexivity|reflexivity]|]. destruct s as [|y s].
  - split; [discriminate|]. intros (r & E). discriminate E.
  - rewrite andb_true_iff, beq_eq, IH. split.
    + intros (-> & r & ->). exists r. reflexivity.
    + intros (r & E). cbn [app] in E. injection E as -> ->. split; [reflexivity|exists r; reflexivity].
Qed.
Lemma prefix1_iff : forall c s, has_prefix [c] s = true <-> starts c s.
Proof. intros. rewrite prefix_iff. reflexivity. Qed.
Lemma prefix1_not : forall c s, has_prefix [c] s = false <-> ~ starts c s.
Proof. intros. rewrite <- prefix1_iff. destruct (has_prefix [c] s); split; congruence. Qed.
Lemma suffix1_iff : forall c s, has_suffix [c] s = true <-> exists r, s = r ++ [c].
Proof.
  intros c s. unfold has_suffix. cbn [rev app]. rewrite prefix_iff. split.
  - intros (r & E). exists (rev r). rewrite <- (rev_involutive s), E. reflexivity.
  - intros (r & ->). exists (rev r). rewrite rev_app_distr. reflexivity.
Qed.
Lemma before_some : forall p s a b, cut_before p s = Some (a, b) -> s = a ++ b /\ (exists r, b = p ++ r) /\ ~ exists l r, a = l ++ p ++ r /\ p <> [].
Proof.
  induction s as [|x s IH]; intros a b H; cbn [cut_before] in H.
  - destruct (has_prefix p []) eqn:E; [|discriminate]. injection H as <- <-. apply prefix_iff in E. split; [reflexivity|]. split; [exact E|].
    intros (l & r & E' & N). destruct l; [|discriminate E']. destruct p; [congruence|discriminate E'].
  - destruct (has_prefix p (x :: s)) eqn:E.
    + injection H as <- <-. apply prefix_iff in E. split; [reflexivity|]. split; [exact E|].
      intros (l & r & E' & N). destruct l; [|discriminate E']. destruct p; [congruence|discriminate E'].
    + destruct (cut_before p s) as [[a' b']|]; [|discriminate]. cbn [option_map fst snd] in H. injection H as <- <-. destruct (IH a' b' eq_refl) as (-> & R & N).
      split; [reflexivity|]. split; [exact R|]. intros (l & r & E' & Np). destruct l as [|y l].
      * cbn [app] in E'. rewrite (proj2 (prefix_iff p _)) in E; [discriminate|]. exists (r ++ b'). change (x :: a' ++ b') with ((x :: a') ++ b'). rewrite E', <- app_assoc. reflexivity.
      * cbn [app] in E'. injection E' as -> E'. apply N. exists l, r. split; [exact E'|exact Np].
Qed.
Lemma before_none : forall p s, cut_before p s = None -> ~ exists l r, s = l ++ p ++ r.
Proof.
  induction s as [|x s IH]; intros H (l & r & E); cbn [cut_before] in H.
  - destruct (has_prefix p []) eqn:P; [discriminate|]. destruct l; [|discriminate E]. cbn [app] in E. rewrite (proj2 (prefix_iff p [])) in P; [discriminate|]. exists r. exact E.
  - destruct (has_prefix p (x :: s)) eqn:P; [discriminate|]. destruct (cut_before p s) as [[? ?]|]; [discriminate|]. destruct l as [|y l].
    + cbn [app] in E. rewrite (proj2 (prefix_iff p (x :: s))) in P; [discriminate|]. exists r. exact E.
    + cbn [app] in E. injection E as _ E. apply IH; [reflexivity|]. exists l, r. exact E.
Qed.
Lemma before_absent : forall p s, (~ exists l r, s = l ++ p ++ r) -> cut_before p s = None.
Proof. intros p s N. destruct (cut_before p s) as [[a b]|] eqn:E; [|reflexivity]. apply before_some in E as (-> & (r & ->) & _). destruct N. exists a, r. reflexivity. Qed.
Lemma before_zone : forall a r, (~ exists l r, a = l ++ s2b "%25" ++ r) -> cut_before (s2b "%25") (a ++ s2b "%25" ++ r) = Some (a, s2b "%25" ++ r).
Proof.
  induction a as [|x a IH]; intros r N; [reflexivity|]. cbn [app cut_before].
  destruct (has_prefix (s2b "%25") (x :: a ++ s2b "%25" ++ r)) eqn:E.
  - exfalso. apply prefix_iff in E. destruct E as (q & E). change (s2b "%25") with [x25; x32; x35] in *. cbn [app] in E.
    destruct a as [|y [|z a]]; cbn [app] in E; injection E as E1 E2 E3; try discriminate.
    subst. apply N. exists [], a. reflexivity.
  - rewrite IH; [reflexivity|]. intros (l & r' & ->). apply N. exists (x :: l), r'. reflexivity.
Qed.
Lemma nin_app : forall (c : byte) a b, ~ In c (a ++ b) <-> ~ In c a /\ ~ In c b.
Proof. intros. rewrite in_app_iff. tauto. Qed.
Lemma usplit_iff : forall c cutc s a b, usplit c cutc s = (a, b) <->
  ~ In c a /\ (s = a /\ b = [] \/ exists r, s = a ++ c :: r /\ b = if cutc then r else c :: r).
Proof.
  intros c cutc s a b. unfold usplit. destruct (cut c s) as [[x y]|] eqn:E.
  - apply cut_some in E as [-> N]. split.
    + intro H. injection H as <- <-. split; [exact N|]. right. exists y. auto.
    + intros (N' & [(E & _)|(r & E & ->)]).
      * exfalso. apply N'. rewrite <- E. apply in_or_app. right. left. reflexivity.
      * pose proof (cut_app c x y N) as C1. rewrite E, (cut_app c a r N') in C1. injection C1 as -> ->. reflexivity.
  - apply cut_none in E. split.
    + intro H. injection H as <- <-. auto.
    + intros (_ & [(-> & ->)|(r & -> & _)]); [reflexivity|]. destruct E. apply in_or_app. right. left. reflexivity.
Qed.

(** ** Characters *)
Lemma within_iff : forall lo hi c, within lo hi c = true <-> (lo <= b2n c <= hi)%N.
Proof. intros. unfold within. lia. Qed.
Lemma one_of_iff : forall l c, one_of l c = true <-> In c l.
Proof.
  intros l c. unfold one_of. rewrite existsb_exists. split.
  - intros (x & I & E). apply beq_eq in E. subst. exact I.
  - intro I. exists c. split; [exact I|apply beq_refl].
Qed.
Lemma letter_iff : forall c, is_letter c = true <-> letter c.
Proof. intro c. unfold is_letter, letter. rewrite orb_true_iff, !within_iff. tauto. Qed.
Lemma dec_iff : forall c, is_dec c = true <-> digit c.
Proof. intro c. unfold is_dec, digit. apply within_iff. Qed.
Lemma decs_iff : forall s, forallb is_dec s = true <-> Forall digit s.
Proof. intro s. rewrite forallb_forall, Forall_forall. split; intros H c I; apply dec_iff; auto. Qed.
Lemma escape_iff : forall c, should_escape c = false <-> host_ascii c.
Proof.
  intro c. unfold should_escape, host_ascii. rewrite negb_false_iff, !orb_true_iff, letter_iff, dec_iff, !one_of_iff.
  change (s2b "!$&'()*+,;=:[]<>-_.~") with (s2b "!$&'()*+,;=:[]<>" ++ s2b "-_.~"). rewrite in_app_iff. cbn [In].
  split; intros; repeat match goal with H : _ \/ _ |- _ => destruct H end; subst; auto 8.
Qed.
Lemma hex_iff : forall c v, unhexdigit c = Some v <-> hex_digit c v.
Proof.
  intros c v. unfold unhexdigit, hex_digit. repeat match goal with |- context [if ?b then _ else _] => destruct b eqn:?E end; (split; [intro H; try discriminate H; injection H as <-; lia|intro H; try (f_equal; lia); exfalso; lia]).
Qed.
Definition plain_of (m : mode) : byte -> Prop := match m with MOther => anything | _ => host_byte end.
Definition escaped_of (m : mode) : byte -> Prop :=
  match m with MHost => fun c => (128 <= b2n c)%N \/ c = x25 | MZone => fun c => host_ascii c \/ c = x20 \/ c = x25 | MOther => anything end.
Lemma hex_bound : forall c v, hex_digit c v -> (v < 16)%N.
Proof. unfold hex_digit. intros. lia. Qed.
Lemma plain_check : forall m c, match m with MOther => true | _ => negb ((b2n c <? 128)%N && should_escape c) end = true <-> plain_of m c.
Proof.
  intros m c. assert (X : negb ((b2n c <? 128)%N && should_escape c) = true <-> host_byte c).
  { unfold host_byte. rewrite <- escape_iff. destruct (should_escape c); lia. }
  destruct m; cbn [plain_of]; [exact X|exact X|]. unfold anything. tauto.
Qed.
Lemma percent25_iff : forall a b x y, hex_digit a x -> hex_digit b y -> (beq a x32 && beq b x35 = true <-> (16 * x + y = 37)%N).
Proof.
  intros a b x y A B. rewrite andb_true_iff, !beq_eq. pose proof (hex_bound _ _ A). pose proof (hex_bound _ _ B). split.
  - intros [-> ->]. unfold hex_digit in A, B. change (b2n x32) with 50%N in A. change (b2n x35) with 53%N in B. lia.
  - intro E. assert (x = 2 /\ y = 5)%N as [-> ->] by lia. split; apply b2n_inj; unfold hex_digit in A, B; [change (b2n x32) with 50%N|change (b2n x35) with 53%N]; lia.
Qed.
Lemma escaped_check : forall m a b x y, hex_digit a x -> hex_digit b y ->
  (match m with
   | MHost => negb ((x <? 8)%N && negb (beq a x32 && beq b x35))
   | MZone => negb (negb (beq a x32 && beq b x35) && negb (beq (n2b (x * 16 + y)) x20) && should_escape (n2b (x * 16 + y)))
   | MOther => true
   end = true <-> escaped_of m (n2b (x * 16 + y))).
Proof.
  intros m a b x y A B. pose proof (percent25_iff a b x y A B) as P. pose proof (hex_bound _ _ A). pose proof (hex_bound _ _ B).
  assert (V : b2n (n2b (x * 16 + y)) = (16 * x + y)%N) by (rewrite b2n_n2b, N.mod_small; lia). set (v := n2b (x * 16 + y)) in *.
  assert (Q : v = x25 <-> (16 * x + y = 37)%N) by (rewrite <- V; split; [intros ->; reflexivity|intro E; apply b2n_inj; exact E]).
  destruct m; cbn [escaped_of].
  - rewrite Q, V. destruct (beq a x32 && beq b x35); lia.
  - rewrite Q, <- escape_iff, <- (beq_eq v x20). destruct (beq a x32 && beq b x35), (beq v x20), (should_escape v); cbn; intuition congruence.
  - unfold anything. tauto.
Qed.
Theorem unescape_iff : forall m s t, unescape m s = Ok t <-> decodes (plain_of m) (escaped_of m) s t.
Proof.
  intros m s. remember (length s) as n eqn:L. assert (LE : length s <= n) by lia. clear L. revert s LE.
  induction n as [|n IH]; intros [|c s] LE t; cbn [length] in LE; try lia.
  - cbn [unescape]. split; [intro H; injection H as <-; constructor|intro H; inversion H; reflexivity].
  - cbn [unescape]. split; [intro H; injection H as <-; constructor|intro H; inversion H; reflexivity].
  - cbn [unescape]. destruct (beq c x25) eqn:C.
    + apply beq_eq in C. subst c. destruct s as [|a [|b s]].
      * split; [discriminate|]. intro H. inversion H; congruence.
      * split; [discriminate|]. intro H. inversion H; congruence.
      * split.
        -- intro H. destruct (unhexdigit a) as [x|] eqn:A; [|discriminate]. destruct (unhexdigit b) as [y|] eqn:B; [|discriminate].
           apply hex_iff in A, B. match type of H with (if ?g then _ else _) = _ => destruct g eqn:G; [|discriminate H] end.
           apply (escaped_check m a b x y A B) in G. destruct (unescape m s) as [r| |] eqn:R; try discriminate H. injection H as <-. apply IH in R; [|cbn [length] in LE; lia].
           econstructor; [exact A|exact B| |exact G|exact R]. rewrite b2n_n2b, N.mod_small; pose proof (hex_bound _ _ A); pose proof (hex_bound _ _ B); lia.
        -- intro H. inversion H as [|? ? ? N|? ? x y c ? r A B V G R]; subst; [congruence|].
           pose proof (hex_bound _ _ A). pose proof (hex_bound _ _ B). assert (E : c = n2b (x * 16 + y)) by (apply b2n_inj; rewrite b2n_n2b, N.mod_small; lia). subst c.
           pose proof (proj2 (escaped_check m a b x y A B) G) as G'. apply hex_iff in A, B. rewrite A, B. rewrite G'. apply IH in R; [|cbn [length] in LE; lia]. rewrite R. reflexivity.
    + apply beq_neq in C. split.
      * intro H. match type of H with (if ?g then _ else _) = _ => destruct g eqn:G; [|discriminate H] end. apply (plain_check m c) in G.
        destruct (unescape m s) as [r| |] eqn:R; try discriminate H. injection H as <-. apply IH in R; [|cbn [length] in LE; lia]. constructor; assumption.
      * intro H. inversion H as [|? ? ? N G R|]; subst; [|congruence]. apply (plain_check m c) in G. rewrite G. apply IH in R; [|cbn [length] in LE; lia]. rewrite R. reflexivity.
Qed.
Lemma host_unescape : forall s t, unescape MHost s = Ok t <-> host_text s t.
Proof. exact (unescape_iff MHost). Qed.
Lemma zone_unescape : forall s t, unescape MZone s = Ok t <-> zone_text s t.
Proof. exact (unescape_iff MZone). Qed.
Lemma other_unescape : forall s, (exists t, unescape MOther s = Ok t) <-> well_escaped s.
Proof. intro s. unfold well_escaped. split; intros (t & H); exists t; apply (unescape_iff MOther); exact H. Qed.
