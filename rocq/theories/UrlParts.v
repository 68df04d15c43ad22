From Coq Require Import Lia ZifyBool ZifyNat ZifyN.
From Verif Require Import Base BaseFacts JsonModel PeersModel PeersSpec PeersProofs GrammarSpec GrammarProofs CalendarSpec CalendarProofs UrlModel UrlSpec UrlProofs.

(** ** Decoding *)
Lemma decodes_length : forall P Q s t, decodes P Q s t -> length t <= length s.
Proof. induction 1; cbn [length]; lia. Qed.
Lemma decodes_same : forall P Q s t, decodes P Q s t -> length t = length s -> t = s /\ Forall P s.
Proof.
  induction 1 as [|c s t N p D IH|a b x y c s t A B V q D IH]; intro L; cbn [length] in L.
  - auto.
  - destruct IH as [-> F]; [lia|]. auto.
  - apply decodes_length in D. lia.
Qed.
Lemma decodes_self : forall (P Q : byte -> Prop) s, Forall (fun c => P c /\ c <> x25) s -> decodes P Q s s.
Proof. induction 1 as [|c s [p n] F IH]; constructor; assumption. Qed.
Lemma decodes_app : forall P Q s t s' t', decodes P Q s t -> decodes P Q s' t' -> decodes P Q (s ++ s') (t ++ t').
Proof. induction 1; intro D'; cbn [app]; [exact D'|constructor; auto|econstructor; eauto]. Qed.
Lemma decodes_split : forall P Q c, c <> x25 -> (forall v, ~ hex_digit c v) -> forall a b u, decodes P Q (a ++ c :: b) u ->
  exists a' b', decodes P Q a a' /\ P c /\ decodes P Q b b' /\ u = a' ++ c :: b'.
Proof.
  intros P Q c C H a b u D. remember (a ++ c :: b) as s eqn:E. revert a b E. induction D as [|d s t N p D IH|x1 x2 v1 v2 d s t A B V q D IH]; intros a b E.
  - destruct a; discriminate E.
  - destruct a as [|e a]; cbn [app] in E; injection E as -> ->.
    + exists [], t. split; [constructor|]. auto.
    + destruct (IH a b eq_refl) as (a' & b' & D1 & pc & D2 & ->). exists (e :: a'), b'. split; [constructor; assumption|]. auto.
  - destruct a as [|e1 [|e2 [|e3 a]]]; cbn [app] in E.
    + injection E as E _. congruence.
    + injection E as E1 E2 E3. subst. destruct (H _ A).
    + injection E as E1 E2 E3 E4. subst. destruct (H _ B).
    + injection E as E1 E2 E3 E4. subst. destruct (IH a b eq_refl) as (a' & b' & D1 & pc & D2 & ->). exists (d :: a'), b'. split; [econstructor; eauto|]. auto.
Qed.
Lemma decodes_fun : forall P Q s t t', decodes P Q s t -> decodes P Q s t' -> t = t'.
Proof.
  intros P Q s t t' D. revert t'. induction D as [|c s t N p D IH|a b x y c s t A B V q D IH]; intros t' D'; inversion D'; subst; try congruence.
  - f_equal. apply IH. assumption.
  - f_equal; [|apply IH; assumption]. apply b2n_inj. apply hex_iff in A, B. match goal with H1 : hex_digit a _, H2 : hex_digit b _ |- _ => apply hex_iff in H1, H2; rewrite A in H1; rewrite B in H2; injection H1 as <-; injection H2 as <- end. lia.
Qed.
Definition text_byte (c : byte) : Prop := host_byte c \/ c = x25.
Lemma hex_host : forall a v, hex_digit a v -> host_byte a.
Proof. intros a v H. left. unfold host_ascii, letter, digit. unfold hex_digit in H. lia. Qed.
Lemma decodes_texts : forall Q s t, decodes host_byte Q s t -> Forall text_byte s.
Proof.
  unfold text_byte. induction 1 as [|c s t N p D IH|a b x y c s t A B V q D IH]; [constructor|constructor; [left; exact p|exact IH]|].
  constructor; [right; reflexivity|]. constructor; [left; exact (hex_host _ _ A)|]. constructor; [left; exact (hex_host _ _ B)|exact IH].
Qed.
Lemma sign_false : forall (P : Prop) (b : bool), (b = true <-> P) -> b = false -> ~ P.
Proof. intros P b H E p. apply H in p. congruence. Qed.
Definition is_text (c : byte) : bool := negb (should_escape c) || (128 <=? b2n c)%N || beq c x25.
Lemma text_iff : forall c, is_text c = true <-> text_byte c.
Proof.
  intro c. unfold is_text, text_byte, host_byte. rewrite !orb_true_iff, negb_true_iff, escape_iff, beq_eq, N.leb_le. tauto.
Qed.
Lemma text_nin : forall c s, is_text c = false -> Forall text_byte s -> ~ In c s.
Proof. intros c s N F I. rewrite Forall_forall in F. specialize (F c I). apply text_iff in F. congruence. Qed.
Lemma not_hex : forall c, unhexdigit c = None -> forall v, ~ hex_digit c v.
Proof. intros c E v H. apply hex_iff in H. congruence. Qed.
Lemma digit_host : forall c, digit c -> host_byte c /\ c <> x25.
Proof. intros c D. split; [left; right; left; exact D|]. intros ->. unfold digit in D. change (b2n x25) with 37%N in D. lia. Qed.
Lemma digits_decode : forall Q s, Forall digit s -> decodes host_byte Q s s.
Proof. intros Q s F. apply decodes_self. eapply Forall_impl; [|exact F]. exact digit_host. Qed.
Lemma digits_nin : forall c s, is_dec c = false -> Forall digit s -> ~ In c s.
Proof. intros c s N F I. rewrite Forall_forall in F. specialize (F c I). apply dec_iff in F. congruence. Qed.
Lemma host_in : forall c s t, host_text s t -> (b2n c < 128)%N -> c <> x25 -> In c t -> In c s.
Proof.
  induction 1 as [|d s t N p D IH|a b x y d s t A B V q D IH]; intros L Nc I; [exact I|destruct I as [->|I]; [left; reflexivity|right; auto]|].
  destruct I as [->|I]; [|right; right; right; auto]. exfalso. destruct q as [q|q]; [lia|congruence].
Qed.
Lemma host_starts : forall c s t, host_text s t -> (b2n c < 128)%N -> c <> x25 -> starts c t -> starts c s.
Proof.
  intros c s t D L N (r & E). destruct D as [|d s t N' p D|a b x y d s t A B V q D]; [discriminate E| |].
  - injection E as -> _. exists s. reflexivity.
  - injection E as -> _. exfalso. destruct q as [q|q]; [lia|congruence].
Qed.

(** ** Host and port *)
Lemma split_colon : forall h ds, Forall digit ds -> split_host_port (h ++ x3a :: ds) =
  (if has_prefix [x5b] h && has_suffix [x5d] h then removelast (tl h) else h, ds).
Proof.
  intros h ds F. unfold split_host_port. rewrite cut_last_app by (apply (digits_nin x3a); [reflexivity|exact F]).
  unfold valid_optional_port. rewrite beq_refl, (proj2 (decs_iff ds) F). reflexivity.
Qed.
Lemma split_no_colon : forall s, ~ In x3a s -> snd (split_host_port s) = [].
Proof. intros s N. unfold split_host_port. rewrite cut_last_nin by exact N. reflexivity. Qed.
Lemma split_bracket_end : forall s, snd (split_host_port (s ++ [x5d])) = [].
Proof.
  intro s. unfold split_host_port. destruct (cut_last x3a (s ++ [x5d])) as [[a b]|] eqn:E; [|reflexivity].
  apply cut_last_some in E as [E _]. destruct (valid_optional_port (x3a :: b)) eqn:V; [|reflexivity]. exfalso.
  unfold valid_optional_port in V. rewrite beq_refl in V. apply decs_iff in V. destruct (exists_last (l := x3a :: b)) as (l & c & El); [discriminate|].
  rewrite El, app_assoc in E. apply app_inj_tail in E as [_ <-]. destruct l as [|d l]; [discriminate El|]. injection El as _ ->.
  rewrite Forall_app in V. destruct V as [_ V]. inversion V as [|? ? D _]; subst. unfold digit in D. change (b2n x5d) with 93%N in D. lia.
Qed.
Lemma strip : forall s, has_prefix [x5b] (x5b :: s ++ [x5d]) && has_suffix [x5d] (x5b :: s ++ [x5d]) = true /\ removelast (tl (x5b :: s ++ [x5d])) = s.
Proof.
  intro s. split.
  - rewrite (proj2 (prefix1_iff x5b _)) by (eexists; reflexivity). apply suffix1_iff. exists (x5b :: s). reflexivity.
  - cbn [tl]. apply removelast_last.
Qed.
Lemma parse_host_some : forall s u h port, parse_host s = Ok u -> split_host_port u = (h, port) -> port <> [] ->
  exists g, s = g ++ x3a :: port /\ Forall digit port /\ host_part g h.
Proof.
  intros s u h port P S N. unfold parse_host in P. destruct (has_prefix [x5b] s) eqn:Br.
  - apply prefix1_iff in Br as (s0 & E0). destruct (cut_last x5d s) as [[before cp]|] eqn:C; [|discriminate]. apply cut_last_some in C as [Es Nc].
    destruct (valid_optional_port cp) eqn:V; [|discriminate].
    destruct before as [|x a0]; [rewrite Es in E0; discriminate E0|]. rewrite Es in E0. injection E0 as -> _.
    assert (G : exists a z a' z', a0 = a ++ z /\ host_text a a' /\ zone_text z z' /\ u = x5b :: (a' ++ z') ++ x5d :: cp /\
      (z = [] \/ exists r, z = s2b "%25" ++ r) /\ ~ exists l r, a = l ++ s2b "%25" ++ r).
    { destruct (cut_before (s2b "%25") (x5b :: a0)) as [[h1 h2]|] eqn:Z.
      - apply before_some in Z as (E & (r & Er) & Nz). destruct h1 as [|y a]; [cbn [app] in E; rewrite Er in E; discriminate E|]. cbn [app] in E. injection E as <- ->.
        apply rbind_Ok in P as (h1' & D1 & P). apply rbind_Ok in P as (z' & D2 & P). apply rbind_Ok in P as (h3' & D3 & P). injection P as <-.
        apply host_unescape in D1, D3. apply zone_unescape in D2. inversion D1 as [|? ? a' _ _ Da|]; subst.
        exists a, (s2b "%25" ++ r), a', z'. split; [reflexivity|]. split; [exact Da|]. split; [exact D2|]. split.
        + cbn [app]. f_equal. rewrite <- app_assoc. do 2 f_equal.
          inversion D3 as [|? ? c' _ _ Dc|]; subst. f_equal. destruct cp as [|k ds]; [inversion Dc; reflexivity|]. cbn [valid_optional_port] in V. apply andb_true_iff in V as [K V]. apply beq_eq in K. apply decs_iff in V. subst k.
          eapply decodes_fun; [exact Dc|]. constructor; [discriminate|left; right; right; right; cbn; tauto|]. apply digits_decode. exact V.
        + split; [right; exists r; reflexivity|]. intros (l & r' & ->). apply Nz. exists (x5b :: l), r'. split; [reflexivity|discriminate].
      - pose proof (before_none _ _ Z) as Nz. apply host_unescape in P. rewrite Es in P. cbn [app] in P.
        inversion P as [|? ? t _ _ D|]; subst. apply decodes_split in D as (a' & b' & D1 & _ & D2 & ->); [|discriminate|apply not_hex; reflexivity].
        exists a0, [], a', []. rewrite !app_nil_r. split; [reflexivity|]. split; [exact D1|]. split; [constructor|]. split.
        + do 3 f_equal. destruct cp as [|k ds]; [inversion D2; reflexivity|]. cbn [valid_optional_port] in V. apply andb_true_iff in V as [K V]. apply beq_eq in K. apply decs_iff in V. subst k.
          eapply decodes_fun; [exact D2|]. constructor; [discriminate|left; right; right; right; cbn; tauto|]. apply digits_decode. exact V.
        + split; [left; reflexivity|]. intros (l & r & ->). apply Nz. exists (x5b :: l), r. reflexivity. }
    destruct G as (a & z & a' & z' & -> & D1 & D2 & -> & Zc & Nz).
    destruct cp as [|k ds].
    + exfalso. apply N. change (x5b :: (a' ++ z') ++ [x5d]) with ((x5b :: a' ++ z') ++ [x5d]) in S. pose proof (split_bracket_end (x5b :: a' ++ z')) as X. rewrite S in X. exact X.
    + cbn [valid_optional_port] in V. apply andb_true_iff in V as [K V]. apply beq_eq in K. apply decs_iff in V. subst k.
      replace (x5b :: (a' ++ z') ++ x5d :: x3a :: ds) with ((x5b :: (a' ++ z') ++ [x5d]) ++ x3a :: ds) in S by (cbn [app]; rewrite <- !app_assoc; reflexivity).
      rewrite split_colon in S by exact V. destruct (strip (a' ++ z')) as [S1 S2]. rewrite S1, S2 in S. injection S as <- <-.
      exists (x5b :: a ++ z ++ [x5d]). split; [rewrite Es; cbn [app]; rewrite <- !app_assoc; reflexivity|]. split; [exact V|].
      right. exists a, z, a', z'. auto 8.
  - apply prefix1_not in Br. destruct (cut_last x3a s) as [[a b]|] eqn:C.
    + apply cut_last_some in C as [-> Nc]. destruct (valid_optional_port (x3a :: b)) eqn:V; [|discriminate].
      unfold valid_optional_port in V. rewrite beq_refl in V. apply decs_iff in V. apply host_unescape in P.
      apply decodes_split in P as (a' & b' & D1 & _ & D2 & ->); [|discriminate|apply not_hex; reflexivity].
      assert (b' = b) by (eapply decodes_fun; [exact D2|apply digits_decode; exact V]). subst b'. rewrite split_colon in S by exact V.
      assert (Ns : ~ starts x5b a) by (intros (r & ->); apply Br; eexists; reflexivity).
      rewrite (proj2 (prefix1_not x5b a')) in S by (intro X; apply Ns; eapply host_starts; [exact D1|reflexivity|discriminate|exact X]). cbn [andb] in S. injection S as <- <-.
      exists a. split; [reflexivity|]. split; [exact V|]. left. auto.
    + exfalso. apply cut_last_none in C. apply host_unescape in P. apply N. rewrite <- (split_no_colon u), S; [reflexivity|].
      intro I. apply C. eapply host_in; [exact P|reflexivity|discriminate|exact I].
Qed.
Lemma digits_text : forall ds, Forall digit ds -> host_text ds ds.
Proof. intros. apply digits_decode. assumption. Qed.
Lemma parse_host_of : forall g h port, host_part g h -> Forall digit port ->
  exists u, parse_host (g ++ x3a :: port) = Ok u /\ split_host_port u = (h, port).
Proof.
  intros g h port H F.
  assert (Colon : forall t, host_text port t -> host_text (x3a :: port) (x3a :: t)) by (intros; constructor; [discriminate|left; right; right; right; cbn; tauto|assumption]).
  assert (V : valid_optional_port (x3a :: port) = true) by (unfold valid_optional_port; rewrite beq_refl; apply decs_iff; exact F).
  destruct H as [[Ns D]|(a & z & a' & z' & -> & D1 & D2 & -> & Zc & Nz)].
  - exists (h ++ x3a :: port). split.
    + unfold parse_host. rewrite (proj2 (prefix1_not x5b _)).
      * rewrite cut_last_app by (apply (digits_nin x3a); [reflexivity|exact F]). rewrite V. apply host_unescape.
        apply decodes_app; [exact D|]. apply Colon. apply digits_text. exact F.
      * intros (r & E). destruct g as [|c g]; [discriminate E|]. injection E as -> _. apply Ns. eexists. reflexivity.
    + rewrite split_colon by exact F. rewrite (proj2 (prefix1_not x5b h)); [reflexivity|].
      intro X. apply Ns. eapply host_starts; [exact D|reflexivity|discriminate|exact X].
  - exists ((x5b :: (a' ++ z') ++ [x5d]) ++ x3a :: port). split.
    + unfold parse_host. cbn [app]. rewrite (proj2 (prefix1_iff x5b _)) by (eexists; reflexivity).
      replace (x5b :: (a ++ z ++ [x5d]) ++ x3a :: port) with ((x5b :: a ++ z) ++ x5d :: x3a :: port) by (cbn [app]; rewrite <- !app_assoc; reflexivity).
      rewrite cut_last_app by (intros [X|X]; [discriminate X|revert X; apply (digits_nin x5d); [reflexivity|exact F]]). rewrite V.
      assert (End : host_text (x5d :: x3a :: port) (x5d :: x3a :: port)) by (constructor; [discriminate|left; right; right; right; cbn; tauto|]; apply Colon; apply digits_text; exact F).
      assert (Open : host_text (x5b :: a) (x5b :: a')) by (constructor; [discriminate|left; right; right; right; cbn; tauto|exact D1]).
      assert (Nz' : ~ exists l r, x5b :: a = l ++ s2b "%25" ++ r).
      { intros ([|y l] & r & E); [discriminate E|]. injection E as _ E. apply Nz. exists l, r. exact E. }
      destruct Zc as [->|(r & ->)].
      * inversion D2; subst. rewrite !app_nil_r. rewrite before_absent by exact Nz'. apply host_unescape.
        replace (x5b :: (a' ++ [x5d]) ++ x3a :: port) with ((x5b :: a') ++ x5d :: x3a :: port) by (cbn [app]; rewrite <- !app_assoc; reflexivity).
        apply decodes_app; assumption.
      * change (x5b :: a ++ s2b "%25" ++ r) with ((x5b :: a) ++ s2b "%25" ++ r). rewrite before_zone by exact Nz'.
        rewrite (proj2 (host_unescape _ _) Open). cbn [rbind]. rewrite (proj2 (zone_unescape _ _) D2). cbn [rbind]. rewrite (proj2 (host_unescape _ _) End). cbn [rbind].
        cbn [app]. rewrite <- !app_assoc. reflexivity.
    + rewrite split_colon by exact F. destruct (strip (a' ++ z')) as [S1 S2]. rewrite S1, S2. reflexivity.
Qed.
