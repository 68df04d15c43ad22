(** Published ring signatures that others change. *)
From Coq Require Import Lia ZifyBool ZifyNat ZifyN.
From Verif Require Import Base BaseFacts HashModel HashSpec HashProofs SignModel SignSpec SignProofs EntitiesModel PiastresModel PiastresSpec PiastresProofs SecretSpec ChangeSpec.

Lemma fold_more : forall C msg ring ss e more e', ring_fold C msg ring ss e = Ok e' -> ring_fold C msg ring (ss ++ more) e = Ok e'.
Proof.
  intros C msg ring. induction ring as [|p ring IH]; intros [|s ss] e more e' H; cbn [ring_fold app] in *; try exact H; try discriminate H.
  apply IH. exact H.
Qed.
Lemma fold_snoc : forall C msg ring ss e e' p s, length ss = length ring -> ring_fold C msg ring ss e = Ok e' ->
  ring_fold C msg (ring ++ [p]) (ss ++ [s]) e = Ok (link C msg s e' p).
Proof.
  intros C msg ring. induction ring as [|q ring IH]; intros [|t ss] e e' p s L H; cbn [length] in L; try lia.
  - cbn [ring_fold app] in *. injection H as <-. reflexivity.
  - cbn [ring_fold app] in *. apply IH; [lia|exact H].
Qed.
Lemma longer_verifies : forall C g more msg, ring_verify C g msg = Ok true -> ring_verify C (longer C g more) msg = Ok true.
Proof.
  intros C g more msg H. unfold ring_verify, longer in *. cbn [rs_ring rs_s rs_e]. apply rbind_Ok in H as (e & F & H).
  rewrite (fold_more _ _ _ _ _ more _ F). exact H.
Qed.

(** *** Texts *)
Lemma text_newline : forall C a b c, c = x0a \/ c = x0d -> ring_of_string C (a ++ c :: b) = ring_of_string C (a ++ b).
Proof.
  intros C a b c H. unfold ring_of_string, b64_decode. rewrite !filter_app. cbn [filter].
  replace (negb (beq c x0a || beq c x0d)) with false; [reflexivity|]. destruct H as [->| ->]; reflexivity.
Qed.
Lemma text_bar : forall C d, ring_of_string C (b64_encode (x7c :: d)) = ring_of_string C (b64_encode d).
Proof.
  intros C d. unfold ring_of_string. rewrite !b64_decode_encode. cbn [rbind]. cbn [split]. change (beq x7c hashsep) with false. cbv iota.
  destruct (split hashsep d) as [|a [|b [|c [|? ?]]]]; reflexivity.
Qed.

Section Laws.
Variables (C : Curve) (red : Sc C -> Prop) (zero : Sc C) (sadd : Sc C -> Sc C -> Sc C).
Hypothesis L : CurveLaws C red zero sadd.

Lemma turned_verifies : forall g msg, length (rs_s g) = length (rs_ring g) -> ring_verify C g msg = Ok true -> ring_verify C (turned C msg g) msg = Ok true.
Proof.
  intros [[|p ring] [|s ss] e] msg N H; cbn [rs_ring rs_s length] in N; try lia; [exact H|]. unfold ring_verify, turned in *. cbn [rs_ring rs_s rs_e] in *.
  apply rbind_Ok in H as (e' & F & H). injection H as H. apply (seqb_eq _ _ _ _ L) in H. subst e'. cbn [ring_fold] in F.
  change (create_hash C (msg ++ hex_encode (penc C (padd C (pmul C s (base C)) (pmul C e p))))) with (link C msg s e p).
  rewrite (fold_snoc _ _ _ _ _ _ p s (eq_add_S _ _ N) F). cbn [rbind]. f_equal. apply (seqb_eq _ _ _ _ L). reflexivity.
Qed.
Lemma turned_length : forall g msg, length (rs_s g) = length (rs_ring g) -> length (rs_s (turned C msg g)) = length (rs_ring (turned C msg g)).
Proof. intros [[|p ring] [|s ss] e] msg N; cbn [rs_ring rs_s length] in N; try lia; cbn; [reflexivity|]. rewrite !app_length. cbn [length]. lia. Qed.
Lemma turned_ring : forall g msg p, length (rs_s g) = length (rs_ring g) -> (In p (rs_ring (turned C msg g)) <-> In p (rs_ring g)).
Proof.
  intros [[|p ring] [|s ss] e] msg q N; cbn [rs_ring rs_s length] in N; try lia; cbn [turned rs_ring rs_s]; [reflexivity|]. rewrite in_app_iff. cbn [In]. tauto.
Qed.
Lemma turned_many : forall n g msg, length (rs_s g) = length (rs_ring g) -> ring_verify C g msg = Ok true ->
  let g' := Nat.iter n (turned C msg) g in
  length (rs_s g') = length (rs_ring g') /\ ring_verify C g' msg = Ok true /\ (forall p, In p (rs_ring g') <-> In p (rs_ring g)).
Proof.
  intros n g msg N V. induction n as [|n (I1 & I2 & I3)]; [split; [exact N|]; split; [exact V|]; reflexivity|]. cbv zeta. cbn [Nat.iter nat_rect].
  split; [apply turned_length; exact I1|]. split; [apply turned_verifies; assumption|]. intro p. rewrite turned_ring by exact I1. apply I3.
Qed.
Lemma turned_ring_is : forall n g msg, length (rs_s g) = length (rs_ring g) -> n <= length (rs_ring g) ->
  rs_ring (Nat.iter n (turned C msg) g) = skipn n (rs_ring g) ++ firstn n (rs_ring g) /\
  rs_s (Nat.iter n (turned C msg) g) = skipn n (rs_s g) ++ firstn n (rs_s g).
Proof.
  intros n g msg N. assert (R : forall A n (l : list A), n < length l -> exists x, skipn n l = x :: skipn (S n) l /\ firstn (S n) l = firstn n l ++ [x]).
  { intros A m l. revert m. induction l as [|x l IH]; intros [|m] M; cbn [length] in M; try lia; [exists x; split; reflexivity|].
    destruct (IH m) as (y & E1 & E2); [lia|]. exists y. cbn [skipn firstn app] in *. split; [exact E1|]. rewrite E2. reflexivity. }
  induction n as [|n IH]; intro M; [cbn [Nat.iter nat_rect skipn firstn]; rewrite !app_nil_r; split; reflexivity|].
  destruct IH as (I1 & I2); [lia|]. cbn [Nat.iter nat_rect]. set (h := Nat.iter n (turned C msg) g) in *. change (nat_rect (fun _ => ringsig C) g (fun _ => turned C msg) n) with h.
  destruct (R _ n (rs_ring g)) as (p & P1 & P2); [lia|]. destruct (R _ n (rs_s g)) as (s & S1 & S2); [lia|].
  rewrite P1 in I1. rewrite S1 in I2. cbn [app] in I1, I2. unfold turned. rewrite I1, I2. cbn [rs_ring rs_s].
  rewrite P2, S2. rewrite !app_assoc. split; reflexivity.
Qed.
Lemma turned_opens : forall n (l : lock) (g : ringsig C), length (rs_s g) = length (rs_ring g) -> unlock l g = Ok tt ->
  unlock l (Nat.iter n (turned C (hash_string (lk_hash l))) g) = Ok tt.
Proof.
  intros n l g N H. apply unlock_iff in H as (K & V). destruct (turned_many n g _ N V) as (_ & V' & I). apply unlock_iff. split; [|exact V'].
  intro k. rewrite (K k). split; intros (p & P & E); exists p; (split; [apply I; exact P|exact E]).
Qed.
Lemma longer_opens : forall more (l : lock) (g : ringsig C), unlock l g = Ok tt -> unlock l (longer C g more) = Ok tt.
Proof. intros more l g H. apply unlock_iff in H as (K & V). apply unlock_iff. split; [exact K|]. apply longer_verifies. exact V. Qed.

(** *** Expenses *)
Lemma b64_length : forall n l, length l <= n -> length (b64_encode l) = 4 * ((length l + 2) / 3).
Proof.
  induction n as [|n IH]; intros l H.
  - destruct l; [reflexivity|cbn [length] in H; lia].
  - destruct l as [|a [|b [|c l]]]; try reflexivity. cbn [b64_encode length] in *. rewrite (IH l) by lia.
    replace (S (S (S (length l))) + 2) with (length l + 2 + 1 * 3) by lia. rewrite Nat.div_add by lia. lia.
Qed.
Lemma longer_text : forall g more, more <> [] -> length (ring_string C g) < length (ring_string C (longer C g more)).
Proof.
  intros g more N. unfold ring_string, longer. cbn [rs_ring rs_s rs_e]. rewrite map_app, concat_app, !(b64_length _ _ (le_n _)), !app_length.
  destruct more as [|s more]; [contradiction|]. cbn [map concat]. rewrite !app_length. cbn [length].
  assert (SS : forall t, length (sstr C t) = 64) by (intro t; unfold sstr; rewrite hex_encode_length, (senc_len _ _ _ _ L); reflexivity). rewrite !SS.
  set (X := length (concat (map (fun p => pstr C p ++ [barsep]) (rs_ring g)))). set (Y := length (concat (map (fun s0 => sstr C s0 ++ [barsep]) (rs_s g)))).
  set (W := length (concat (map (fun s0 => sstr C s0 ++ [barsep]) more))). clearbody X Y W.
  apply Nat.mul_lt_mono_pos_l; [lia|].
  match goal with |- ?a / 3 < ?b / 3 => assert (M : a + 1 * 3 <= b) by lia; set (u := a) in *; set (w := b) in *; clearbody u w end.
  apply (Nat.div_le_mono _ _ 3) in M; [|lia]. rewrite Nat.div_add in M by lia. lia.
Qed.
Lemma expense_changed : forall now ct g rest (x : expense) now' more, expense_now now (Some ct) (Some (g :: rest)) = Ok x -> hash64 (ct_hash ct) -> more <> [] ->
  exists x', expense_now now' (Some ct) (Some (longer C g more :: rest)) = Ok x' /\ ex_content x' = ct /\
    (ex_hash x' = ex_hash x -> sha_collision (concat (ct_hash ct :: map (ring_string C) (longer C g more :: rest))) (concat (ct_hash ct :: map (ring_string C) (g :: rest)))).
Proof.
  intros now ct g rest x now' more H H64 N. apply expense_now_iff in H as (c & ss & Ec & Es & Ln & U & ->). injection Ec as <-. injection Es as <-.
  eexists. split; [apply expense_now_iff; exists ct, (longer C g more :: rest); split; [reflexivity|]; split; [reflexivity|]; split; [exact Ln|]; split; [|reflexivity]|].
  - apply unlock_all_iff in U; [|exact Ln]. apply unlock_all_iff; [exact Ln|]. inversion U as [|b s bs ss' U1 U2]; subst. constructor; [apply longer_opens; exact U1|exact U2].
  - split; [reflexivity|]. cbn [ex_hash ex_im im_hash]. unfold from_multi. intro E.
    pose proof (longer_text g more N) as T. assert (Q : 0 < length (ring_string C g)).
    { unfold ring_string. rewrite (b64_length _ _ (le_n _)), !app_length. cbn [length]. apply Nat.mul_pos_pos; [lia|].
      set (X := length (concat (map (fun p => pstr C p ++ [barsep]) (rs_ring g)))). clearbody X. apply Nat.div_str_pos. lia. }
    unfold hash64 in H64. apply from_bytes_inj_not64 in E as [E|E]; [|exact E| |].
    + exfalso. apply (f_equal (@length byte)) in E. cbn [map concat] in E. rewrite !app_length in E. lia.
    + cbn [map concat]. rewrite !app_length. lia.
    + cbn [map concat]. rewrite !app_length. lia.
Qed.

(** *** One scalar *)
Hypothesis SL : ScalarLaws C red zero sadd.
Hypothesis INJ : forall a b, red a -> red b -> public_key C a = public_key C b -> a = b.

Local Notation own := (owned C red zero).
Lemma sum_of : forall s e x, red s -> red e -> red x ->
  padd C (pmul C s (base C)) (pmul C e (pmul C x (base C))) = pmul C (sadd s (smul C e x)) (base C).
Proof. intros s e x S E X. rewrite (pmul_mul _ _ _ _ L) by assumption. apply (padd_base _ _ _ _ L); [exact S|apply (red_mul _ _ _ _ L)]. Qed.
Lemma sum_s : forall s s' e p, own p -> red s -> red s' -> red e ->
  padd C (pmul C s (base C)) (pmul C e p) = padd C (pmul C s' (base C)) (pmul C e p) -> s = s'.
Proof.
  intros s s' e p (x & X & _ & <-) S S' E H. rewrite !sum_of in H by assumption.
  destruct (ssub_sadd _ _ _ _ SL s (smul C e x) S (red_mul _ _ _ _ L e x)) as (R1 & Q1). destruct (ssub_sadd _ _ _ _ SL s' (smul C e x) S' (red_mul _ _ _ _ L e x)) as (R2 & Q2).
  apply INJ in H; [|exact R1|exact R2]. rewrite <- Q1, <- Q2, H. reflexivity.
Qed.
Hypothesis MUL : forall e e' x, red e -> red e' -> red x -> x <> zero -> smul C e x = smul C e' x -> e = e'.
Hypothesis ADD : forall s a b, red s -> red a -> red b -> sadd s a = sadd s b -> a = b.
Lemma sum_e : forall s e e' p, own p -> red s -> red e -> red e' ->
  padd C (pmul C s (base C)) (pmul C e p) = padd C (pmul C s (base C)) (pmul C e' p) -> e = e'.
Proof.
  intros s e e' p (x & X & N & <-) S E E' H. rewrite !sum_of in H by assumption.
  destruct (ssub_sadd _ _ _ _ SL s (smul C e x) S (red_mul _ _ _ _ L e x)) as (R1 & _). destruct (ssub_sadd _ _ _ _ SL s (smul C e' x) S (red_mul _ _ _ _ L e' x)) as (R2 & _).
  apply INJ in H; [|exact R1|exact R2]. apply ADD in H; [|exact S|apply (red_mul _ _ _ _ L)|apply (red_mul _ _ _ _ L)]. apply (MUL e e' x); assumption.
Qed.
Definition meet (msg : bytes) (ring : list (Pt C)) (ss1 ss2 : list (Sc C)) (e1 e2 : Sc C) : Prop :=
  exists j u v, nth_error (hashed C msg ring ss1 e1) j = Some u /\ nth_error (hashed C msg ring ss2 e2) j = Some v /\ challenge_collision C u v.
Lemma meet_S : forall msg p ring s1 ss1 s2 ss2 e1 e2, meet msg ring ss1 ss2 (link C msg s1 e1 p) (link C msg s2 e2 p) -> meet msg (p :: ring) (s1 :: ss1) (s2 :: ss2) e1 e2.
Proof. intros msg p ring s1 ss1 s2 ss2 e1 e2 (j & u & v & A & B & D). exists (S j), u, v. split; [exact A|]. split; [exact B|exact D]. Qed.
Lemma links_differ : forall msg p s1 s2 e1 e2, padd C (pmul C s1 (base C)) (pmul C e1 p) <> padd C (pmul C s2 (base C)) (pmul C e2 p) ->
  link C msg s1 e1 p = link C msg s2 e2 p -> forall ring ss1 ss2, meet msg (p :: ring) (s1 :: ss1) (s2 :: ss2) e1 e2.
Proof.
  intros msg p s1 s2 e1 e2 D E ring ss1 ss2. exists 0. eexists. eexists. split; [reflexivity|]. split; [reflexivity|]. split; [|exact E].
  intro X. apply app_inv_head in X. apply D. apply (pstr_inj _ _ _ _ L). exact X.
Qed.
Lemma link_red : forall msg s e p, red (link C msg s e p). Proof. intros. apply (red_ofb _ _ _ _ L). Qed.
Lemma fold_e : forall msg ring ss e1 e2 r, Forall own ring -> Forall red ss -> red e1 -> red e2 -> e1 <> e2 ->
  ring_fold C msg ring ss e1 = Ok r -> ring_fold C msg ring ss e2 = Ok r -> meet msg ring ss ss e1 e2.
Proof.
  intros msg ring. induction ring as [|p ring IH]; intros [|s ss] e1 e2 r O R E1 E2 D H1 H2; cbn [ring_fold] in *; try discriminate H1.
  - exfalso. apply D. congruence.
  - exfalso. apply D. congruence.
  - apply Forall_cons_iff in O as (Op & O). apply Forall_cons_iff in R as (Rs & R).
    destruct (seqb C (link C msg s e1 p) (link C msg s e2 p)) eqn:Q.
    + apply (seqb_eq _ _ _ _ L) in Q. apply links_differ; [|exact Q]. intro X. apply D. apply (sum_e s e1 e2 p); assumption.
    + apply meet_S. apply (IH ss _ _ r); try assumption; try apply link_red. intro X. apply (seqb_eq _ _ _ _ L) in X. congruence.
Qed.
Lemma fold_s : forall msg ring ss i s' s e r, Forall own ring -> Forall red ss -> red s' -> red e -> i < length ring -> nth_error ss i = Some s -> s <> s' ->
  ring_fold C msg ring ss e = Ok r -> ring_fold C msg ring (firstn i ss ++ s' :: skipn (S i) ss) e = Ok r -> meet msg ring ss (firstn i ss ++ s' :: skipn (S i) ss) e e.
Proof.
  intros msg ring. induction ring as [|p ring IH]; intros [|t ss] i s' s e r O R R' E I N D H1 H2; cbn [length] in I; try lia; [destruct i; discriminate N|].
  apply Forall_cons_iff in O as (Op & O). apply Forall_cons_iff in R as (Rt & R). destruct i as [|i].
  - cbn [nth_error] in N. injection N as ->. cbn [firstn skipn app ring_fold] in *.
    destruct (seqb C (link C msg s e p) (link C msg s' e p)) eqn:Q.
    + apply (seqb_eq _ _ _ _ L) in Q. apply links_differ; [|exact Q]. intro X. apply D. apply (sum_s s s' e p); assumption.
    + apply meet_S. apply (fold_e msg ring ss _ _ r); try assumption; try apply link_red. intro X. apply (seqb_eq _ _ _ _ L) in X. congruence.
  - cbn [nth_error] in N. cbn [firstn app ring_fold] in *. change (skipn (S (S i)) (t :: ss)) with (skipn (S i) ss) in *. apply meet_S.
    apply (IH ss i s' s _ r); try assumption; [apply link_red|lia].
Qed.
Lemma one_scalar : forall msg g i s s', Forall own (rs_ring g) -> Forall red (rs_s g) -> red s' -> i < length (rs_ring g) ->
  nth_error (rs_s g) i = Some s -> s <> s' -> ring_verify C g msg = Ok true ->
  let g' := RingSig (rs_ring g) (firstn i (rs_s g) ++ s' :: skipn (S i) (rs_s g)) (rs_e g) in
  ring_verify C g' msg = Ok true -> collide C msg g g'.
Proof.
  intros msg [ring ss e] i s s' O R R' I N D V g' V'. unfold g', ring_verify in *. cbn [rs_ring rs_s rs_e] in *.
  apply rbind_Ok in V as (r & F & V). injection V as V. apply (seqb_eq _ _ _ _ L) in V. subst r.
  apply rbind_Ok in V' as (r & F' & V'). injection V' as V'. apply (seqb_eq _ _ _ _ L) in V'. subst r.
  assert (E : red e).
  { assert (NE : ring <> []) by (intros ->; cbn [length] in I; lia). destruct (ring_fold_last C msg ring ss e e NE F) as (-> & _). apply (red_ofb _ _ _ _ L). }
  unfold collide. cbn [rs_ring rs_s rs_e]. exact (fold_s msg ring ss i s' s e e O R R' E I N D F F').
Qed.
End Laws.
