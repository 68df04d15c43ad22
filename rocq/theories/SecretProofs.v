(** Proofs about what signatures reveal. *)
From Coq Require Import Lia ZifyBool ZifyNat ZifyN.
From Verif Require Import Base BaseFacts HashModel HashProofs SignModel SignSpec SignProofs SecretSpec ToyCurve.

Section Proofs.
Variable C : Curve.
Variable red : Sc C -> Prop.
Variable zero : Sc C.
Variable sadd : Sc C -> Sc C -> Sc C.
Variable laws : CurveLaws C red zero sadd.
Variable slaws : ScalarLaws C red zero sadd.

Lemma place_index : forall ring x i, signer_index C ring (public_key C x) = Some i <-> place C ring x i.
Proof.
  induction ring as [|q ring IH]; intros x i; cbn [signer_index].
  - split; [discriminate|]. intros [H _]. destruct i; discriminate H.
  - destruct (peqb C q (public_key C x)) eqn:E.
    + apply (peqb_eq _ _ _ _ laws) in E. subst q. split.
      * intro H. injection H as <-. split; [reflexivity|]. intros j Hj. lia.
      * intros [H1 H2]. destruct i as [|i]; [reflexivity|]. exfalso. apply (H2 0); [lia|reflexivity].
    + assert (N : q <> public_key C x) by (intro X; apply (peqb_eq _ _ _ _ laws) in X; congruence). split.
      * intro H. destruct (signer_index C ring (public_key C x)) as [k|] eqn:K; [|discriminate]. injection H as <-.
        apply IH in K as [K1 K2]. split; [exact K1|]. intros [|j] Hj; cbn; [unfold public_key in N; congruence|]. apply K2. lia.
      * intros [H1 H2]. destruct i as [|i]; [cbn in H1; unfold public_key in N; congruence|].
        assert (P : place C ring x i) by (split; [exact H1|]; intros j Hj; apply (H2 (S j)); lia).
        apply IH in P. rewrite P. reflexivity.
Qed.

(** ** what RingSign publishes *)
Lemma loop_answers : forall fuel i signer r x msg ring es ss es' ss',
  ring_loop C fuel i signer r x msg ring es ss = Ok (es', ss') ->
  (forall j s, nth j ss None = Some s -> s = gen_k C x (msg ++ itoa (Z.of_nat j))) ->
  forall j s, nth j ss' None = Some s -> s = gen_k C x (msg ++ itoa (Z.of_nat j)).
Proof.
  induction fuel as [|fuel IH]; intros i signer r x msg ring es ss es' ss' H Hs; cbn [ring_loop] in H.
  - destruct (Nat.eqb i signer); [|discriminate]. injection H as <- <-. exact Hs.
  - destruct (Nat.eqb i signer); [injection H as <- <-; exact Hs|].
    destruct (nth_error ring i) as [p|]; [|discriminate]. destruct (nth i es None) as [e|]; [|discriminate].
    refine (IH _ _ _ _ _ _ _ _ _ _ H _). intros j s Hj. destruct (Nat.eq_dec i j) as [->|NE].
    + destruct (Nat.lt_ge_cases j (length ss)) as [L|L].
      * rewrite nth_upd_eq in Hj by exact L. congruence.
      * rewrite nth_overflow in Hj by (rewrite upd_length; exact L). discriminate.
    + rewrite nth_upd_neq in Hj by exact NE. apply Hs. exact Hj.
Qed.
Lemma all_some_nth : forall A (l : list (option A)) r, all_some l = Ok r -> length r = length l /\ forall i a, nth_error r i = Some a <-> nth i l None = Some a.
Proof.
  intros A. induction l as [|[a|] l IH]; intros r H; cbn in H; [injection H as <-; split; [reflexivity|]; intros [|i] b; cbn; split; discriminate| |discriminate].
  apply rbind_Ok in H as (r' & H & X). injection X as <-. destruct (IH r' H) as [L N]. split; [cbn; lia|].
  intros [|i] b; cbn; [split; congruence|apply N].
Qed.
Lemma challenges_next : forall msg ring ss e n e1 p s, nth_error (challenges C msg ring ss e) n = Some e1 ->
  nth_error ring n = Some p -> nth_error ss n = Some s -> S n < length ring -> S n < length ss ->
  nth_error (challenges C msg ring ss e) (S n) = Some (link C msg s e1 p).
Proof.
  intros msg. induction ring as [|q ring IH]; intros ss e n e1 p s H Hp Hs L1 L2; [destruct n; discriminate|].
  destruct ss as [|t ss]; [destruct n; discriminate|]. destruct n as [|n]; cbn [nth_error challenges] in *.
  - injection H as <-. injection Hp as <-. injection Hs as <-. destruct ring as [|q' ring]; [cbn in L1; lia|]. destruct ss as [|t' ss]; [cbn in L2; lia|]. reflexivity.
  - apply IH; try assumption; cbn in *; lia.
Qed.
Lemma challenges_walk : forall msg ring es ss sl e0, length sl = length ring -> nth 0 es None = Some e0 -> 0 < length ring ->
  forall n, n < length ring -> (forall i, i < n -> linked C msg ring es ss i) ->
  (forall i s, nth i ss None = Some s -> i < n -> nth_error sl i = Some s) ->
  nth_error (challenges C msg ring sl e0) n = nth n es None.
Proof.
  intros msg ring es ss sl e0 L E0 P. induction n as [|n IH]; intros Hn Hl Hs.
  - rewrite E0. destruct ring as [|q ring]; [cbn in P; lia|]. destruct sl as [|t sl]; [discriminate|]. reflexivity.
  - destruct (Hl n) as (s & e & p & S1 & S2 & S3 & S4); [lia|]. rewrite Nat.mod_small in S4 by lia. replace (n + 1) with (S n) in S4 by lia.
    rewrite S4. apply challenges_next; try lia; [|exact S3|apply Hs; [exact S1|lia]].
    rewrite IH; [exact S2|lia|intros; apply Hl; lia|intros; apply Hs; [assumption|lia]].
Qed.

Lemma ring_published : forall x msg ring g, ring_sign C x msg ring = Ok g ->
  rs_ring g = ring /\ length (rs_s g) = length ring /\
  exists i e, place C ring x i /\ i < length ring /\ red e /\ challenge_at C msg g i = Some e /\
    nth_error (rs_s g) i = Some (ssub C (gen_k C x msg) (smul C e x)) /\
    forall j, j < length ring -> j <> i -> nth_error (rs_s g) j = Some (gen_k C x (msg ++ itoa (Z.of_nat j))).
Proof.
  intros x msg ring g H. pose proof H as H0. unfold ring_sign in H.
  destruct (signer_index C ring (public_key C x)) as [signer|] eqn:Esig; [|discriminate].
  pose proof (signer_index_some C red zero sadd laws _ _ _ Esig) as Hpk.
  assert (Hs : signer < length ring) by (apply nth_error_Some; congruence).
  set (r := length ring) in *. set (k := gen_k C x msg) in *.
  set (e0 := create_hash C (msg ++ pstr C (pmul C k (base C)))) in *.
  assert (Ib : (signer + 1) mod r = idx signer r 0) by (unfold idx; f_equal; lia).
  pose proof (idx_lt signer r 0 ltac:(lia)) as L0. rewrite Ib in H.
  destruct (ring_loop_ok C signer x msg ring Hs (r - 1) 0 (upd (idx signer r 0) (Some e0) (repeat None r)) (repeat None r))
    with (fuel := r) as (es & ss & R1 & R2 & R3 & R4 & R5 & R6); fold r; try lia.
  - rewrite upd_length. apply repeat_length.
  - apply repeat_length.
  - exists e0. apply nth_upd_eq. rewrite repeat_length. exact L0.
  - intros d' Hd'. replace d' with 0 by lia. exists e0. apply nth_upd_eq. rewrite repeat_length. exact L0.
  - fold r in R1. pose proof R1 as R1'. rewrite R1 in H. cbn [rbind] in H. fold r in R2, R3, R4, R5, R6.
    assert (A0 : forall j s, nth j ss None = Some s -> s = gen_k C x (msg ++ itoa (Z.of_nat j))).
    { apply (loop_answers _ _ _ _ _ _ _ _ _ _ _ R1). intros j s. rewrite nth_repeat_none. discriminate. }
    assert (Red : forall j s, nth j es None = Some s -> red s).
    { apply (ring_loop_red C red zero sadd laws) in R1' as [Q _]; [exact Q| |intros j s; rewrite nth_repeat_none; discriminate].
      intros j s. destruct (Nat.eq_dec (idx signer r 0) j) as [<-|NE].
      - rewrite nth_upd_eq by (rewrite repeat_length; exact L0). intro X. injection X as <-. apply (red_ofb _ _ _ _ laws).
      - rewrite nth_upd_neq by exact NE. rewrite nth_repeat_none. discriminate. }
    destruct (nth signer es None) as [e|] eqn:Ee; [|discriminate].
    destruct (nth 0 es None) as [ez|] eqn:Ez; [|discriminate].
    apply rbind_Ok in H as (sl & A & H). injection H as <-. cbn [rs_ring rs_s rs_e].
    apply all_some_nth in A as [LA NA]. rewrite upd_length in LA.
    split; [reflexivity|]. split; [lia|]. exists signer, e. split; [apply place_index; exact Esig|]. split; [exact Hs|].
    split; [exact (Red _ _ Ee)|]. split; [|split].
    + unfold challenge_at. cbn [rs_ring rs_s rs_e].
      rewrite (challenges_walk msg ring es ss sl ez); try (fold r; lia); try exact Ee; try exact Ez.
      * intros i Hi. destruct (idx_surj signer r i Hs ltac:(lia)) as (d & Hd & Ed). rewrite <- Ed. apply R5.
        assert (d <> r - 1); [|lia]. intro X. subst d. rewrite idx_last in Ed by exact Hs. lia.
      * intros i s Hi Li. apply NA. rewrite nth_upd_neq by lia. exact Hi.
    + apply NA. apply nth_upd_eq. lia.
    + intros j Hj NE. destruct (nth_error sl j) as [s|] eqn:Es; [|apply nth_error_None in Es; lia].
      apply NA in Es. rewrite nth_upd_neq in Es by congruence. apply A0 in Es. congruence.
Qed.
Lemma place_unique : forall ring x i j, place C ring x i -> place C ring x j -> i = j.
Proof. intros ring x i j Hi Hj. apply place_index in Hi, Hj. congruence. Qed.

(** ** the key *)
Lemma key_from_two : forall x k e1 e2, red x -> red k -> red e1 -> red e2 -> e1 <> e2 ->
  key_from C (ssub C k (smul C e1 x)) e1 (ssub C k (smul C e2 x)) e2 = x.
Proof.
  intros x k e1 e2 X K E1 E2 N. unfold key_from.
  rewrite (ssub_same _ _ _ _ slaws) by (try assumption; apply (red_mul _ _ _ _ laws)).
  rewrite (ssub_smul _ _ _ _ slaws) by assumption. apply (sinv_mul _ _ _ _ laws); [apply (red_sub _ _ _ _ laws)|exact X|].
  intro Z. apply (ssub_zero _ _ _ _ slaws) in Z; congruence.
Qed.
Lemma reveal_rings : forall x msg ring1 ring2 g1 g2 i1 i2, red x ->
  ring_sign C x msg ring1 = Ok g1 -> ring_sign C x msg ring2 = Ok g2 -> place C ring1 x i1 -> place C ring2 x i2 ->
  challenge_at C msg g1 i1 <> challenge_at C msg g2 i2 -> key_of_rings C msg g1 g2 i1 i2 = Some x.
Proof.
  intros x msg ring1 ring2 g1 g2 i1 i2 X H1 H2 P1 P2 N.
  apply ring_published in H1 as (_ & _ & j1 & e1 & Q1 & _ & Re1 & C1 & S1 & _). apply ring_published in H2 as (_ & _ & j2 & e2 & Q2 & _ & Re2 & C2 & S2 & _).
  rewrite (place_unique _ _ _ _ P1 Q1), (place_unique _ _ _ _ P2 Q2) in *. unfold key_of_rings. rewrite S1, C1, S2, C2 in *. f_equal.
  apply key_from_two; try assumption; [apply (red_ofb _ _ _ _ laws)|congruence].
Qed.
(** rings of two *)
Lemma ring_two : forall x y msg g, ring_sign C x msg [public_key C x; public_key C y] = Ok g ->
  challenge_at C msg g 0 = Some (link C msg (gen_k C x (msg ++ itoa 1)) (create_hash C (msg ++ pstr C (public_key C (gen_k C x msg)))) (public_key C y)).
Proof.
  intros x y msg g H. unfold ring_sign in H. cbn [signer_index] in H. rewrite (proj2 (peqb_eq _ _ _ _ laws _ _) eq_refl) in H.
  cbn [length Nat.add Nat.modulo Nat.divmod fst snd Nat.sub upd repeat ring_loop Nat.eqb nth_error nth rbind all_some] in H. injection H as <-. reflexivity.
Qed.
Lemma reveal_two : (forall a b, red a -> red b -> public_key C a = public_key C b -> a = b) ->
  forall x y1 y2 msg g1 g2, red x -> red y1 -> red y2 -> y1 <> y2 ->
  ring_sign C x msg [public_key C x; public_key C y1] = Ok g1 -> ring_sign C x msg [public_key C x; public_key C y2] = Ok g2 ->
  key_of_rings C msg g1 g2 0 0 = Some x \/ create_hash C (msg ++ pstr C (public_key C (gen_k C x msg))) = zero \/
  exists p1 p2, challenge_collision C (msg ++ pstr C p1) (msg ++ pstr C p2).
Proof.
  intros inj x y1 y2 msg g1 g2 X Y1 Y2 NY H1 H2. pose proof (ring_two _ _ _ _ H1) as C1. pose proof (ring_two _ _ _ _ H2) as C2.
  set (e := create_hash C (msg ++ pstr C (public_key C (gen_k C x msg)))) in *. set (s := gen_k C x (msg ++ itoa 1)) in *.
  destruct (seqb C e zero) eqn:EZ; [right; left; apply (seqb_eq _ _ _ _ laws); exact EZ|].
  assert (NZ : e <> zero) by (intro Q; apply (seqb_eq _ _ _ _ laws) in Q; congruence).
  assert (Re : red e) by apply (red_ofb _ _ _ _ laws). assert (Rs : red s) by apply (red_ofb _ _ _ _ laws).
  destruct (seqb C (link C msg s e (public_key C y1)) (link C msg s e (public_key C y2))) eqn:EL.
  - right. right. apply (seqb_eq _ _ _ _ laws) in EL. eexists; eexists. split; [|exact EL]. intro Q. apply app_inv_head in Q. apply (pstr_inj C red zero sadd laws) in Q.
    apply NY. unfold public_key in Q. rewrite !(pmul_mul _ _ _ _ laws) in Q by assumption.
    assert (M : forall y, red (smul C e y)) by (intro y; apply (red_mul _ _ _ _ laws)).
    rewrite !(padd_base _ _ _ _ laws) in Q by (exact Rs || apply M).
    destruct (ssub_sadd _ _ _ _ slaws s (smul C e y1) Rs (M y1)) as [A1 B1]. destruct (ssub_sadd _ _ _ _ slaws s (smul C e y2) Rs (M y2)) as [A2 B2].
    apply inj in Q; [|exact A1|exact A2].
    pose proof (ssub_ssub _ _ _ _ laws _ _ A1 (M y1)) as D1. pose proof (ssub_ssub _ _ _ _ laws _ _ A2 (M y2)) as D2. rewrite B1 in D1. rewrite B2 in D2. rewrite Q in D1.
    rewrite <- (sinv_mul _ _ _ _ laws e y1 Re Y1 NZ), <- (sinv_mul _ _ _ _ laws e y2 Re Y2 NZ). congruence.
  - left. apply (reveal_rings x msg _ _ g1 g2 0 0 X H1 H2); try (split; [reflexivity|intros j Hj; lia]).
    rewrite C1, C2. intro Q. injection Q as Q. apply (seqb_eq _ _ _ _ laws) in Q. congruence.
Qed.
Lemma reveal_both : forall rnd x msg ring g h i, red x -> sign C rnd x msg = Ok g -> ring_sign C x msg ring = Ok h -> place C ring x i ->
  challenge_at C msg h i <> Some (create_hash C (msg ++ pstr C (sg_r g))) -> key_of_both C msg g h i = Some x.
Proof.
  intros rnd x msg ring g h i X H1 H2 P N.
  apply ring_published in H2 as (_ & _ & j & e & Q & _ & Re & C2 & S2 & _). rewrite (place_unique _ _ _ _ P Q) in *.
  unfold sign, create_signature in H1. destruct (sig_verify C rnd _); [|discriminate]. injection H1 as <-. cbn [sg_r sg_s] in *.
  unfold key_of_both. cbn [sg_r sg_s]. rewrite S2, C2 in *. f_equal.
  apply key_from_two; try assumption; try apply (red_ofb _ _ _ _ laws). unfold pstr in N. congruence.
Qed.
Lemma reveal_number : forall rnd x msg ring h g i j, red x -> ring_sign C x msg ring = Ok h -> place C ring x i -> j < length ring -> j <> i ->
  sign C rnd x (msg ++ itoa (Z.of_nat j)) = Ok g -> create_hash C ((msg ++ itoa (Z.of_nat j)) ++ pstr C (sg_r g)) <> zero ->
  key_of_number C msg j h g = Some x.
Proof.
  intros rnd x msg ring h g i j X H P L N H2 Z.
  apply ring_published in H as (_ & _ & i' & e & Q & _ & _ & _ & _ & A). rewrite (place_unique _ _ _ _ P Q) in *.
  unfold sign, create_signature in H2. destruct (sig_verify C rnd _); [|discriminate]. injection H2 as <-. cbn [sg_r sg_s] in *.
  unfold key_of_number. cbn [sg_r sg_s]. rewrite (A j L N). f_equal. cbv zeta. fold (pstr C (pmul C (gen_k C x (msg ++ itoa (Z.of_nat j))) (base C))).
  rewrite (ssub_ssub _ _ _ _ laws) by (apply (red_ofb _ _ _ _ laws) || apply (red_mul _ _ _ _ laws)).
  apply (sinv_mul _ _ _ _ laws); [apply (red_ofb _ _ _ _ laws)|exact X|exact Z].
Qed.
(** nonces of messages of one length *)
Lemma behind_inj : forall a b, behind a = behind b -> a = b.
Proof.
  pose proof itoa_nonnil as N.
  intros [a|] [b|] H; cbn in H; try reflexivity; [apply itoa_inj in H; f_equal; lia|exfalso; exact (N _ H)|exfalso; symmetry in H; exact (N _ H)].
Qed.
Lemma nonces_differ : forall x m1 m2 o1 o2, length m1 = length m2 -> gen_k C x (m1 ++ behind o1) = gen_k C x (m2 ++ behind o2) ->
  m1 = m2 /\ o1 = o2 \/ challenge_collision C ((m1 ++ behind o1) ++ sstr C x) ((m2 ++ behind o2) ++ sstr C x).
Proof.
  intros x m1 m2 o1 o2 L H. destruct (list_eq_dec byte_eq_dec (m1 ++ behind o1) (m2 ++ behind o2)) as [E|N].
  - left. apply app_inj_len in E as [E1 E2]; [|exact L]. split; [exact E1|apply behind_inj; exact E2].
  - right. split; [|exact H]. intro E. apply N. apply app_inv_tail in E. exact E.
Qed.

(** ** the signer *)
Lemma same_answers : forall x msg ring1 ring2 g1 g2 i1 i2 j, ring_sign C x msg ring1 = Ok g1 -> ring_sign C x msg ring2 = Ok g2 ->
  place C ring1 x i1 -> place C ring2 x i2 -> j < length ring1 -> j < length ring2 -> j <> i1 -> j <> i2 ->
  nth_error (rs_s g1) j = nth_error (rs_s g2) j.
Proof.
  intros x msg ring1 ring2 g1 g2 i1 i2 j H1 H2 P1 P2 L1 L2 N1 N2.
  apply ring_published in H1 as (_ & _ & j1 & e1 & Q1 & _ & _ & _ & _ & A1). apply ring_published in H2 as (_ & _ & j2 & e2 & Q2 & _ & _ & _ & _ & A2).
  rewrite (place_unique _ _ _ _ P1 Q1), (place_unique _ _ _ _ P2 Q2) in *. rewrite A1, A2 by assumption. reflexivity.
Qed.
Lemma other_answers : forall x1 x2 msg ring1 ring2 g1 g2 i1 i2 j, red x1 -> red x2 -> x1 <> x2 ->
  ring_sign C x1 msg ring1 = Ok g1 -> ring_sign C x2 msg ring2 = Ok g2 ->
  place C ring1 x1 i1 -> place C ring2 x2 i2 -> j < length ring1 -> j < length ring2 -> j <> i1 -> j <> i2 ->
  nth_error (rs_s g1) j = nth_error (rs_s g2) j ->
  challenge_collision C ((msg ++ itoa (Z.of_nat j)) ++ sstr C x1) ((msg ++ itoa (Z.of_nat j)) ++ sstr C x2).
Proof.
  intros x1 x2 msg ring1 ring2 g1 g2 i1 i2 j R1 R2 NX H1 H2 P1 P2 L1 L2 N1 N2 E.
  apply ring_published in H1 as (_ & _ & j1 & e1 & Q1 & _ & _ & _ & _ & A1). apply ring_published in H2 as (_ & _ & j2 & e2 & Q2 & _ & _ & _ & _ & A2).
  rewrite (place_unique _ _ _ _ P1 Q1), (place_unique _ _ _ _ P2 Q2) in *. rewrite A1, A2 in E by assumption. injection E as E.
  split; [|exact E]. intro K. apply app_inv_head in K. apply (f_equal (scalar_of_string C)) in K.
  rewrite !(scalar_of_sstr C red zero sadd laws) in K by assumption. congruence.
Qed.
(** the equations of a signature fit every member *)
Lemma any_member : forall msg g i x e s, red (rs_e g) -> Forall red (rs_s g) -> red x -> nth_error (rs_ring g) i = Some (pmul C x (base C)) ->
  challenge_at C msg g i = Some e -> nth_error (rs_s g) i = Some s ->
  exists k, red k /\ s = ssub C k (smul C e x) /\ link C msg s e (pmul C x (base C)) = create_hash C (msg ++ pstr C (pmul C k (base C))).
Proof.
  intros msg g i x e s Re Rs X Hp He Hs.
  assert (E : red e).
  { unfold challenge_at in He. revert He Re. generalize (rs_e g) as e0. generalize (rs_s g) as ss. generalize (rs_ring g) as ring. clear - laws.
    intros ring ss e0. revert ss e0 i. induction ring as [|p ring IH]; intros [|s ss] e0 [|i] H R; try discriminate; cbn in H; [congruence|].
    apply IH in H; [exact H|apply (red_ofb _ _ _ _ laws)]. }
  assert (S : red s) by (rewrite Forall_forall in Rs; apply Rs; eapply nth_error_In; exact Hs).
  destruct (ssub_sadd _ _ _ _ slaws s (smul C e x) S (red_mul _ _ _ _ laws e x)) as [K1 K2].
  exists (sadd s (smul C e x)). split; [exact K1|]. split; [symmetry; exact K2|]. unfold link. do 3 f_equal.
  rewrite (pmul_mul _ _ _ _ laws) by assumption. apply (padd_base _ _ _ _ laws); [exact S|apply (red_mul _ _ _ _ laws)].
Qed.
End Proofs.

Lemma toy_scalars : ScalarLaws toy (fun _ => True) (mk 0) (fun a b => mk (v a + v b)).
Proof.
  constructor; cbn [Sc ssub smul toy].
  - intros k a b _ _ _. apply v_inj. rewrite !v_mk. rewrite <- Zminus_mod. f_equal. lia.
  - intros a b x _ _ _. apply v_inj. rewrite !v_mk. rewrite <- Zminus_mod, Zmult_mod_idemp_l. f_equal. lia.
  - intros a b _ _ H. apply (f_equal v) in H. rewrite !v_mk in H. apply v_inj. pose proof (v_range a). pose proof (v_range b).
    rewrite (Z.mod_small 0) in H by lia. apply Z.mod_divide in H; [|lia]. destruct H as [q H]. assert (q = 0%Z) by lia. lia.
  - intros s a _ _. split; [exact I|]. apply v_inj. rewrite !v_mk. rewrite Zminus_mod_idemp_l. replace (v s + v a - v a)%Z with (v s) by lia. apply Z.mod_small, v_range.
Qed.
