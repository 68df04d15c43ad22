(** Proofs about signatures. *)
From Coq Require Import Lia ZifyBool ZifyNat ZifyN.
From Verif Require Import Base BaseFacts HashModel HashProofs SignModel SignSpec.

Section Lists.
  Context {A : Type}.
  Lemma upd_length : forall (l : list A) i v, length (upd i v l) = length l.
  Proof. induction l as [|a l IH]; intros [|i] v; cbn; auto. Qed.
  Lemma nth_upd_eq : forall (l : list A) i v d, i < length l -> nth i (upd i v l) d = v.
  Proof. induction l as [|a l IH]; intros [|i] v d H; cbn in *; try lia; auto. apply IH. lia. Qed.
  Lemma nth_upd_neq : forall (l : list A) i j v d, i <> j -> nth j (upd i v l) d = nth j l d.
  Proof.
    induction l as [|a l IH]; intros [|i] [|j] v d H; cbn; try lia; auto.
  Qed.
  Lemma nth_repeat_none : forall n i, nth i (repeat (@None A) n) None = None.
  Proof. induction n as [|n IH]; intros [|i]; cbn; auto. Qed.
  Lemma all_some_ok : forall (l : list (option A)),
    (forall i, i < length l -> exists a, nth i l None = Some a) ->
    exists r, all_some l = Ok r /\ length r = length l /\ forall i a, nth i l None = Some a -> nth_error r i = Some a.
  Proof.
    induction l as [|[a|] l IH]; intro H.
    - exists []. repeat split. intros [|i] a; discriminate.
    - destruct IH as (r & E & L & N).
      { intros i Hi. apply (H (S i)). cbn. lia. }
      exists (a :: r). cbn. rewrite E, L. repeat split. intros [|i] b; cbn; [congruence|apply N].
    - destruct (H 0) as [a Ha]; [cbn; lia|]. discriminate.
  Qed.
End Lists.

(** split on texts with one-byte separators *)
Lemma split_sections3 : forall sep a b c, ~ In sep a -> ~ In sep b -> ~ In sep c ->
  split sep (a ++ [sep] ++ b ++ [sep] ++ c) = [a; b; c].
Proof.
  intros sep a b c Ha Hb Hc. cbn [app]. rewrite split_app by exact Ha. rewrite split_app by exact Hb.
  rewrite split_none by exact Hc. reflexivity.
Qed.

Lemma split_elements : forall sep ws, (forall w, In w ws -> ~ In sep w) ->
  split sep (concat (map (fun w => w ++ [sep]) ws)) = ws ++ [[]].
Proof.
  intros sep. induction ws as [|w ws IH]; intro H; [reflexivity|].
  cbn [map concat]. rewrite <- app_assoc. cbn [app]. rewrite split_app by (apply H; left; reflexivity).
  rewrite IH; [reflexivity|]. intros w' Hw. apply H. right. exact Hw.
Qed.

Lemma lowhex_sep : forall h b, Forall is_lowhex h -> b = x23 \/ b = x7c -> ~ In b h.
Proof.
  intros h b H Hb Hin. rewrite Forall_forall in H. apply H in Hin.
  destruct Hb; subst b; unfold is_lowhex, b2n in Hin; cbn in Hin; lia.
Qed.

Section Proofs.
  Variable C : Curve.
  Notation Sca := (Sc C).
  Notation Poi := (Pt C).

  Lemma pstr_sep : forall p b, b = x23 \/ b = x7c -> ~ In b (pstr C p).
  Proof. intros. apply lowhex_sep; [apply hex_encode_lowhex|assumption]. Qed.
  Lemma sstr_sep : forall s b, b = x23 \/ b = x7c -> ~ In b (sstr C s).
  Proof. intros. apply lowhex_sep; [apply hex_encode_lowhex|assumption]. Qed.

  Variable red : Sca -> Prop.
  Variable zero : Sca.
  Variable sadd : Sca -> Sca -> Sca.
  Variable laws : CurveLaws C red zero sadd.

  Lemma pstr_length : forall p, length (pstr C p) = 64.
  Proof. intro p. unfold pstr. rewrite hex_encode_length, (penc_len _ _ _ _ laws). reflexivity. Qed.
  Lemma pstr_inj : forall p q, pstr C p = pstr C q -> p = q.
  Proof.
    intros p q H. apply hex_encode_inj in H. apply (f_equal (pdec C)) in H.
    rewrite !(pdec_penc _ _ _ _ laws) in H. congruence.
  Qed.
  Lemma point_of_pstr : forall p, point_of_string C (pstr C p) = Ok p.
  Proof.
    intro p. unfold point_of_string, pstr. rewrite hex_decode_encode. cbn [rbind].
    rewrite (pdec_penc _ _ _ _ laws). reflexivity.
  Qed.
  Lemma scalar_of_sstr : forall s, red s -> scalar_of_string C (sstr C s) = Ok s.
  Proof.
    intros s Hs. unfold scalar_of_string, sstr. rewrite hex_decode_encode. cbn [rbind].
    rewrite (sdec_senc _ _ _ _ laws) by exact Hs. reflexivity.
  Qed.

  (** ** RingSign *)
  Lemma signer_index_some : forall ring pk i, signer_index C ring pk = Some i -> nth_error ring i = Some pk.
  Proof.
    induction ring as [|q ring IH]; intros pk i H; cbn in H; [discriminate|].
    destruct (peqb C q pk) eqn:E.
    - injection H as <-. apply (peqb_eq _ _ _ _ laws) in E. subst. reflexivity.
    - destruct (signer_index C ring pk) as [j|] eqn:Ej; [|discriminate]. cbn in H. injection H as <-.
      cbn. apply IH. exact Ej.
  Qed.
  Lemma signer_index_none : forall ring pk, signer_index C ring pk = None <-> ~ In pk ring.
  Proof.
    induction ring as [|q ring IH]; intro pk; cbn; [split; auto|].
    destruct (peqb C q pk) eqn:E.
    - apply (peqb_eq _ _ _ _ laws) in E. subst. split; [discriminate|]. intro H. exfalso. apply H. left. reflexivity.
    - assert (NE : q <> pk).
      { intro X. apply (peqb_eq _ _ _ _ laws) in X. congruence. }
      specialize (IH pk). destruct (signer_index C ring pk); cbn; split; intro H.
      + discriminate.
      + exfalso. assert (Some n = None) by (apply IH; tauto). discriminate.
      + intros [X|X]; [contradiction|]. apply IH in X; auto.
      + reflexivity.
  Qed.

  (** links of the ring *)
  Definition linked (msg : bytes) (ring : list Poi) (es ss : list (option Sca)) (i : nat) : Prop :=
    exists s e p, nth i ss None = Some s /\ nth i es None = Some e /\ nth_error ring i = Some p /\
      nth ((i + 1) mod length ring) es None = Some (link C msg s e p).

  Definition idx (signer r d : nat) : nat := (signer + 1 + d) mod r.

  Lemma idx_inj : forall signer r d d', d < r -> d' < r -> idx signer r d = idx signer r d' -> d = d'.
  Proof.
    intros signer r d d' Hd Hd' H. unfold idx in H.
    pose proof (Nat.div_mod (signer + 1 + d) r ltac:(lia)) as E1.
    pose proof (Nat.div_mod (signer + 1 + d') r ltac:(lia)) as E2.
    rewrite H in E1. remember ((signer + 1 + d) / r) as q1. remember ((signer + 1 + d') / r) as q2.
    remember ((signer + 1 + d') mod r) as m. clear - Hd Hd' E1 E2.
    assert (q1 = q2 \/ q1 < q2 \/ q2 < q1) as [->|[L|L]] by lia; [lia|nia|nia].
  Qed.
  Lemma idx_lt : forall signer r d, 0 < r -> idx signer r d < r.
  Proof. intros. apply Nat.mod_upper_bound. lia. Qed.
  Lemma idx_succ : forall signer r d, 0 < r -> (idx signer r d + 1) mod r = idx signer r (d + 1).
  Proof.
    intros. unfold idx. rewrite Nat.add_mod_idemp_l by lia. f_equal. lia.
  Qed.
  Lemma idx_last : forall signer r, signer < r -> idx signer r (r - 1) = signer.
  Proof.
    intros signer r H. unfold idx. replace (signer + 1 + (r - 1)) with (signer + 1 * r) by lia.
    rewrite Nat.mod_add by lia. apply Nat.mod_small. exact H.
  Qed.
  Lemma idx_surj : forall signer r i, signer < r -> i < r -> exists d, d < r /\ idx signer r d = i.
  Proof.
    intros signer r i Hs Hi. unfold idx. destruct (Nat.lt_ge_cases signer i) as [L|L].
    - exists (i - signer - 1). split; [lia|]. replace (signer + 1 + (i - signer - 1)) with i by lia.
      apply Nat.mod_small. exact Hi.
    - exists (i + r - signer - 1). split; [lia|]. replace (signer + 1 + (i + r - signer - 1)) with (i + 1 * r) by lia.
      rewrite Nat.mod_add by lia. apply Nat.mod_small. exact Hi.
  Qed.

  Lemma ring_loop_ok : forall signer x msg ring, signer < length ring ->
    let r := length ring in
    forall n d es ss, d + n = r - 1 -> length es = r -> length ss = r ->
    (exists e, nth (idx signer r 0) es None = Some e) ->
    (forall d', d' < d -> linked msg ring es ss (idx signer r d')) ->
    (forall d', d' <= d -> exists e, nth (idx signer r d') es None = Some e) ->
    forall fuel, n <= fuel ->
    exists es' ss', ring_loop C fuel (idx signer r d) signer r x msg ring es ss = Ok (es', ss') /\
      length es' = r /\ length ss' = r /\
      nth (idx signer r 0) es' None = nth (idx signer r 0) es None /\
      (forall d', d' < r - 1 -> linked msg ring es' ss' (idx signer r d')) /\
      (forall d', d' <= r - 1 -> exists e, nth (idx signer r d') es' None = Some e).
  Proof.
    intros signer x msg ring Hs r. induction n as [|n IH]; intros d es ss Hd Le Ls He0 Hl He fuel Hf.
    - assert (d = r - 1) by lia. subst d. exists es, ss.
      replace (idx signer r (r - 1)) with signer by (symmetry; apply idx_last; exact Hs).
      destruct fuel; cbn [ring_loop]; rewrite Nat.eqb_refl; repeat split; auto.
    - destruct fuel as [|fuel]; [lia|]. cbn [ring_loop].
      assert (r > 0) by (unfold r; lia).
      assert (NE : idx signer r d <> signer).
      { intro E. rewrite <- (idx_last signer r Hs) in E at 2. apply idx_inj in E; lia. }
      destruct (Nat.eqb_spec (idx signer r d) signer) as [|_]; [contradiction|].
      destruct (nth_error ring (idx signer r d)) as [p|] eqn:Ep.
      2:{ apply nth_error_None in Ep. pose proof (idx_lt signer r d). unfold r in *. lia. }
      destruct (He d (le_n d)) as [e Ee]. rewrite Ee. cbv zeta. rewrite idx_succ by assumption.
      set (s := gen_k C x (msg ++ itoa (Z.of_nat (idx signer r d)))).
      set (es1 := upd (idx signer r (d + 1)) (Some (link C msg s e p)) es).
      set (ss1 := upd (idx signer r d) (Some s) ss).
      assert (Keep : forall d', d' <= d -> nth (idx signer r d') es1 None = nth (idx signer r d') es None).
      { intros d' Hd'. unfold es1. apply nth_upd_neq. intro E. apply idx_inj in E; lia. }
      assert (KeepS : forall d', d' < d -> nth (idx signer r d') ss1 None = nth (idx signer r d') ss None).
      { intros d' Hd'. unfold ss1. apply nth_upd_neq. intro E. apply idx_inj in E; lia. }
      assert (New : nth (idx signer r (d + 1)) es1 None = Some (link C msg s e p)).
      { unfold es1. apply nth_upd_eq. rewrite Le. apply idx_lt. assumption. }
      destruct (IH (d + 1) es1 ss1) with (fuel := fuel) as (es' & ss' & R1 & R2 & R3 & R4 & R5 & R6); try lia.
      + unfold es1. rewrite upd_length. exact Le.
      + unfold ss1. rewrite upd_length. exact Ls.
      + rewrite Keep by lia. exact He0.
      + intros d' Hd'. destruct (Nat.eq_dec d' d) as [->|NE'].
        * exists s, e, p. split; [unfold ss1; apply nth_upd_eq; rewrite Ls; apply idx_lt; assumption|].
          split; [rewrite Keep by lia; exact Ee|]. split; [exact Ep|].
          fold r. rewrite idx_succ by assumption. exact New.
        * destruct (Hl d') as (s' & e' & p' & L1 & L2 & L3 & L4); [lia|].
          exists s', e', p'. rewrite KeepS by lia. rewrite Keep by lia. repeat split; auto.
          fold r in L4 |- *. rewrite idx_succ in * by assumption. rewrite Keep by lia. exact L4.
      + intros d' Hd'. destruct (Nat.eq_dec d' (d + 1)) as [->|NE'].
        * eauto.
        * rewrite Keep by lia. apply He. lia.
      + exists es', ss'. rewrite R4. rewrite Keep by lia. repeat split; auto.
  Qed.

  Lemma ring_fold_linked : forall msg ring es ss (sl : list Sca),
    (forall i, i < length ring -> linked msg ring es ss i) ->
    (forall i s, nth i ss None = Some s -> nth_error sl i = Some s) ->
    forall n i e, i + n = length ring -> nth (i mod length ring) es None = Some e -> i < length ring ->
    exists e', ring_fold C msg (skipn i ring) (skipn i sl) e = Ok e' /\ nth 0 es None = Some e'.
  Proof.
    intros msg ring es ss sl Hl Hs. induction n as [|n IH]; intros i e Hi He Hlt; [lia|].
    destruct (Hl i Hlt) as (s & e1 & p & L1 & L2 & L3 & L4).
    rewrite Nat.mod_small in He by exact Hlt. rewrite He in L2. injection L2 as <-.
    assert (SR : skipn i ring = p :: skipn (S i) ring).
    { clear - L3. revert i L3. induction ring as [|q ring IH]; intros [|i] H; cbn in *; try discriminate; [congruence|].
      apply IH. exact H. }
    assert (SS : skipn i sl = s :: skipn (S i) sl).
    { apply Hs in L1. clear - L1. revert i L1. induction sl as [|q sl IH]; intros [|i] H; cbn in *; try discriminate; [congruence|].
      apply IH. exact H. }
    rewrite SR, SS. cbn [ring_fold].
    destruct (Nat.eq_dec (S i) (length ring)) as [E|NE].
    - replace (i + 1) with (length ring) in L4 by lia. rewrite Nat.mod_same in L4 by lia.
      rewrite E, skipn_all. cbn [ring_fold]. eauto.
    - apply (IH (S i)); try lia. replace (S i) with (i + 1) by lia. exact L4.
  Qed.

  Lemma ring_sign_verifies : forall x msg ring, red x -> In (public_key C x) ring ->
    exists sig, ring_sign C x msg ring = Ok sig /\ rs_ring sig = ring /\
      length (rs_s sig) = length ring /\ ring_verify C sig msg = Ok true.
  Proof.
    intros x msg ring Hx Hin. unfold ring_sign.
    destruct (signer_index C ring (public_key C x)) as [signer|] eqn:Esig.
    2:{ apply signer_index_none in Esig. contradiction. }
    pose proof (signer_index_some _ _ _ Esig) as Hpk.
    assert (Hs : signer < length ring) by (apply nth_error_Some; congruence).
    set (r := length ring) in *. set (k := gen_k C x msg).
    set (e0 := create_hash C (msg ++ pstr C (pmul C k (base C)))).
    assert (Ib : (signer + 1) mod r = idx signer r 0) by (unfold idx; f_equal; lia).
    assert (r > 0) by lia.
    pose proof (idx_lt signer r 0 ltac:(lia)) as L0.
    rewrite Ib.
    destruct (ring_loop_ok signer x msg ring Hs (r - 1) 0 (upd (idx signer r 0) (Some e0) (repeat None r)) (repeat None r))
      with (fuel := r) as (es' & ss' & R1 & R2 & R3 & R4 & R5 & R6); fold r; try lia.
    - rewrite upd_length. apply repeat_length.
    - apply repeat_length.
    - exists e0. apply nth_upd_eq. rewrite repeat_length. exact L0.
    - intros d' Hd'. replace d' with 0 by lia. exists e0. apply nth_upd_eq. rewrite repeat_length. exact L0.
    - fold r in R1. rewrite R1. cbn [rbind]. clear R1.
      rewrite nth_upd_eq in R4 by (rewrite repeat_length; exact L0). fold r in R2, R3, R4, R5, R6.
      destruct (R6 (r - 1)) as [e Ee]; [lia|]. rewrite idx_last in Ee by exact Hs. rewrite Ee.
      set (ss1 := upd signer (Some (ssub C k (smul C e x))) ss').
      assert (Hlink : forall i, i < r -> linked msg ring es' ss1 i).
      { intros i Hi. destruct (idx_surj signer r i Hs Hi) as (d & Hd & <-).
        destruct (Nat.eq_dec d (r - 1)) as [->|NE].
        - rewrite idx_last by exact Hs. exists (ssub C k (smul C e x)), e, (public_key C x).
          split; [apply nth_upd_eq; lia|]. split; [exact Ee|]. split; [exact Hpk|].
          fold r. rewrite Ib, R4. f_equal. unfold e0, link. f_equal. f_equal. f_equal. unfold public_key.
          assert (red e).
          { destruct (Nat.eq_dec r 1) as [R1|R1].
            - replace signer with (idx signer r 0) in Ee by (unfold idx; rewrite R1; replace signer with 0 by lia; reflexivity).
              rewrite R4 in Ee. injection Ee as <-. apply (red_ofb _ _ _ _ laws).
            - destruct (R5 (r - 2)) as (s' & e' & p' & _ & _ & _ & L4); [lia|].
              fold r in L4. rewrite idx_succ in L4 by lia. replace (r - 2 + 1) with (r - 1) in L4 by lia.
              rewrite idx_last in L4 by exact Hs. rewrite Ee in L4. injection L4 as ->. apply (red_ofb _ _ _ _ laws). }
          rewrite (pmul_mul _ _ _ _ laws) by assumption.
          rewrite (padd_base _ _ _ _ laws) by (apply (red_sub _ _ _ _ laws) || apply (red_mul _ _ _ _ laws)).
          rewrite (sadd_ssub _ _ _ _ laws); [reflexivity|apply (red_ofb _ _ _ _ laws)|apply (red_mul _ _ _ _ laws)].
        - destruct (R5 d) as (s' & e' & p' & L1 & L2 & L3 & L4); [lia|].
          exists s', e', p'. repeat split; auto. unfold ss1. rewrite nth_upd_neq; [exact L1|].
          intro E. rewrite <- (idx_last signer r Hs) in E at 1. apply idx_inj in E; lia. }
      destruct (nth 0 es' None) as [ez|] eqn:Ez.
      2:{ destruct (idx_surj signer r 0 Hs) as (d & Hd & E); [lia|]. destruct (R6 d) as [q Q]; [lia|].
          rewrite E in Q. congruence. }
      destruct (all_some_ok ss1) as (sl & A1 & A2 & A3).
      { intros i Hi. unfold ss1 in Hi. rewrite upd_length in Hi. destruct (Hlink i) as (s & _ & _ & S1 & _); [lia|]. eauto. }
      rewrite A1. cbn [rbind]. eexists. split; [reflexivity|]. cbn [rs_ring rs_s rs_e].
      split; [reflexivity|]. split; [rewrite A2; unfold ss1; rewrite upd_length; exact R3|].
      unfold ring_verify. cbn [rs_ring rs_s rs_e].
      destruct (ring_fold_linked msg ring es' ss1 sl Hlink A3 r 0 ez) as (e' & F1 & F2); try (fold r; lia).
      { rewrite Nat.mod_0_l by lia. exact Ez. }
      cbn [skipn] in F1. rewrite F1. cbn [rbind]. rewrite F2 in Ez. injection Ez as ->.
      f_equal. apply (seqb_eq _ _ _ _ laws). reflexivity.
  Qed.


  Lemma ring_sign_outside : forall x msg ring, ~ In (public_key C x) ring -> ring_sign C x msg ring = Err.
  Proof.
    intros x msg ring H. unfold ring_sign. apply signer_index_none in H. rewrite H. reflexivity.
  Qed.

  (** scalars of a ring signature are reduced *)
  Lemma ring_loop_red : forall fuel i signer r x msg ring es ss es' ss',
    ring_loop C fuel i signer r x msg ring es ss = Ok (es', ss') ->
    (forall j s, nth j es None = Some s -> red s) -> (forall j s, nth j ss None = Some s -> red s) ->
    (forall j s, nth j es' None = Some s -> red s) /\ (forall j s, nth j ss' None = Some s -> red s).
  Proof.
    induction fuel as [|fuel IH]; intros i signer r x msg ring es ss es' ss' H He Hs; cbn [ring_loop] in H.
    - destruct (Nat.eqb i signer); [|discriminate]. injection H as <- <-. auto.
    - destruct (Nat.eqb i signer); [injection H as <- <-; auto|].
      destruct (nth_error ring i) as [p|]; [|discriminate]. destruct (nth i es None) as [e|]; [|discriminate].
      assert (U : forall (l : list (option Sca)) n v, red v -> (forall j s, nth j l None = Some s -> red s) ->
                  forall j s, nth j (upd n (Some v) l) None = Some s -> red s).
      { intros l n v Hv Hl j s. destruct (Nat.eq_dec n j) as [->|NE].
        - destruct (Nat.lt_ge_cases j (length l)).
          + rewrite nth_upd_eq by assumption. intro E. injection E as <-. exact Hv.
          + rewrite nth_overflow by (rewrite upd_length; lia). discriminate.
        - rewrite nth_upd_neq by exact NE. apply Hl. }
      apply IH in H; [exact H| |]; apply U; auto; apply (red_ofb _ _ _ _ laws).
  Qed.

  Lemma ring_sign_reduced : forall x msg ring sig, ring_sign C x msg ring = Ok sig ->
    red (rs_e sig) /\ Forall red (rs_s sig).
  Proof.
    intros x msg ring sig H. unfold ring_sign in H.
    destruct (signer_index C ring (public_key C x)) as [signer|]; [|discriminate].
    apply rbind_Ok in H as ([es ss] & H1 & H2).
    assert (U : forall (l : list (option Sca)) n v, red v -> (forall j s, nth j l None = Some s -> red s) ->
                  forall j s, nth j (upd n (Some v) l) None = Some s -> red s).
    { intros l n v Hv Hl j s. destruct (Nat.eq_dec n j) as [->|NE].
      - destruct (Nat.lt_ge_cases j (length l)).
        + rewrite nth_upd_eq by assumption. intro E. injection E as <-. exact Hv.
        + rewrite nth_overflow by (rewrite upd_length; lia). discriminate.
      - rewrite nth_upd_neq by exact NE. apply Hl. }
    apply ring_loop_red in H1 as [R1 R2].
    2:{ apply U; [apply (red_ofb _ _ _ _ laws)|]. intros j s. rewrite nth_repeat_none. discriminate. }
    2:{ intros j s. rewrite nth_repeat_none. discriminate. }
    destruct (nth signer es None) as [e|] eqn:Ee; [|discriminate].
    destruct (nth 0 es None) as [e0|] eqn:E0; [|discriminate].
    apply rbind_Ok in H2 as (sl & A & H2). injection H2 as <-. cbn [rs_e rs_s]. split; [apply (R1 _ _ E0)|].
    assert (R3 : forall j s, nth j (upd signer (Some (ssub C (gen_k C x msg) (smul C e x))) ss) None = Some s -> red s).
    { apply U; [apply (red_sub _ _ _ _ laws)|exact R2]. }
    clear - A R3. revert sl A R3. generalize (upd signer (Some (ssub C (gen_k C x msg) (smul C e x))) ss).
    induction l as [|[a|] l IH]; intros sl A R; cbn in A; [injection A as <-; constructor| |discriminate].
    apply rbind_Ok in A as (sl' & A1 & A2). injection A2 as <-. constructor; [apply (R 0); reflexivity|].
    apply IH; [exact A1|]. intros j s. apply (R (S j)).
  Qed.

  (** ** Verification *)
  Lemma ring_fold_last : forall msg ring ss e e', ring <> [] -> ring_fold C msg ring ss e = Ok e' ->
    e' = create_hash C (last_input C msg ring ss e) /\
    exists q, last_input C msg ring ss e = msg ++ pstr C q.
  Proof.
    intros msg. induction ring as [|p ring IH]; intros ss e e' NE H; [contradiction|].
    destruct ss as [|s ss]; [discriminate|]. cbn [ring_fold last_input] in *.
    destruct ring as [|p2 ring].
    - injection H as <-. split; [reflexivity|]. eexists. reflexivity.
    - apply (IH ss (link C msg s e p)); [discriminate|exact H].
  Qed.

  Lemma verify_two_messages : forall sig m1 m2, rs_ring sig <> [] ->
    ring_verify C sig m1 = Ok true -> ring_verify C sig m2 = Ok true ->
    m1 = m2 \/ challenge_collision C (last_input C m1 (rs_ring sig) (rs_s sig) (rs_e sig))
                                     (last_input C m2 (rs_ring sig) (rs_s sig) (rs_e sig)).
  Proof.
    intros sig m1 m2 NE V1 V2. unfold ring_verify in V1, V2.
    apply rbind_Ok in V1 as (e1 & F1 & V1). apply rbind_Ok in V2 as (e2 & F2 & V2).
    injection V1 as V1. injection V2 as V2.
    apply (seqb_eq _ _ _ _ laws) in V1. apply (seqb_eq _ _ _ _ laws) in V2.
    apply ring_fold_last in F1 as (F1 & q1 & Q1); [|exact NE].
    apply ring_fold_last in F2 as (F2 & q2 & Q2); [|exact NE].
    destruct (bytes_eq_dec m1 m2) as [->|D]; [left; reflexivity|right].
    split; [|congruence].
    rewrite Q1, Q2. intro E. apply D. eapply app_inj_len_r in E; [apply E|].
    rewrite !pstr_length. reflexivity.
  Qed.

  Lemma empty_ring_verifies : forall ss e msg, ring_verify C (RingSig [] ss e) msg = Ok true.
  Proof.
    intros ss e msg. unfold ring_verify. cbn [rs_ring rs_s rs_e ring_fold rbind]. f_equal.
    apply (seqb_eq _ _ _ _ laws). reflexivity.
  Qed.

  Lemma ring_verify_panics : forall sig msg, length (rs_s sig) < length (rs_ring sig) ->
    ring_verify C sig msg = Panic.
  Proof.
    intros [ring ss e] msg. cbn [rs_ring rs_s]. intro L. unfold ring_verify. cbn [rs_ring rs_s rs_e].
    assert (F : ring_fold C msg ring ss e = Panic).
    { revert ss e L. induction ring as [|p ring IH]; intros [|s ss] e L; cbn in *; try lia; [reflexivity|].
      apply IH. lia. }
    rewrite F. reflexivity.
  Qed.

  (** ** ToVerification *)

  Lemma key_hash_ok : forall p, FromString (pstr C p) = Ok (from_bytes (penc C p)).
  Proof. intro p. rewrite FromString_from_string. unfold from_string, pstr. rewrite hex_decode_encode. reflexivity. Qed.

  Lemma compare_keys_iff : forall ring hs, length hs = length ring ->
    compare_keys C ring hs = if list_eq_dec bytes_eq_dec hs (map (fun p => from_bytes (penc C p)) ring)
                             then Ok true else Err.
  Proof.
    induction ring as [|p ring IH]; intros [|h hs] L; try discriminate; [reflexivity|].
    cbn [compare_keys map]. rewrite key_hash_ok. cbn [rbind]. injection L as L. rewrite IH by exact L.
    destruct (compare (from_bytes (penc C p)) h) eqn:E.
    - apply compare_eq in E. subst h.
      destruct (list_eq_dec bytes_eq_dec hs _) as [->|NE]; destruct (list_eq_dec bytes_eq_dec (_ :: _) _) as [X|X]; auto.
      + exfalso. apply X. reflexivity.
      + injection X as X. contradiction.
    - destruct (list_eq_dec bytes_eq_dec (_ :: _) _) as [X|X]; [|reflexivity].
      injection X as X _. subst h. assert (compare (from_bytes (penc C p)) (from_bytes (penc C p)) = true) by (apply compare_eq; reflexivity).
      congruence.
  Qed.

  Lemma to_verification_iff : forall sig msg hs,
    (to_verification C sig msg hs = Ok true <->
     ring_verify C sig msg = Ok true /\ hs = map (fun p => from_bytes (penc C p)) (rs_ring sig)) /\
    to_verification C sig msg hs <> Ok false.
  Proof.
    intros sig msg hs. unfold to_verification. destruct (ring_verify C sig msg) as [[|]| |]; cbn [rbind negb].
    - destruct (Nat.eqb_spec (length hs) (length (rs_ring sig))) as [L|L]; cbn [negb].
      + rewrite compare_keys_iff by exact L. destruct (list_eq_dec bytes_eq_dec hs _) as [E|E]; split; try discriminate; split; intro H; auto.
        * discriminate.
        * destruct H. contradiction.
      + split; [|discriminate]. split; [discriminate|]. intros [_ ->]. rewrite map_length in L. contradiction.
    - split; [|discriminate]. split; [discriminate|]. intros [X _]. discriminate.
    - split; [|discriminate]. split; [discriminate|]. intros [X _]. discriminate.
    - split; [|discriminate]. split; [discriminate|]. intros [X _]. discriminate.
  Qed.

  (** ** Text of ring signatures *)
  Lemma elements_nonempty : forall {A} (dec : bytes -> res A) (enc : A -> bytes) (l : list A),
    (forall a, In a l -> dec (enc a) = Ok a) -> (forall a, In a l -> enc a <> []) ->
    elements dec (map enc l ++ [[]]) = Ok l.
  Proof.
    intros A dec enc. induction l as [|a l IH]; intros Hd Hn; [reflexivity|].
    cbn [map app elements]. destruct (enc a) as [|b0 w0] eqn:E; [exfalso; apply (Hn a); [left; reflexivity|exact E]|].
    rewrite <- E, Hd by (left; reflexivity). cbn [rbind]. rewrite IH; [reflexivity| |].
    - intros b Hb. apply Hd. right. exact Hb.
    - intros b Hb. apply Hn. right. exact Hb.
  Qed.

  Lemma hex_nonempty : forall b, length b = 32 -> hex_encode b <> [].
  Proof. intros b L E. apply (f_equal (@length byte)) in E. rewrite hex_encode_length, L in E. discriminate. Qed.

  Lemma in_concat_sep : forall {A} (enc : A -> bytes) l b, b <> x7c -> (forall a, ~ In b (enc a)) ->
    ~ In b (concat (map (fun a => enc a ++ [barsep]) l)).
  Proof.
    intros A enc l b Hb He H. apply in_concat in H as (w & Hw & Hin). apply in_map_iff in Hw as (a & <- & _).
    apply in_app_or in Hin as [Hin|[Hin|[]]]; [exact (He a Hin)|]. unfold barsep in Hin. congruence.
  Qed.

  Lemma ring_of_ring_string : forall sig, red (rs_e sig) -> Forall red (rs_s sig) ->
    ring_of_string C (ring_string C sig) = Ok sig.
  Proof.
    intros [ring ss e] He Hs. cbn [rs_e rs_s] in *. unfold ring_of_string, ring_string. cbn [rs_ring rs_s rs_e].
    rewrite b64_decode_encode. cbn [rbind].
    rewrite split_sections3.
    - rewrite <- (map_map (pstr C) (fun w => w ++ [barsep])).
      rewrite split_elements by (intros w Hw; apply in_map_iff in Hw as (p & <- & _); apply pstr_sep; auto).
      rewrite elements_nonempty; cbn [rbind].
      2:{ intros p _. apply point_of_pstr. }
      2:{ intros p _. apply hex_nonempty. apply (penc_len _ _ _ _ laws). }
      rewrite <- (map_map (sstr C) (fun w => w ++ [barsep])).
      rewrite split_elements by (intros w Hw; apply in_map_iff in Hw as (p & <- & _); apply sstr_sep; auto).
      rewrite elements_nonempty; cbn [rbind].
      2:{ intros s Hin. apply scalar_of_sstr. rewrite Forall_forall in Hs. apply Hs. exact Hin. }
      2:{ intros s _. apply hex_nonempty. apply (senc_len _ _ _ _ laws). }
      rewrite scalar_of_sstr by exact He. reflexivity.
    - apply in_concat_sep; [discriminate|]. intro p. apply pstr_sep. auto.
    - apply in_concat_sep; [discriminate|]. intro s. apply sstr_sep. auto.
    - apply sstr_sep. auto.
  Qed.

  (** ** Plain signatures *)
  Lemma verify_tautology : forall rnd k s, red k -> red s ->
    create_hash C (itoa rnd ++ pstr C (pmul C k (base C))) <> zero ->
    sig_verify C rnd (Sig (pmul C k (base C)) s) = true.
  Proof.
    intros rnd k s Hk Hs NZ. unfold sig_verify, sig_public_key. cbn [sg_r sg_s]. apply (peqb_eq _ _ _ _ laws).
    set (e := create_hash C (itoa rnd ++ pstr C (pmul C k (base C)))) in *.
    assert (red e) by apply (red_ofb _ _ _ _ laws).
    rewrite (psub_base _ _ _ _ laws) by assumption.
    rewrite (pmul_mul _ _ _ _ laws) by (apply (red_inv _ _ _ _ laws) || apply (red_sub _ _ _ _ laws)).
    rewrite (pmul_mul _ _ _ _ laws) by (assumption || apply (red_mul _ _ _ _ laws)).
    rewrite (smul_inv _ _ _ _ laws) by (assumption || apply (red_sub _ _ _ _ laws)).
    rewrite (psub_base _ _ _ _ laws) by (assumption || apply (red_sub _ _ _ _ laws)).
    rewrite (ssub_ssub _ _ _ _ laws) by assumption. reflexivity.
  Qed.

  Lemma sign_recovers : forall rnd x msg, red x ->
    let r := pmul C (gen_k C x msg) (base C) in
    create_hash C (itoa rnd ++ pstr C r) <> zero -> create_hash C (msg ++ pstr C r) <> zero ->
    exists g, sign C rnd x msg = Ok g /\ sg_r g = r /\ red (sg_s g) /\ sig_public_key C g msg = public_key C x.
  Proof.
    intros rnd x msg Hx r NZ1 NZ2. unfold sign. cbv zeta. fold r. set (e := create_hash C (msg ++ pstr C r)) in *.
    set (k := gen_k C x msg) in *.
    assert (red k) by apply (red_ofb _ _ _ _ laws). assert (red e) by apply (red_ofb _ _ _ _ laws).
    assert (Rs : red (ssub C k (smul C e x))) by apply (red_sub _ _ _ _ laws).
    unfold create_signature. rewrite (verify_tautology rnd k _) by assumption.
    eexists. split; [reflexivity|]. split; [reflexivity|]. split; [exact Rs|].
    unfold sig_public_key. cbn [sg_r sg_s]. fold e. unfold r.
    rewrite (psub_base _ _ _ _ laws) by assumption.
    rewrite (ssub_ssub _ _ _ _ laws) by (assumption || apply (red_mul _ _ _ _ laws)).
    rewrite (pmul_mul _ _ _ _ laws) by (apply (red_inv _ _ _ _ laws) || apply (red_mul _ _ _ _ laws)).
    rewrite (sinv_mul _ _ _ _ laws) by assumption. reflexivity.
  Qed.

  Lemma sig_of_sig_string : forall rnd k s, red k -> red s ->
    create_hash C (itoa rnd ++ pstr C (pmul C k (base C))) <> zero ->
    sig_of_string C rnd (sig_string C (Sig (pmul C k (base C)) s)) = Ok (Sig (pmul C k (base C)) s).
  Proof.
    intros rnd k s Hk Hs NZ. unfold sig_of_string, sig_string. cbn [sg_r sg_s].
    rewrite b64_decode_encode. cbn [rbind app].
    rewrite split_app by (apply pstr_sep; auto). rewrite split_none by (apply sstr_sep; auto).
    rewrite point_of_pstr. cbn [rbind]. rewrite scalar_of_sstr by exact Hs. cbn [rbind].
    unfold create_signature. rewrite verify_tautology by assumption. reflexivity.
  Qed.

  (** a decoded plain signature always passed Verify *)
  Lemma key_strings : forall x p, red x ->
    scalar_of_string C (sstr C x) = Ok x /\ point_of_string C (pstr C p) = Ok p.
  Proof. intros. split; [apply scalar_of_sstr; assumption|apply point_of_pstr]. Qed.
End Proofs.
