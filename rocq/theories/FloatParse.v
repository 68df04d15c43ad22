(** strconv.ParseFloat gives the nearest float64 number of a literal. *)
From Coq Require Import ZArith Lia ZifyBool ZifyNat ZifyN QArith Qabs Qpower Lqa SpecFloat.
From Verif Require Import Base FloatModel FloatFacts FloatRound JsonModel TimeModel TimeProofs FloatText FloatRead GrammarSpec GrammarProofs CalendarSpec CalendarProofs BaseFacts FloatSpec FloatValue.
Local Open Scope Z_scope.

(** ** Literals *)
Lemma decimal_value_nonneg : forall ds acc, Forall digit ds -> 0 <= acc -> 0 <= decimal_value acc ds.
Proof.
  induction ds as [|c ds IH]; intros acc F H; [exact H|]. cbn [decimal_value]. inversion F as [|? ? D F']; subst. apply IH; [exact F'|]. unfold digit in D. lia.
Qed.
Lemma whole_digits : forall i, whole i -> digits i.
Proof.
  intros i [->|(c & ds & H & F & ->)]; (split; [discriminate|]).
  - constructor; [unfold digit; cbn; lia|constructor].
  - constructor; [unfold digit; lia|exact F].
Qed.
Lemma literal_digits : forall t neg n e, literal t neg n e -> 0 <= n.
Proof.
  intros t neg n e (i & f & ds & x & k & Hi & Hf & _ & _ & -> & _). apply decimal_value_nonneg; [|lia]. apply Forall_app. split; [apply whole_digits; exact Hi|].
  destruct Hf as [[_ ->]|[[_ F] _]]; [constructor|exact F].
Qed.
Lemma number_literal : forall t, number t <-> exists neg n e, literal t neg n e.
Proof.
  intro t. split.
  - intros (sign & i & f & x & S & Hi & Hf & Hx & ->).
    assert (A : exists ds, fraction_digits f ds) by (destruct Hf as [->|(ds & D & ->)]; [exists []; left; auto|exists ds; right; auto]).
    assert (B : exists k, exponent_value x k).
    { destruct Hx as [->|(c & sg & ds & Hc & Hs & D & ->)]; [exists 0; left; auto|]. destruct Hs as [<-|[<-|[<-|[]]]].
      - exists (decimal_value 0 ds). right. exists c, [], ds. repeat split; auto; try apply D. left. split; [left; reflexivity|reflexivity].
      - exists (decimal_value 0 ds). right. exists c, [x2b], ds. repeat split; auto; try apply D. left. split; [right; left; reflexivity|reflexivity].
      - exists (- decimal_value 0 ds). right. exists c, [x2d], ds. repeat split; auto; try apply D. }
    destruct A as [ds A]. destruct B as [k B].
    destruct S as [<-|[<-|[]]]; [exists false|exists true]; eexists _, _; exists i, f, ds, x, k; repeat split; auto.
  - intros (neg & n & e & i & f & ds & x & k & Hi & Hf & Hx & -> & _). exists (minus neg), i, f, x. split; [destruct neg; cbn; auto|]. split; [exact Hi|]. split.
    { destruct Hf as [[-> _]|[D ->]]; [left; reflexivity|right; eauto]. }
    split; [|reflexivity]. destruct Hx as [[-> _]|(c & sg & d & Hc & D & -> & Hs)]; [left; reflexivity|right]. exists c, sg, d. split; [exact Hc|]. split; [|auto].
    destruct Hs as [[[<-|[<-|[]]] _]|[-> _]]; cbn; auto.
Qed.
Lemma forallb_digits : forall ds, Forall digit ds -> forallb is_digit_b ds = true.
Proof. intros ds F. apply forallb_forall. intros c Hc. apply digit_b. rewrite Forall_forall in F. auto. Qed.
Lemma span_whole : forall s r, Forall digit s -> no_digit r -> span_digits (s ++ r) = (s, r).
Proof.
  intros s [|c r] F N.
  - rewrite app_nil_r. induction F as [|c s D F IH]; [reflexivity|]. cbn [span_digits]. rewrite (proj2 (digit_b c) D), IH. reflexivity.
  - apply span_digits_app; [apply forallb_digits; exact F|exact N].
Qed.
Lemma digit_beq : forall c d, digit c -> ~ digit d -> beq c d = false.
Proof. intros c d H N. destruct (beq c d) eqn:E; [|reflexivity]. apply beq_eq in E. congruence. Qed.
Lemma not_digit : forall c, is_digit_b c = false -> ~ digit c.
Proof. intros c E D. apply digit_b in D. congruence. Qed.
Lemma parse_literal : forall t neg n e, literal t neg n e -> parse_dec t = Some (neg, n, e).
Proof.
  intros t neg n e (i & f & ds & x & k & Hi & Hf & Hx & -> & -> & ->). destruct (whole_digits i Hi) as [Ni Fi].
  unfold parse_dec.
  assert (E0 : (match minus neg ++ i ++ f ++ x with c :: _ => beq c x2d | [] => false end) = neg).
  { destruct neg; [reflexivity|]. destruct i as [|c i]; [contradiction|]. cbn [minus app]. inversion Fi; subst. apply digit_beq; [assumption|]. apply not_digit. reflexivity. }
  rewrite E0. assert (E1 : (if neg then tl (minus neg ++ i ++ f ++ x) else minus neg ++ i ++ f ++ x) = i ++ f ++ x) by (destruct neg; reflexivity).
  rewrite E1. clear E0 E1.
  assert (Fd : Forall digit ds) by (destruct Hf as [[_ ->]|[[_ F] _]]; [constructor|exact F]).
  assert (Nx : no_digit x /\ match x with [] => True | c :: _ => beq c x2e = false end).
  { destruct Hx as [[-> _]|(c & sg & d & Hc & _ & -> & _)]; [split; exact Logic.I|]. destruct Hc as [<-|[<-|[]]]; split; reflexivity. }
  assert (Nf : no_digit (f ++ x)).
  { destruct Hf as [[-> _]|[_ ->]]; [apply Nx|reflexivity]. }
  rewrite (span_whole i _ Fi Nf).
  assert (E2 : (match f ++ x with c :: t' => if beq c x2e then span_digits t' else ([], f ++ x) | [] => ([], []) end) = (ds, x)).
  { destruct Hf as [[-> ->]|[_ ->]]; cbn [app].
    - destruct x as [|c x]; [reflexivity|]. destruct Nx as [_ Nx]. rewrite Nx. reflexivity.
    - change (beq x2e x2e) with true. apply span_whole; [exact Fd|apply Nx]. }
  rewrite E2. clear E2. rewrite (proj2 (dvals_iff (i ++ ds) 0 _) (conj (proj2 (Forall_app _ _ _) (conj Fi Fd)) eq_refl)).
  destruct Hx as [[-> ->]|(c & sg & d & Hc & [Nd Dd] & -> & Hs)]; [reflexivity|]. clear Nx Nf.
  assert (Ed : dvals 0 d = Some (decimal_value 0 d)) by (apply dvals_iff; auto).
  destruct Hs as [[[<-|[<-|[]]] ->]|[-> ->]]; cbn [app].
  - destruct d as [|c' d]; [contradiction|]. inversion Dd; subst. rewrite !digit_beq by (assumption || (apply not_digit; reflexivity)). rewrite Ed. rewrite Z.mul_1_l. reflexivity.
  - change (beq x2b x2d) with false. change (beq x2b x2b) with true. cbn match. rewrite Ed, Z.mul_1_l. reflexivity.
  - change (beq x2d x2d) with true. cbn match. rewrite Ed. reflexivity.
Qed.

(** ** Values *)
Lemma dec_frac : forall n e, 0 <= n -> frac (decimal_number n e) (dec_num n e * 2 ^ 1074) (dec_den e).
Proof.
  intros n e H. rewrite <- unit_def. pose proof unit_pos as U. pose proof (dec_den_pos e) as D.
  assert (N : 0 <= dec_num n e) by (unfold dec_num; apply Z.mul_nonneg_nonneg; [exact H|apply Z.pow_nonneg; lia]).
  split; [nia|]. split; [exact D|]. rewrite !inject_Z_mult, Qmult_assoc. apply Qmult_comp; [|reflexivity].
  unfold decimal_number, dec_num, dec_den. rewrite inject_Z_mult, <- Qmult_assoc. apply Qmult_comp; [reflexivity|].
  destruct (Z.le_gt_cases 0 e) as [L|L].
  - rewrite (Z.max_r 0 e), (Z.max_l 0 (- e)) by lia. change (10 ^ 0)%Z with 1. rewrite Qmult_1_r. apply (qpow_int 10). exact L.
  - rewrite (Z.max_l 0 e), (Z.max_r 0 (- e)) by lia. change (10 ^ 0)%Z with 1. rewrite <- (qpow_int 10) by lia. change (inject_Z 10) with (10#1).
    rewrite <- Qpower_plus by discriminate. rewrite Z.add_opp_diag_r. reflexivity.
Qed.
Lemma aux_sign : forall m e l, negative (binary_round_aux 53 1024 false m e l) = false.
Proof.
  intros m e l. unfold binary_round_aux. destruct (shr_fexp 53 1024 m e l) as [a b]. destruct (shr_fexp 53 1024 _ b loc_Exact) as [c f].
  destruct (shr_m c); [reflexivity| |reflexivity]. destruct (Zle_bool f (1024 - 53)); reflexivity.
Qed.
Lemma float_of_dec_negative : forall n e, 0 <= n -> negative (float_of_dec false n e) = false.
Proof.
  intros n e H. destruct n as [|p|p]; [reflexivity| |lia]. cbn [float_of_dec]. destruct (0 <=? e) eqn:E.
  - assert (P : 0 < Z.pos p * 10 ^ e) by (apply Z.mul_pos_pos; [lia|]; apply Z.pow_pos_nonneg; lia).
    destruct (Z.pos p * 10 ^ e) as [|q|q] eqn:Q; try lia. cbn [binary_normalize Z.mul]. unfold binary_round.
    match goal with |- context [shl_align ?a ?b ?c] => destruct (shl_align a b c) as [u w] end. apply aux_sign.
  - cbn [SFdiv xorb]. match goal with |- context [SFdiv_core_binary ?a ?b ?c ?d ?f ?g] => destruct (SFdiv_core_binary a b c d f g) as [[u v] w] end. apply aux_sign.
Qed.
Lemma holds_sign_inj : forall x y v, holds x v -> holds y v -> negative x = false -> negative y = false -> x = y.
Proof.
  intros x y v Hx Hy Nx Ny. destruct (Z.eq_dec v 0) as [->|N].
  - assert (Zr : forall z, holds z 0 -> negative z = false -> z = S754_zero false).
    { intros z Hz Nz. inversion Hz as [s E1 E2|m e B E1 E2]; [subst z; cbn in Nz; congruence|].
      exfalso. apply bounded_iff in B. pose proof (units_pos m e ltac:(lia)). lia. }
    rewrite (Zr x Hx Nx), (Zr y Hy Ny). reflexivity.
  - pose proof (holds_pos _ _ Hx). apply (holds_inj x y v Hx Hy). lia.
Qed.
Lemma read_pos : forall n e x, 0 <= n -> negative x = false ->
  (read_as (decimal_number n e) x <-> float_of_dec false n e = x /\ float_number x).
Proof.
  intros n e x H Nx. pose proof (dec_frac n e H) as F. unfold read_as. rewrite (too_large_iff _ _ _ F).
  set (r := rndq (dec_num n e * 2 ^ 1074) (dec_den e)) in *.
  assert (X : (float_of_dec false n e = S754_infinity false /\ limit <= r) \/ holds (float_of_dec false n e) r).
  { destruct (Z.eq_dec n 0) as [->|N]; [|apply float_of_dec_pos; lia]. right. unfold r, dec_num. rewrite Z.mul_0_l. unfold rndq.
    rewrite Z.div_0_l by (pose proof (dec_den_pos e); lia). change (drop 0) with 0. change (2 ^ 0) with 1.
    replace 0 with (0 * (dec_den e * 1)) at 2 by lia. rewrite rhe_exact by (pose proof (dec_den_pos e); lia). apply (holds_zero false). }
  pose proof (float_of_dec_negative n e H) as Nf.
  split.
  - intros [L N]. assert (Lr : r < limit) by (apply Z.nle_gt; exact L). destruct X as [[_ X]|X]; [contradiction|].
    pose proof (proj1 (nearest_iff _ _ _ x F Lr) N) as Hx. fold r in Hx. split; [|apply (number_holds _ _ Hx)].
    apply (holds_sign_inj _ _ _ X Hx Nf Nx).
  - intros [E Fx]. destruct X as [[X _]|X]; [rewrite <- E, X in Fx; contradiction|]. rewrite E in X.
    assert (Lr : r < limit) by (apply (holds_below _ _ X)). split; [apply Z.nle_gt; exact Lr|]. apply (nearest_iff _ _ _ x F Lr). exact X.
Qed.

(** signs *)
Lemma opp_number : forall x, float_number (SFopp x) <-> float_number x.
Proof. intros [s|s| |s m e]; reflexivity. Qed.
Lemma opp_negative : forall x, float_number x -> negative (SFopp x) = negb (negative x).
Proof. intros [s|s| |s m e] H; try reflexivity; contradiction. Qed.
Lemma opp_magnitude : forall x, magnitude (SFopp x) = magnitude x.
Proof. intros [s|s| |s m e]; reflexivity. Qed.
Lemma opp_fvalue : forall x, float_number x -> (fvalue (SFopp x) == - fvalue x)%Q.
Proof. intros x H. unfold fvalue. rewrite (opp_negative x H), opp_magnitude. destruct (negative x); cbn [negb signed]; ring. Qed.
Lemma opp_even : forall x, even_float (SFopp x) <-> even_float x.
Proof. intros [s|s| |s m e]; reflexivity. Qed.
Lemma opp_opp : forall x, SFopp (SFopp x) = x.
Proof. intros [s|s| |s m e]; cbn [SFopp]; rewrite ?Bool.negb_involutive; reflexivity. Qed.
Lemma dist_opp : forall q r, (Qabs (- q - - r) == Qabs (q - r))%Q.
Proof. intros q r. assert (E : (- q - - r == - (q - r))%Q) by ring. rewrite E. apply Qabs_opp. Qed.
Lemma nearest_opp1 : forall q x, nearest q x -> nearest (- q) (SFopp x).
Proof.
  intros q x [F N]. split; [apply opp_number; exact F|]. intros y Hy. pose proof (proj2 (opp_number y) Hy) as Hy'. destruct (N (SFopp y) Hy') as [N1 N2].
  pose proof (opp_fvalue x F) as Ex. pose proof (opp_fvalue y Hy) as Ey. rewrite opp_even.
  assert (Ey' : (fvalue y == - fvalue (SFopp y))%Q) by (rewrite Ey; ring).
  rewrite Ex, Ey', !dist_opp. split; [exact N1|]. intro E. destruct (N2 E) as [Q|Q]; [left; rewrite Q; reflexivity|right; exact Q].
Qed.
Lemma nearest_compat : forall q r x, (q == r)%Q -> nearest q x -> nearest r x.
Proof.
  intros q r x E [F N]. split; [exact F|]. intros y Hy. destruct (N y Hy) as [N1 N2]. rewrite <- E. split; [exact N1|exact N2].
Qed.
Lemma nearest_opp : forall q x, nearest q x <-> nearest (- q) (SFopp x).
Proof.
  intros q x. split; [apply nearest_opp1|]. intro H. apply nearest_opp1 in H. rewrite opp_opp in H. apply (nearest_compat (- - q)); [ring|exact H].
Qed.
Lemma read_opp : forall q x, read_as q x <-> read_as (- q) (SFopp x).
Proof. intros q x. unfold read_as, too_large. rewrite Qabs_opp, <- nearest_opp. reflexivity. Qed.
Lemma read_compat : forall q r x, (q == r)%Q -> read_as q x -> read_as r x.
Proof. intros q r x E [L N]. split; [unfold too_large; rewrite <- E; exact L|apply (nearest_compat q); assumption]. Qed.
Lemma read_signed : forall neg n e x, 0 <= n -> negative x = neg ->
  (read_as (signed neg (decimal_number n e)) x <-> float_of_dec neg n e = x /\ float_number x).
Proof.
  intros [|] n e x H N; cbn [signed]; [|apply read_pos; assumption].
  assert (A : read_as (- decimal_number n e) x <-> read_as (decimal_number n e) (SFopp x)).
  { rewrite (read_opp (decimal_number n e) (SFopp x)), opp_opp. reflexivity. }
  rewrite A, (float_of_dec_sign true n e H). cbn [with_sign].
  assert (F : float_number x \/ ~ float_number x) by (destruct x; cbn; try (left; exact Logic.I); try (right; intros []; fail); try tauto; destruct (bounded 53 1024 m e0) eqn:B; [left|right]; rewrite <- bounded_iff; congruence).
  destruct F as [F|F].
  - assert (N' : negative (SFopp x) = false) by (rewrite (opp_negative x F), N; reflexivity).
    rewrite (read_pos n e _ H N'), opp_number. split; intros [E _]; (split; [|exact F]); [rewrite E; apply opp_opp|rewrite <- E, opp_opp; reflexivity].
  - split; [intros [_ [Q _]]; exfalso; apply F, (proj1 (opp_number x)); exact Q|intros [_ Q]; contradiction].
Qed.
(** ** strconv.ParseFloat *)
Theorem parse_float_iff : forall t x, number t -> (parse_float t = Ok x <->
  exists neg n e, literal t neg n e /\ negative x = neg /\ read_as (signed neg (decimal_number n e)) x).
Proof.
  intros t x H. apply number_literal in H as (neg & n & e & L). pose proof (parse_literal t neg n e L) as P. pose proof (literal_digits t neg n e L) as N0.
  unfold parse_float. rewrite P. split.
  - intro E. assert (Ex : float_of_dec neg n e = x /\ float_number x /\ negative x = neg).
    { destruct (Z.eq_dec n 0) as [->|Nz].
      { cbn [float_of_dec] in *. injection E as <-. repeat split. }
      rewrite (float_of_dec_sign neg n e N0) in *. pose proof (float_of_dec_negative n e N0) as Ng.
      destruct (float_of_dec_pos n e ltac:(lia)) as [[Q _]|Q]; [rewrite Q in E; destruct neg; discriminate E|].
      pose proof (number_holds _ _ Q) as Fn. destruct (float_of_dec false n e) as [s|s| |s m k]; try contradiction; cbn in Ng; subst s; destruct neg; cbn [with_sign SFopp negb] in *; injection E as <-; repeat split; apply Fn. }
    destruct Ex as (Ex & F & Ng). exists neg, n, e. split; [exact L|]. split; [exact Ng|]. apply read_signed; auto.
  - intros (neg' & n' & e' & L' & Ng & R). apply parse_literal in L'. rewrite P in L'.
    assert (neg = neg' /\ n = n' /\ e = e') as (<- & <- & <-) by (repeat split; congruence). clear L'.
    apply read_signed in R as [-> F]; [|exact N0|exact Ng]. destruct x; try contradiction; reflexivity.
Qed.
Theorem parse_float_err : forall t, number t -> (parse_float t = Err <->
  exists neg n e, literal t neg n e /\ too_large (decimal_number n e)).
Proof.
  intros t H. apply number_literal in H as (neg & n & e & L). pose proof (parse_literal t neg n e L) as P. pose proof (literal_digits t neg n e L) as N0.
  pose proof (dec_frac n e N0) as F.
  assert (X : parse_float t = Err <-> too_large (decimal_number n e)).
  { rewrite (too_large_iff _ _ _ F). unfold parse_float. rewrite P. destruct (Z.eq_dec n 0) as [->|Nz].
    - cbn [float_of_dec]. split; [discriminate|]. intro Q. exfalso. apply Z.le_ngt in Q. apply Q.
      unfold dec_num. rewrite Z.mul_0_l. unfold rndq. rewrite Z.div_0_l by (pose proof (dec_den_pos e); lia). change (drop 0) with 0. change (2 ^ 0) with 1.
      replace 0 with (0 * (dec_den e * 1)) at 1 by lia. rewrite rhe_exact by (pose proof (dec_den_pos e); lia). apply pow_pos'. discriminate.
    - rewrite (float_of_dec_sign neg n e N0). destruct (float_of_dec_pos n e ltac:(lia)) as [[Q L1]|Q].
      + rewrite Q. split; [intros _; exact L1|]. intros _. destruct neg; reflexivity.
      + pose proof (holds_below _ _ Q) as B. split; [|intro L1; apply Z.le_ngt in L1; contradiction].
        intro E. exfalso. pose proof (number_holds _ _ Q) as Fn. destruct (float_of_dec false n e); try contradiction; destruct neg; discriminate E. }
  rewrite X. split; [intro T; exists neg, n, e; auto|]. intros (neg' & n' & e' & L' & T). apply parse_literal in L'. rewrite P in L'.
  assert (n = n' /\ e = e') as (-> & ->) by (split; congruence). exact T.
Qed.
