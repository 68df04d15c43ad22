(** There is one text for every float64 number. *)
From Coq Require Import ZArith Lia ZifyBool ZifyNat ZifyN QArith Qabs Qpower Lqa SpecFloat.
From Verif Require Import Base BaseFacts FloatModel FloatFacts FloatRound JsonModel TimeModel FloatText FloatRead CodecProofs GrammarSpec GrammarProofs CalendarSpec CalendarProofs FloatSpec FloatValue FloatParse FloatForms FloatShort.
Local Open Scope Z_scope.

(** ** The shortest decimal *)
Lemma shortest_pos : forall x n g d, shortest x n g d -> (0 < magnitude x)%Q.
Proof.
  intros x n g d (_ & _ & [L _] & _). eapply Qlt_le_trans; [|exact L]. unfold decimal_number. change (inject_Z 1) with 1%Q. rewrite Qmult_1_l. apply ten_pos.
Qed.
Lemma shortest_bound : forall s m e n g d, let x := S754_finite s m e in float_number x -> shortest x n g d -> n <= 10 ^ Z.of_nat d.
Proof.
  intros s m e n g d x F (D1 & D2 & [D3 D4] & R & _ & Near). apply Z.nlt_ge. intro Q. set (T := 10 ^ Z.of_nat d) in *.
  assert (PT : 0 < T) by (apply Z.pow_pos_nonneg; lia).
  assert (E : (decimal_number T g == decimal_number 1 (g + Z.of_nat d))%Q) by (unfold T; rewrite <- (Z.mul_1_l (10 ^ Z.of_nat d)); apply decimal_shift; lia).
  destruct (dec_frac' n g D2) as (? & ? & Fn). destruct (dec_frac' T g ltac:(lia)) as (? & ? & FT).
  assert (LT : (decimal_number T g < decimal_number n g)%Q) by (apply dec_lt; exact Q).
  assert (RT : read_as (signed s (decimal_number T g)) x).
  { apply (read_between s m e _ _ _ _ _ _ F Fn FT R). right. fold x. split; lra. }
  destruct (Near T ltac:(lia) RT) as [C _]. fold x in D4.
  rewrite !(Qabs_neg (magnitude x - _)) in C by lra. lra.
Qed.
Lemma shortest_digits : forall s m e n g d n2 g2 d2, let x := S754_finite s m e in float_number x -> shortest x n g d -> shortest x n2 g2 d2 -> (d2 <= d)%nat.
Proof.
  intros s m e n g d n2 g2 d2 x F S S2. pose proof (shortest_bound s m e n g d F S) as B. destruct S as (D1 & D2 & _ & R & _). destruct S2 as (_ & _ & _ & _ & Min & _).
  apply Nat.nlt_ge. intro L. assert (P : 10 ^ Z.of_nat d <= 10 ^ (Z.of_nat d2 - 1)) by (apply Z.pow_le_mono_r; lia).
  destruct (Z.lt_ge_cases n (10 ^ (Z.of_nat d2 - 1))) as [H|H]; [apply (Min n g); [lia|exact R]|].
  apply (Min 1 (g + Z.of_nat d)).
  - split; [lia|]. apply Z.lt_le_trans with (10 ^ 1); [reflexivity|]. apply Z.pow_le_mono_r; lia.
  - apply (read_compat (signed s (decimal_number n g))); [|exact R]. apply signed_compat. replace n with (1 * 10 ^ Z.of_nat d) by lia. apply decimal_shift. lia.
Qed.
Lemma shortest_unique : forall s m e n g d n2 g2 d2, let x := S754_finite s m e in float_number x -> shortest x n g d -> shortest x n2 g2 d2 -> n2 = n /\ g2 = g.
Proof.
  intros s m e n g d n2 g2 d2 x F S S2. pose proof (shortest_digits s m e _ _ _ _ _ _ F S S2) as L1. pose proof (shortest_digits s m e _ _ _ _ _ _ F S2 S) as L2.
  assert (d2 = d) by lia. subst d2. destruct S as (D1 & N1 & [A1 B1] & R1 & _ & M1). destruct S2 as (_ & N2 & [A2 B2] & R2 & _ & M2).
  assert (g2 = g).
  { assert (g + Z.of_nat d - 1 < g2 + Z.of_nat d) by (apply tens_lt; eapply Qle_lt_trans; [exact A1|exact B2]).
    assert (g2 + Z.of_nat d - 1 < g + Z.of_nat d) by (apply tens_lt; eapply Qle_lt_trans; [exact A2|exact B1]). lia. }
  subst g2. split; [|reflexivity]. destruct (M1 n2 N2 R2) as [C1 T1]. destruct (M2 n N1 R1) as [C2 T2].
  assert (T : (Qabs (magnitude x - decimal_number n g) == Qabs (magnitude x - decimal_number n2 g))%Q) by (apply Qle_antisym; assumption).
  destruct (T1 T) as [E|E1]; [exact E|]. destruct (T2 (Qeq_sym _ _ T)) as [E|E2]; [congruence|]. destruct (Z.eq_dec n2 n) as [E|Ne]; [exact E|exfalso].
  (* two even ones on both sides: the one between them is nearer *)
  assert (W : forall u v, 0 <= u -> u < v -> Z.even u = true -> Z.even v = true -> read_as (signed s (decimal_number u g)) x -> read_as (signed s (decimal_number v g)) x ->
    (Qabs (magnitude x - decimal_number u g) == Qabs (magnitude x - decimal_number v g))%Q ->
    (forall w, 0 <= w -> read_as (signed s (decimal_number w g)) x -> (Qabs (magnitude x - decimal_number u g) <= Qabs (magnitude x - decimal_number w g))%Q) -> False).
  { intros u v U L Eu Ev Ru Rv Q M. assert (L' : u + 1 < v). { destruct (Z.eq_dec v (u + 1)) as [->|]; [|lia]. rewrite Z.even_add, Eu in Ev. discriminate Ev. }
    assert (O1 : (decimal_number u g < decimal_number (u + 1) g)%Q) by (apply dec_lt; lia). assert (O2 : (decimal_number (u + 1) g < decimal_number v g)%Q) by (apply dec_lt; lia).
    assert (O3 : (2 * decimal_number (u + 1) g - decimal_number u g <= decimal_number v g)%Q).
    { assert (X : (2 * decimal_number (u + 1) g - decimal_number u g == decimal_number (u + 2) g)%Q) by (unfold decimal_number; rewrite !inject_Z_plus; change (inject_Z 1) with 1%Q; change (inject_Z 2) with 2%Q; ring).
      rewrite X. apply dec_le. lia. }
    assert (S1 : (decimal_number u g < magnitude x < decimal_number v g)%Q).
    { split; apply Qnot_le_lt; intro Y; [rewrite !(Qabs_neg (magnitude x - _)) in Q by lra|rewrite !(Qabs_pos (magnitude x - _)) in Q by lra]; lra. }
    destruct (dec_frac' u g U) as (? & ? & Fu). destruct (dec_frac' v g ltac:(lia)) as (? & ? & Fv). destruct (dec_frac' (u + 1) g ltac:(lia)) as (? & ? & Fw).
    rewrite (Qabs_pos (magnitude x - decimal_number u g)) in Q by lra. rewrite (Qabs_neg (magnitude x - decimal_number v g)) in Q by lra.
    assert (Rw : read_as (signed s (decimal_number (u + 1) g)) x).
    { destruct (Qlt_le_dec (magnitude x) (decimal_number (u + 1) g)) as [Y|Y].
      - apply (read_between s m e _ _ _ _ _ _ F Fv Fw Rv). right. fold x. split; lra.
      - apply (read_between s m e _ _ _ _ _ _ F Fu Fw Ru). left. fold x. split; lra. }
    pose proof (M (u + 1) ltac:(lia) Rw) as C. rewrite (Qabs_pos (magnitude x - decimal_number u g)) in C by lra. destruct (Qlt_le_dec (magnitude x) (decimal_number (u + 1) g)) as [Y|Y];
      [rewrite (Qabs_neg (magnitude x - decimal_number (u + 1) g)) in C by lra|rewrite (Qabs_pos (magnitude x - decimal_number (u + 1) g)) in C by lra]; lra. }
  destruct (Z.lt_ge_cases n n2) as [L|L].
  - apply (W n n2 N1 L E1 E2 R1 R2 T). intros w Pw Rw. apply (M1 w Pw Rw).
  - apply (W n2 n N2 ltac:(lia) E2 E1 R2 R1 (Qeq_sym _ _ T)). intros w Pw Rw. apply (M2 w Pw Rw).
Qed.

(** ** The digits *)
Lemma whole_inj : forall i j, whole i -> whole j -> decimal_value 0 i = decimal_value 0 j -> i = j.
Proof.
  assert (P : forall i, whole i -> i = [x30] \/ (1 <= Z.of_nat (length i) /\ 10 ^ (Z.of_nat (length i) - 1) <= decimal_value 0 i < 10 ^ Z.of_nat (length i))).
  { intros i W. pose proof (whole_digits i W) as [_ Fi]. destruct W as [->|(c & ds & Hc & Fd & ->)]; [left; reflexivity|right]. inversion Fi; subst.
    cbn [length decimal_value]. pose proof (value_bound ds (10 * 0 + (Z.of_N (b2n c) - 48)) ltac:(assumption) ltac:(unfold digit in *; lia)) as B.
    replace (Z.of_nat (S (length ds)) - 1) with (Z.of_nat (length ds)) by lia. replace (Z.of_nat (S (length ds))) with (Z.of_nat (length ds) + 1) by lia. rewrite Z.pow_add_r by lia. change (10 ^ 1) with 10.
    assert (1 <= Z.of_N (b2n c) - 48 <= 9) by (unfold digit in *; lia). assert (0 < 10 ^ Z.of_nat (length ds)) by (apply Z.pow_pos_nonneg; lia). set (T := 10 ^ Z.of_nat (length ds)) in *. split; [lia|]. nia. }
  intros i j Wi Wj E. destruct (whole_digits i Wi) as [_ Fi]. destruct (whole_digits j Wj) as [_ Fj].
  assert (Z0 : decimal_value 0 [x30] = 0) by reflexivity.
  destruct (P i Wi) as [->|[I1 I2]], (P j Wj) as [->|[J1 J2]]; [reflexivity| | |].
  - assert (0 < 10 ^ (Z.of_nat (length j) - 1)) by (apply Z.pow_pos_nonneg; lia). lia.
  - assert (0 < 10 ^ (Z.of_nat (length i) - 1)) by (apply Z.pow_pos_nonneg; lia). lia.
  - assert (Z.of_nat (length i) - 1 < Z.of_nat (length j)) by (apply (Z.pow_lt_mono_r_iff 10); lia).
    assert (Z.of_nat (length j) - 1 < Z.of_nat (length i)) by (apply (Z.pow_lt_mono_r_iff 10); lia).
    apply (value_inj i j 0 0); try assumption; lia.
Qed.
Lemma trimmed_digits : forall f, trimmed f -> exists ds, fraction_digits f ds /\ Forall digit ds /\ f = match ds with [] => [] | _ => x2e :: ds end /\
  (ds = [] \/ forall acc, 0 <= acc -> decimal_value acc ds mod 10 <> 0).
Proof.
  intros f [->|(f' & c & -> & D & Z0 & F)]; [exists []; repeat split; [left; auto|constructor|auto]|].
  assert (FF : Forall digit (f' ++ [c])) by (apply Forall_app; split; [exact F|constructor; [exact D|constructor]]).
  exists (f' ++ [c]). split; [right; split; [split; [|exact FF]; destruct f'; discriminate|reflexivity]|]. split; [exact FF|]. split; [destruct f'; reflexivity|].
  right. intros acc A. rewrite last_digit by assumption. intro Q. apply Z0. apply b2n_inj. change (b2n x30) with 48%N. unfold digit in D. lia.
Qed.
Lemma trim_unique : forall n1 k1 n2 k2 E, (k1 = 0 \/ n1 mod 10 <> 0) -> (k2 = 0 \/ n2 mod 10 <> 0) -> 0 <= k1 -> 0 <= k2 ->
  (decimal_number n1 (E - k1) == decimal_number n2 (E - k2))%Q -> k1 = k2 /\ n1 = n2.
Proof.
  assert (W : forall n1 k1 n2 k2 E, (k2 = 0 \/ n2 mod 10 <> 0) -> 0 <= k1 -> (decimal_number n1 (E - k1) == decimal_number n2 (E - k2))%Q -> k2 <= k1).
  { intros n1 k1 n2 k2 E T K Q. apply Z.nlt_ge. intro L. rewrite (dec_scale n1 (E - k1) (E - k2)) in Q by lia. apply dec_eq in Q.
    destruct T as [T|T]; [lia|]. apply T. rewrite <- Q. replace (E - k1 - (E - k2)) with (1 + (k2 - k1 - 1)) by lia. rewrite Z.pow_add_r by lia. change (10 ^ 1) with 10.
    replace (n1 * (10 * 10 ^ (k2 - k1 - 1))) with (n1 * 10 ^ (k2 - k1 - 1) * 10) by ring. apply Z_mod_mult. }
  intros n1 k1 n2 k2 E T1 T2 K1 K2 Q. pose proof (W _ _ _ _ _ T2 K1 Q). pose proof (W _ _ _ _ _ T1 K2 (Qeq_sym _ _ Q)). assert (k1 = k2) by lia. subst k2.
  split; [reflexivity|]. apply dec_eq in Q. exact Q.
Qed.
Lemma same_literal : forall t neg n e neg' n' e', literal t neg n e -> literal t neg' n' e' -> neg' = neg /\ n' = n /\ e' = e.
Proof. intros t neg n e neg' n' e' A B. apply parse_literal in A. apply parse_literal in B. rewrite A in B. repeat split; congruence. Qed.

(** ** The two forms *)
Lemma plain_unique : forall t1 t2 s n1 e1 n2 e2, literal t1 s n1 e1 -> literal t2 s n2 e2 -> (decimal_number n1 e1 == decimal_number n2 e2)%Q ->
  plain_form t1 -> plain_form t2 -> t1 = t2.
Proof.
  assert (U : forall t s n e, literal t s n e -> plain_form t -> exists i ds, whole i /\ Forall digit ds /\ t = minus s ++ i ++ (match ds with [] => [] | _ => x2e :: ds end) /\
    n = decimal_value (decimal_value 0 i) ds /\ e = 0 - Z.of_nat (length ds) /\ (Z.of_nat (length ds) = 0 \/ n mod 10 <> 0)).
  { intros t s n e L (neg & i & f & Wi & Tf & ->). destruct (trimmed_digits f Tf) as (ds & Fd & Dd & Ef & Last). destruct (whole_digits i Wi) as [_ Di].
    assert (L' : literal (minus neg ++ i ++ f) neg (decimal_value 0 (i ++ ds)) (0 - Z.of_nat (length ds))).
    { exists i, f, ds, [], 0. split; [exact Wi|]. split; [exact Fd|]. split; [left; auto|]. split; [rewrite app_nil_r; reflexivity|]. auto. }
    destruct (same_literal _ _ _ _ _ _ _ L L') as (-> & <- & <-). exists i, ds. split; [exact Wi|]. split; [exact Dd|]. split; [rewrite Ef; reflexivity|]. rewrite value_app. split; [reflexivity|]. split; [reflexivity|].
    destruct Last as [->|Last]; [left; reflexivity|right; apply Last; apply decimal_value_nonneg; [exact Di|lia]]. }
  intros t1 t2 s n1 e1 n2 e2 L1 L2 Q P1 P2. destruct (U _ _ _ _ L1 P1) as (i1 & d1 & W1 & D1 & -> & N1 & -> & T1). destruct (U _ _ _ _ L2 P2) as (i2 & d2 & W2 & D2 & -> & N2 & -> & T2).
  destruct (trim_unique _ _ _ _ 0 T1 T2 ltac:(lia) ltac:(lia) Q) as [K En]. assert (Len : length d1 = length d2) by lia. rewrite N1, N2 in En.
  destruct (whole_digits i1 W1) as [_ G1]. destruct (whole_digits i2 W2) as [_ G2].
  apply value_inj in En as [Ei Ed]; try assumption; try (apply decimal_value_nonneg; [assumption|lia]). apply whole_inj in Ei; [|exact W1|exact W2]. subst. reflexivity.
Qed.
Lemma scientific_unique : forall t1 t2 s n1 e1 n2 e2, literal t1 s n1 e1 -> literal t2 s n2 e2 -> (decimal_number n1 e1 == decimal_number n2 e2)%Q ->
  scientific_form t1 -> scientific_form t2 -> t1 = t2.
Proof.
  assert (U : forall t s n e, literal t s n e -> scientific_form t -> exists c ds sign xs E, digit c /\ c <> x30 /\ Forall digit ds /\ In sign [x2b; x2d] /\ whole xs /\ xs <> [x30] /\
    t = minus s ++ c :: (match ds with [] => [] | _ => x2e :: ds end) ++ x65 :: sign :: xs /\
    n = decimal_value (Z.of_N (b2n c) - 48) ds /\ E = (if beq sign x2d then - decimal_value 0 xs else decimal_value 0 xs) /\ e = E - Z.of_nat (length ds) /\ (Z.of_nat (length ds) = 0 \/ n mod 10 <> 0)).
  { intros t s n e L (neg & c & f & sign & xs & Dc & Nc & Tf & Hs & Wx & Nx & ->). destruct (trimmed_digits f Tf) as (ds & Fd & Dd & Ef & Last). destruct (whole_digits xs Wx) as [Nn Dx].
    set (E := if beq sign x2d then - decimal_value 0 xs else decimal_value 0 xs).
    assert (L' : literal (minus neg ++ c :: f ++ x65 :: sign :: xs) neg (decimal_value 0 ([c] ++ ds)) (E - Z.of_nat (length ds))).
    { exists [c], f, ds, (x65 :: sign :: xs), E. split.
      - right. exists c, []. split; [|split; [constructor|reflexivity]]. assert (b2n c <> 48%N) by (intro Q; apply Nc; apply b2n_inj; exact Q). unfold digit in Dc. lia.
      - split; [exact Fd|]. split; [|split; [reflexivity|split; reflexivity]]. right. exists x65, [sign], xs. split; [left; reflexivity|]. split; [split; assumption|]. split; [reflexivity|].
        cbn [In] in Hs. destruct Hs as [<-|[<-|[]]]; [left|right]; (split; [|reflexivity]); [right; left; reflexivity|reflexivity]. }
    destruct (same_literal _ _ _ _ _ _ _ L L') as (-> & <- & <-). exists c, ds, sign, xs, E. rewrite Ef.
    do 7 (split; [assumption || reflexivity|]). split; [reflexivity|]. split; [reflexivity|]. split; [reflexivity|].
    destruct Last as [->|Last]; [left; reflexivity|right]. cbn [app decimal_value]. apply Last. unfold digit in Dc. lia. }
  intros t1 t2 s n1 e1 n2 e2 L1 L2 Q P1 P2.
  destruct (U _ _ _ _ L1 P1) as (c1 & d1 & s1 & x1 & E1 & C1 & Z1 & D1 & S1 & W1 & X1 & -> & N1 & V1 & -> & T1).
  destruct (U _ _ _ _ L2 P2) as (c2 & d2 & s2 & x2 & E2 & C2 & Z2 & D2 & S2 & W2 & X2 & -> & N2 & V2 & -> & T2).
  assert (Dec : forall c d n E, digit c -> c <> x30 -> Forall digit d -> n = decimal_value (Z.of_N (b2n c) - 48) d ->
    (decimal_number 1 E <= decimal_number n (E - Z.of_nat (length d)) < decimal_number 1 (E + 1))%Q).
  { intros c d n E Dc Nc Dd ->. assert (b2n c <> 48%N) by (intro Y; apply Nc; apply b2n_inj; exact Y).
    pose proof (value_bound d (Z.of_N (b2n c) - 48) Dd ltac:(unfold digit in Dc; lia)) as B. set (k := Z.of_nat (length d)) in *. assert (0 < 10 ^ k) by (apply Z.pow_pos_nonneg; lia).
    assert (1 <= Z.of_N (b2n c) - 48 <= 9) by (unfold digit in Dc; lia).
    rewrite (dec_scale 1 E (E - k)), (dec_scale 1 (E + 1) (E - k)) by lia. replace (E - (E - k)) with k by lia. replace (E + 1 - (E - k)) with (1 + k) by lia. rewrite (Z.pow_add_r 10 1 k) by lia. change (10 ^ 1) with 10.
    set (T := 10 ^ k) in *. clearbody T. split; [apply dec_le; nia|apply dec_lt; nia]. }
  pose proof (Dec c1 d1 n1 E1 C1 Z1 D1 N1) as [A1 B1]. pose proof (Dec c2 d2 n2 E2 C2 Z2 D2 N2) as [A2 B2].
  assert (E1 < E2 + 1) by (apply tens_lt; eapply Qle_lt_trans; [exact A1|]; rewrite Q; exact B2).
  assert (E2 < E1 + 1) by (apply tens_lt; eapply Qle_lt_trans; [exact A2|]; rewrite <- Q; exact B1).
  assert (EE : E1 = E2) by lia. rewrite <- EE in *. clear E2 EE.
  destruct (trim_unique _ _ _ _ E1 T1 T2 ltac:(lia) ltac:(lia) Q) as [K En]. assert (Len : length d1 = length d2) by lia. rewrite N1, N2 in En.
  apply value_inj in En as [Ec Ed]; try assumption; try (unfold digit in *; lia). assert (c1 = c2) by (apply b2n_inj; unfold digit in *; lia). subst c2 d2.
  assert (Pos : forall x, whole x -> x <> [x30] -> 0 < decimal_value 0 x).
  { intros x W Nx. destruct (whole_digits x W) as [_ Dx]. pose proof (decimal_value_nonneg x 0 Dx ltac:(lia)). destruct (Z.eq_dec (decimal_value 0 x) 0) as [Z0|]; [|lia].
    exfalso. apply Nx. apply whole_inj; [exact W|left; reflexivity|exact Z0]. }
  pose proof (Pos x1 W1 X1). pose proof (Pos x2 W2 X2). cbn [In] in S1, S2.
  assert (s1 = s2 /\ decimal_value 0 x1 = decimal_value 0 x2) as [-> Ex].
  { destruct S1 as [<-|[<-|[]]], S2 as [<-|[<-|[]]]; change (beq x2b x2d) with false in *; change (beq x2d x2d) with true in *; cbn [negb] in *; split; try reflexivity; lia. }
  apply whole_inj in Ex; [|exact W1|exact W2]. subst x2. reflexivity.
Qed.

(** ** One text *)
Theorem number_text_unique : forall x t1 t2, float_number x -> number_text x t1 -> number_text x t2 -> t1 = t2.
Proof.
  intros [s|s| |s m e] t1 t2 F; cbn [number_text]; try contradiction; [intros -> ->; reflexivity|]. set (x := S754_finite s m e) in *.
  intros (n1 & g1 & d1 & n1' & e1' & S1 & L1 & V1 & X1 & P1) (n2 & g2 & d2 & n2' & e2' & S2 & L2 & V2 & X2 & P2).
  destruct (shortest_unique s m e _ _ _ _ _ _ F S1 S2) as [-> ->].
  assert (Q : (decimal_number n1' e1' == decimal_number n2' e2')%Q) by (rewrite V1, V2; reflexivity).
  destruct (use_exponent x) eqn:Ux.
  - apply (extreme_iff s m e F) in Ux. apply (scientific_unique _ _ _ _ _ _ _ L1 L2 Q); auto.
  - assert (Nx : ~ extreme x) by (intro Y; apply (extreme_iff s m e F) in Y; fold x in Y; congruence). apply (plain_unique _ _ _ _ _ _ _ L1 L2 Q); auto.
Qed.
Theorem float_text_iff : forall x t, float_number x -> (float_text x = Ok t <-> number_text x t).
Proof.
  intros x t F. destruct (float_text_number x F) as (t0 & T & Nt). rewrite T. split; [intro E; injection E as <-; exact Nt|]. intro H. f_equal. apply (number_text_unique x); assumption.
Qed.
Theorem float_text_reads : forall x t, float_number x -> float_text x = Ok t -> number t /\ parse_float t = Ok x.
Proof.
  intros x t F E. pose proof (proj1 (float_text_iff x t F) E) as H. destruct x as [s|s| |s m e]; try contradiction.
  - cbn [number_text] in H. subst t. destruct s; (split; [apply valid_number_iff; reflexivity|reflexivity]).
  - destruct H as (n & g & d & n' & e' & S & L & V & _). assert (N : number t) by (apply number_literal; eauto). split; [exact N|]. apply parse_float_iff; [exact N|].
    exists s, n', e'. split; [exact L|]. split; [reflexivity|]. destruct S as (_ & _ & _ & R & _). apply (read_compat (signed s (decimal_number n g))); [apply signed_compat; symmetry; exact V|exact R].
Qed.
Theorem float_text_ok : forall x, (exists t, float_text x = Ok t) <-> float_number x.
Proof.
  intro x. split; [|intro F; destruct (float_text_number x F) as (t & T & _); eauto]. intros (t & T). destruct x as [s|s| |s m e]; [exact I|discriminate T|discriminate T|].
  unfold float_text in T. destruct (find (reads_as (S754_finite s m e)) (candidates s m e)) as [u|] eqn:E; [|discriminate T]. apply find_some in E as [_ E]. unfold reads_as in E.
  apply andb_true_iff in E as [E1 E2]. apply andb_true_iff in E1 as [V _]. apply valid_number_iff in V. destruct (parse_float u) as [y| |] eqn:Py; try discriminate E2.
  apply (parse_float_iff u y V) in Py as (neg & n & k & _ & _ & [_ [Fy _]]).
  assert (S754_finite s m e = y) as ->; [|exact Fy].
  destruct y as [|?| |s' m' e']; cbn [same_float] in E2; try discriminate E2. rewrite !andb_true_iff, Bool.eqb_true_iff, Pos.eqb_eq, Z.eqb_eq in E2. destruct E2 as [[-> ->] ->]. reflexivity.
Qed.
Theorem float_text_err : forall x, float_text x = Err <-> ~ float_number x.
Proof.
  intro x. rewrite <- float_text_ok. destruct (float_text x) as [t| |] eqn:E.
  - split; [discriminate|]. intro H. exfalso. apply H. eauto.
  - split; [|reflexivity]. intros _ [t H]. discriminate H.
  - exfalso. unfold float_text in E. destruct x; try discriminate E. destruct (find _ _); discriminate E.
Qed.
