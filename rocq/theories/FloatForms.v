(** The texts that [text_of] makes: their value and their form. *)
From Coq Require Import ZArith Lia ZifyBool ZifyNat ZifyN QArith Qabs Qpower Lqa SpecFloat.
From Verif Require Import Base BaseFacts FloatModel JsonModel TimeModel FloatText CodecProofs GrammarSpec GrammarProofs CalendarSpec CalendarProofs FloatSpec FloatValue FloatParse.
Local Open Scope Z_scope.

(** ** Decimal digits of integers *)
Lemma digits_val_value : forall s acc v, digits_val acc s = Some v -> decimal_value (Z.of_N acc) s = Z.of_N v.
Proof.
  induction s as [|c s IH]; intros acc v H; cbn [digits_val decimal_value] in *; [congruence|].
  unfold digit_val in H. destruct (is_digit_b c) eqn:D; [|discriminate]. rewrite <- (IH _ _ H). f_equal. unfold is_digit_b in D. lia.
Qed.
Lemma itoa_value : forall n, 0 <= n -> decimal_value 0 (itoa n) = n.
Proof.
  intros n H. rewrite <- (Z2N.id n H) at 1. rewrite itoa_nat. pose proof (digits_val_value _ _ _ (digits_val_ntoa (Z.to_N n))) as E. 
  change (Z.of_N 0) with 0 in E. rewrite E. apply Z2N.id. exact H.
Qed.
Lemma itoa_whole : forall n, 0 <= n -> whole (itoa n).
Proof.
  intros n H. rewrite <- (Z2N.id n H), itoa_nat. destruct (ntoa_valid (Z.to_N n)) as [V _]. apply valid_number_iff in V. pose proof (ntoa_digits (Z.to_N n)) as D.
  assert (F : Forall digit (ntoa (Z.to_N n))) by (eapply Forall_impl; [|exact D]; intros c Hc; apply digit_b, is_digit_digit; exact Hc). clear D.
  destruct V as (sign & i & f & e & S & Hi & Hf & He & E). rewrite E in *. apply Forall_app in F as [F1 F]. apply Forall_app in F as [F2 F]. apply Forall_app in F as [F3 F4].
  assert (sign = []) as -> by (destruct S as [<-|[<-|[]]]; [reflexivity|]; inversion F1 as [|? ? X]; exfalso; revert X; apply not_digit; reflexivity).
  assert (f = []) as -> by (destruct Hf as [->|(ds & _ & ->)]; [reflexivity|]; inversion F3 as [|? ? X]; exfalso; revert X; apply not_digit; reflexivity).
  assert (e = []) as -> by (destruct He as [->|(c & sg & ds & I0 & _ & _ & ->)]; [reflexivity|]; inversion F4 as [|? ? X]; exfalso; revert X; apply not_digit; destruct I0 as [<-|[<-|[]]]; reflexivity).
  rewrite !app_nil_r. exact Hi.
Qed.
Lemma itoa_digits : forall n, 0 <= n -> digits (itoa n).
Proof. intros n H. apply whole_digits, itoa_whole, H. Qed.
(** the number of digits *)
Lemma itoa_length : forall n, 0 < n -> (1 <= length (itoa n))%nat /\ 10 ^ (Z.of_nat (length (itoa n)) - 1) <= n < 10 ^ Z.of_nat (length (itoa n)).
Proof.
  intros n H. destruct (itoa_whole n ltac:(lia)) as [E|(c & ds & Hc & F & E)].
  - pose proof (itoa_value n ltac:(lia)) as V. rewrite E in V. cbn in V. lia.
  - pose proof (itoa_value n ltac:(lia)) as V. rewrite E in *. cbn [length decimal_value] in *. split; [lia|].
    pose proof (value_bound ds (10 * 0 + (Z.of_N (b2n c) - 48)) F ltac:(lia)) as B. rewrite V in B.
    replace (Z.of_nat (S (length ds)) - 1) with (Z.of_nat (length ds)) by lia. rewrite Nat2Z.inj_succ, Z.pow_succ_r by lia.
    pose proof (Z.pow_pos_nonneg 10 (Z.of_nat (length ds)) ltac:(lia) ltac:(lia)). nia.
Qed.
Lemma last_digit : forall s c acc, digit c -> 0 <= acc -> Forall digit s -> decimal_value acc (s ++ [c]) mod 10 = Z.of_N (b2n c) - 48.
Proof.
  intros s c acc D A F. rewrite value_app. cbn [decimal_value]. unfold digit in D. rewrite Z.add_comm, Z.mul_comm, Z_mod_plus_full. apply Z.mod_small. lia.
Qed.
Lemma value_zeros : forall k s, decimal_value 0 (repeat x30 k ++ s) = decimal_value 0 s.
Proof. induction k as [|k IH]; intro s; [reflexivity|]. cbn [repeat app decimal_value]. exact (IH s). Qed.

(** ** Zeros at the end *)
Lemma strip_spec : forall fuel n e, 0 < n < 10 ^ Z.of_nat fuel -> exists j, 0 <= j /\ snd (strip_zeros fuel n e) = e + j /\
  n = fst (strip_zeros fuel n e) * 10 ^ j /\ fst (strip_zeros fuel n e) mod 10 <> 0 /\ 0 < fst (strip_zeros fuel n e).
Proof.
  induction fuel as [|f IH]; intros n e H; [change (10 ^ Z.of_nat 0) with 1 in H; lia|]. cbn [strip_zeros]. destruct (Z.eqb_spec (n mod 10) 0) as [E|E].
  - pose proof (Z.div_mod n 10 ltac:(lia)) as D. rewrite Nat2Z.inj_succ, Z.pow_succ_r in H by lia.
    destruct (IH (n / 10) (e + 1) ltac:(lia)) as (j & J & E1 & E2 & E3 & E4). exists (j + 1). split; [lia|]. split; [rewrite E1; lia|]. split; [|auto].
    rewrite Z.pow_add_r by lia. change (10 ^ 1) with 10. lia.
  - exists 0. cbn [fst snd]. change (10 ^ 0) with 1. repeat split; lia.
Qed.
Lemma decimal_shift : forall n e j, 0 <= j -> (decimal_number (n * 10 ^ j) e == decimal_number n (e + j))%Q.
Proof.
  intros n e j H. unfold decimal_number. rewrite inject_Z_mult, <- (qpow_int 10 j H). change (inject_Z 10) with (10#1). rewrite Qpower_plus by discriminate. ring.
Qed.

(** ** Forms *)
Lemma trimmed_of : forall s n, Forall digit s -> s <> [] -> decimal_value 0 s = n -> n mod 10 <> 0 -> forall k, (k < length s)%nat -> trimmed (x2e :: skipn k s).
Proof.
  intros s n F N V M k L. destruct (exists_last N) as (s' & c & ->). apply Forall_app in F as [F Fc]. inversion Fc as [|? ? D _]; subst. 
  rewrite (last_digit s' c 0 D ltac:(lia) F) in M. rewrite app_length in L. cbn [length] in L. right. exists (skipn k s'), c.
  rewrite skipn_app. replace (k - length s')%nat with 0%nat by lia. split; [reflexivity|]. split; [exact D|]. split; [intros ->; apply M; reflexivity|].
  rewrite <- (firstn_skipn k s') in F. apply Forall_app in F. tauto.
Qed.
Lemma pad_whole : forall m s, whole s -> (1 <= m)%nat -> forall k, (k < length (pad_left (S k) s))%nat -> whole (firstn (length (pad_left (S k) s) - k) (pad_left (S k) s)).
Proof.
  intros m s W _ k L. unfold pad_left in *. rewrite app_length, repeat_length in *.
  destruct (S k - length s)%nat as [|z] eqn:Ez; cbn [repeat app].
  - rewrite Nat.add_0_l. destruct W as [->|(c & ds & Hc & F & ->)].
    + cbn [length] in *. assert (k = 0)%nat as -> by lia. left. reflexivity.
    + cbn [length] in *. right. exists c, (firstn (length ds - k) ds). split; [exact Hc|]. split.
      * rewrite <- (firstn_skipn (length ds - k) ds) in F. apply Forall_app in F. tauto.
      * replace (S (length ds) - k)%nat with (S (length ds - k)) by lia. reflexivity.
  - assert (E : (S z + length s - k = 1)%nat) by lia. rewrite E. left. reflexivity.
Qed.
Lemma plain_text : forall neg n e, 0 < n -> n mod 10 <> 0 ->
  exists n' e', literal (minus neg ++ text_f n e) neg n' e' /\ (decimal_number n' e' == decimal_number n e)%Q /\ plain_form (minus neg ++ text_f n e).
Proof.
  intros neg n e H M. unfold text_f. destruct (Z.leb_spec 0 e) as [L|L].
  - assert (P : 0 < 10 ^ e) by (apply Z.pow_pos_nonneg; lia). exists (n * 10 ^ e), 0. split; [|split].
    + exists (itoa (n * 10 ^ e)), [], [], [], 0. split; [apply itoa_whole; nia|]. split; [left; auto|]. split; [left; auto|]. rewrite !app_nil_r.
      split; [reflexivity|]. split; [symmetry; apply itoa_value; nia|reflexivity].
    + rewrite decimal_shift by exact L. reflexivity.
    + exists neg, (itoa (n * 10 ^ e)), []. split; [apply itoa_whole; nia|]. split; [left; reflexivity|]. rewrite app_nil_r. reflexivity.
  - assert (Ek : Z.of_nat (Z.to_nat (- e)) = - e) by lia. set (k := Z.to_nat (- e)) in *. set (s := pad_left (S k) (itoa n)).
    assert (Ls : (k < length s)%nat) by (unfold s, pad_left; rewrite app_length, repeat_length; lia).
    assert (Fs : Forall digit s).
    { unfold s, pad_left. apply Forall_app. split; [apply Forall_forall; intros c Hc; apply repeat_spec in Hc; subst; unfold digit; cbn; lia|].
      apply itoa_digits. lia. }
    assert (Vs : decimal_value 0 s = n) by (unfold s, pad_left; rewrite value_zeros; apply itoa_value; lia).
    assert (Wi : whole (firstn (length s - k) s)) by (apply (pad_whole 1); [apply itoa_whole; lia|lia|exact Ls]).
    assert (Ns : s <> []) by (intro Q; rewrite Q in Ls; cbn in Ls; lia).
    assert (Tr : trimmed (x2e :: skipn (length s - k) s)) by (apply (trimmed_of s n); auto; lia).
    exists n, e. split; [|split; [reflexivity|]].
    + exists (firstn (length s - k) s), (x2e :: skipn (length s - k) s), (skipn (length s - k) s), [], 0. split; [exact Wi|].
      split; [right; split; [|reflexivity]|].
      { split; [intro Q; apply (f_equal (@length byte)) in Q; rewrite skipn_length in Q; change (length []) with 0%nat in Q; lia|].
        rewrite <- (firstn_skipn (length s - k) s) in Fs. apply Forall_app in Fs. tauto. }
      split; [left; auto|]. split; [rewrite app_nil_r; reflexivity|]. rewrite firstn_skipn, skipn_length. split; [symmetry; exact Vs|]. lia.
    + exists neg, (firstn (length s - k) s), (x2e :: skipn (length s - k) s). auto.
Qed.
Lemma scientific_text : forall neg n e, 0 < n -> n mod 10 <> 0 ->
  literal (minus neg ++ text_e n e) neg n e /\
  (let x := e + Z.of_nat (length (itoa n)) - 1 in x < 0 \/ 10 <= x -> scientific_form (minus neg ++ text_e n e)).
Proof.
  intros neg n e H M. unfold text_e. pose proof (itoa_value n ltac:(lia)) as V.
  destruct (itoa_whole n ltac:(lia)) as [E|(c & ds & Hc & F & E)]; [rewrite E in V; cbn in V; lia|]. rewrite E in *. cbn [firstn tl length app].
  set (x := e + Z.of_nat (S (length ds)) - 1).
  assert (Dc : digit c) by (unfold digit; lia).
  set (f := match ds with [] => [] | _ => x2e :: ds end).
  assert (Tr : trimmed f).
  { unfold f. destruct ds as [|a ds']; [left; reflexivity|]. apply (trimmed_of (c :: a :: ds') n) with (k := 1%nat); auto; [discriminate|cbn; lia]. }
  assert (Pd : forall w, digits (pad_left w (itoa (Z.abs x)))).
  { intro w. unfold pad_left. destruct (itoa_digits (Z.abs x) ltac:(lia)) as [N1 F1]. split; [intro Q; apply app_eq_nil in Q; tauto|].
    apply Forall_app. split; [|exact F1]. apply Forall_forall. intros b Hb. apply repeat_spec in Hb. subst. unfold digit. cbn. lia. }
  assert (Pv : forall w, decimal_value 0 (pad_left w (itoa (Z.abs x))) = Z.abs x) by (intro w; unfold pad_left; rewrite value_zeros; apply itoa_value; lia).
  replace (match ds with [] => [] | b :: l => x2e :: b :: l end) with f by (unfold f; destruct ds; reflexivity).
  split.
  - exists [c], f, ds, (x65 :: (if x <? 0 then [x2d] else [x2b]) ++ pad_left (if x <? 0 then 1%nat else 2%nat) (itoa (Z.abs x))), x.
    split; [right; exists c, []; split; [exact Hc|]; split; [constructor|reflexivity]|].
    split; [unfold f; destruct ds; [left; auto|right; split; [split; [discriminate|exact F]|reflexivity]]|].
    split; [right|].
    { exists x65. destruct (Z.ltb_spec x 0) as [Lx|Lx].
      - exists [x2d], (pad_left 1 (itoa (Z.abs x))). split; [left; reflexivity|]. split; [apply Pd|]. split; [reflexivity|]. right. split; [reflexivity|]. rewrite Pv. lia.
      - exists [x2b], (pad_left 2 (itoa (Z.abs x))). split; [left; reflexivity|]. split; [apply Pd|]. split; [reflexivity|]. left. split; [right; left; reflexivity|]. rewrite Pv. lia. }
    split; [rewrite <- ?app_assoc; reflexivity|]. cbn [app]. split; [symmetry; exact V|]. unfold x. lia.
  - intro Hx. change (x < 0 \/ 10 <= x) in Hx.
    assert (W : whole (pad_left (if x <? 0 then 1%nat else 2%nat) (itoa (Z.abs x))) /\ pad_left (if x <? 0 then 1%nat else 2%nat) (itoa (Z.abs x)) = itoa (Z.abs x)).
    { assert (Ep : pad_left (if x <? 0 then 1%nat else 2%nat) (itoa (Z.abs x)) = itoa (Z.abs x)).
      { unfold pad_left. destruct (itoa_length (Z.abs x) ltac:(lia)) as [L1 [_ L2]]. set (l := length (itoa (Z.abs x))) in *.
        destruct (Z.ltb_spec x 0) as [Lx|Lx]; [replace (1 - l)%nat with 0%nat by lia; reflexivity|].
        destruct (Nat.eq_dec l 1) as [El|Nl]; [rewrite El in L2; change (10 ^ Z.of_nat 1) with 10 in L2; lia|]. replace (2 - l)%nat with 0%nat by lia. reflexivity. }
      rewrite Ep. split; [apply itoa_whole; lia|reflexivity]. }
    destruct W as [W Ew]. exists neg, c, f, (if x <? 0 then x2d else x2b), (pad_left (if x <? 0 then 1%nat else 2%nat) (itoa (Z.abs x))).
    split; [exact Dc|]. split; [intros ->; cbn in Hc; lia|]. split; [exact Tr|]. split; [destruct (x <? 0); cbn; auto|]. split; [exact W|].
    split; [intro Q; rewrite Ew in Q; pose proof (itoa_value (Z.abs x) ltac:(lia)) as V'; rewrite Q in V'; cbn in V'; lia|].
    destruct (x <? 0); reflexivity.
Qed.

(** ** Order *)
Lemma dec_scale : forall n e k, k <= e -> (decimal_number n e == decimal_number (n * 10 ^ (e - k)) k)%Q.
Proof. intros n e k H. rewrite decimal_shift by lia. replace (k + (e - k)) with e by lia. reflexivity. Qed.
Lemma ten_pos : forall e, (0 < 10 ^ e)%Q.
Proof. intro e. apply Qpower_0_lt. reflexivity. Qed.
Lemma dec_le : forall a b e, (decimal_number a e <= decimal_number b e)%Q <-> a <= b.
Proof. intros a b e. unfold decimal_number. rewrite (Qmult_le_r _ _ _ (ten_pos e)). apply inject_le. Qed.
Lemma dec_lt : forall a b e, (decimal_number a e < decimal_number b e)%Q <-> a < b.
Proof. intros a b e. unfold decimal_number. rewrite (Qmult_lt_r _ _ _ (ten_pos e)). apply inject_lt. Qed.
Lemma dec_eq : forall a b e, (decimal_number a e == decimal_number b e)%Q <-> a = b.
Proof.
  intros a b e. pose proof (dec_le a b e) as L1. pose proof (dec_le b a e) as L2. split; intro E; [|subst; reflexivity].
  assert (X1 : (decimal_number a e <= decimal_number b e)%Q) by lra. assert (X2 : (decimal_number b e <= decimal_number a e)%Q) by lra.
  apply L1 in X1. apply L2 in X2. lia.
Qed.
Lemma tens_le : forall a b, (decimal_number 1 a <= decimal_number 1 b)%Q <-> a <= b.
Proof.
  intros a b. destruct (Z.le_gt_cases a b) as [L|L].
  - rewrite (dec_scale 1 b a L), dec_le. pose proof (Z.pow_pos_nonneg 10 (b - a) ltac:(lia) ltac:(lia)). split; intro; lia.
  - rewrite (dec_scale 1 a b ltac:(lia)), dec_le. assert (10 ^ 1 <= 10 ^ (a - b)) by (apply Z.pow_le_mono_r; lia). split; intro; lia.
Qed.
Lemma tens_lt : forall a b, (decimal_number 1 a < decimal_number 1 b)%Q <-> a < b.
Proof.
  intros a b. pose proof (tens_le b a). split; intro L.
  - apply Z.nle_gt. intro Q. apply H in Q. lra.
  - apply Qnot_le_lt. intro Q. apply H in Q. lia.
Qed.
Lemma decade_of : forall n e, 0 < n -> let l := Z.of_nat (length (itoa n)) in
  (decimal_number 1 (e + l - 1) <= decimal_number n e < decimal_number 1 (e + l))%Q.
Proof.
  intros n e H l. destruct (itoa_length n H) as [L0 [L1 L2]]. fold l in L1, L2. split.
  - rewrite (dec_scale 1 (e + l - 1) e) by lia. apply dec_le. replace (e + l - 1 - e) with (l - 1) by lia. lia.
  - rewrite (dec_scale 1 (e + l) e) by lia. apply dec_lt. replace (e + l - e) with l by lia. lia.
Qed.
Lemma text_of_spec : forall ex neg n e, 0 < n < 10 ^ 18 ->
  exists n' e', literal (text_of ex neg n e) neg n' e' /\ (decimal_number n' e' == decimal_number n e)%Q /\
    (ex = false -> plain_form (text_of ex neg n e)) /\
    (ex = true -> (decimal_number n e < decimal_number 1 0)%Q \/ (decimal_number 1 10 <= decimal_number n e)%Q -> scientific_form (text_of ex neg n e)).
Proof.
  intros ex neg n e H. unfold text_of. destruct (strip_spec 18 n e H) as (j & J & E1 & E2 & E3 & E4).
  destruct (strip_zeros 18 n e) as [n1 e1]. cbn [fst snd] in *. subst e1. fold (minus neg).
  assert (V : (decimal_number n1 (e + j) == decimal_number n e)%Q) by (rewrite E2, decimal_shift by exact J; reflexivity).
  destruct ex.
  - destruct (scientific_text neg n1 (e + j) E4 E3) as [L S]. exists n1, (e + j). split; [exact L|]. split; [exact V|]. split; [discriminate|].
    intros _ B. apply S. destruct (decade_of n1 (e + j) E4) as [D1 D2]. rewrite V in D1, D2. destruct B as [B|B].
    + left. apply tens_lt. eapply Qle_lt_trans; [exact D1|exact B].
    + right. assert (X : 10 < e + j + Z.of_nat (length (itoa n1))); [|lia]. apply tens_lt. eapply Qle_lt_trans; [exact B|exact D2].
  - destruct (plain_text neg n1 (e + j) E4 E3) as (n' & e' & L & V' & P). exists n', e'. split; [exact L|]. split; [rewrite V'; exact V|]. split; [intros _; exact P|discriminate].
Qed.
