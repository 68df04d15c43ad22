From Coq Require Import Lia ZifyBool ZifyNat ZifyN.
From Verif Require Import Base BaseFacts JsonModel JsonProofs TimeModel TimeProofs GrammarSpec GrammarProofs CalendarSpec.
Local Open Scope Z_scope.

(** ** Days *)
Lemma leap_iff : forall y, leap y = true <-> leap_year y.
Proof.
  intro y. unfold leap, leap_year. rewrite <- !Z.mod_divide by lia. lia.
Qed.
Lemma length_iff : forall y m l, 1 <= m <= 12 -> month_length y m l <-> l = month_days y m.
Proof.
  intros y m l M. split.
  - intro H. unfold month_days. inversion H as [? ? I|? ? I|? L|? L]; subst; cbn [In] in *.
    + replace (m =? 2) with false by lia. replace (_ || _) with false by lia. reflexivity.
    + replace (m =? 2) with false by lia. replace (_ || _) with true by lia. reflexivity.
    + cbn. apply leap_iff in L. rewrite L. reflexivity.
    + cbn. destruct (leap y) eqn:E; [apply leap_iff in E; contradiction|reflexivity].
  - intros ->. unfold month_days. destruct (Z.eqb_spec m 2) as [->|N].
    + destruct (leap y) eqn:E; constructor; rewrite <- leap_iff, E; [reflexivity|discriminate].
    + destruct (_ || _) eqn:E; constructor; cbn [In]; lia.
Qed.
Lemma length_range : forall y m l, month_length y m l -> 1 <= m <= 12.
Proof. intros y m l H. inversion H as [? ? I|? ? I|? L|? L]; subst; cbn [In] in *; lia. Qed.
Definition valid (x : Z * Z * Z) : Prop := let '(y, m, d) := x in 1 <= m <= 12 /\ 1 <= d <= month_days y m.
Definition number_of (x : Z * Z * Z) : Z := let '(y, m, d) := x in days_of_civil y m d.
Lemma month_days_pos : forall y m, 28 <= month_days y m.
Proof. intros. unfold month_days. destruct (m =? 2); [destruct (leap y); lia|]. destruct (_ || _); lia. Qed.
Lemma year_days_leap : forall y, year_days y - year_days (y - 1) = if leap y then 366 else 365.
Proof.
  intro y. assert (E : y = y mod 400 + y / 400 * 400) by lia. pose proof (Z.mod_pos_bound y 400 eq_refl) as B.
  set (r := y mod 400) in *. set (q := y / 400) in *. clearbody r q. subst y. rewrite leap_period. unfold year_days.
  rewrite Z_div_plus_full, Z_mod_plus_full, (Z.div_small r), (Z.mod_small r) by lia.
  assert (X : (r + q * 400 - 1) / 400 * 146097 + ((r + q * 400 - 1) mod 400 * 365 + (r + q * 400 - 1) mod 400 / 4 - (r + q * 400 - 1) mod 400 / 100) =
    if r =? 0 then (q - 1) * 146097 + (399 * 365 + 399 / 4 - 399 / 100) else q * 146097 + ((r - 1) * 365 + (r - 1) / 4 - (r - 1) / 100)).
  { destruct (Z.eqb_spec r 0) as [->|N].
    - replace (0 + q * 400 - 1) with (399 + (q - 1) * 400) by lia. rewrite Z_div_plus_full, Z_mod_plus_full by lia. reflexivity.
    - replace (r + q * 400 - 1) with (r - 1 + q * 400) by lia. rewrite Z_div_plus_full, Z_mod_plus_full, (Z.div_small (r - 1)), (Z.mod_small (r - 1)) by lia. reflexivity. }
  rewrite X. clear X. destruct (Z.eqb_spec r 0) as [->|N]; [cbn; lia|].
  assert (X : forallb (fun i => let r := Z.of_nat i in r * 365 + r / 4 - r / 100 - ((r - 1) * 365 + (r - 1) / 4 - (r - 1) / 100) =? (if leap r then 366 else 365)) (seq 1 399) = true) by (vm_compute; reflexivity).
  rewrite forallb_forall in X. specialize (X (Z.to_nat r)). rewrite Z2Nat.id in X by lia. cbn zeta in X.
  assert (I : In (Z.to_nat r) (seq 1 399)) by (apply in_seq; lia). apply X in I. apply Z.eqb_eq in I. lia.
Qed.
Lemma month_step : forall y m, 1 <= m < 12 -> m <> 2 ->
  month_days y m = (153 * (if 2 <? m + 1 then m + 1 - 3 else m + 1 + 9) + 2) / 5 - (153 * (if 2 <? m then m - 3 else m + 9) + 2) / 5.
Proof.
  intros y m B N. unfold month_days. replace (m =? 2) with false by lia.
  assert (X : forallb (fun i => let m := Z.of_nat i in (m =? 2) || ((if (m =? 4) || (m =? 6) || (m =? 9) || (m =? 11) then 30 else 31) =?
    (153 * (if 2 <? m + 1 then m + 1 - 3 else m + 1 + 9) + 2) / 5 - (153 * (if 2 <? m then m - 3 else m + 9) + 2) / 5)) (seq 1 11) = true) by (vm_compute; reflexivity).
  rewrite forallb_forall in X. specialize (X (Z.to_nat m)). rewrite Z2Nat.id in X by lia. cbn zeta in X.
  assert (I : In (Z.to_nat m) (seq 1 11)) by (apply in_seq; lia). apply X in I. replace (m =? 2) with false in I by lia. apply Z.eqb_eq. exact I.
Qed.
Lemma next_valid : forall a b, next a b -> valid a /\ valid b /\ number_of b = number_of a + 1.
Proof.
  intros a b H. inversion H as [y m d l L D|y m l L M|y]; subst; cbn [valid number_of].
  - pose proof (length_range _ _ _ L) as M. apply length_iff in L; [|exact M]. subst l. split; [lia|]. split; [lia|].
    rewrite !days_split. lia.
  - pose proof (length_range _ _ _ L) as M'. apply length_iff in L; [|exact M']. subst l. pose proof (month_days_pos y m). pose proof (month_days_pos y (m + 1)).
    split; [lia|]. split; [lia|].
    rewrite !days_split. pose proof (year_days_leap y) as Y. clear H H0 H1. destruct (Z.eq_dec m 2) as [->|N].
    + change (2 <=? 2) with true. change (2 + 1 <=? 2) with false. change (2 <? 2) with false. change (2 <? 2 + 1) with true. cbv iota.
      unfold month_days. change (2 =? 2) with true. cbv iota. change ((153 * (2 + 1 - 3) + 2) / 5) with 0. change ((153 * (2 + 9) + 2) / 5) with 337.
      destruct (leap y); lia.
    + rewrite (month_step y m) by lia. replace (m + 1 <=? 2) with (m <=? 2) by lia. lia.
  - split; [unfold month_days; cbn; lia|]. split; [unfold month_days; cbn; lia|]. rewrite !days_split.
    change (12 <=? 2) with false. change (2 <? 12) with true. change (1 <=? 2) with true. change (2 <? 1) with false. cbv iota.
    replace (y + 1 - 1) with y by lia. lia.
Qed.
(** every day has a next one and one before *)
Lemma next_exists : forall a, valid a -> exists b, next a b.
Proof.
  intros [[y m] d] [M D]. assert (L : month_length y m (month_days y m)) by (apply length_iff; [exact M|reflexivity]).
  destruct (Z.eq_dec d (month_days y m)) as [->|N].
  - destruct (Z.eq_dec m 12) as [->|N].
    + eexists. replace (month_days y 12) with 31 by reflexivity. apply next_year.
    + eexists. apply next_month; [exact L|lia].
  - eexists. eapply next_day; [exact L|lia].
Qed.
Lemma before_exists : forall b, valid b -> exists a, next a b.
Proof.
  intros [[y m] d] [M D]. destruct (Z.eq_dec d 1) as [->|N].
  - destruct (Z.eq_dec m 1) as [->|N].
    + exists (y - 1, 12, 31). replace (y, 1, 1) with (y - 1 + 1, 1, 1) by (do 2 f_equal; lia). apply next_year.
    + exists (y, m - 1, month_days y (m - 1)). replace (y, m, 1) with (y, m - 1 + 1, 1) by (do 2 f_equal; lia).
      apply next_month; [apply length_iff; [lia|reflexivity]|lia].
  - exists (y, m, d - 1). replace (y, m, d) with (y, m, d - 1 + 1) by (f_equal; lia).
    eapply next_day; [apply length_iff; [exact M|reflexivity]|lia].
Qed.
Lemma on_day_number : forall n x, on_day n x -> valid x /\ number_of x = n.
Proof.
  induction 1 as [|n a b H [V E] N|n a b H [V E] N].
  - split; [cbn; unfold month_days; cbn; lia|reflexivity].
  - destruct (next_valid a b N) as (Va & Vb & E'). split; [exact Vb|lia].
  - destruct (next_valid a b N) as (Va & Vb & E'). split; [exact Va|lia].
Qed.
Lemma on_day_exists : forall n, exists x, on_day n x.
Proof.
  assert (U : forall n, 0 <= n -> exists x, on_day n x).
  { apply natlike_ind; [eexists; apply epoch|]. intros n _ [x H]. destruct (next_exists x) as [b N]; [apply (on_day_number n); exact H|].
    exists b. unfold Z.succ. eapply later; eassumption. }
  assert (D : forall n, 0 <= n -> exists x, on_day (- n) x).
  { apply natlike_ind; [eexists; apply epoch|]. intros n _ [x H]. destruct (before_exists x) as [b N]; [apply (on_day_number (- n)); exact H|].
    exists b. eapply earlier; [|exact N]. replace (- Z.succ n + 1) with (- n) by lia. exact H. }
  intro n. destruct (Z_le_gt_dec 0 n); [apply U; assumption|]. replace n with (- (- n)) by lia. apply D. lia.
Qed.
Lemma number_inj : forall a b, valid a -> valid b -> number_of a = number_of b -> a = b.
Proof.
  intros [[y m] d] [[y' m'] d'] [M D] [M' D'] E. cbn [number_of] in E.
  assert (y = y').
  { destruct (Z.lt_trichotomy y y') as [L|[L|L]]; [|exact L|].
    - pose proof (days_before y m d y' M D L). pose proof (days_first y' m' d' M' ltac:(lia)). lia.
    - pose proof (days_before y' m' d' y M' D' L). pose proof (days_first y m d M ltac:(lia)). lia. }
  subst y'.
  assert (ORD : forall m d m' d', 1 <= m <= 12 -> 1 <= m' <= 12 -> 1 <= d <= month_days y m -> 1 <= d' -> m < m' -> days_of_civil y m d < days_of_civil y m' d').
  { clear. intros m d m' d' M M' D D' L. rewrite !days_split. pose proof (year_days_leap y) as Y. pose proof (month_days_le y m) as B31.
    destruct (m <=? 2) eqn:E1; destruct (m' <=? 2) eqn:E2.
    - replace m with 1 in * by lia. replace m' with 2 in * by lia. change (2 <? 1) with false. change (2 <? 2) with false. cbv iota. lia.
    - replace (2 <? m) with false by lia. replace (2 <? m') with true by lia. assert (D31 : d <= 31) by lia. unfold month_days in D. destruct (Z.eqb_spec m 2) as [->|N].
      + change ((153 * (2 + 9) + 2) / 5) with 337. destruct (leap y); lia.
      + replace m with 1 in * by lia. change ((153 * (1 + 9) + 2) / 5) with 306. destruct (leap y); lia.
    - lia.
    - rewrite (month_step y m) in D by lia. replace (2 <? m) with true in * by lia. replace (2 <? m') with true by lia. replace (2 <? m + 1) with true in D by lia.
      assert (G : (153 * (m + 1 - 3) + 2) / 5 <= (153 * (m' - 3) + 2) / 5) by (apply Z.div_le_mono; lia). lia. }
  assert (m = m').
  { destruct (Z.lt_trichotomy m m') as [L|[L|L]]; [|exact L|].
    - pose proof (ORD m d m' d' M M' D ltac:(lia) L). lia.
    - pose proof (ORD m' d' m d M' M D' ltac:(lia) L). lia. }
  subst m'. rewrite !days_split in E. f_equal. lia.
Qed.
Theorem calendar_iff : forall n x, on_day n x <-> civil_of_days n = x.
Proof.
  assert (R : forall n, valid (civil_of_days n) /\ number_of (civil_of_days n) = n).
  { intro n. destruct (civil_of_days n) as [[y m] d] eqn:E. apply civil_roundtrip in E as (E & M & D). split; [split; assumption|exact E]. }
  assert (F : forall n x, on_day n x -> civil_of_days n = x).
  { intros n x H. apply on_day_number in H as [V E]. destruct (R n) as [V' E']. apply number_inj; [exact V'|exact V|congruence]. }
  intros n x. split; [apply F|]. intro E. destruct (on_day_exists n) as [x' H]. pose proof (F n x' H). congruence.
Qed.
Lemma day_of : forall y m d, valid (y, m, d) -> on_day (days_of_civil y m d) (y, m, d).
Proof.
  intros y m d V. destruct (on_day_exists (days_of_civil y m d)) as [x H]. destruct (on_day_number _ _ H) as [V' E].
  assert (X : x = (y, m, d)) by (apply number_inj; [exact V'|exact V|exact E]). subst x. exact H.
Qed.

(** ** Numerals *)
Lemma dval_iff : forall c v, dval c = Some v <-> digit c /\ v = Z.of_N (b2n c) - 48.
Proof.
  intros c v. unfold dval. rewrite <- digit_b. destruct (is_digit_b c).
  - split; [intro H; injection H as <-; auto|]. intros [_ ->]. reflexivity.
  - split; [discriminate|]. intros [H _]. discriminate H.
Qed.
Lemma dvals_iff : forall ds acc v, dvals acc ds = Some v <-> Forall digit ds /\ v = decimal_value acc ds.
Proof.
  induction ds as [|c ds IH]; intros acc v; cbn [dvals decimal_value].
  - split; [intro H; injection H as <-; auto|]. intros [_ ->]. reflexivity.
  - destruct (dval c) as [d|] eqn:E.
    + apply dval_iff in E as [D ->]. rewrite IH. replace (acc * 10 + (Z.of_N (b2n c) - 48)) with (10 * acc + (Z.of_N (b2n c) - 48)) by lia.
      split; [intros [F ->]; auto|]. intros [F ->]. inversion F; auto.
    + split; [discriminate|]. intros [F _]. inversion F as [|? ? D _]; subst. pose proof (proj2 (dval_iff c _) (conj D eq_refl)). congruence.
Qed.
Lemma take_num_iff : forall w s v r, take_num w s = Some (v, r) <-> exists ds, s = ds ++ r /\ numeral w ds v.
Proof.
  intros w s v r. unfold take_num, numeral. split.
  - intro H. destruct (Nat.ltb_spec (length s) w) as [L|L]; [discriminate|]. destruct (dvals 0 (firstn w s)) as [v'|] eqn:E; [|discriminate].
    injection H as <- <-. apply dvals_iff in E as [F ->]. exists (firstn w s). split; [symmetry; apply firstn_skipn|].
    split; [apply firstn_length_le; exact L|auto].
  - intros (ds & -> & L & F & ->). rewrite app_length. destruct (Nat.ltb_spec (length ds + length r) w) as [L'|L']; [lia|].
    rewrite firstn_app, L, Nat.sub_diag, firstn_O, app_nil_r, <- L, firstn_all, skipn_app, skipn_all, Nat.sub_diag. cbn [app skipn].
    rewrite (proj2 (dvals_iff ds 0 _) (conj F eq_refl)). reflexivity.
Qed.
Lemma take_char_iff : forall c s r, take_char c s = Some r <-> s = c :: r.
Proof.
  intros c [|b s] r; cbn [take_char]; [split; discriminate|]. destruct (beq b c) eqn:E.
  - apply beq_eq in E. subst. split; intro H; injection H as <-; reflexivity.
  - apply beq_neq in E. split; [discriminate|]. intro H. injection H as H _. congruence.
Qed.
Lemma numeral_1 : forall c v, numeral 1 [c] v <-> dval c = Some v.
Proof.
  intros c v. rewrite dval_iff. unfold numeral. cbn [decimal_value]. split.
  - intros (_ & F & ->). inversion F; subst. split; [assumption|lia].
  - intros [D ->]. split; [reflexivity|]. split; [constructor; [exact D|constructor]|lia].
Qed.
Lemma numeral_2 : forall a b v, numeral 2 [a; b] v <-> exists x y, dval a = Some x /\ dval b = Some y /\ v = x * 10 + y.
Proof.
  intros a b v. unfold numeral. cbn [decimal_value]. split.
  - intros (_ & F & ->). inversion F as [|? ? A F']; subst. inversion F' as [|? ? B _]; subst. do 2 eexists.
    split; [apply dval_iff; split; [exact A|reflexivity]|]. split; [apply dval_iff; split; [exact B|reflexivity]|]. lia.
  - intros (x & y & A & B & ->). apply dval_iff in A as [A ->], B as [B ->]. split; [reflexivity|]. split; [constructor; [exact A|constructor; [exact B|constructor]]|lia].
Qed.
Lemma numeral_len : forall w s v, numeral w s v -> length s = w.
Proof. intros w s v [H _]. exact H. Qed.
Ltac spell2 H := let L := fresh "L" in pose proof (numeral_len _ _ _ H) as L;
  match type of L with length ?s = _ => destruct s as [|? [|? [|? ?]]]; try discriminate L; clear L end.
Lemma hour_is : forall s v r, take_hour s = Some (v, r) -> exists h, s = h ++ r /\ (numeral 2 h v \/ numeral 1 h v).
Proof.
  intros [|a s] v r H; [discriminate|]. cbn [take_hour] in H. destruct (dval a) as [x|] eqn:A; [|discriminate].
  destruct s as [|b s].
  - injection H as <- <-. exists [a]. split; [reflexivity|]. right. apply numeral_1. exact A.
  - destruct (dval b) as [y|] eqn:B; injection H as <- <-.
    + exists [a; b]. split; [reflexivity|]. left. apply numeral_2. eauto.
    + exists [a]. split; [reflexivity|]. right. apply numeral_1. exact A.
Qed.
Lemma hour_app : forall h v r, numeral 2 h v \/ numeral 1 h v -> take_hour (h ++ x3a :: r) = Some (v, x3a :: r).
Proof.
  intros h v r [H|H]; spell2 H; cbn [app take_hour].
  - apply numeral_2 in H as (x & y & A & B & ->). rewrite A, B. reflexivity.
  - apply numeral_1 in H. rewrite H. reflexivity.
Qed.
Lemma part_iff : forall s v r, take_part s = Some (v, r) <-> exists h, s = h ++ r /\ offset_part h v.
Proof.
  intros s v r. unfold offset_part. split.
  - intro H. destruct s as [|a [|b s]]; try discriminate H. cbn [take_part] in H. destruct (dval b) as [y|] eqn:B; [|discriminate].
    destruct (beq a x2d) eqn:M; [|destruct (beq a x2b) eqn:P].
    + apply beq_eq in M. injection H as <- <-. subst a. exists [x2d; b]. split; [reflexivity|]. right. exists b. right.
      split; [apply numeral_1; rewrite B; f_equal; lia|reflexivity].
    + apply beq_eq in P. injection H as <- <-. subst a. exists [x2b; b]. split; [reflexivity|]. right. exists b. left.
      split; [apply numeral_1; exact B|reflexivity].
    + destruct (dval a) as [x|] eqn:A; [|discriminate]. injection H as <- <-. exists [a; b]. split; [reflexivity|]. left. apply numeral_2. eauto.
  - intros (h & -> & [H|(c & [(H & ->)|(H & ->)])]).
    + spell2 H. apply numeral_2 in H as (x & y & A & B & ->). cbn [app take_part]. rewrite B, A.
      assert (Q : forall k, (b2n k < 48)%N -> beq b k = false).
      { intros k K. destruct (beq b k) eqn:E; [|reflexivity]. apply beq_eq in E. subst. apply dval_iff in A as [A _]. unfold digit in A. lia. }
      rewrite (Q x2d), (Q x2b) by reflexivity. reflexivity.
    + apply numeral_1 in H. cbn [app take_part]. rewrite H. reflexivity.
    + apply numeral_1 in H. cbn [app take_part]. rewrite H. change (beq x2d x2d) with true. cbn match. do 2 f_equal. lia.
Qed.
Lemma zone_iff : forall s off, take_zone s = Some off <-> zone s off.
Proof.
  intros s off. unfold zone. split.
  - intro H. destruct s as [|c s]; [discriminate|]. cbn [take_zone] in H. destruct (beq c x5a) eqn:Z.
    + apply beq_eq in Z. subst. destruct s; [|discriminate]. injection H as <-. left. auto.
    + destruct (beq c x2b || beq c x2d) eqn:S; [|discriminate].
      destruct (take_part s) as [[hh s1]|] eqn:P1; [|discriminate]. destruct (take_char x3a s1) as [s2|] eqn:P2; [|discriminate].
      destruct (take_part s2) as [[mm [|? ?]]|] eqn:P3; try discriminate. injection H as <-.
      apply part_iff in P1 as (h & -> & H1), P3 as (m & -> & H2). apply take_char_iff in P2. subst. rewrite app_nil_r. right.
      exists h, m, hh, mm. split; [exact H1|]. split; [exact H2|].
      destruct (beq c x2d) eqn:M; [apply beq_eq in M; subst; right; split; [reflexivity|lia]|]. rewrite orb_false_r in S. apply beq_eq in S. subst.
      left. split; [reflexivity|lia].
  - intros [(-> & ->)|(h & m & hh & mm & H1 & H2 & [(-> & ->)|(-> & ->)])]; [reflexivity| |];
      cbn [take_zone]; [change (beq x2b x5a) with false; change (beq x2b x2b || beq x2b x2d) with true; change (beq x2b x2d) with false
                       |change (beq x2d x5a) with false; change (beq x2d x2b || beq x2d x2d) with true; change (beq x2d x2d) with true];
      cbn match; rewrite (proj2 (part_iff _ _ _) (ex_intro _ h (conj eq_refl H1)));
      rewrite (proj2 (take_char_iff x3a _ m) eq_refl);
      (assert (E : take_part m = Some (mm, [])) by (apply part_iff; exists m; rewrite app_nil_r; auto)); rewrite E; f_equal; lia.
Qed.
Lemma zone_start : forall z off, zone z off -> exists c r, z = c :: r /\ In c [x5a; x2b; x2d].
Proof.
  intros z off [(-> & _)|(h & m & hh & mm & _ & _ & [(-> & _)|(-> & _)])]; do 2 eexists; (split; [reflexivity|cbn; auto]).
Qed.
Lemma value_bound : forall ds acc, Forall digit ds -> 0 <= acc -> acc * 10 ^ Z.of_nat (length ds) <= decimal_value acc ds < (acc + 1) * 10 ^ Z.of_nat (length ds).
Proof.
  induction ds as [|c ds IH]; intros acc F A; cbn [length decimal_value]; [change (10 ^ Z.of_nat 0) with 1; lia|].
  inversion F as [|? ? D F']; subst. unfold digit in D. specialize (IH (10 * acc + (Z.of_N (b2n c) - 48)) F' ltac:(lia)).
  rewrite Nat2Z.inj_succ, Z.pow_succ_r by lia. pose proof (Z.pow_pos_nonneg 10 (Z.of_nat (length ds)) eq_refl ltac:(lia)). nia.
Qed.
Lemma numeral_bound : forall w ds v, numeral w ds v -> 0 <= v < 10 ^ Z.of_nat w.
Proof. intros w ds v (L & F & ->). pose proof (value_bound ds 0 F ltac:(lia)). rewrite L in H. lia. Qed.
Lemma span_digits_is : forall s a r, span_digits s = (a, r) -> s = a ++ r /\ Forall digit a.
Proof.
  induction s as [|c s IH]; intros a r H; cbn [span_digits] in H; [injection H as <- <-; split; [reflexivity|constructor]|].
  destruct (is_digit_b c) eqn:D; [|injection H as <- <-; split; [reflexivity|constructor]].
  destruct (span_digits s) as [x y] eqn:E. injection H as <- <-. destruct (IH x y eq_refl) as [-> F]. split; [reflexivity|]. constructor; [apply digit_b; exact D|exact F].
Qed.
Lemma scaled : forall v ns w, (w <= 9)%nat -> (ns * 10 ^ Z.of_nat w = v * 10 ^ 9 <-> ns = v * 10 ^ Z.of_nat (9 - w)).
Proof.
  intros v ns w L. replace (10 ^ 9) with (10 ^ Z.of_nat (9 - w) * 10 ^ Z.of_nat w) by (rewrite <- Z.pow_add_r by lia; f_equal; lia).
  rewrite Z.mul_assoc. apply Z.mul_cancel_r. apply Z.pow_nonzero; lia.
Qed.
Lemma frac_is_time : forall s ns r, take_frac s = Some (ns, r) -> exists f, s = f ++ r /\ second_part f ns.
Proof.
  intros [|c s] ns r H; cbn [take_frac] in H; [injection H as <- <-; exists []; split; [reflexivity|left; auto]|].
  destruct (beq c x2e) eqn:E; [|injection H as <- <-; exists []; split; [reflexivity|left; auto]].
  apply beq_eq in E. subst c. destruct (span_digits s) as [ds r'] eqn:S. destruct (Nat.leb_spec 1 (length ds)) as [L|L]; [|discriminate].
  destruct (dvals 0 ds) as [v|] eqn:V; [|discriminate]. destruct (Z.ltb_spec v (10 ^ 9)) as [B|B]; [|discriminate].
  assert (HH : ns = v * 10 ^ Z.of_nat (9 - length ds) /\ r = r') by (split; congruence). destruct HH as [-> ->]. clear H.
  apply span_digits_is in S as [-> F]. apply dvals_iff in V as [_ V]. exists (x2e :: ds). split; [reflexivity|]. right.
  exists (length ds), ds, v. split; [reflexivity|]. split; [unfold numeral; auto|]. split; [exact L|].
  destruct (Nat.leb_spec (length ds) 9) as [G|G]; [left; split; [exact G|apply scaled; auto]|right; split; [exact G|]].
  replace (9 - length ds)%nat with 0%nat by lia. change (10 ^ Z.of_nat 0) with 1. split; [apply Z.mul_1_r|exact B].
Qed.
Lemma frac_app_time : forall f ns c r, second_part f ns -> In c [x5a; x2b; x2d] -> take_frac (f ++ c :: r) = Some (ns, c :: r).
Proof.
  intros f ns c r [(-> & ->)|(w & ds & v & -> & N & W & H)] I.
  - cbn [app take_frac]. cbn in I. destruct I as [<-|[<-|[<-|[]]]]; reflexivity.
  - pose proof (numeral_bound _ _ _ N) as B. destruct N as (L & F & V). cbn [app take_frac]. change (beq x2e x2e) with true. cbn match.
    rewrite span_digits_app; [|apply forallb_forall; intros b Hb; apply digit_b; rewrite Forall_forall in F; auto|cbn in I; destruct I as [<-|[<-|[<-|[]]]]; reflexivity].
    rewrite L. destruct (Nat.leb_spec 1 w) as [_|G]; [|lia]. rewrite (proj2 (dvals_iff ds 0 v) (conj F V)).
    destruct H as [(G & H)|(G & -> & H)].
    + assert (10 ^ Z.of_nat w <= 10 ^ 9) by (apply Z.pow_le_mono_r; lia). destruct (Z.ltb_spec v (10 ^ 9)); [|lia]. apply scaled in H; [|exact G]. rewrite H. reflexivity.
    + destruct (Z.ltb_spec v (10 ^ 9)); [|lia]. replace (9 - w)%nat with 0%nat by lia. change (10 ^ Z.of_nat 0) with 1. do 2 f_equal. lia.
Qed.
Theorem parse_time_iff : forall s t, parse_time_opt s = Some t <-> timestamp s t.
Proof.
  intros s t. split.
  - intro H. unfold parse_time_opt in H.
    destruct (take_num 4 s) as [[y s1]|] eqn:E1; [|discriminate]. destruct (take_char x2d s1) as [s2|] eqn:E2; [|discriminate].
    destruct (take_num 2 s2) as [[mo s3]|] eqn:E3; [|discriminate]. destruct (take_char x2d s3) as [s4|] eqn:E4; [|discriminate].
    destruct (take_num 2 s4) as [[d s5]|] eqn:E5; [|discriminate]. destruct (take_char x54 s5) as [s6|] eqn:E6; [|discriminate].
    destruct (take_hour s6) as [[hh s7]|] eqn:E7; [|discriminate]. destruct (take_char x3a s7) as [s8|] eqn:E8; [|discriminate].
    destruct (take_num 2 s8) as [[mi s9]|] eqn:E9; [|discriminate]. destruct (take_char x3a s9) as [s10|] eqn:E10; [|discriminate].
    destruct (take_num 2 s10) as [[ss s11]|] eqn:E11; [|discriminate]. destruct (take_frac s11) as [[ns s12]|] eqn:E12; [|discriminate].
    destruct (take_zone s12) as [off|] eqn:E13; [|discriminate].
    destruct (_ && (ss <=? 59)) eqn:G; [|discriminate]. injection H as <-. rewrite !andb_true_iff, !Z.leb_le in G. destruct G as ((((((G1 & G2) & G3) & G4) & G5) & G6) & G7).
    apply take_num_iff in E1 as (Y & E1 & N1). apply take_num_iff in E3 as (M & E3 & N3). apply take_num_iff in E5 as (D & E5 & N5).
    apply hour_is in E7 as (h & E7 & N7). apply take_num_iff in E9 as (m & E9 & N9). apply take_num_iff in E11 as (sec & E11 & N11).
    apply frac_is_time in E12 as (f & E12 & N12). apply zone_iff in E13. apply take_char_iff in E2, E4, E6, E8, E10.
    exists Y, M, D, h, m, sec, f, s12, y, mo, d, (days_of_civil y mo d), hh, mi, ss, ns, off.
    split; [subst; unfold written; cbn [app]; reflexivity|]. repeat (split; [assumption|]).
    split; [apply day_of; cbn; auto|]. repeat (split; [assumption || lia|]). unfold instant, day_ns. lia.
  - intros (Y & M & D & h & m & sec & f & z & y & mo & d & day & hh & mi & ss & ns & off & -> & N1 & N2 & N3 & C & N4 & N5 & N6 & B1 & B2 & B3 & F & Z & ->).
    apply on_day_number in C as [[V1 V2] V3]. cbn [number_of] in V3.
    assert (K : forall w ds v r, numeral w ds v -> take_num w (ds ++ r) = Some (v, r)) by (intros; apply take_num_iff; eauto).
    assert (Q : forall c r, take_char c (c :: r) = Some r) by (intros; apply take_char_iff; reflexivity).
    unfold written, parse_time_opt. rewrite (K 4%nat Y y _ N1). cbn [app]. rewrite Q, (K 2%nat M mo _ N2), Q, (K 2%nat D d _ N3), Q, (hour_app h hh _ N4), Q, (K 2%nat m mi _ N5), Q, (K 2%nat sec ss _ N6).
    pose proof (zone_start z off Z) as (c & r & E & I). rewrite E, (frac_app_time f ns c r F I), <- E, (proj2 (zone_iff z off) Z).
    replace (_ && (ss <=? 59)) with true.
    + unfold instant, day_ns. f_equal. lia.
    + symmetry. rewrite !andb_true_iff, !Z.leb_le. lia.
Qed.

(** ** Writing *)
Lemma dig_is : forall n, digit (dig n) /\ Z.of_N (b2n (dig n)) - 48 = n mod 10.
Proof. intro n. pose proof (dval_dig n) as H. apply dval_iff in H as [D E]. auto. Qed.
Lemma pad_is : forall w p n, length p = w -> take_num w (p ++ []) = Some (n, []) -> numeral w p n.
Proof. intros w p n L H. apply take_num_iff in H as (ds & E & N). rewrite !app_nil_r in E. subst. exact N. Qed.
Lemma pad2_is : forall n, 0 <= n < 100 -> numeral 2 (pad2 n) n.
Proof. intros n B. apply pad_is; [reflexivity|apply take_pad2; exact B]. Qed.
Lemma pad4_is : forall n, 0 <= n < 10000 -> numeral 4 (pad4 n) n.
Proof. intros n B. apply pad_is; [reflexivity|apply take_pad4; exact B]. Qed.
Lemma trim0_last : forall s, trim0 s = [] \/ exists c s', trim0 s = s' ++ [c] /\ c <> x30.
Proof.
  induction s as [|c s IH]; [left; reflexivity|]. cbn [trim0]. destruct (trim0 s) as [|a t] eqn:E.
  - destruct (beq c x30) eqn:B; [left; reflexivity|]. right. exists c, []. split; [reflexivity|]. apply beq_neq. exact B.
  - right. destruct IH as [IH|(b & s' & IH & N)]; [discriminate|]. rewrite IH. exists b, (c :: s'). split; [reflexivity|exact N].
Qed.
Lemma frac_text_is : forall n, 0 <= n < 10 ^ 9 -> second_part (frac_text n) n /\ (length (frac_text n) <= 10)%nat /\
  (frac_text n = [] \/ exists c f', frac_text n = f' ++ [c] /\ digit c /\ c <> x30).
Proof.
  intros n B. pose proof (take_frac_text n B) as H. apply frac_is_time in H as (f & E & S). apply app_inj_tail in E as [<- _].
  split; [exact S|]. unfold frac_text. destruct (trim0_spec (pad9 n)) as [k K]. destruct (trim0_last (pad9 n)) as [T|(c & s' & T & N)]; rewrite T.
  - split; [cbn; lia|left; reflexivity].
  - assert (D : Forall digit (pad9 n)) by (unfold pad9; repeat (constructor; [apply dig_is|]); constructor).
    pose proof (f_equal (@length byte) K) as L. rewrite app_length, T in L. change (length (pad9 n)) with 9%nat in L.
    rewrite K, T in D. apply Forall_app in D as [D _]. apply Forall_app in D as [_ D]. inversion D; subst.
    destruct (s' ++ [c]) as [|a q] eqn:Q; [destruct s'; discriminate Q|]. split; [cbn [length] in *; lia|]. right.
    exists c, (x2e :: s'). split; [cbn [app]; congruence|auto].
Qed.
Lemma time_text_canonical : forall t s, time_text t = Ok s -> canonical s t.
Proof.
  intros t s H. unfold time_text in H. destruct (civil_of_days (t / day_ns)) as [[y mo] d] eqn:E.
  destruct ((0 <=? y) && (y <=? 9999)) eqn:Y; [|discriminate]. apply Ok_inj in H. subst s.
  pose proof (proj2 (calendar_iff _ _) E) as C. destruct (on_day_number _ _ C) as [[V1 V2] _]. pose proof (month_days_le y mo).
  assert (S : 0 <= t mod day_ns < day_ns) by (apply Z.mod_pos_bound; reflexivity).
  assert (DM : t = day_ns * (t / day_ns) + t mod day_ns) by (apply Z.div_mod; discriminate). clear E.
  set (ns := t mod day_ns) in *. set (q := t / day_ns) in *. clearbody ns q. unfold day_ns in *.
  assert (B1 : 0 <= ns / 10 ^ 9 < 86400) by lia.
  assert (B2 : 0 <= ns mod 10 ^ 9 < 10 ^ 9) by (apply Z.mod_pos_bound; reflexivity).
  assert (B3 : ns = 10 ^ 9 * (ns / 10 ^ 9) + ns mod 10 ^ 9) by (apply Z.div_mod; discriminate).
  set (sd := ns / 10 ^ 9) in *. set (f := ns mod 10 ^ 9) in *. clearbody sd f.
  destruct (frac_text_is f B2) as (F1 & F2 & F3).
  exists (pad4 y), (pad2 mo), (pad2 d), (pad2 (sd / 3600)), (pad2 (sd / 60 mod 60)), (pad2 (sd mod 60)), (frac_text f), y, mo, d, q, (sd / 3600), (sd / 60 mod 60), (sd mod 60), f.
  split; [reflexivity|]. split; [apply pad4_is; lia|]. split; [apply pad2_is; lia|]. split; [apply pad2_is; lia|]. split; [exact C|].
  split; [apply pad2_is; lia|]. split; [apply pad2_is; lia|]. split; [apply pad2_is; lia|]. split; [lia|]. split; [lia|]. split; [lia|].
  split; [exact F1|]. split; [exact F2|]. split; [exact F3|]. unfold instant. rewrite DM, B3. lia.
Qed.
Lemma canonical_timestamp : forall s t, canonical s t -> timestamp s t.
Proof.
  intros s t (Y & M & D & h & m & sec & f & y & mo & d & day & hh & mi & ss & ns & H).
  exists Y, M, D, h, m, sec, f, [x5a], y, mo, d, day, hh, mi, ss, ns, 0. unfold zone. intuition auto.
Qed.
Lemma value_inj : forall a b acc acc', length a = length b -> Forall digit a -> Forall digit b -> 0 <= acc -> 0 <= acc' ->
  decimal_value acc a = decimal_value acc' b -> acc = acc' /\ a = b.
Proof.
  induction a as [|c a IH]; intros [|c' b] acc acc' L F F' P P' E; try discriminate L; cbn [decimal_value] in E; [auto|].
  inversion F as [|? ? D Fa]; subst. inversion F' as [|? ? D' Fb]; subst. injection L as L. unfold digit in D, D'.
  apply IH in E as [E ->]; try assumption; try lia. assert (b2n c = b2n c') by lia. split; [lia|]. f_equal. apply b2n_inj. assumption.
Qed.
Lemma numeral_inj : forall w a b v, numeral w a v -> numeral w b v -> a = b.
Proof. intros w a b v (L & F & E) (L' & F' & E'). apply (value_inj a b 0 0); try assumption; try lia. Qed.
Lemma second_part_range : forall f ns, second_part f ns -> 0 <= ns < 10 ^ 9.
Proof.
  intros f ns [(_ & ->)|(w & ds & v & _ & N & W & H)]; [lia|]. pose proof (numeral_bound _ _ _ N). destruct H as [(G & H)|(_ & -> & H)]; [|lia].
  pose proof (Z.pow_pos_nonneg 10 (Z.of_nat w) eq_refl ltac:(lia)). nia.
Qed.
Lemma value_app : forall a b acc, decimal_value acc (a ++ b) = decimal_value (decimal_value acc a) b.
Proof. induction a as [|c a IH]; intros b acc; [reflexivity|]. cbn [app decimal_value]. apply IH. Qed.
Definition tight (f : bytes) : Prop := (length f <= 10)%nat /\ (f = [] \/ exists c f', f = f' ++ [c] /\ digit c /\ c <> x30).
Lemma tight_value : forall w ds v, numeral w ds v -> tight (x2e :: ds) -> (1 <= w)%nat -> (w <= 9)%nat /\ v mod 10 <> 0.
Proof.
  intros w ds v (L & F & ->) (T & [E|(c & f' & E & D & N)]) W; [discriminate|]. cbn [length] in T. split; [lia|].
  destruct f' as [|a f']; [cbn in E; injection E as _ E; subst ds; cbn in L; lia|]. injection E as _ ->. rewrite value_app. cbn [decimal_value].
  assert (N' : b2n c <> 48%N) by (intro X; apply N; apply b2n_inj; exact X). unfold digit in D.
  set (q := decimal_value 0 f'). clearbody q. lia.
Qed.
Lemma second_inj : forall f f' ns, second_part f ns -> second_part f' ns -> tight f -> tight f' -> f = f'.
Proof.
  assert (Z0 : forall w ds v, numeral w ds v -> (1 <= w)%nat -> tight (x2e :: ds) -> v <> 0).
  { intros w ds v N W T ->. destruct (tight_value w ds 0 N T W) as [_ X]. apply X. reflexivity. }
  assert (H0 : forall w ds v ns, numeral w ds v -> (1 <= w)%nat -> tight (x2e :: ds) -> (w <= 9)%nat /\ ns * 10 ^ Z.of_nat w = v * 10 ^ 9 \/ (9 < w)%nat /\ ns = v /\ v < 10 ^ 9 ->
     ns <> 0 /\ ns = v * 10 ^ Z.of_nat (9 - w)).
  { intros w ds v ns N W T H. pose proof (Z0 w ds v N W T). destruct (tight_value w ds v N T W) as [G _]. destruct H as [(_ & H)|(X & _)]; [|lia].
    apply scaled in H; [|exact G]. split; [|exact H]. pose proof (Z.pow_pos_nonneg 10 (Z.of_nat (9 - w)) eq_refl ltac:(lia)). nia. }
  assert (OR : forall w ds v w' ds' v', numeral w ds v -> numeral w' ds' v' -> (1 <= w)%nat -> (1 <= w')%nat -> tight (x2e :: ds) -> tight (x2e :: ds') ->
     v * 10 ^ Z.of_nat (9 - w) = v' * 10 ^ Z.of_nat (9 - w') -> (w < w')%nat -> False).
  { intros w ds v w' ds' v' N N' W W' T T' E L. destruct (tight_value _ _ _ N T W) as [G _]. destruct (tight_value _ _ _ N' T' W') as [G' X]. apply X.
    replace (Z.of_nat (9 - w)) with (Z.of_nat (9 - w') + (Z.of_nat (w' - w - 1) + 1)) in E by lia. rewrite !Z.pow_add_r in E by lia.
    rewrite Z.mul_assoc, (Z.mul_comm v), <- Z.mul_assoc, (Z.mul_comm v') in E. apply Z.mul_reg_l in E; [|apply Z.pow_nonzero; lia].
    rewrite <- E. change (10 ^ 1) with 10. rewrite Z.mul_assoc. apply Z_mod_mult. }
  intros f f' ns S S' T T'. destruct S as [(-> & E)|(w & ds & v & -> & N & W & H)]; destruct S' as [(-> & E')|(w' & ds' & v' & -> & N' & W' & H')].
  - reflexivity.
  - apply (H0 w' ds' v' ns N' W' T') in H' as [X _]. congruence.
  - apply (H0 w ds v ns N W T) in H as [X _]. congruence.
  - apply (H0 w ds v ns N W T) in H as [_ H]. apply (H0 w' ds' v' ns N' W' T') in H' as [_ H']. rewrite H in H'.
    destruct (lt_eq_lt_dec w w') as [[L|L]|L].
    + destruct (OR _ _ _ _ _ _ N N' W W' T T' H' L).
    + subst w'. apply Z.mul_reg_r in H'; [|apply Z.pow_nonzero; lia]. subst v'. f_equal. eapply numeral_inj; eassumption.
    + destruct (OR _ _ _ _ _ _ N' N W' W T' T (eq_sym H') L).
Qed.
Lemma instant_inj : forall day hh mi ss ns day' hh' mi' ss' ns', 0 <= hh < 24 -> 0 <= mi < 60 -> 0 <= ss < 60 -> 0 <= ns < 10 ^ 9 ->
  0 <= hh' < 24 -> 0 <= mi' < 60 -> 0 <= ss' < 60 -> 0 <= ns' < 10 ^ 9 -> instant day hh mi ss ns 0 = instant day' hh' mi' ss' ns' 0 ->
  day = day' /\ hh = hh' /\ mi = mi' /\ ss = ss' /\ ns = ns'.
Proof. intros. unfold instant in *. lia. Qed.
Lemma canonical_inj : forall s s' t, canonical s t -> canonical s' t -> s = s'.
Proof.
  intros s s' t (Y & M & D & h & m & sec & f & y & mo & d & day & hh & mi & ss & ns & -> & N1 & N2 & N3 & C & N4 & N5 & N6 & B1 & B2 & B3 & F & T1 & T2 & ->)
    (Y' & M' & D' & h' & m' & sec' & f' & y' & mo' & d' & day' & hh' & mi' & ss' & ns' & -> & N1' & N2' & N3' & C' & N4' & N5' & N6' & B1' & B2' & B3' & F' & T1' & T2' & E).
  apply instant_inj in E as (<- & <- & <- & <- & <-);
    try (match goal with N : numeral _ _ ?x |- 0 <= ?x < _ => pose proof (numeral_bound _ _ _ N); lia end); try (eapply second_part_range; eassumption).
  apply calendar_iff in C, C'. rewrite C in C'. injection C' as <- <- <-.
  rewrite (numeral_inj _ _ _ _ N1 N1'), (numeral_inj _ _ _ _ N2 N2'), (numeral_inj _ _ _ _ N3 N3'), (numeral_inj _ _ _ _ N4 N4'), (numeral_inj _ _ _ _ N5 N5'), (numeral_inj _ _ _ _ N6 N6').
  rewrite (second_inj f f' ns F F'); [reflexivity|split; assumption|split; assumption].
Qed.
Theorem time_text_canon_iff : forall t s, time_text t = Ok s <-> canonical s t.
Proof.
  intros t s. split; [apply time_text_canonical|]. intro H. pose proof H as H'.
  destruct H' as (Y & M & D & h & m & sec & f & y & mo & d & day & hh & mi & ss & ns & _ & N1 & _ & _ & C & N4 & N5 & N6 & B1 & B2 & B3 & F & _ & _ & E).
  apply calendar_iff in C. apply numeral_bound in N1, N4, N5, N6. apply second_part_range in F. change (10 ^ Z.of_nat 4) with 10000 in N1.
  assert (DV : t / day_ns = day).
  { symmetry. apply Z.div_unique with (r := instant 0 hh mi ss ns 0); [left|]; rewrite ?E; unfold instant, day_ns; lia. }
  assert (X : exists s', time_text t = Ok s').
  { unfold time_text. rewrite DV, C. replace ((0 <=? y) && (y <=? 9999)) with true by lia. eexists. reflexivity. }
  destruct X as [s' X]. rewrite X. f_equal. eapply canonical_inj; [apply time_text_canonical; exact X|exact H].
Qed.
