From Coq Require Import Lia ZifyBool ZifyNat ZifyN.
From Verif Require Import Base BaseFacts JsonModel JsonProofs TimeModel.
Local Open Scope Z_scope.

(** ** Calendar: every year of an era and every day of a year, by computation *)
Definition check_doe (doe : Z) : bool :=
  let yoe := (doe - doe / 1460 + doe / 36524 - doe / 146096) / 365 in
  let doy := doe - (365 * yoe + yoe / 4 - yoe / 100) in
  let mp := (5 * doy + 2) / 153 in
  let d := doy - (153 * mp + 2) / 5 + 1 in
  let m := if mp <? 10 then mp + 3 else mp - 9 in
  let y := yoe + (if m <=? 2 then 1 else 0) in
  (0 <=? yoe) && (yoe <? 400) && (0 <=? mp) && (mp <? 12) && (1 <=? d) && (d <=? month_days y m).
Definition years_before (doe : Z) : Z := doe - doe / 1460 + doe / 36524 - doe / 146096.
Definition year_start (y : Z) : Z := 365 * y + y / 4 - y / 100.
(* the last day of year y of an era is 364 or 365 days behind the first *)
Definition year_len (y : Z) : Z := if leap (y + 1) then 366 else 365.
Definition check_year (y : Z) : bool :=
  (years_before (year_start y) / 365 =? y) &&
  (years_before (year_start y + year_len y - 1) / 365 =? y) &&
  ((y =? 399) || (year_start (y + 1) =? year_start y + year_len y)).
Definition check_day (doy : Z) : bool :=
  let mp := (5 * doy + 2) / 153 in
  let d := doy - (153 * mp + 2) / 5 + 1 in
  let m := if mp <? 10 then mp + 3 else mp - 9 in
  (0 <=? mp) && (mp <? 12) && (1 <=? d) &&
  (if m =? 2 then d <=? (if doy =? 365 then 29 else 28) else d <=? month_days 0 m).
Fixpoint check_from (f : Z -> bool) (n : nat) (x : Z) : bool :=
  match n with O => true | S n => f x && check_from f n (x + 1) end.
Lemma check_from_sound : forall f n lo, check_from f n lo = true -> forall x, lo <= x < lo + Z.of_nat n -> f x = true.
Proof.
  intros f. induction n as [|n IH]; intros lo H x B; [lia|]. cbn [check_from] in H. apply andb_prop in H as [H1 H2].
  destruct (Z.eq_dec x lo) as [->|N]; [exact H1|]. apply (IH (lo + 1) H2). lia.
Qed.
Lemma all_years : check_from check_year 400 0 = true.
Proof. vm_compute. reflexivity. Qed.
Lemma all_doys : check_from check_day 366 0 = true.
Proof. vm_compute. reflexivity. Qed.
Lemma years_before_mono : forall a b, 0 <= a <= b -> years_before a <= years_before b.
Proof.
  intros a b H. unfold years_before.
  assert (a - a / 1460 <= b - b / 1460) by lia.
  replace 146096 with (36524 * 4) by lia. rewrite <- !Z.div_div by lia.
  assert (a / 36524 <= b / 36524) by (apply Z.div_le_mono; lia).
  set (qa := a / 36524) in *. set (qb := b / 36524) in *. clearbody qa qb. lia.
Qed.
Lemma year_mono : forall y, 0 <= y -> year_start y <= year_start (y + 1).
Proof. intros y H. unfold year_start. lia. Qed.
Lemma find_year : forall n, 0 <= n <= 400 -> forall doe, 0 <= doe < year_start n -> exists y, 0 <= y < n /\
  year_start y <= doe < year_start (y + 1).
Proof.
  intros n H. replace n with (Z.of_nat (Z.to_nat n)) by lia. assert (L : (Z.to_nat n <= 400)%nat) by lia.
  induction (Z.to_nat n) as [|k IH]; intros doe D; [cbn in D; lia|].
  rewrite Nat2Z.inj_succ in *. destruct (Z_lt_ge_dec doe (year_start (Z.of_nat k))) as [Lt|Ge].
  - destruct (IH ltac:(lia) doe) as (y & B & S); [lia|]. exists y. split; [lia|exact S].
  - exists (Z.of_nat k). split; [lia|]. replace (Z.of_nat k + 1) with (Z.succ (Z.of_nat k)) by lia. lia.
Qed.
Lemma doe_ok : forall x, 0 <= x < 146097 -> check_doe x = true.
Proof.
  intros x H.
  assert (Y : exists y, 0 <= y < 400 /\ year_start y <= x < year_start y + year_len y).
  { destruct (Z.eq_dec x 146096) as [->|N].
    - exists 399. change (year_start 399) with 145731. change (year_len 399) with 366. lia.
    - destruct (find_year 400 ltac:(lia) x) as (y & B & S).
      + change (year_start 400) with 146096. lia.
      + exists y. split; [exact B|].
        pose proof (check_from_sound _ _ _ all_years y ltac:(lia)) as CK. unfold check_year in CK.
        rewrite !andb_true_iff, orb_true_iff in CK. destruct CK as [_ [E|E]].
        * apply Z.eqb_eq in E. subst y. change (year_start 399) with 145731 in *. change (year_len 399) with 366.
          change (year_start (399 + 1)) with 146096 in S. lia.
        * apply Z.eqb_eq in E. rewrite E in S. exact S. }
  destruct Y as (y & B & S).
  pose proof (check_from_sound _ _ _ all_years y ltac:(lia)) as CK. unfold check_year in CK.
  rewrite !andb_true_iff in CK. destruct CK as [[E1 E2] _]. apply Z.eqb_eq in E1, E2.
  assert (P : 0 <= year_start y) by (unfold year_start; lia).
  assert (EY : years_before x / 365 = y).
  { pose proof (years_before_mono (year_start y) x ltac:(lia)) as M1.
    pose proof (years_before_mono x (year_start y + year_len y - 1) ltac:(lia)) as M2.
    apply (Z.div_le_mono _ _ 365) in M1; [|lia]. apply (Z.div_le_mono _ _ 365) in M2; [|lia]. lia. }
  unfold check_doe. fold (years_before x). rewrite EY. fold (year_start y).
  assert (LB : year_len y = 366 /\ leap (y + 1) = true \/ year_len y = 365) by (unfold year_len; destruct (leap (y + 1)); auto).
  pose proof (check_from_sound _ _ _ all_doys (x - year_start y) ltac:(lia)) as CD. unfold check_day in CD.
  set (doy := x - year_start y) in *. assert (DB : 0 <= doy < year_len y) by lia. clearbody doy. clear S E1 E2 EY P H.
  set (mp := (5 * doy + 2) / 153) in *. set (d := doy - (153 * mp + 2) / 5 + 1) in *. clearbody d.
  assert (M10 : (if mp <? 10 then mp + 3 else mp - 9) = 2 -> 10 <= mp) by (destruct (Z.ltb_spec mp 10); lia).
  set (m := if mp <? 10 then mp + 3 else mp - 9) in *. clearbody m.
  rewrite !andb_true_iff in CD. destruct CD as (((C3 & C4) & C5) & C6).
  rewrite !andb_true_iff. split; [split; [split; [split; [split|]|]|]|]; auto; try lia.
  unfold month_days in *. destruct (Z.eqb_spec m 2) as [->|N]; [|exact C6].
  cbn [Z.leb Z.compare]. change (2 <=? 2) with true. cbv iota.
  destruct (Z.eqb_spec doy 365) as [->|N].
  - destruct LB as [[_ ->]|E]; [exact C6|]. lia.
  - apply Z.leb_le in C6. apply Z.leb_le. destruct (leap (y + 1)); lia.
Qed.

Lemma leap_period : forall y k, leap (y + k * 400) = leap y.
Proof.
  intros y k. unfold leap.
  replace ((y + k * 400) mod 4) with (y mod 4) by (replace (k * 400) with (k * 100 * 4) by lia; rewrite Z_mod_plus_full; reflexivity).
  replace ((y + k * 400) mod 100) with (y mod 100) by (replace (k * 400) with (k * 4 * 100) by lia; rewrite Z_mod_plus_full; reflexivity).
  rewrite Z_mod_plus_full. reflexivity.
Qed.

Lemma civil_roundtrip : forall z y m d, civil_of_days z = (y, m, d) ->
  days_of_civil y m d = z /\ 1 <= m <= 12 /\ 1 <= d <= month_days y m.
Proof.
  intros z y m d H. unfold civil_of_days in H.
  pose proof (Z.mod_pos_bound (z + 719468) 146097 eq_refl) as B.
  pose proof (Z.div_mod (z + 719468) 146097 ltac:(lia)) as DM.
  set (doe := (z + 719468) mod 146097) in *. set (era := (z + 719468) / 146097) in *. clearbody doe era.
  pose proof (doe_ok doe B) as CK. unfold check_doe in CK.
  set (yoe := (doe - doe / 1460 + doe / 36524 - doe / 146096) / 365) in *. clearbody yoe.
  set (doy := doe - (365 * yoe + yoe / 4 - yoe / 100)) in *.
  set (mp := (5 * doy + 2) / 153) in *.
  assert (Ed : exists d0, doy = d0 + (153 * mp + 2) / 5 - 1) by (exists (doy - (153 * mp + 2) / 5 + 1); ring).
  assert (Edoe : doe = doy + (365 * yoe + yoe / 4 - yoe / 100)) by (unfold doy; ring).
  clearbody mp. clearbody doy.
  apply pair_equal_spec in H as [H <-]. apply pair_equal_spec in H as [<- <-]. rewrite !andb_true_iff in CK. destruct CK as (((((C1 & C2) & C3) & C4) & C5) & C6).
  assert (EM : month_days (yoe + era * 400 + (if (if mp <? 10 then mp + 3 else mp - 9) <=? 2 then 1 else 0))
                 (if mp <? 10 then mp + 3 else mp - 9)
             = month_days (yoe + (if (if mp <? 10 then mp + 3 else mp - 9) <=? 2 then 1 else 0))
                 (if mp <? 10 then mp + 3 else mp - 9)).
  { unfold month_days. replace (yoe + era * 400 + _) with
      (yoe + (if (if mp <? 10 then mp + 3 else mp - 9) <=? 2 then 1 else 0) + era * 400) by ring.
    rewrite leap_period. reflexivity. }
  rewrite EM. apply Z.leb_le in C5, C6, C1, C3. apply Z.ltb_lt in C2, C4.
  split; [|split; [clear - C3 C4; destruct (mp <? 10) eqn:?; lia|split; assumption]].
  clear C5 C6 EM.
  unfold days_of_civil.
  assert (Y : (if (if mp <? 10 then mp + 3 else mp - 9) <=? 2
               then yoe + era * 400 + (if (if mp <? 10 then mp + 3 else mp - 9) <=? 2 then 1 else 0) - 1
               else yoe + era * 400 + (if (if mp <? 10 then mp + 3 else mp - 9) <=? 2 then 1 else 0))
              = yoe + era * 400) by (destruct ((if mp <? 10 then mp + 3 else mp - 9) <=? 2); ring).
  rewrite Y. rewrite Z_mod_plus_full, Z.div_add by lia. rewrite (Z.div_small yoe 400), (Z.mod_small yoe 400) by lia.
  assert (M : (if 2 <? (if mp <? 10 then mp + 3 else mp - 9) then (if mp <? 10 then mp + 3 else mp - 9) - 3
               else (if mp <? 10 then mp + 3 else mp - 9) + 9) = mp).
  { destruct (mp <? 10) eqn:E1.
    - replace (2 <? mp + 3) with true by lia. lia.
    - replace (2 <? mp - 9) with false by lia. lia. }
  rewrite M. clear - DM Edoe.
  generalize dependent ((153 * mp + 2) / 5). generalize dependent (yoe / 4). generalize dependent (yoe / 100).
  intros; lia.
Qed.

(** ** Digits *)
Lemma dval_dig : forall n, dval (dig n) = Some (n mod 10).
Proof.
  intro n. unfold dval, dig, is_digit_b. rewrite b2n_n2b.
  assert (0 <= n mod 10 < 10) by (apply Z.mod_pos_bound; lia). set (k := n mod 10) in *. clearbody k.
  assert (k = 0 \/ k = 1 \/ k = 2 \/ k = 3 \/ k = 4 \/ k = 5 \/ k = 6 \/ k = 7 \/ k = 8 \/ k = 9) as D by lia.
  repeat (destruct D as [->|D]; [reflexivity|]). subst. reflexivity.
Qed.
Lemma dig_digit : forall n, is_digit_b (dig n) = true.
Proof. intro n. pose proof (dval_dig n) as H. unfold dval in H. destruct (is_digit_b (dig n)); congruence. Qed.

Lemma take_pad2 : forall n r, 0 <= n < 100 -> take_num 2 (pad2 n ++ r) = Some (n, r).
Proof.
  intros n r B. unfold take_num, pad2. cbn [app length Nat.ltb Nat.leb firstn skipn dvals].
  rewrite !dval_dig. do 2 f_equal. lia.
Qed.
Lemma hour_pad2 : forall n r, 0 <= n < 100 -> take_hour (pad2 n ++ r) = Some (n, r).
Proof.
  intros n r B. unfold take_hour, pad2. cbn [app]. rewrite !dval_dig. do 2 f_equal. lia.
Qed.
Lemma take_pad4 : forall n r, 0 <= n < 10000 -> take_num 4 (pad4 n ++ r) = Some (n, r).
Proof.
  intros n r B. unfold take_num, pad4. cbn [app length Nat.ltb Nat.leb firstn skipn dvals].
  rewrite !dval_dig. do 2 f_equal. lia.
Qed.

Lemma dvals_app : forall a b acc, dvals acc (a ++ b) = match dvals acc a with Some v => dvals v b | None => None end.
Proof.
  induction a as [|c a IH]; intros b acc; [reflexivity|]. cbn [app dvals]. destruct (dval c); [apply IH|reflexivity].
Qed.
Lemma pad9_value : forall n, 0 <= n < 10 ^ 9 -> dvals 0 (pad9 n) = Some n.
Proof. intros n B. unfold pad9. cbn [dvals]. rewrite !dval_dig. f_equal. lia. Qed.

Lemma trim0_spec : forall s, exists k, s = trim0 s ++ repeat x30 k.
Proof.
  induction s as [|c s [k IH]]; [exists 0%nat; reflexivity|]. cbn [trim0].
  destruct (trim0 s) as [|c' s'] eqn:E.
  - destruct (beq c x30) eqn:E1.
    + apply beq_eq in E1. subst c. exists (S k). cbn. rewrite IH at 1. reflexivity.
    + exists k. cbn. rewrite IH at 1. reflexivity.
  - exists k. cbn. cbn in IH. rewrite IH at 1. reflexivity.
Qed.
Lemma dvals_zeros : forall k acc, dvals acc (repeat x30 k) = Some (acc * 10 ^ Z.of_nat k).
Proof.
  induction k as [|k IH]; intro acc; [cbn; f_equal; lia|].
  cbn [repeat dvals]. change (dval x30) with (Some 0). cbn match. rewrite IH.
  rewrite Nat2Z.inj_succ, Z.pow_succ_r by lia. f_equal. ring.
Qed.
Lemma dvals_some : forall s acc, forallb is_digit_b s = true -> exists v, dvals acc s = Some v.
Proof.
  induction s as [|c s IH]; intros acc H; [eexists; reflexivity|]. cbn in H. apply andb_prop in H as [H1 H2].
  cbn [dvals]. unfold dval. rewrite H1. apply IH. exact H2.
Qed.
Lemma span_digits_app : forall s c r, forallb is_digit_b s = true -> is_digit_b c = false ->
  span_digits (s ++ c :: r) = (s, c :: r).
Proof.
  induction s as [|a s IH]; intros c r H N; cbn [app span_digits].
  - rewrite N. reflexivity.
  - cbn in H. apply andb_prop in H as [H1 H2]. rewrite H1, IH by assumption. reflexivity.
Qed.

Lemma take_frac_text : forall n, 0 <= n < 10 ^ 9 -> take_frac (frac_text n ++ [x5a]) = Some (n, [x5a]).
Proof.
  intros n B. unfold frac_text. destruct (trim0_spec (pad9 n)) as [k E].
  pose proof (pad9_value n B) as V. rewrite E, dvals_app in V.
  assert (L : (length (trim0 (pad9 n)) + k = 9)%nat).
  { pose proof (f_equal (@length byte) E) as L. rewrite app_length, repeat_length in L. cbn [length pad9] in L. lia. }
  assert (D : forallb is_digit_b (trim0 (pad9 n)) = true).
  { assert (D0 : forallb is_digit_b (pad9 n) = true) by (unfold pad9; cbn [forallb]; rewrite !dig_digit; reflexivity).
    rewrite E, forallb_app in D0. apply andb_prop in D0. tauto. }
  set (s := trim0 (pad9 n)) in *. clearbody s. clear E.
  destruct (dvals_some s 0 D) as [v Ev]. rewrite Ev, dvals_zeros in V. injection V as V.
  destruct s as [|c s].
  - cbn in Ev. injection Ev as <-. cbn [app take_frac]. change (beq x5a x2e) with false. cbn match. f_equal. f_equal. lia.
  - cbn [app take_frac]. change (beq x2e x2e) with true. cbn match.
    rewrite app_comm_cons, span_digits_app; [|exact D|reflexivity].
    cbn [length] in L. replace (1 <=? length (c :: s))%nat with true by (cbn [length]; lia).
    rewrite Ev. replace (v <? 10 ^ 9) with true by (pose proof (Z.pow_pos_nonneg 10 (Z.of_nat k) eq_refl ltac:(lia)); nia). replace (9 - length (c :: s))%nat with k by (cbn [length]; lia). rewrite V. reflexivity.
Qed.

Lemma Ok_inj : forall A (a b : A), Ok a = Ok b -> a = b.
Proof. intros A a b H. injection H. auto. Qed.

Theorem time_roundtrip : forall t s, time_text t = Ok s -> parse_time s = Ok t.
Proof.
  intros t s H. unfold time_text in H. destruct (civil_of_days (t / day_ns)) as [[y m] d] eqn:E.
  apply civil_roundtrip in E as (E & M & D).
  destruct ((0 <=? y) && (y <=? 9999)) eqn:Y; [|discriminate]. apply Ok_inj in H. subst s.
  assert (D31 : month_days y m <= 31) by (unfold month_days; destruct (m =? 2); [destruct (leap y); lia|]; destruct (_ || _); lia).
  unfold parse_time, parse_time_opt. rewrite take_pad4 by lia. cbn [app take_char]. change (beq x2d x2d) with true. cbn match.
  rewrite take_pad2 by lia. cbn [app take_char]. change (beq x2d x2d) with true. cbn match.
  rewrite take_pad2 by lia. cbn [app take_char]. change (beq x54 x54) with true. cbn match.
  assert (S : 0 <= t mod day_ns < day_ns) by (apply Z.mod_pos_bound; reflexivity).
  assert (DM : t = day_ns * (t / day_ns) + t mod day_ns) by (apply Z.div_mod; discriminate).
  set (ns := t mod day_ns) in *. set (q := t / day_ns) in *. clearbody ns q. unfold day_ns in *.
  assert (B1 : 0 <= ns / 10 ^ 9 < 86400) by lia.
  assert (B2 : 0 <= ns mod 10 ^ 9 < 10 ^ 9) by (apply Z.mod_pos_bound; reflexivity).
  assert (B3 : ns = 10 ^ 9 * (ns / 10 ^ 9) + ns mod 10 ^ 9) by (apply Z.div_mod; discriminate).
  set (s := ns / 10 ^ 9) in *. set (f := ns mod 10 ^ 9) in *. clearbody s f.
  rewrite hour_pad2 by lia. cbn [app take_char]. change (beq x3a x3a) with true. cbn match.
  rewrite take_pad2 by lia. cbn [app take_char]. change (beq x3a x3a) with true. cbn match.
  rewrite take_pad2 by lia. rewrite take_frac_text by exact B2. cbn [take_zone].
  change (beq x5a x5a) with true. cbn match.
  replace (_ && (s mod 60 <=? 59)) with true by lia.
  f_equal. rewrite E. unfold day_ns. rewrite DM, B3. lia.
Qed.

Lemma dig_ascii : forall n, (b2n (dig n) < 128)%N.
Proof. intro n. pose proof (dig_digit n) as H. unfold is_digit_b in H. lia. Qed.
Lemma trim0_ascii : forall s, ascii s -> ascii (trim0 s).
Proof.
  intros s H. destruct (trim0_spec s) as [k E]. rewrite E in H. apply Forall_app in H. tauto.
Qed.
Lemma time_ascii : forall t s, time_text t = Ok s -> ascii s.
Proof.
  intros t s H. unfold time_text in H. destruct (civil_of_days (t / day_ns)) as [[y m] d].
  destruct ((0 <=? y) && (y <=? 9999)); [|discriminate]. apply Ok_inj in H. subst s.
  assert (P : ascii (frac_text (t mod day_ns mod 10 ^ 9))).
  { unfold frac_text. pose proof (trim0_ascii (pad9 (t mod day_ns mod 10 ^ 9))) as T.
    destruct (trim0 _); [constructor|]. constructor; [reflexivity|]. apply T. unfold pad9.
    repeat (constructor; [apply dig_ascii|]). constructor. }
  unfold ascii, pad2, pad4 in *. repeat (apply Forall_app; split); auto;
    repeat (constructor; [try apply dig_ascii; try reflexivity|]); constructor.
Qed.
Lemma dtime_jtime : forall t j, jtime t = Ok j -> dtime [j] = Ok t /\ plain j /\ exists s, j = JStr s.
Proof.
  intros t j H. unfold jtime in H. destruct (time_text t) as [s| |] eqn:E; try discriminate. injection H as <-.
  split; [unfold dtime; cbn [dlast time_value]; rewrite (time_roundtrip _ _ E); reflexivity|]. split; [constructor; apply ascii_unicode; eapply time_ascii; exact E|eexists; reflexivity].
Qed.

(** ** which times have a text *)
Definition year0 : Z := days_of_civil 0 1 1 * day_ns.
Definition year10000 : Z := days_of_civil 10000 1 1 * day_ns.

Definition year_days (y : Z) : Z := y / 400 * 146097 + (y mod 400 * 365 + y mod 400 / 4 - y mod 400 / 100).
Lemma year_days_step : forall y, year_days y + 365 <= year_days (y + 1) <= year_days y + 366.
Proof. intro y. unfold year_days. lia. Qed.
Lemma year_days_mono : forall n y, 0 <= n -> year_days y + 365 * n <= year_days (y + n).
Proof.
  intros n y H. revert y. apply (natlike_ind (fun n => forall y, year_days y + 365 * n <= year_days (y + n))); [| |exact H].
  - intro y. replace (y + 0) with y by lia. lia.
  - intros x Hx IH y. pose proof (IH y). pose proof (year_days_step (y + x)).
    replace (y + Z.succ x) with (y + x + 1) by lia. lia.
Qed.
Lemma days_split : forall y m d, days_of_civil y m d =
  year_days (if m <=? 2 then y - 1 else y) + ((153 * (if 2 <? m then m - 3 else m + 9) + 2) / 5 + d - 1) - 719468.
Proof. intros. unfold days_of_civil, year_days. lia. Qed.
Lemma month_days_le : forall y m, month_days y m <= 31.
Proof. intros. unfold month_days. destruct (m =? 2); [destruct (leap y); lia|]. destruct (_ || _); lia. Qed.
(** all days of a year lie before those of the later years *)
Lemma days_before : forall y m d y', 1 <= m <= 12 -> 1 <= d <= month_days y m -> y < y' ->
  days_of_civil y m d < days_of_civil y' 1 1.
Proof.
  intros y m d y' M D L. pose proof (month_days_le y m). rewrite !days_split.
  change (if 1 <=? 2 then y' - 1 else y') with (y' - 1). change (if 2 <? 1 then 1 - 3 else 1 + 9) with 10.
  destruct (m <=? 2) eqn:E.
  - replace (2 <? m) with false by lia.
    pose proof (year_days_mono (y' - 1 - (y - 1)) (y - 1) ltac:(lia)) as P.
    replace (y - 1 + (y' - 1 - (y - 1))) with (y' - 1) in P by lia. lia.
  - replace (2 <? m) with true by lia.
    pose proof (year_days_mono (y' - 1 - y) y ltac:(lia)) as P.
    replace (y + (y' - 1 - y)) with (y' - 1) in P by lia. lia.
Qed.
Lemma days_first : forall y m d, 1 <= m <= 12 -> 1 <= d -> days_of_civil y 1 1 <= days_of_civil y m d.
Proof.
  intros y m d M D. rewrite !days_split.
  change (if 1 <=? 2 then y - 1 else y) with (y - 1). change (if 2 <? 1 then 1 - 3 else 1 + 9) with 10.
  destruct (m <=? 2) eqn:E.
  - replace (2 <? m) with false by lia. lia.
  - replace (2 <? m) with true by lia. pose proof (year_days_step (y - 1)) as P.
    replace (y - 1 + 1) with y in P by lia. lia.
Qed.
Theorem time_text_iff : forall t, (exists s, time_text t = Ok s) <-> year0 <= t < year10000.
Proof.
  intro t. unfold time_text, year0, year10000. destruct (civil_of_days (t / day_ns)) as [[y m] d] eqn:E.
  apply civil_roundtrip in E as (E & M & D).
  assert (DM : t = day_ns * (t / day_ns) + t mod day_ns) by (apply Z.div_mod; discriminate).
  assert (B : 0 <= t mod day_ns < day_ns) by (apply Z.mod_pos_bound; reflexivity).
  assert (Q : (0 <=? y) && (y <=? 9999) = true <-> days_of_civil 0 1 1 <= t / day_ns < days_of_civil 10000 1 1).
  { rewrite <- E. split.
    - intro H. split.
      + destruct (Z.eq_dec y 0) as [->|N]; [apply days_first; lia|].
        pose proof (days_first y m d M ltac:(lia)).
        pose proof (days_before 0 1 1 y ltac:(lia) ltac:(split; [lia|vm_compute; discriminate]) ltac:(lia)). lia.
      + apply days_before; lia.
    - intros [H1 H2].
      assert (0 <= y) by (destruct (Z_lt_ge_dec y 0) as [N|N]; [pose proof (days_before y m d 0 M D N)|]; lia).
      assert (y <= 9999).
      { destruct (Z_lt_ge_dec y 10000) as [N|N]; [lia|]. exfalso.
        pose proof (days_first y m d M ltac:(lia)). destruct (Z.eq_dec y 10000) as [->|N']; [lia|].
        pose proof (days_before 10000 1 1 y ltac:(lia) ltac:(split; [lia|vm_compute; discriminate]) ltac:(lia)). lia. }
      lia. }
  destruct ((0 <=? y) && (y <=? 9999)) eqn:Y.
  - split; [|eexists; reflexivity]. intros _. destruct (proj1 Q eq_refl) as [Q1 Q2].
    generalize dependent (days_of_civil 0 1 1). generalize dependent (days_of_civil 10000 1 1). intros. unfold day_ns in *. lia.
  - split; [intros [s H]; discriminate|]. intros [H1 H2]. exfalso. assert (false = true); [|discriminate]. apply Q.
    generalize dependent (days_of_civil 0 1 1). generalize dependent (days_of_civil 10000 1 1). intros. unfold day_ns in *. lia.
Qed.
