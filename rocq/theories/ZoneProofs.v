From Verif Require Import Base BaseFacts JsonModel TimeModel TimeProofs GrammarSpec CalendarSpec CalendarProofs FloatForms ZoneModel ZoneSpec.
From Coq Require Import Lia ZifyBool ZifyNat ZifyN.
Local Open Scope Z_scope.

Lemma parse_zoned_time : forall s, parse_time_opt s = match parse_zoned s with Some (t, _) => Some t | None => None end.
Proof.
  intro s. unfold parse_time_opt, parse_zoned.
  destruct (take_num 4 s) as [[y s1]|]; [|reflexivity]. destruct (take_char x2d s1) as [s2|]; [|reflexivity].
  destruct (take_num 2 s2) as [[mo s3]|]; [|reflexivity]. destruct (take_char x2d s3) as [s4|]; [|reflexivity].
  destruct (take_num 2 s4) as [[d s5]|]; [|reflexivity]. destruct (take_char x54 s5) as [s6|]; [|reflexivity].
  destruct (take_hour s6) as [[hh s7]|]; [|reflexivity]. destruct (take_char x3a s7) as [s8|]; [|reflexivity].
  destruct (take_num 2 s8) as [[mi s9]|]; [|reflexivity]. destruct (take_char x3a s9) as [s10|]; [|reflexivity].
  destruct (take_num 2 s10) as [[ss s11]|]; [|reflexivity]. destruct (take_frac s11) as [[ns s12]|]; [|reflexivity].
  destruct (take_zone s12) as [off|]; [|reflexivity]. destruct (_ && (ss <=? 59)); reflexivity.
Qed.

(** reading a date and a clock, whatever the zone is *)
Lemma parse_written : forall Y M D h m sec f c r y mo d day hh mi ss ns,
  numeral 4 Y y -> numeral 2 M mo -> numeral 2 D d -> on_day day (y, mo, d) ->
  (numeral 2 h hh \/ numeral 1 h hh) -> numeral 2 m mi -> numeral 2 sec ss -> hh < 24 -> mi < 60 -> ss < 60 ->
  second_part f ns -> In c [x5a; x2b; x2d] ->
  parse_zoned (written Y M D h m sec f (c :: r)) =
  match take_zone (c :: r) with Some off => Some (instant day hh mi ss ns off, off) | None => None end.
Proof.
  intros Y M D h m sec f c r y mo d day hh mi ss ns N1 N2 N3 C N4 N5 N6 B1 B2 B3 F I.
  apply on_day_number in C as [[V1 V2] V3]. cbn [number_of] in V3.
  assert (K : forall w ds v r, numeral w ds v -> take_num w (ds ++ r) = Some (v, r)) by (intros; apply take_num_iff; eauto).
  assert (Q : forall c r, take_char c (c :: r) = Some r) by (intros; apply take_char_iff; reflexivity).
  unfold written, parse_zoned. rewrite (K 4%nat Y y _ N1). cbn [app]. rewrite Q, (K 2%nat M mo _ N2), Q, (K 2%nat D d _ N3), Q, (hour_app h hh _ N4), Q, (K 2%nat m mi _ N5), Q, (K 2%nat sec ss _ N6).
  rewrite (frac_app_time f ns c r F I). destruct (take_zone (c :: r)) as [off|]; [|reflexivity].
  replace (_ && (ss <=? 59)) with true.
  - unfold instant, day_ns. f_equal. f_equal. lia.
  - symmetry. rewrite !andb_true_iff, !Z.leb_le. lia.
Qed.

Theorem parse_zoned_iff : forall s t off, parse_zoned s = Some (t, off) <-> zoned s t off.
Proof.
  intros s t off. split.
  - intro H. unfold parse_zoned in H.
    destruct (take_num 4 s) as [[y s1]|] eqn:E1; [|discriminate]. destruct (take_char x2d s1) as [s2|] eqn:E2; [|discriminate].
    destruct (take_num 2 s2) as [[mo s3]|] eqn:E3; [|discriminate]. destruct (take_char x2d s3) as [s4|] eqn:E4; [|discriminate].
    destruct (take_num 2 s4) as [[d s5]|] eqn:E5; [|discriminate]. destruct (take_char x54 s5) as [s6|] eqn:E6; [|discriminate].
    destruct (take_hour s6) as [[hh s7]|] eqn:E7; [|discriminate]. destruct (take_char x3a s7) as [s8|] eqn:E8; [|discriminate].
    destruct (take_num 2 s8) as [[mi s9]|] eqn:E9; [|discriminate]. destruct (take_char x3a s9) as [s10|] eqn:E10; [|discriminate].
    destruct (take_num 2 s10) as [[ss s11]|] eqn:E11; [|discriminate]. destruct (take_frac s11) as [[ns s12]|] eqn:E12; [|discriminate].
    destruct (take_zone s12) as [o|] eqn:E13; [|discriminate].
    destruct (_ && (ss <=? 59)) eqn:G; [|discriminate]. injection H as <- <-. rewrite !andb_true_iff, !Z.leb_le in G. destruct G as ((((((G1 & G2) & G3) & G4) & G5) & G6) & G7).
    apply take_num_iff in E1 as (Y & E1 & N1). apply take_num_iff in E3 as (M & E3 & N3). apply take_num_iff in E5 as (D & E5 & N5).
    apply hour_is in E7 as (h & E7 & N7). apply take_num_iff in E9 as (m & E9 & N9). apply take_num_iff in E11 as (sec & E11 & N11).
    apply frac_is_time in E12 as (f & E12 & N12). apply zone_iff in E13. apply take_char_iff in E2, E4, E6, E8, E10.
    exists Y, M, D, h, m, sec, f, s12, y, mo, d, (days_of_civil y mo d), hh, mi, ss, ns.
    split; [subst; unfold written; cbn [app]; reflexivity|]. repeat (split; [assumption|]).
    split; [apply day_of; cbn; auto|]. repeat (split; [assumption || lia|]). unfold instant, day_ns. lia.
  - intros (Y & M & D & h & m & sec & f & z & y & mo & d & day & hh & mi & ss & ns & -> & N1 & N2 & N3 & C & N4 & N5 & N6 & B1 & B2 & B3 & F & Z & ->).
    pose proof (zone_start z off Z) as (c & r & E & I). rewrite E, (parse_written Y M D h m sec f c r y mo d day hh mi ss ns), <- E by assumption.
    rewrite (proj2 (zone_iff z off) Z). reflexivity.
Qed.

(** ** Writing *)
Lemma zoned_text_split : forall t o s, zoned_text t o = Ok s <->
  exists b, time_text (t + o * 10 ^ 9) = Ok (b ++ [x5a]) /\ s = b ++ zone_text o.
Proof.
  intros t o s. unfold zoned_text, time_text. cbv zeta. destruct (civil_of_days ((t + o * 10 ^ 9) / day_ns)) as [[y m] d].
  set (ns := (t + o * 10 ^ 9) mod day_ns). clearbody ns. destruct ((0 <=? y) && (y <=? 9999)).
  - split.
    + intro H. apply Ok_inj in H. subst s.
      exists (pad4 y ++ [x2d] ++ pad2 m ++ [x2d] ++ pad2 d ++ [x54] ++ pad2 (ns / 10 ^ 9 / 3600) ++ [x3a] ++ pad2 (ns / 10 ^ 9 / 60 mod 60) ++ [x3a] ++ pad2 (ns / 10 ^ 9 mod 60) ++ frac_text (ns mod 10 ^ 9)).
      rewrite <- !app_assoc. split; reflexivity.
    + intros (b & H & ->). apply Ok_inj in H. f_equal.
      assert (E : b = pad4 y ++ [x2d] ++ pad2 m ++ [x2d] ++ pad2 d ++ [x54] ++ pad2 (ns / 10 ^ 9 / 3600) ++ [x3a] ++ pad2 (ns / 10 ^ 9 / 60 mod 60) ++ [x3a] ++ pad2 (ns / 10 ^ 9 mod 60) ++ frac_text (ns mod 10 ^ 9)).
      { apply (app_inj_tail _ _ x5a x5a). rewrite <- H, <- !app_assoc. reflexivity. }
      rewrite E, <- !app_assoc. reflexivity.
  - split; [discriminate|intros (b & H & _); discriminate].
Qed.
Lemma zone_text_start : forall o, exists c r, zone_text o = c :: r /\ In c [x5a; x2b; x2d].
Proof.
  intro o. unfold zone_text. destruct (o =? 0); [do 2 eexists; split; [reflexivity|cbn; auto]|]. cbv zeta.
  destruct (Z.quot o 60 <? 0); do 2 eexists; (split; [reflexivity|cbn; auto]).
Qed.
(** what is read is the clock that was written and the offset read in the zone *)
Lemma zoned_text_read : forall t o s, zoned_text t o = Ok s ->
  parse_zoned s = match take_zone (zone_text o) with Some off => Some (t + (o - off) * 10 ^ 9, off) | None => None end.
Proof.
  intros t o s H. apply zoned_text_split in H as (b & H & ->). apply time_text_canonical in H.
  destruct H as (Y & M & D & h & m & sec & f & y & mo & d & day & hh & mi & ss & ns & E & N1 & N2 & N3 & C & N4 & N5 & N6 & B1 & B2 & B3 & F & _ & _ & T).
  assert (E' : b = written Y M D h m sec f []).
  { apply (app_inj_tail _ _ x5a x5a). rewrite E. unfold written. rewrite <- !app_assoc. cbn [app]. reflexivity. }
  destruct (zone_text_start o) as (c & r & Z & I). rewrite Z.
  replace (b ++ c :: r) with (written Y M D h m sec f (c :: r)) by (rewrite E'; unfold written; rewrite <- !app_assoc; cbn [app]; reflexivity).
  rewrite (parse_written Y M D h m sec f c r y mo d day hh mi ss ns) by auto.
  destruct (take_zone (c :: r)) as [off|]; [|reflexivity]. do 2 f_equal. unfold instant in *. lia.
Qed.
Lemma part_pad2 : forall n r, 0 <= n < 100 -> take_part (pad2 n ++ r) = Some (n, r).
Proof. intros n r B. apply part_iff. exists (pad2 n). split; [reflexivity|]. left. apply pad2_is. exact B. Qed.
Lemma zone_text_narrow : forall o, Z.abs o < 360000 -> take_zone (zone_text o) = Some (o - Z.rem o 60).
Proof.
  intros o B. pose proof (Z.quot_rem o 60 ltac:(lia)) as Q. unfold zone_text. destruct (Z.eqb_spec o 0) as [->|N]; [reflexivity|]. cbv zeta.
  pose proof (Z.rem_bound_abs o 60 ltac:(lia)) as R. set (z := Z.quot o 60) in *. set (e := Z.rem o 60) in *.
  assert (A : Z.abs z <= 5999).
  { destruct (Z.le_gt_cases 0 o); [pose proof (Z.rem_bound_pos_pos o 60 eq_refl ltac:(lia)) as S|pose proof (Z.rem_bound_pos_neg o 60 eq_refl ltac:(lia)) as S];
      fold e in S; lia. }
  clearbody z e. unfold int2.
  assert (H1 : 0 <= Z.abs z / 60 < 100) by lia. assert (H2 : 0 <= Z.abs z mod 60 < 60) by lia.
  destruct (Z.ltb_spec (Z.abs z / 60) 100) as [_|X]; [|lia]. destruct (Z.ltb_spec (Z.abs z mod 60) 100) as [_|X]; [|lia].
  assert (E : forall c, In c [x2b; x2d] -> take_zone (c :: pad2 (Z.abs z / 60) ++ [x3a] ++ pad2 (Z.abs z mod 60)) =
     Some ((if beq c x2d then -1 else 1) * (Z.abs z / 60 * 60 + Z.abs z mod 60) * 60)).
  { intros c I. unfold take_zone. rewrite part_pad2 by lia.
    rewrite (proj2 (take_char_iff x3a ([x3a] ++ pad2 (Z.abs z mod 60)) (pad2 (Z.abs z mod 60))) eq_refl).
    rewrite <- (app_nil_r (pad2 (Z.abs z mod 60))), part_pad2 by lia.
    cbn in I. destruct I as [<-|[<-|[]]]; reflexivity. }
  destruct (Z.ltb_spec z 0).
  - rewrite (E x2d) by (cbn; auto). change (beq x2d x2d) with true. cbn match. f_equal. lia.
  - rewrite (E x2b) by (cbn; auto). change (beq x2b x2d) with false. cbn match. f_equal. lia.
Qed.

Lemma part_wide : forall n r, 100 <= n -> exists v q, take_part (itoa n ++ r) = Some (v, q) /\ take_char x3a q = None.
Proof.
  intros n r B. destruct (itoa_length n ltac:(lia)) as [_ [_ L]].
  assert (L3 : (3 <= length (itoa n))%nat).
  { destruct (length (itoa n)) as [|[|[|l]]]; [change (10 ^ Z.of_nat 0) with 1 in L|change (10 ^ Z.of_nat 1) with 10 in L|change (10 ^ Z.of_nat 2) with 100 in L|]; lia. }
  assert (D : Forall is_digit (itoa n)).
  { unfold itoa. destruct n as [|p|p]; [lia| |lia]. apply uint_bytes_digits. }
  destruct (itoa n) as [|a [|b [|c q]]]; try (cbn [length] in L3; lia). inversion D as [|? ? Da D1]; subst. inversion D1 as [|? ? Db D2]; subst. inversion D2 as [|? ? Dc _]; subst.
  unfold is_digit in *. assert (V : forall x, (48 <= b2n x <= 57)%N -> exists v, dval x = Some v).
  { intros x H. unfold dval, is_digit_b. replace (_ && _) with true by lia. eexists. reflexivity. }
  destruct (V a Da) as [va Ea]. destruct (V b Db) as [vb Eb]. cbn [app take_part]. rewrite Eb, Ea.
  assert (NE : forall x y, b2n x <> b2n y -> beq x y = false) by (intros x y H; apply beq_neq; intro C; apply H; rewrite C; reflexivity).
  rewrite (NE a x2d), (NE a x2b) by (intro C; rewrite C in Da; vm_compute in Da; destruct Da as [Da _]; exact (Da eq_refl)).
  do 2 eexists. split; [reflexivity|]. cbn [take_char]. rewrite (NE c x3a); [reflexivity|]. intro C. rewrite C in Dc. vm_compute in Dc. destruct Dc as [_ Dc]. exact (Dc eq_refl).
Qed.
Lemma zone_text_wide : forall o, 360000 <= Z.abs o -> take_zone (zone_text o) = None.
Proof.
  intros o B. pose proof (Z.quot_rem o 60 ltac:(lia)) as Q. unfold zone_text. destruct (Z.eqb_spec o 0) as [->|N]; [lia|]. cbv zeta.
  pose proof (Z.rem_bound_abs o 60 ltac:(lia)) as R. set (z := Z.quot o 60) in *. set (e := Z.rem o 60) in *.
  assert (A : 6000 <= Z.abs z) by lia. clearbody z e. unfold int2 at 1.
  destruct (Z.ltb_spec (Z.abs z / 60) 100) as [X|X]; [lia|].
  destruct (part_wide (Z.abs z / 60) ([x3a] ++ int2 (Z.abs z mod 60)) X) as (v & q & E1 & E2).
  assert (E : forall c, In c [x2b; x2d] -> take_zone (c :: itoa (Z.abs z / 60) ++ [x3a] ++ int2 (Z.abs z mod 60)) = None).
  { intros c I. unfold take_zone. rewrite E1, E2. cbn in I. destruct I as [<-|[<-|[]]]; reflexivity. }
  destruct (z <? 0); apply E; cbn; auto.
Qed.

(** ** Writing and reading *)
Lemma zoned_unique : forall s t o t' o', zoned s t o -> zoned s t' o' -> t' = t /\ o' = o.
Proof. intros s t o t' o' H H'. apply parse_zoned_iff in H, H'. rewrite H in H'. injection H' as <- <-. auto. Qed.
Lemma divides_rem : forall o, (60 | o) <-> Z.rem o 60 = 0.
Proof. intro o. symmetry. apply Z.rem_divide. lia. Qed.
Theorem zoned_kept_iff : forall t o s, zoned_text t o = Ok s -> (zoned s t o <-> (60 | o) /\ Z.abs o < 360000).
Proof.
  intros t o s H. pose proof (zoned_text_read t o s H) as R. rewrite <- parse_zoned_iff, R. rewrite divides_rem.
  destruct (Z.lt_ge_cases (Z.abs o) 360000) as [B|B].
  - rewrite (zone_text_narrow o B). set (e := Z.rem o 60). clearbody e. split.
    + intro E. injection E as _ E. lia.
    + intros [-> _]. do 2 f_equal; lia.
  - rewrite (zone_text_wide o B). split; [discriminate|lia].
Qed.
Theorem zoned_seconds : forall t o s, zoned_text t o = Ok s -> Z.abs o < 360000 -> ~ (60 | o) ->
  exists t' o', zoned s t' o' /\ t' <> t /\ Z.abs (t' - t) < 60 * 10 ^ 9 /\ (60 | o').
Proof.
  intros t o s H B N. pose proof (zoned_text_read t o s H) as R. rewrite (zone_text_narrow o B) in R. apply parse_zoned_iff in R.
  do 2 eexists. split; [exact R|]. rewrite divides_rem in N. pose proof (Z.rem_bound_abs o 60 ltac:(lia)) as A.
  pose proof (Z.quot_rem o 60 ltac:(lia)) as Q. set (e := Z.rem o 60) in *. set (z := Z.quot o 60) in *. clearbody e z.
  split; [lia|]. split; [lia|]. exists z. lia.
Qed.
Theorem zoned_wide : forall t o s, zoned_text t o = Ok s -> 360000 <= Z.abs o -> forall t' o', ~ zoned s t' o'.
Proof.
  intros t o s H B t' o' X. apply parse_zoned_iff in X. rewrite (zoned_text_read t o s H), (zone_text_wide o B) in X. discriminate.
Qed.
Lemma zoned_text_iff : forall t o, (exists s, zoned_text t o = Ok s) <-> year0 <= t + o * 10 ^ 9 < year10000.
Proof.
  intros t o. rewrite <- time_text_iff. split.
  - intros [s H]. apply zoned_text_split in H as (b & H & _). eauto.
  - intros [s H]. pose proof (time_text_canonical _ _ H) as (Y & M & D & h & m & sec & f & y & mo & d & day & hh & mi & ss & ns & E & _).
    exists (written Y M D h m sec f [] ++ zone_text o). apply zoned_text_split. exists (written Y M D h m sec f []). split; [|reflexivity].
    rewrite H, E. f_equal. unfold written. rewrite <- !app_assoc. cbn [app]. reflexivity.
Qed.
Lemma part_range : forall h v, offset_part h v -> -9 <= v <= 99.
Proof.
  intros h v [N|(c & [(N & _)|(N & _)])]; apply numeral_bound in N; cbn in N; lia.
Qed.
Lemma zone_minutes : forall z off, zone z off -> (60 | off) /\ Z.abs off <= 362340.
Proof.
  intros z off [(_ & ->)|(h & m & hh & mm & H1 & H2 & [(_ & ->)|(_ & ->)])].
  - split; [exists 0; reflexivity|lia].
  - apply part_range in H1, H2. split; [exists (hh * 60 + mm); lia|lia].
  - apply part_range in H1, H2. split; [exists (- (hh * 60 + mm)); lia|lia].
Qed.
(** what was read can be written again; it is read as the same time unless the offset has three digits now *)
Theorem zoned_again : forall s t o, zoned s t o -> exists s', zoned_text t o = Ok s' /\ (zoned s' t o <-> Z.abs o < 360000).
Proof.
  intros s t o (Y & M & D & h & m & sec & f & z & y & mo & d & day & hh & mi & ss & ns & _ & N1 & N2 & N3 & C & N4 & N5 & N6 & B1 & B2 & B3 & F & Z & E).
  assert (W : exists s', zoned_text t o = Ok s').
  { apply zoned_text_iff. apply on_day_number in C as [[V1 V2] V3]. cbn [number_of] in V3. apply numeral_bound in N1, N2, N3, N5, N6.
    assert (H0 : 0 <= hh) by (destruct N4 as [N4|N4]; apply numeral_bound in N4; lia). apply second_part_range in F.
    pose proof (days_first y mo d V1 ltac:(lia)) as L1. pose proof (days_before y mo d 10000 V1 V2 ltac:(cbn in N1; lia)) as L2.
    assert (L0 : days_of_civil 0 1 1 <= days_of_civil y 1 1).
    { destruct (Z.eq_dec y 0) as [->|]; [lia|]. pose proof (days_before 0 1 1 y ltac:(lia) ltac:(cbn; lia) ltac:(lia)). lia. }
    unfold year0, year10000, day_ns. unfold instant in E. rewrite V3 in *. lia. }
  destruct W as [s' W]. exists s'. split; [exact W|]. rewrite (zoned_kept_iff t o s' W). apply zone_minutes in Z. tauto.
Qed.
Lemma timestamp_zoned : forall s t, timestamp s t <-> exists off, zoned s t off.
Proof.
  intros s t. split.
  - intros (Y & M & D & h & m & sec & f & z & y & mo & d & day & hh & mi & ss & ns & off & H). exists off. do 16 eexists. exact H.
  - intros (off & Y & M & D & h & m & sec & f & z & y & mo & d & day & hh & mi & ss & ns & H). do 17 eexists. exact H.
Qed.
Lemma zoned_utc : forall t, zoned_text t 0 = time_text t.
Proof. intro t. unfold zoned_text, time_text. replace (t + 0 * 10 ^ 9) with t by lia. reflexivity. Qed.
