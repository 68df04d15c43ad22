From Coq Require Import Lia ZifyBool ZifyNat ZifyN.
From Verif Require Import Base BaseFacts JsonModel UnicodeProofs JsonProofs FormatSpec GrammarSpec.

(** ** Numbers *)
Lemma digit_b : forall c, is_digit_b c = true <-> digit c.
Proof. intro c. unfold is_digit_b, digit. lia. Qed.
Lemma skip_digits_is : forall s, exists ds, Forall digit ds /\ s = ds ++ skip_digits s.
Proof.
  induction s as [|c s (ds & F & E)]; [exists []; split; [constructor|reflexivity]|]. cbn [skip_digits].
  destruct (is_digit_b c) eqn:D; [|exists []; split; [constructor|reflexivity]].
  exists (c :: ds). split; [constructor; [apply digit_b; exact D|exact F]|]. cbn [app]. congruence.
Qed.
Definition no_digit (r : bytes) : Prop := match r with [] => True | c :: _ => is_digit_b c = false end.
Lemma skip_digits_app : forall ds r, Forall digit ds -> no_digit r -> skip_digits (ds ++ r) = r.
Proof.
  induction ds as [|c ds IH]; intros r F N; cbn [app].
  - destruct r as [|c r]; [reflexivity|]. cbn in N. cbn [skip_digits]. rewrite N. reflexivity.
  - inversion F; subst. cbn [skip_digits]. rewrite (proj2 (digit_b c)) by assumption. apply IH; assumption.
Qed.
Lemma digits1_is : forall s r, digits1 s = Some r -> exists ds, digits ds /\ s = ds ++ r.
Proof.
  intros [|c s] r H; [discriminate|]. cbn [digits1] in H. destruct (is_digit_b c) eqn:D; [|discriminate]. injection H as <-.
  destruct (skip_digits_is s) as (ds & F & E). exists (c :: ds). split; [split; [discriminate|constructor; [apply digit_b; exact D|exact F]]|].
  cbn [app]. congruence.
Qed.
Lemma digits1_app : forall ds r, digits ds -> no_digit r -> digits1 (ds ++ r) = Some r.
Proof.
  intros [|c ds] r [N F] H; [contradiction|]. inversion F; subst. cbn [app digits1]. rewrite (proj2 (digit_b c)) by assumption.
  rewrite skip_digits_app by assumption. reflexivity.
Qed.
Lemma int_is : forall s r, int_part s = Some r -> exists i, whole i /\ s = i ++ r.
Proof.
  intros [|c s] r H; [discriminate|]. unfold int_part in H. destruct (beq c x30) eqn:Z.
  - injection H as <-. apply beq_eq in Z. subst. exists [x30]. split; [left; reflexivity|reflexivity].
  - destruct (digits1_is _ _ H) as (ds & [N F] & E). exists ds. split; [|exact E]. right. destruct ds as [|c' ds]; [contradiction|].
    injection E as <- E. inversion F as [|? ? D F']; subst. exists c, ds. split; [|auto]. unfold digit in D. rewrite beq_n in Z. change (b2n x30) with 48%N in Z. lia.
Qed.
Lemma int_app : forall i r, whole i -> no_digit r -> int_part (i ++ r) = Some r.
Proof.
  intros i r [->|(c & ds & H & F & ->)] N; [reflexivity|]. cbn [app int_part]. replace (beq c x30) with false.
  - change (c :: ds ++ r) with ((c :: ds) ++ r). apply digits1_app; [|exact N]. split; [discriminate|]. constructor; [unfold digit; lia|exact F].
  - symmetry. rewrite beq_n. change (b2n x30) with 48%N. lia.
Qed.
Lemma frac_is : forall s r, frac_part s = Some r -> exists f, fraction f /\ s = f ++ r.
Proof.
  intros [|c s] r H; unfold frac_part in H.
  - injection H as <-. exists []. split; [left|]; reflexivity.
  - destruct (beq c x2e) eqn:Z.
    + apply beq_eq in Z. subst. destruct (digits1_is _ _ H) as (ds & D & ->). exists (x2e :: ds). split; [right; eauto|reflexivity].
    + injection H as <-. exists []. split; [left|]; reflexivity.
Qed.
Definition exp_start (r : bytes) : Prop := match r with [] => True | c :: _ => beq c x65 || beq c x45 = true end.
Lemma exp_start_no : forall r, exp_start r -> no_digit r /\ match r with [] => True | c :: _ => beq c x2e = false end.
Proof.
  intros [|c r] H; [split; exact I|]. cbn in *. apply orb_prop in H as [H|H]; apply beq_eq in H; subst; split; reflexivity.
Qed.
Lemma frac_app : forall f r, fraction f -> exp_start r -> frac_part (f ++ r) = Some r.
Proof.
  intros f r [->|(ds & D & ->)] N; apply exp_start_no in N as [N N'].
  - cbn [app]. destruct r as [|c r]; [reflexivity|]. cbn [frac_part]. rewrite N'. reflexivity.
  - cbn [app frac_part]. change (beq x2e x2e) with true. cbn match. apply digits1_app; assumption.
Qed.
Lemma exp_is : forall s, exp_part s = true <-> exponent s.
Proof.
  intro s. split.
  - intro H. destruct s as [|c s]; [left; reflexivity|]. right. cbn [exp_part] in H. destruct (beq c x65 || beq c x45) eqn:Z; [|discriminate].
    destruct (digits1 _) as [[|? ?]|] eqn:D; try discriminate. apply digits1_is in D as (ds & D & E). rewrite app_nil_r in E.
    assert (I : In c [x65; x45]) by (apply orb_prop in Z as [Z|Z]; apply beq_eq in Z; subst; cbn; auto).
    destruct s as [|d s]; [exists c, [], ds; cbn [app]; subst; repeat split; try apply D; cbn; auto|].
    destruct (beq d x2b || beq d x2d) eqn:S.
    + exists c, [d], ds. subst. split; [exact I|]. split; [|split; [exact D|reflexivity]].
      apply orb_prop in S as [S|S]; apply beq_eq in S; subst; cbn; auto.
    + exists c, [], ds. rewrite <- E. split; [exact I|]. split; [cbn; auto|split; [rewrite E; exact D|reflexivity]].
  - intros [->|(e & sign & ds & I & S & D & ->)]; [reflexivity|]. cbn [exp_part].
    replace (beq e x65 || beq e x45) with true by (cbn in I; intuition (subst; reflexivity)).
    assert (X : digits1 ds = Some []) by (rewrite <- (app_nil_r ds); apply digits1_app; [exact D|exact I0] || (rewrite <- (app_nil_r ds); apply digits1_app; [exact D|exact Logic.I])).
    cbn in S. destruct S as [<-|[<-|[<-|[]]]]; cbn [app].
    + destruct ds as [|c ds]; [discriminate X|]. replace (beq c x2b || beq c x2d) with false; [rewrite X; reflexivity|].
      destruct D as [_ F]. inversion F; subst. unfold digit in *. rewrite !beq_n. change (b2n x2b) with 43%N. change (b2n x2d) with 45%N. lia.
    + change (beq x2b x2b || beq x2b x2d) with true. cbn match. rewrite X. reflexivity.
    + change (beq x2d x2b || beq x2d x2d) with true. cbn match. rewrite X. reflexivity.
Qed.
Lemma exponent_start : forall e, exponent e -> exp_start e.
Proof. intros e [->|(c & sign & ds & I & _ & _ & ->)]; [exact Logic.I|]. cbn in *. intuition (subst; reflexivity). Qed.
Lemma valid_number_iff : forall t, valid_number t = true <-> number t.
Proof.
  intro t. split.
  - intro H. unfold valid_number in H. destruct (int_part (opt_char x2d t)) as [r|] eqn:E1; [|discriminate].
    destruct (frac_part r) as [r2|] eqn:E2; [|discriminate].
    apply int_is in E1 as (i & Hi & E1). apply frac_is in E2 as (f & Hf & E2). apply exp_is in H. subst r.
    destruct t as [|c t]; [cbn in E1; destruct i; [destruct Hi as [Hi|(? & ? & _ & _ & Hi)]; discriminate Hi|discriminate E1]|].
    cbn [opt_char] in E1. destruct (beq c x2d) eqn:Z.
    + apply beq_eq in Z. subst c. exists [x2d], i, f, r2. split; [cbn; auto|]. repeat (split; [assumption|]). cbn [app]. congruence.
    + exists [], i, f, r2. split; [cbn; auto|]. repeat (split; [assumption|]). exact E1.
  - intros (sign & i & f & e & S & Hi & Hf & He & ->). unfold valid_number.
    assert (O : opt_char x2d (sign ++ i ++ f ++ e) = i ++ f ++ e).
    { cbn in S. destruct S as [<-|[<-|[]]]; cbn [app]; [|reflexivity].
      destruct Hi as [->|(c & ds & H & F & ->)]; [reflexivity|]. cbn [app opt_char]. replace (beq c x2d) with false; [reflexivity|].
      symmetry. rewrite beq_n. change (b2n x2d) with 45%N. lia. }
    rewrite O. pose proof (exponent_start e He) as X.
    rewrite int_app; [|exact Hi|].
    + rewrite frac_app by assumption. apply exp_is. exact He.
    + destruct Hf as [->|(ds & _ & ->)]; [exact (proj1 (exp_start_no e X))|reflexivity].
Qed.
Lemma digits_num : forall ds, Forall digit ds -> forallb is_num_char ds = true.
Proof.
  intros ds F. apply forallb_forall. intros c Hc. rewrite Forall_forall in F. unfold is_num_char. rewrite (proj2 (digit_b c)) by auto. reflexivity.
Qed.
Lemma number_chars : forall t, number t -> forallb is_num_char t = true.
Proof.
  intros t (sign & i & f & e & S & Hi & Hf & He & ->). rewrite !forallb_app.
  assert (A : forallb is_num_char sign = true) by (cbn in S; intuition (subst; reflexivity)).
  assert (B : forallb is_num_char i = true).
  { destruct Hi as [->|(c & ds & H & F & ->)]; [reflexivity|]. apply digits_num. constructor; [unfold digit; lia|exact F]. }
  assert (D : forallb is_num_char f = true).
  { destruct Hf as [->|(ds & [_ F] & ->)]; [reflexivity|]. cbn [forallb]. rewrite (digits_num ds F). reflexivity. }
  assert (E : forallb is_num_char e = true).
  { destruct He as [->|(c & sg & ds & I & S' & [_ F] & ->)]; [reflexivity|]. cbn [forallb]. rewrite forallb_app, (digits_num ds F).
    cbn in I, S'. intuition (subst; reflexivity). }
  rewrite A, B, D, E. reflexivity.
Qed.
Lemma span_num_is : forall s a r, span_num s = (a, r) -> s = a ++ r.
Proof.
  induction s as [|c s IH]; intros a r H; cbn [span_num] in H; [injection H as <- <-; reflexivity|].
  destruct (is_num_char c); [|injection H as <- <-; reflexivity]. destruct (span_num s) as [x y] eqn:E. injection H as <- <-.
  cbn [app]. f_equal. apply IH. reflexivity.
Qed.

(** ** Code points *)
Lemma rune_1 : forall c, (b2n c < 128)%N -> [c] = rune_bytes (b2n c) /\ scalar (b2n c).
Proof.
  intros c H. split; [|left; lia]. unfold rune_bytes. destruct (N.ltb_spec (b2n c) 0x80); [|lia]. rewrite n2b_b2n. reflexivity.
Qed.
Lemma rune_2 : forall c d, rune2 c d = true -> exists n, scalar n /\ (128 <= n)%N /\ [c; d] = rune_bytes n.
Proof.
  intros c d H. apply rune2_iff in H. set (n := ((b2n c - 0xC0) * 64 + (b2n d - 0x80))%N). exists n. split; [left; lia|]. split; [lia|].
  unfold rune_bytes. destruct (N.ltb_spec n 0x80); [lia|]. destruct (N.ltb_spec n 0x800); [|lia].
  rewrite (UnicodeProofs.n2b_eq c), (UnicodeProofs.n2b_eq d) by lia. reflexivity.
Qed.
Lemma rune_3 : forall c d e, rune3 c d e = true -> exists n, scalar n /\ (128 <= n)%N /\ [c; d; e] = rune_bytes n.
Proof.
  intros c d e H. apply rune3_iff in H. set (n := ((b2n c - 0xE0) * 4096 + (b2n d - 0x80) * 64 + (b2n e - 0x80))%N).
  exists n. split; [unfold scalar; lia|]. split; [lia|].
  unfold rune_bytes. destruct (N.ltb_spec n 0x80); [lia|]. destruct (N.ltb_spec n 0x800); [lia|]. destruct (N.ltb_spec n 0x10000); [|lia].
  rewrite (UnicodeProofs.n2b_eq c), (UnicodeProofs.n2b_eq d), (UnicodeProofs.n2b_eq e) by lia. reflexivity.
Qed.
Lemma rune_4 : forall c d e f, rune4 c d e f = true -> exists n, scalar n /\ (128 <= n)%N /\ [c; d; e; f] = rune_bytes n.
Proof.
  intros c d e f H. apply rune4_iff in H.
  set (n := ((b2n c - 0xF0) * 262144 + (b2n d - 0x80) * 4096 + (b2n e - 0x80) * 64 + (b2n f - 0x80))%N).
  exists n. split; [unfold scalar; lia|]. split; [lia|].
  unfold rune_bytes. destruct (N.ltb_spec n 0x80); [lia|]. destruct (N.ltb_spec n 0x800); [lia|]. destruct (N.ltb_spec n 0x10000); [lia|].
  rewrite (UnicodeProofs.n2b_eq c), (UnicodeProofs.n2b_eq d), (UnicodeProofs.n2b_eq e), (UnicodeProofs.n2b_eq f) by lia. reflexivity.
Qed.
(** the forms of an encoded code point *)
Lemma rune_forms : forall n, scalar n ->
  (n < 128)%N /\ rune_bytes n = [n2b n] /\ b2n (n2b n) = n \/
  (128 <= n)%N /\ ((exists c d, rune_bytes n = [c; d] /\ (128 <= b2n c)%N /\ rune2 c d = true) \/
    (exists c d e, rune_bytes n = [c; d; e] /\ (128 <= b2n c)%N /\ rune3 c d e = true) \/
    (exists c d e f, rune_bytes n = [c; d; e; f] /\ (128 <= b2n c)%N /\ rune4 c d e f = true)).
Proof.
  intros n H. unfold rune_bytes, scalar in *. destruct (N.ltb_spec n 0x80); [left|right; split; [assumption|destruct (N.ltb_spec n 0x800); [left|destruct (N.ltb_spec n 0x10000); [right; left|right; right]]]].
  - split; [assumption|]. split; [reflexivity|]. rewrite b2n_n2b. apply N.mod_small. lia.
  - do 2 eexists. split; [reflexivity|]. split; [|apply rune2_iff]; rewrite ?b2n_n2b; lia.
  - do 3 eexists. split; [reflexivity|]. split; [|apply rune3_iff]; rewrite ?b2n_n2b; lia.
  - do 4 eexists. split; [reflexivity|].
    set (a := (n / 262144)%N). set (b := (n / 4096 mod 64)%N). set (c := (n / 64 mod 64)%N). set (d := (n mod 64)%N).
    assert (A : (a <= 4 /\ b < 64 /\ c < 64 /\ d < 64)%N) by lia.
    assert (B : ((a = 0 -> 16 <= b) /\ (a = 4 -> b < 16))%N) by (subst a b; clear A c d; split; intro; lia).
    clearbody a b c d. split; [|apply rune4_iff]; rewrite ?b2n_n2b, ?N.mod_small by lia; lia.
Qed.
Lemma bad_iff : forall c s, (128 <= b2n c)%N -> (bad c s = true <-> forall n t, scalar n -> c :: s <> rune_bytes n ++ t).
Proof.
  intros c s A. split.
  - intros B n t H E. destruct (rune_forms n H) as [(L & F & V)|(L & [(c' & d & F & _ & R)|[(c' & d & e & F & _ & R)|(c' & d & e & f & F & _ & R)]])];
      rewrite F in E; cbn [app] in E; injection E; intros; subst; cbn [bad] in B.
    + lia.
    + rewrite R in B. discriminate B.
    + rewrite R, (rune3_2 _ _ _ R) in B. discriminate B.
    + destruct (rune4_2 _ _ _ _ R) as [R2 R3]. rewrite R, R2, R3 in B. discriminate B.
  - intro H. destruct (bad c s) eqn:B; [reflexivity|exfalso].
    destruct s as [|d s]; [discriminate|]. cbn [bad] in B. destruct (rune2 c d) eqn:R2.
    { destruct (rune_2 c d R2) as (n & Hn & _ & E). apply (H n s Hn). rewrite <- E. reflexivity. }
    destruct s as [|e s]; [discriminate|]. destruct (rune3 c d e) eqn:R3.
    { destruct (rune_3 c d e R3) as (n & Hn & _ & E). apply (H n s Hn). rewrite <- E. reflexivity. }
    destruct s as [|f s]; [discriminate|]. destruct (rune4 c d e f) eqn:R4; [|discriminate].
    destruct (rune_4 c d e f R4) as (n & Hn & _ & E). apply (H n s Hn). rewrite <- E. reflexivity.
Qed.
Lemma bad_quote : forall c s r, bad c s = true -> bad c (s ++ x22 :: r) = true.
Proof.
  intros c s r B. assert (Q : b2n x22 = 34%N) by reflexivity.
  destruct s as [|d s]; cbn [app bad] in *.
  - destruct (rune2 c x22) eqn:R; [apply rune2_iff in R; lia|]. destruct r as [|e r]; [reflexivity|].
    destruct (rune3 c x22 e) eqn:R3; [apply rune3_iff in R3; lia|]. destruct r as [|f r]; [reflexivity|].
    destruct (rune4 c x22 e f) eqn:R4; [apply rune4_iff in R4; lia|]. reflexivity.
  - destruct (rune2 c d); [discriminate|]. destruct s as [|e s]; cbn [app] in *.
    + destruct (rune3 c d x22) eqn:R3; [apply rune3_iff in R3; lia|]. destruct r as [|f r]; [reflexivity|].
      destruct (rune4 c d x22 f) eqn:R4; [apply rune4_iff in R4; lia|]. reflexivity.
    + destruct (rune3 c d e); [discriminate|]. destruct s as [|f s]; cbn [app] in *; [|exact B].
      destruct (rune4 c d e x22) eqn:R4; [apply rune4_iff in R4; lia|]. reflexivity.
Qed.

(** ** Escapes *)
Lemma hexval_iff : forall c v, unhexdigit c = Some v <-> hexval c v.
Proof.
  intros c v. unfold unhexdigit, hexval. destruct ((48 <=? b2n c) && (b2n c <=? 57))%N eqn:A; [split; [intro H; injection H as <-; lia|intros [H|[H|H]]; [f_equal|exfalso|exfalso]; lia]|].
  destruct ((97 <=? b2n c) && (b2n c <=? 102))%N eqn:B; [split; [intro H; injection H as <-; lia|intros [H|[H|H]]; [exfalso|f_equal|exfalso]; lia]|].
  destruct ((65 <=? b2n c) && (b2n c <=? 70))%N eqn:D; [split; [intro H; injection H as <-; lia|intros [H|[H|H]]; [exfalso|exfalso|f_equal]; lia]|].
  split; [discriminate|]. intros [H|[H|H]]; lia.
Qed.
Lemma hex4_iff : forall a b c d n, unhex4 a b c d = Some n <-> hex4 [a; b; c; d] n.
Proof.
  intros a b c d n. unfold unhex4. split.
  - intro H. destruct (unhexdigit a) as [va|] eqn:A; [|discriminate]. destruct (unhexdigit b) as [vb|] eqn:B; [|discriminate].
    destruct (unhexdigit c) as [vc|] eqn:D; [|discriminate]. destruct (unhexdigit d) as [vd|] eqn:E; [|discriminate].
    injection H as <-. apply hexval_iff in A, B, D, E. exists a, b, c, d, va, vb, vc, vd. repeat (split; [assumption||reflexivity|]). lia.
  - intros (a' & b' & c' & d' & va & vb & vc & vd & E & A & B & D & F & ->). injection E as <- <- <- <-.
    apply hexval_iff in A, B, D, F. rewrite A, B, D, F. f_equal. lia.
Qed.
Lemma hexval_lt : forall c v, hexval c v -> (v < 16)%N /\ c <> x22 /\ c <> x5c.
Proof.
  intros c v H. assert (Q : b2n x22 = 34%N /\ b2n x5c = 92%N) by (split; reflexivity). destruct Q as [Q1 Q2]. unfold hexval in H.
  split; [lia|]. split; intros ->; lia.
Qed.
Lemma hex4_lt : forall u n, hex4 u n -> (n < 0x10000)%N.
Proof.
  intros u n (a & b & c & d & va & vb & vc & vd & _ & A & B & D & F & ->).
  apply hexval_lt in A as [A _], B as [B _], D as [D _], F as [F _]. lia.
Qed.
Lemma unescape_iff : forall e c, unescape e = Some c <-> In (e, c) escapes.
Proof.
  intros e c. split.
  - unfold unescape. intro H.
    repeat match type of H with (if beq e ?x then _ else _) = _ =>
      let B := fresh "B" in destruct (beq e x) eqn:B; [apply beq_eq in B; subst e; injection H as <-; cbn; tauto|clear B] end. discriminate H.
  - intro H. unfold escapes in H. cbn [In] in H.
    repeat match type of H with _ \/ _ => destruct H as [H|H]; [injection H as <- <-; reflexivity|] end. destruct H.
Qed.
Lemma escapes_u : forall c, ~ In (x75, c) escapes.
Proof. intros c H. apply unescape_iff in H. discriminate H. Qed.
Lemma utf8_is : forall n, scalar n -> (n < 0x10000)%N -> utf8 n = rune_bytes n.
Proof.
  intros n H L. unfold utf8, rune_bytes, scalar in *. replace ((0xD800 <=? n) && (n <=? 0xDFFF))%N with false by lia. cbn zeta.
  destruct (n <? 0x80)%N; [reflexivity|]. destruct (n <? 0x800)%N; [reflexivity|]. rewrite (proj2 (N.ltb_lt _ _) L). reflexivity.
Qed.
Lemma utf8_lone : forall n, high n \/ low n -> utf8 n = unknown.
Proof.
  intros n H. unfold utf8, high, low in *. replace ((0xD800 <=? n) && (n <=? 0xDFFF))%N with true by lia. reflexivity.
Qed.
Lemma utf8_high_is : forall h l, high h -> low l -> utf8_high (pair_rune h l) = rune_bytes (0x10000 + (h - 0xD800) * 0x400 + (l - 0xDC00)).
Proof.
  intros h l H L. unfold high, low, pair_rune in *. replace ((h - 0xD800) * 0x400 + (l - 0xDC00) + 0x10000)%N with (0x10000 + (h - 0xD800) * 0x400 + (l - 0xDC00))%N by lia.
  unfold rune_bytes. set (n := (0x10000 + (h - 0xD800) * 0x400 + (l - 0xDC00))%N). destruct (N.ltb_spec n 0x80); [lia|].
  destruct (N.ltb_spec n 0x800); [lia|]. destruct (N.ltb_spec n 0x10000); [lia|]. reflexivity.
Qed.
Lemma second_iff : forall n s m, second_half n s = Some m <-> high n /\ low m /\ exists v t, hex4 v m /\ s = unicode_escape v ++ t.
Proof.
  intros n s m. unfold second_half, high_surrogate, high, low. split.
  - intro H. destruct ((0xD800 <=? n) && (n <=? 0xDBFF))%N eqn:G; [|discriminate].
    destruct s as [|p [|q [|a [|b [|c [|d t]]]]]]; try discriminate H. destruct (beq p x5c && beq q x75) eqn:Q; [|discriminate].
    destruct (unhex4 a b c d) as [k|] eqn:U; [|discriminate]. unfold low_surrogate in H. destruct ((0xDC00 <=? k) && (k <=? 0xDFFF))%N eqn:K; [|discriminate].
    injection H as <-. split; [lia|]. split; [lia|]. apply andb_prop in Q as [Q1 Q2]. apply beq_eq in Q1, Q2. subst.
    exists [a; b; c; d], t. split; [apply hex4_iff; exact U|reflexivity].
  - intros (H & L & v & t & V & ->). replace ((0xD800 <=? n) && (n <=? 0xDBFF))%N with true by lia.
    pose proof V as W. destruct W as (a & b & c & d & _ & _ & _ & _ & -> & _). cbn [unicode_escape app]. change (beq x5c x5c && beq x75 x75) with true. cbn match.
    apply hex4_iff in V. rewrite V. unfold low_surrogate. replace ((0xDC00 <=? m) && (m <=? 0xDFFF))%N with true by lia. reflexivity.
Qed.
Lemma second_quote : forall n s m r, second_half n (s ++ x22 :: r) = Some m -> second_half n s = Some m.
Proof.
  intros n s m r H. apply second_iff in H as (H & L & v & t & V & E). apply second_iff. split; [exact H|]. split; [exact L|]. exists v.
  pose proof V as W. destruct W as (a & b & c & d & va & vb & vc & vd & -> & A & B & D & F & _). cbn [unicode_escape app] in E.
  apply hexval_lt in A as (_ & A & _), B as (_ & B & _), D as (_ & D & _), F as (_ & F & _).
  destruct s as [|? [|? [|? [|? [|? [|? s]]]]]]; cbn [app] in E; injection E; intros; subst; try congruence. exists s. split; [exact V|reflexivity].
Qed.

(** ** Strings *)
Lemma pstring_code : forall u n s, hex4 u n -> pstring (unicode_escape u ++ s) =
  match second_half n s with
  | Some m => match s with _ :: _ :: _ :: _ :: _ :: _ :: s4 => emit (utf8_high (pair_rune n m)) (pstring s4) | _ => None end
  | None => emit (utf8 n) (pstring s)
  end.
Proof.
  intros u n s H. pose proof H as W. destruct W as (a & b & c & d & _ & _ & _ & _ & -> & _). cbn [unicode_escape app pstring].
  change (beq x5c x22) with false. change (beq x5c x5c) with true. change (beq x75 x75) with true. cbn match.
  apply hex4_iff in H. rewrite H. reflexivity.
Qed.
Lemma chars_pstring : forall raw m, chars raw m -> forall r, pstring (raw ++ x22 :: r) = Some (m, r).
Proof.
  induction 1 as [|n raw m S L Q B H IH|e c raw m E H IH|u n raw m U S H IH|u v h l raw m U V Hh Hl H IH|u n raw m U S N H IH|c raw m A N H IH]; intro r.
  - reflexivity.
  - rewrite <- app_assoc. destruct (rune_forms n S) as [(L' & F & W)|(L' & [(c' & d & F & A & R)|[(c' & d & e & F & A & R)|(c' & d & e & f & F & A & R)]])];
      rewrite F; cbn [app].
    + cbn [pstring]. rewrite !beq_n, W. change (b2n x22) with 34%N. change (b2n x5c) with 92%N.
      rewrite (proj2 (N.eqb_neq n 34) Q), (proj2 (N.eqb_neq n 92) B), (proj2 (N.ltb_ge n 32) L), (proj2 (N.ltb_lt n 128) L'), IH. reflexivity.
    + rewrite pstring_2, IH by assumption. reflexivity.
    + rewrite pstring_3, IH by assumption. reflexivity.
    + rewrite pstring_4, IH by assumption. reflexivity.
  - cbn [app pstring]. change (beq x5c x22) with false. change (beq x5c x5c) with true. cbn match.
    destruct (beq e x75) eqn:E75; [apply beq_eq in E75; subst; destruct (escapes_u c E)|]. apply unescape_iff in E. rewrite E, IH. reflexivity.
  - rewrite <- app_assoc, (pstring_code u n _ U). destruct (second_half n (raw ++ x22 :: r)) as [m2|] eqn:E.
    { apply second_iff in E as [E _]. unfold high, scalar in *. lia. }
    rewrite IH, utf8_is by (try assumption; exact (hex4_lt _ _ U)). reflexivity.
  - rewrite <- !app_assoc, (pstring_code u h _ U).
    assert (E : second_half h (unicode_escape v ++ raw ++ x22 :: r) = Some l) by (apply second_iff; split; [exact Hh|split; [exact Hl|exists v; eexists; split; [exact V|reflexivity]]]).
    rewrite E. destruct V as (a & b & c & d & _ & _ & _ & _ & -> & _). cbn [unicode_escape app]. rewrite IH, utf8_high_is by assumption. reflexivity.
  - rewrite <- app_assoc, (pstring_code u n _ U). destruct (second_half n (raw ++ x22 :: r)) as [m2|] eqn:E.
    { apply second_quote in E. apply second_iff in E as (E1 & E2 & v & t & V & E3). destruct (N E1 v m2 t V E2 E3). }
    rewrite IH, utf8_lone by assumption. reflexivity.
  - cbn [app]. rewrite pstring_bad, IH; [reflexivity|exact A|]. apply bad_quote. apply bad_iff; assumption.
Qed.
Lemma pstring_chars : forall n s m r, length s <= n -> pstring s = Some (m, r) -> exists raw, s = raw ++ x22 :: r /\ chars raw m.
Proof.
  induction n as [|n IH]; intros s m r L H; (destruct s as [|c s]; [discriminate|]); cbn [length] in L; [lia|].
  destruct (N.leb_spec 128 (b2n c)) as [A|A].
  - destruct (bad c s) eqn:B.
    + rewrite pstring_bad in H by assumption. apply emit_Some in H as (v & E & ->). apply IH in E as (raw & -> & K); [|lia].
      exists (c :: raw). split; [reflexivity|]. change replacement with unknown. apply chars_invalid; [exact A| |exact K].
      intros k t S E. apply (proj1 (bad_iff c _ A) B k (t ++ x22 :: r) S). rewrite app_comm_cons, E, <- app_assoc. reflexivity.
    + assert (P : forall k raw v, scalar k -> (128 <= k)%N -> chars raw v -> chars (rune_bytes k ++ raw) (rune_bytes k ++ v)).
      { intros. apply chars_plain; try assumption; lia. }
      destruct s as [|d s]; [discriminate|]. cbn [bad length app] in *. destruct (rune2 c d) eqn:R2.
      { rewrite pstring_2 in * by assumption. apply emit_Some in H as (v & E & ->). apply IH in E as (raw & -> & K); [|lia].
        destruct (rune_2 c d R2) as (k & S & G & E). exists ([c; d] ++ raw). split; [reflexivity|]. rewrite E. auto. }
      destruct s as [|e s]; [discriminate|]. cbn [length app] in *. destruct (rune3 c d e) eqn:R3.
      { rewrite pstring_3 in * by assumption. apply emit_Some in H as (v & E & ->). apply IH in E as (raw & -> & K); [|lia].
        destruct (rune_3 c d e R3) as (k & S & G & E). exists ([c; d; e] ++ raw). split; [reflexivity|]. rewrite E. auto. }
      destruct s as [|f s]; [discriminate|]. cbn [length app] in *. destruct (rune4 c d e f) eqn:R4; [|discriminate].
      rewrite pstring_4 in * by assumption. apply emit_Some in H as (v & E & ->). apply IH in E as (raw & -> & K); [|lia].
      destruct (rune_4 c d e f R4) as (k & S & G & E). exists ([c; d; e; f] ++ raw). split; [reflexivity|]. rewrite E. auto.
  - cbn [pstring] in H. destruct (beq c x22) eqn:Q1; [injection H as <- <-; apply beq_eq in Q1; subst; exists []; split; [reflexivity|constructor]|].
    destruct (beq c x5c) eqn:Q2.
    + apply beq_eq in Q2. subst c. destruct s as [|e s1]; [discriminate|]. cbn [length] in *. destruct (beq e x75) eqn:Q3.
      * apply beq_eq in Q3. subst e. destruct s1 as [|a [|b [|c1 [|d s2]]]]; try discriminate. cbn [length] in *.
        destruct (unhex4 a b c1 d) as [k|] eqn:U; [|discriminate]. apply hex4_iff in U.
        destruct (second_half k s2) as [m2|] eqn:S2.
        -- apply second_iff in S2 as (Hh & Hl & w & t & W & ->). pose proof W as W'. destruct W' as (a' & b' & c' & d' & _ & _ & _ & _ & -> & _).
           cbn [unicode_escape app] in H. apply emit_Some in H as (v & E & ->). cbn [unicode_escape app length] in L. apply IH in E as (raw & -> & K); [|lia].
           exists (unicode_escape [a; b; c1; d] ++ unicode_escape [a'; b'; c'; d'] ++ raw). split; [reflexivity|].
           rewrite utf8_high_is by assumption. apply chars_pair; assumption.
        -- apply emit_Some in H as (v & E & ->). apply IH in E as (raw & -> & K); [|lia].
           exists (unicode_escape [a; b; c1; d] ++ raw). split; [reflexivity|].
           destruct (N.ltb_spec k 0xD800) as [S|S]; [|destruct (N.ltb_spec k 0xE000) as [S'|S']].
           ++ rewrite utf8_is; [|left; exact S|exact (hex4_lt _ _ U)]. apply chars_code; [exact U|left; exact S|exact K].
           ++ assert (HL : high k \/ low k) by (unfold high, low; lia).
              rewrite utf8_lone by exact HL. apply chars_lone with (n := k); [exact U|exact HL| |exact K].
              intros Hh v' l t V Hl E. assert (X : second_half k (raw ++ x22 :: r) = Some l); [|congruence].
              apply second_iff. split; [exact Hh|]. split; [exact Hl|]. exists v', (t ++ x22 :: r). split; [exact V|]. rewrite E, <- app_assoc. reflexivity.
           ++ assert (SC : scalar k) by (pose proof (hex4_lt _ _ U); right; lia).
              rewrite utf8_is; [|exact SC|exact (hex4_lt _ _ U)]. apply chars_code; assumption.
      * destruct (unescape e) as [x|] eqn:E; [|discriminate]. apply emit_Some in H as (v & E' & ->). apply IH in E' as (raw & -> & K); [|lia].
        exists (x5c :: e :: raw). split; [reflexivity|]. apply chars_escape; [apply unescape_iff; exact E|exact K].
    + destruct (N.ltb_spec (b2n c) 32) as [G|G]; [discriminate|]. rewrite (proj2 (N.ltb_lt _ _) A) in H.
      apply emit_Some in H as (v & E & ->). apply IH in E as (raw & -> & K); [|lia].
      exists ([c] ++ raw). split; [reflexivity|]. destruct (rune_1 c A) as [E S]. rewrite E. apply chars_plain; try assumption.
      * intro X. apply beq_neq in Q1. apply Q1. apply b2n_inj. exact X.
      * intro X. apply beq_neq in Q2. apply Q2. apply b2n_inj. exact X.
Qed.

(** ** Values *)
Lemma ws_iff : forall c, is_ws c = true <-> In c [x20; x09; x0a; x0d].
Proof.
  intro c. unfold is_ws. rewrite !orb_true_iff, !beq_eq. cbn [In]. intuition congruence.
Qed.
Lemma blank_app : forall a b, blank a -> blank b -> blank (a ++ b).
Proof. intros a b. unfold blank. rewrite Forall_app. auto. Qed.
Lemma blank_nil : blank [].
Proof. constructor. Qed.
Lemma skip_ws_is : forall s, exists w, blank w /\ s = w ++ skip_ws s.
Proof.
  induction s as [|c s (w & B & E)]; [exists []; split; [constructor|reflexivity]|]. cbn [skip_ws].
  destruct (is_ws c) eqn:W; [|exists []; split; [constructor|reflexivity]].
  exists (c :: w). split; [constructor; [apply ws_iff; exact W|exact B]|]. cbn [app]. congruence.
Qed.
Lemma skip_ws_blank : forall w s, blank w -> skip_ws (w ++ s) = skip_ws s.
Proof. induction 1 as [|c w H B IH]; [reflexivity|]. cbn [app skip_ws]. rewrite (proj2 (ws_iff c) H). exact IH. Qed.
Lemma skip_ws_start : forall c s, is_ws c = false -> skip_ws (c :: s) = c :: s.
Proof. intros c s H. cbn [skip_ws]. rewrite H. reflexivity. Qed.
Lemma skip_nil : forall s, skip_ws s = [] <-> blank s.
Proof.
  intro s. split.
  - intro E. destruct (skip_ws_is s) as (w & B & H). rewrite E, app_nil_r in H. subst. exact B.
  - intro B. rewrite <- (app_nil_r s), skip_ws_blank by exact B. reflexivity.
Qed.
Lemma prefix_of_is : forall p s r, prefix_of p s = Some r -> s = p ++ r.
Proof.
  induction p as [|a p IH]; intros s r H; cbn in H; cbn [app]; [congruence|]. destruct s as [|b s]; [discriminate|].
  destruct (beq a b) eqn:E; [|discriminate]. apply beq_eq in E. subst. cbn [app]. f_equal. apply IH. exact H.
Qed.
Lemma skip_to : forall s c r, skip_ws s = c :: r -> exists w, blank w /\ s = w ++ c :: r.
Proof. intros s c r H. destruct (skip_ws_is s) as (w & B & E). rewrite H in E. eauto. Qed.

(** *** What is read is in the grammar *)
Lemma bare_char : forall c, ((b2n c <? 128)%N && bseq (quote_char c) [c]) =
  ((32 <=? b2n c)%N && (b2n c <? 128)%N && negb (existsb (beq c) (s2b "<>&\")) && negb (beq c x22)).
Proof. destruct c; reflexivity. Qed.
Lemma bare_iff : forall s, bare s = true <-> as_is s.
Proof.
  intro s. unfold bare, as_is. rewrite forallb_forall, Forall_forall.
  assert (C : forall c, ((b2n c <? 128)%N && bseq (quote_char c) [c]) = true <-> (32 <= b2n c < 128)%N /\ ~ In c (s2b "<>&\") /\ c <> x22).
  { intro c. rewrite bare_char, !andb_true_iff, !negb_true_iff, N.leb_le, N.ltb_lt.
    assert (X : existsb (beq c) (s2b "<>&\") = false <-> ~ In c (s2b "<>&\")).
    { rewrite <- not_true_iff_false, existsb_exists. split; intros H K; apply H.
      - exists c. split; [exact K|apply beq_refl].
      - destruct K as (x & K & E). apply beq_eq in E. subst. exact K. }
    assert (Y : beq c x22 = false <-> c <> x22) by (rewrite <- not_true_iff_false, beq_eq; reflexivity).
    rewrite X, Y. tauto. }
  split; intros H c I; apply C, H, I.
Qed.
Lemma string_read_bare : forall raw s r, (as_is s -> raw = s) -> string_read (raw ++ x22 :: r) s r = JStr s.
Proof.
  intros raw s r H. unfold string_read. destruct (bare s) eqn:B; [|reflexivity]. apply bare_iff in B. rewrite (H B), bseq_refl. reflexivity.
Qed.
Lemma string_read_escaped : forall raw s r, as_is s -> raw <> s -> string_read (raw ++ x22 :: r) s r = JEsc s.
Proof.
  intros raw s r H N. unfold string_read. rewrite (proj2 (bare_iff s) H), (proj2 (bseq_neq _ _)); [reflexivity|].
  intro E. apply N. apply app_inv_tail in E. exact E.
Qed.
Lemma string_read_value : forall raw s r, chars raw s -> value (quoted raw) (string_read (raw ++ x22 :: r) s r).
Proof.
  intros raw s r K. destruct (bare s) eqn:B; [destruct (bseq raw s) eqn:E|].
  - apply bseq_eq in E. rewrite string_read_bare by auto. apply value_str; auto.
  - apply bseq_neq in E. apply bare_iff in B. rewrite string_read_escaped by assumption. apply value_esc; assumption.
  - assert (A : as_is s -> raw = s) by (intro A; apply bare_iff in A; congruence). rewrite string_read_bare by exact A. apply value_str; assumption.
Qed.
Lemma parsed : forall n,
  (forall s j r, pval n s = Some (j, r) -> exists w t, blank w /\ value t j /\ s = w ++ t ++ r) /\
  (forall s l r, parr n true s = Some (l, r) ->
     l = [] /\ (exists w, blank w /\ s = w ++ x5d :: r) \/ exists t, elements t l /\ s = t ++ x5d :: r) /\
  (forall s l r, parr n false s = Some (l, r) -> exists w, blank w /\
     (l = [] /\ s = w ++ x5d :: r \/ exists t, elements t l /\ s = w ++ x2c :: t ++ x5d :: r)) /\
  (forall s m r, pobj n true s = Some (m, r) ->
     m = [] /\ (exists w, blank w /\ s = w ++ x7d :: r) \/ exists t, members t m /\ s = t ++ x7d :: r) /\
  (forall s m r, pobj n false s = Some (m, r) -> exists w, blank w /\
     (m = [] /\ s = w ++ x7d :: r \/ exists t, members t m /\ s = w ++ x2c :: t ++ x7d :: r)).
Proof.
  induction n as [|n (I1 & I2 & I3 & I4 & I5)].
  { split; [|split; [|split; [|split]]]; intros; discriminate. }
  (** one element and the rest *)
  assert (EL : forall s l r j r1, pval n s = Some (j, r1) -> parr n false r1 = Some (l, r) -> exists t, elements t (j :: l) /\ s = t ++ x5d :: r).
  { intros s l r j r1 P A. apply I1 in P as (w & t & B & V & ->). apply I3 in A as (w2 & B2 & [(-> & ->)|(t2 & E2 & ->)]).
    - exists (w ++ t ++ w2). split; [apply elements_one; assumption|]. rewrite <- !app_assoc. reflexivity.
    - exists (w ++ t ++ w2 ++ x2c :: t2). split; [apply elements_more; assumption|]. rewrite <- !app_assoc. reflexivity. }
  assert (MB : forall s s1 s2 s3 k j m r1 r2 r, prefix_of [x22] (skip_ws s) = Some s1 -> pstring s1 = Some (k, s2) ->
      prefix_of [x3a] (skip_ws s2) = Some s3 -> pval n s3 = Some (j, r1) -> pobj n false r1 = Some (m, r) -> r2 = r ->
      exists t, members t ((k, j) :: m) /\ s = t ++ x7d :: r).
  { intros s s1 s2 s3 k j m r1 r2 r P1 P2 P3 P4 P5 _. apply prefix_of_is in P1, P3. cbn [app] in P1, P3.
    apply skip_to in P1 as (a & Ba & ->). apply skip_to in P3 as (b & Bb & E3).
    apply pstring_chars with (n := length s1) in P2 as (raw & -> & K); [|apply le_n]. subst s2.
    apply I1 in P4 as (c & t & Bc & V & ->). apply I5 in P5 as (d & Bd & [(-> & ->)|(t2 & E2 & ->)]).
    - exists (a ++ quoted raw ++ b ++ x3a :: c ++ t ++ d). split; [apply members_one; assumption|].
      unfold quoted. repeat (rewrite <- app_assoc; cbn [app]). reflexivity.
    - exists (a ++ quoted raw ++ b ++ x3a :: c ++ t ++ d ++ x2c :: t2). split; [apply members_more; assumption|].
      unfold quoted. repeat (rewrite <- app_assoc; cbn [app]). reflexivity. }
  split; [|split; [|split; [|split]]].
  - intros s j r H. cbn [pval] in H. destruct (skip_ws s) as [|c s'] eqn:E; [discriminate|]. apply skip_to in E as (w & B & ->).
    exists w.
    assert (R : forall t, value t j -> c :: s' = t ++ r -> exists t, blank w /\ value t j /\ w ++ c :: s' = w ++ t ++ r).
    { intros t V Q. exists t. rewrite Q. auto. }
    destruct (beq c x6e) eqn:C1; [|destruct (beq c x74) eqn:C2; [|destruct (beq c x66) eqn:C3; [|destruct (beq c x22) eqn:C4;
      [|destruct (beq c x5b) eqn:C5; [|destruct (beq c x7b) eqn:C6]]]]].
    + apply beq_eq in C1. subst. unfold lit in H. destruct (prefix_of _ s') as [r'|] eqn:P; [|discriminate]. injection H as <- <-.
      apply prefix_of_is in P. subst. apply (R (s2b "null") value_null). reflexivity.
    + apply beq_eq in C2. subst. unfold lit in H. destruct (prefix_of _ s') as [r'|] eqn:P; [|discriminate]. injection H as <- <-.
      apply prefix_of_is in P. subst. apply (R (s2b "true") value_true). reflexivity.
    + apply beq_eq in C3. subst. unfold lit in H. destruct (prefix_of _ s') as [r'|] eqn:P; [|discriminate]. injection H as <- <-.
      apply prefix_of_is in P. subst. apply (R (s2b "false") value_false). reflexivity.
    + apply beq_eq in C4. subst. destruct (pstring s') as [[t r']|] eqn:P; [|discriminate]. injection H as <- <-.
      apply pstring_chars with (n := length s') in P as (raw & -> & K); [|apply le_n].
      apply (R (quoted raw) (string_read_value raw t r' K)). unfold quoted. cbn [app]. rewrite <- app_assoc. reflexivity.
    + apply beq_eq in C5. subst. destruct (parr n true s') as [[l r']|] eqn:P; [|discriminate]. injection H as <- <-.
      apply I2 in P as [(-> & w2 & B2 & ->)|(t & T & ->)].
      * apply (R _ (value_nil w2 B2)). cbn [app]. rewrite <- app_assoc. reflexivity.
      * apply (R _ (value_arr t l T)). cbn [app]. rewrite <- app_assoc. reflexivity.
    + apply beq_eq in C6. subst. destruct (pobj n true s') as [[l r']|] eqn:P; [|discriminate]. injection H as <- <-.
      apply I4 in P as [(-> & w2 & B2 & ->)|(t & T & ->)].
      * apply (R _ (value_none w2 B2)). cbn [app]. rewrite <- app_assoc. reflexivity.
      * apply (R _ (value_obj t l T)). cbn [app]. rewrite <- app_assoc. reflexivity.
    + unfold pnum in H. destruct (span_num (c :: s')) as [t r'] eqn:P. destruct (valid_number t) eqn:V; [|discriminate]. injection H as <- <-.
      apply span_num_is in P. apply (R t); [|exact P]. apply value_num. apply valid_number_iff. exact V.
  - intros s l r H. cbn [parr] in H. destruct (skip_ws s) as [|c s'] eqn:E; [discriminate|]. destruct (beq c x5d) eqn:C.
    + apply beq_eq in C. subst. injection H as <- <-. left. split; [reflexivity|]. apply skip_to. exact E.
    + destruct (pval n (c :: s')) as [[j r1]|] eqn:P; [|discriminate]. destruct (parr n false r1) as [[l2 r2]|] eqn:P2; [|discriminate].
      injection H as <- <-. right. destruct (EL _ _ _ _ _ P P2) as (t & T & Q). apply skip_to in E as (w & B & ->).
      rewrite Q. inversion T; subst.
      * exists ((w ++ a) ++ t0 ++ b). split; [apply elements_one; auto using blank_app|]. rewrite <- !app_assoc. reflexivity.
      * exists ((w ++ a) ++ t0 ++ b ++ x2c :: ts). split; [apply elements_more; auto using blank_app|]. rewrite <- !app_assoc. reflexivity.
  - intros s l r H. cbn [parr] in H. destruct (skip_ws s) as [|c s'] eqn:E; [discriminate|]. apply skip_to in E as (w & B & ->). exists w.
    split; [exact B|]. destruct (beq c x5d) eqn:C.
    + apply beq_eq in C. subst. injection H as <- <-. left. split; reflexivity.
    + destruct (prefix_of [x2c] (c :: s')) as [s2|] eqn:P0; [|discriminate]. apply prefix_of_is in P0. cbn [app] in P0. rewrite P0.
      destruct (pval n s2) as [[j r1]|] eqn:P; [|discriminate]. destruct (parr n false r1) as [[l2 r2]|] eqn:P2; [|discriminate].
      injection H as <- <-. right. destruct (EL _ _ _ _ _ P P2) as (t & T & ->). eauto.
  - intros s l r H. cbn [pobj] in H. destruct (skip_ws s) as [|c s'] eqn:E; [discriminate|]. destruct (beq c x7d) eqn:C.
    + apply beq_eq in C. subst. injection H as <- <-. left. split; [reflexivity|]. apply skip_to. exact E.
    + destruct (prefix_of [x22] (skip_ws (c :: s'))) as [s3|] eqn:Q1; [|discriminate]. destruct (pstring s3) as [[k r0]|] eqn:Q2; [|discriminate].
      destruct (prefix_of [x3a] (skip_ws r0)) as [s4|] eqn:Q3; [|discriminate].
      destruct (pval n s4) as [[j r1]|] eqn:P; [|discriminate]. destruct (pobj n false r1) as [[l2 r2]|] eqn:P2; [|discriminate].
      injection H as <- <-. right. destruct (MB _ _ _ _ _ _ _ _ _ _ Q1 Q2 Q3 P P2 eq_refl) as (t & T & Q). apply skip_to in E as (w & B & ->).
      rewrite Q. inversion T; subst.
      * exists ((w ++ a) ++ quoted raw ++ b ++ x3a :: c0 ++ t0 ++ d). split; [apply members_one; auto using blank_app|]. rewrite <- !app_assoc. reflexivity.
      * exists ((w ++ a) ++ quoted raw ++ b ++ x3a :: c0 ++ t0 ++ d ++ x2c :: ts). split; [apply members_more; auto using blank_app|]. rewrite <- !app_assoc. reflexivity.
  - intros s l r H. cbn [pobj] in H. destruct (skip_ws s) as [|c s'] eqn:E; [discriminate|]. apply skip_to in E as (w & B & ->). exists w.
    split; [exact B|]. destruct (beq c x7d) eqn:C.
    + apply beq_eq in C. subst. injection H as <- <-. left. split; reflexivity.
    + destruct (prefix_of [x2c] (c :: s')) as [s2|] eqn:P0; [|discriminate]. apply prefix_of_is in P0. cbn [app] in P0. rewrite P0.
      destruct (prefix_of [x22] (skip_ws s2)) as [s3|] eqn:Q1; [|discriminate]. destruct (pstring s3) as [[k r0]|] eqn:Q2; [|discriminate].
      destruct (prefix_of [x3a] (skip_ws r0)) as [s4|] eqn:Q3; [|discriminate].
      destruct (pval n s4) as [[j r1]|] eqn:P; [|discriminate]. destruct (pobj n false r1) as [[l2 r2]|] eqn:P2; [|discriminate].
      injection H as <- <-. right. destruct (MB _ _ _ _ _ _ _ _ _ _ Q1 Q2 Q3 P P2 eq_refl) as (t & T & ->). eauto.
Qed.

(** *** What is in the grammar is read *)
Scheme value_mind := Induction for value Sort Prop
  with elements_mind := Induction for elements Sort Prop
  with members_mind := Induction for members Sort Prop.
Combined Scheme grammar_ind from value_mind, elements_mind, members_mind.

Lemma number_start : forall t, number t -> exists c t', t = c :: t' /\ num_start c.
Proof. intros t H. apply valid_number_start; [apply valid_number_iff; exact H|apply number_chars; exact H]. Qed.
Lemma value_start : forall t j, value t j -> exists c t', t = c :: t' /\ val_start c.
Proof.
  intros t j H. destruct H as [| | |t N|raw s K A|raw s K A D|w B|t l E|w B|t m M]; try (do 2 eexists; split; [reflexivity|]; vm_compute; auto; fail).
  destruct (number_start t N) as (c & t' & -> & N1 & _ & _ & _ & _ & _ & _ & N2 & N3). exists c, t'. split; [reflexivity|]. repeat split; assumption.
Qed.
Lemma blank_stops : forall w c r, blank w -> is_num_char c = false -> stops (w ++ c :: r).
Proof.
  intros [|b w] c r B H; [exact H|]. cbn. inversion B as [|? ? I _]; subst. cbn in I. intuition (subst; reflexivity).
Qed.
(** before the first element or behind another one *)
Definition lead (b : bool) (pre : bytes) : Prop := if b then pre = [] else exists w, blank w /\ pre = w ++ [x2c].
Lemma parse : (forall t j, value t j -> forall n w r, blank w -> length t < n -> ends j r -> pval n (w ++ t ++ r) = Some (j, r)) /\
  (forall t l, elements t l -> forall n b pre r, lead b pre -> length t + 1 < n -> parr n b (pre ++ t ++ x5d :: r) = Some (l, r)) /\
  (forall t m, members t m -> forall n b pre r, lead b pre -> length t + 1 < n -> pobj n b (pre ++ t ++ x7d :: r) = Some (m, r)).
Proof.
  (** a separator *)
  assert (SEP : forall b pre c s, lead b pre -> is_ws c = false -> beq c x5d = false -> beq c x7d = false ->
    exists c' s', skip_ws (pre ++ c :: s) = c' :: s' /\ beq c' x5d = false /\ beq c' x7d = false /\
      (if b then Some (c' :: s') else prefix_of [x2c] (c' :: s')) = Some (c :: s)).
  { intros [|] pre c s L W W1 W2; cbn in L.
    - subst pre. exists c, s. cbn [app]. rewrite skip_ws_start by exact W. auto.
    - destruct L as (w & B & ->). rewrite <- app_assoc, skip_ws_blank by exact B. cbn [app]. exists x2c, (c :: s).
      split; [reflexivity|]. split; [reflexivity|]. split; [reflexivity|]. cbn [prefix_of]. reflexivity. }
  (** the same with white space behind it *)
  assert (SEPW : forall b pre a c s, lead b pre -> blank a -> is_ws c = false -> beq c x5d = false -> beq c x7d = false ->
    exists c' s' s2, skip_ws (pre ++ a ++ c :: s) = c' :: s' /\ beq c' x5d = false /\ beq c' x7d = false /\
      (if b then Some (c' :: s') else prefix_of [x2c] (c' :: s')) = Some s2 /\ exists a', blank a' /\ s2 = a' ++ c :: s).
  { intros [|] pre a c s L Ba W W1 W2; cbn in L.
    - subst pre. exists c, s, (c :: s). cbn [app]. rewrite skip_ws_blank, skip_ws_start by assumption. repeat (split; [auto; fail|]).
      exists []. split; [constructor|reflexivity].
    - destruct L as (w & B & ->). rewrite <- app_assoc, skip_ws_blank by exact B. cbn [app]. exists x2c, (a ++ c :: s), (a ++ c :: s).
      split; [reflexivity|]. split; [reflexivity|]. split; [reflexivity|]. split; [reflexivity|]. eauto. }
  clear SEP.
  apply grammar_ind.
  - intros n w r B L E. destruct n as [|n]; [cbn in L; lia|]. cbn [pval]. rewrite skip_ws_blank by exact B. reflexivity.
  - intros n w r B L E. destruct n as [|n]; [cbn in L; lia|]. cbn [pval]. rewrite skip_ws_blank by exact B. reflexivity.
  - intros n w r B L E. destruct n as [|n]; [cbn in L; lia|]. cbn [pval]. rewrite skip_ws_blank by exact B. reflexivity.
  - intros t N n w r B L E. destruct n as [|n]; [lia|]. cbn [pval]. rewrite skip_ws_blank by exact B.
    pose proof (number_chars t N) as NC. destruct (number_start t N) as (c & t' & -> & N1 & N2 & N3 & N4 & N5 & N6 & N7 & _).
    cbn [app]. rewrite skip_ws_start by exact N1. cbn match. rewrite N2, N3, N4, N5, N6, N7. unfold pnum. cbn in E.
    rewrite app_comm_cons, span_num_app by assumption. rewrite (proj2 (valid_number_iff _) N). reflexivity.
  - intros raw s K A n w r B L E. destruct n as [|n]; [lia|]. cbn [pval]. rewrite skip_ws_blank by exact B. unfold quoted. cbn [app].
    rewrite skip_ws_start by reflexivity. change (beq x22 x6e) with false. change (beq x22 x74) with false. change (beq x22 x66) with false.
    change (beq x22 x22) with true. cbn match. rewrite <- app_assoc. cbn [app]. rewrite (chars_pstring raw s K), string_read_bare by exact A. reflexivity.
  - intros raw s K A D n w r B L E. destruct n as [|n]; [lia|]. cbn [pval]. rewrite skip_ws_blank by exact B. unfold quoted. cbn [app].
    rewrite skip_ws_start by reflexivity. change (beq x22 x6e) with false. change (beq x22 x74) with false. change (beq x22 x66) with false.
    change (beq x22 x22) with true. cbn match. rewrite <- app_assoc. cbn [app]. rewrite (chars_pstring raw s K), string_read_escaped by assumption. reflexivity.
  - intros w2 B2 n w r B L E. destruct n as [|[|n]]; [lia|cbn [length] in L; lia|]. cbn [pval]. rewrite skip_ws_blank by exact B. cbn [app].
    rewrite skip_ws_start by reflexivity. change (beq x5b x6e) with false. change (beq x5b x74) with false. change (beq x5b x66) with false.
    change (beq x5b x22) with false. change (beq x5b x5b) with true. cbn match. cbn [parr]. rewrite <- app_assoc, skip_ws_blank by exact B2. reflexivity.
  - intros t l T IH n w r B L E. destruct n as [|n]; [lia|]. cbn [pval]. rewrite skip_ws_blank by exact B. cbn [app].
    rewrite skip_ws_start by reflexivity. change (beq x5b x6e) with false. change (beq x5b x74) with false. change (beq x5b x66) with false.
    change (beq x5b x22) with false. change (beq x5b x5b) with true. cbn match. rewrite <- app_assoc. cbn [app].
    cbn [length] in L. rewrite app_length in L. cbn [length] in L. change (t ++ x5d :: r) with ([] ++ t ++ x5d :: r). rewrite IH by (try reflexivity; lia). reflexivity.
  - intros w2 B2 n w r B L E. destruct n as [|[|n]]; [lia|cbn [length] in L; lia|]. cbn [pval]. rewrite skip_ws_blank by exact B. cbn [app].
    rewrite skip_ws_start by reflexivity. change (beq x7b x6e) with false. change (beq x7b x74) with false. change (beq x7b x66) with false.
    change (beq x7b x22) with false. change (beq x7b x5b) with false. change (beq x7b x7b) with true. cbn match. cbn [pobj].
    rewrite <- app_assoc, skip_ws_blank by exact B2. reflexivity.
  - intros t l T IH n w r B L E. destruct n as [|n]; [lia|]. cbn [pval]. rewrite skip_ws_blank by exact B. cbn [app].
    rewrite skip_ws_start by reflexivity. change (beq x7b x6e) with false. change (beq x7b x74) with false. change (beq x7b x66) with false.
    change (beq x7b x22) with false. change (beq x7b x5b) with false. change (beq x7b x7b) with true. cbn match. rewrite <- app_assoc. cbn [app].
    cbn [length] in L. rewrite app_length in L. cbn [length] in L. change (t ++ x7d :: r) with ([] ++ t ++ x7d :: r). rewrite IH by (try reflexivity; lia). reflexivity.
  - intros a t b j Ba V IH Bb n f pre r Ld L. destruct n as [|n]; [lia|]. rewrite !app_length in L.
    destruct (value_start t j V) as (c & t' & E & W & W1 & W2).
    replace ((a ++ t ++ b) ++ x5d :: r) with (a ++ c :: t' ++ b ++ x5d :: r) by (rewrite E, <- !app_assoc; reflexivity).
    destruct (SEPW f pre a c (t' ++ b ++ x5d :: r) Ld Ba W W1 W2) as (c' & s' & s2 & K1 & K2 & K3 & K4 & a' & Ba' & K5).
    cbn [parr]. rewrite K1, K2, K4, K5. rewrite app_comm_cons, <- E.
    rewrite IH by (try assumption; try lia; apply stops_ends, blank_stops; auto).
    destruct n as [|n]; [lia|]. cbn [parr]. rewrite skip_ws_blank by exact Bb. reflexivity.
  - intros a t b j ts l Ba V IH Bb T IHt n f pre r Ld L. destruct n as [|n]; [lia|]. rewrite !app_length in L. cbn [length] in L.
    destruct (value_start t j V) as (c & t' & E & W & W1 & W2).
    replace ((a ++ t ++ b ++ x2c :: ts) ++ x5d :: r) with (a ++ c :: t' ++ b ++ x2c :: ts ++ x5d :: r)
      by (rewrite E, <- !app_assoc; cbn [app]; rewrite <- ?app_assoc; reflexivity).
    destruct (SEPW f pre a c (t' ++ b ++ x2c :: ts ++ x5d :: r) Ld Ba W W1 W2) as (c' & s' & s2 & K1 & K2 & K3 & K4 & a' & Ba' & K5).
    cbn [parr]. rewrite K1, K2, K4, K5. rewrite app_comm_cons, <- E.
    rewrite IH by (try assumption; try lia; apply stops_ends, blank_stops; auto).
    assert (1 <= length t) by (rewrite E; cbn; lia).
    replace (b ++ x2c :: ts ++ x5d :: r) with ((b ++ [x2c]) ++ ts ++ x5d :: r) by (rewrite <- app_assoc; reflexivity).
    rewrite IHt; [reflexivity|cbn; eauto|lia].
  - intros a raw k b c t d j Ba K Bb Bc V IH Bd n f pre r Ld L. destruct n as [|n]; [lia|]. rewrite !app_length in L. cbn [length] in L. rewrite !app_length in L.
    replace ((a ++ quoted raw ++ b ++ x3a :: c ++ t ++ d) ++ x7d :: r) with (a ++ x22 :: raw ++ x22 :: b ++ x3a :: c ++ t ++ d ++ x7d :: r)
      by (unfold quoted; repeat (rewrite <- app_assoc; cbn [app]); reflexivity).
    destruct (SEPW f pre a x22 (raw ++ x22 :: b ++ x3a :: c ++ t ++ d ++ x7d :: r) Ld Ba eq_refl eq_refl eq_refl) as (c' & s' & s2 & K1 & K2 & K3 & K4 & a' & Ba' & K5).
    cbn [pobj]. rewrite K1, K3, K4, K5. rewrite skip_ws_blank, skip_ws_start by (assumption || reflexivity). cbn [prefix_of]. change (beq x22 x22) with true. cbn match.
    rewrite (chars_pstring raw k K). rewrite skip_ws_blank, skip_ws_start by (assumption || reflexivity). cbn [prefix_of]. change (beq x3a x3a) with true. cbn match.
    rewrite IH by (try assumption; try lia; apply stops_ends, blank_stops; auto).
    destruct n as [|n]; [lia|]. cbn [pobj]. rewrite skip_ws_blank by exact Bd. reflexivity.
  - intros a raw k b c t d j ts m Ba K Bb Bc V IH Bd T IHt n f pre r Ld L. destruct n as [|n]; [lia|].
    repeat (rewrite !app_length in L; cbn [length] in L).
    replace ((a ++ quoted raw ++ b ++ x3a :: c ++ t ++ d ++ x2c :: ts) ++ x7d :: r) with (a ++ x22 :: raw ++ x22 :: b ++ x3a :: c ++ t ++ d ++ x2c :: ts ++ x7d :: r)
      by (unfold quoted; repeat (rewrite <- app_assoc; cbn [app]); reflexivity).
    destruct (SEPW f pre a x22 (raw ++ x22 :: b ++ x3a :: c ++ t ++ d ++ x2c :: ts ++ x7d :: r) Ld Ba eq_refl eq_refl eq_refl) as (c' & s' & s2 & K1 & K2 & K3 & K4 & a' & Ba' & K5).
    cbn [pobj]. rewrite K1, K3, K4, K5. rewrite skip_ws_blank, skip_ws_start by (assumption || reflexivity). cbn [prefix_of]. change (beq x22 x22) with true. cbn match.
    rewrite (chars_pstring raw k K). rewrite skip_ws_blank, skip_ws_start by (assumption || reflexivity). cbn [prefix_of]. change (beq x3a x3a) with true. cbn match.
    rewrite IH by (try assumption; try lia; apply stops_ends, blank_stops; auto).
    replace (d ++ x2c :: ts ++ x7d :: r) with ((d ++ [x2c]) ++ ts ++ x7d :: r) by (rewrite <- app_assoc; reflexivity).
    rewrite IHt; [reflexivity|cbn; eauto|lia].
Qed.
Theorem jparse_iff : forall s j, jparse s = Some j <-> document s j.
Proof.
  intros s j. unfold jparse. split.
  - intro H. destruct (pval _ s) as [[j' r]|] eqn:P; [|discriminate]. destruct (skip_ws r) eqn:W; [|discriminate]. injection H as <-.
    apply (proj1 (parsed _)) in P as (a & t & Ba & V & ->). exists a, t, r. repeat (split; [assumption|]). split; [apply skip_nil; exact W|reflexivity].
  - intros (a & t & b & Ba & V & Bb & ->). rewrite (proj1 parse t j V); [rewrite (proj2 (skip_nil b) Bb); reflexivity|exact Ba|rewrite !app_length; lia|].
    apply stops_ends. destruct b as [|c b]; [exact I|]. inversion Bb; subst. cbn in *. intuition (subst; reflexivity).
Qed.

(** ** Writing strings *)
Lemma quote_spelling : forall n s, scalar n -> quote_body (rune_bytes n ++ s) = spelling n ++ quote_body s.
Proof.
  intros n s H. destruct (rune_forms n H) as [(L & F & W)|(L & [(c & d & F & A & R)|[(c & d & e & F & A & R)|(c & d & e & f & F & A & R)]])].
  - rewrite F. cbn [app]. rewrite quote_1 by lia. f_equal.
    assert (X : forallb (fun i => bseq (quote_char (n2b (N.of_nat i))) (spelling (N.of_nat i))) (seq 0 128) = true) by (vm_compute; reflexivity).
    rewrite forallb_forall in X. specialize (X (N.to_nat n)). rewrite N2Nat.id in X. apply bseq_eq. apply X. apply in_seq. lia.
  - rewrite F. cbn [app]. rewrite quote_2 by assumption. f_equal. unfold spelling.
    assert (U : (n < 0x800)%N).
    { destruct (N.ltb_spec n 0x800); [assumption|]. unfold rune_bytes in F. destruct (N.ltb_spec n 0x80); [lia|]. destruct (N.ltb_spec n 0x800); [lia|].
      destruct (n <? 0x10000)%N; discriminate F. }
    cbn [existsb]. replace ((n =? 34) || (n =? 92))%N with false by lia. replace (n =? 10)%N with false by lia. replace (n =? 13)%N with false by lia.
    replace (n =? 9)%N with false by lia. replace ((n <? 32) || _)%N with false by lia. congruence.
  - rewrite F. cbn [app]. rewrite quote_3 by assumption. f_equal. unfold spelling, quote3. cbn [existsb].
    replace ((n =? 34) || (n =? 92))%N with false by lia. replace (n =? 10)%N with false by lia. replace (n =? 13)%N with false by lia.
    replace (n =? 9)%N with false by lia.
    assert (B : n = ((b2n c - 0xE0) * 4096 + (b2n d - 0x80) * 64 + (b2n e - 0x80))%N /\ (0xE0 <= b2n c /\ 0x80 <= b2n d < 0xC0 /\ 0x80 <= b2n e < 0xC0)%N).
    { unfold rune_bytes, scalar in *. destruct (n <? 0x80)%N; [discriminate F|]. destruct (n <? 0x800)%N; [discriminate F|].
      destruct (N.ltb_spec n 0x10000); [|discriminate F]. assert (F1 : c = n2b (0xE0 + n / 4096) /\ d = n2b (0x80 + n / 64 mod 64) /\ e = n2b (0x80 + n mod 64)).
      { change (match [c; d; e] with [x; y; z] => x = n2b (0xE0 + n / 4096) /\ y = n2b (0x80 + n / 64 mod 64) /\ z = n2b (0x80 + n mod 64) | _ => False end).
        rewrite <- F. auto. }
      destruct F1 as (-> & -> & ->). clear F R A.
      assert (D : (n = n / 4096 * 4096 + n / 64 mod 64 * 64 + n mod 64 /\ n / 4096 < 16 /\ n / 64 mod 64 < 64 /\ n mod 64 < 64)%N) by lia.
      set (p := (n / 4096)%N) in *. set (q := (n / 64 mod 64)%N) in *. set (u := (n mod 64)%N) in *. clearbody p q u.
      rewrite !b2n_n2b, !N.mod_small. all: lia. }
    destruct B as [B1 B2]. rewrite !beq_n. change (b2n xe2) with 226%N. change (b2n x80) with 128%N. change (b2n xa8) with 168%N. change (b2n xa9) with 169%N.
    destruct (N.eqb_spec n 0x2028) as [E|E]; [|destruct (N.eqb_spec n 0x2029) as [E'|E']].
    + replace ((b2n c =? 226) && (b2n d =? 128) && (b2n e =? 168))%N with true by lia. rewrite E. reflexivity.
    + replace ((b2n c =? 226) && (b2n d =? 128) && (b2n e =? 168))%N with false by lia.
      replace ((b2n c =? 226) && (b2n d =? 128) && (b2n e =? 169))%N with true by lia. rewrite E'. reflexivity.
    + replace ((b2n c =? 226) && (b2n d =? 128) && (b2n e =? 168))%N with false by lia.
      replace ((b2n c =? 226) && (b2n d =? 128) && (b2n e =? 169))%N with false by lia.
      replace ((n <? 32) || _)%N with false by lia. congruence.
  - rewrite F. cbn [app]. rewrite quote_4 by assumption. f_equal. unfold spelling.
    assert (U : (0x10000 <= n)%N).
    { destruct (N.leb_spec 0x10000 n); [assumption|]. unfold rune_bytes in F. destruct (N.ltb_spec n 0x80); [lia|]. destruct (N.ltb_spec n 0x800); [discriminate F|].
      destruct (N.ltb_spec n 0x10000); [discriminate F|lia]. }
    cbn [existsb]. replace ((n =? 34) || (n =? 92))%N with false by lia. replace (n =? 10)%N with false by lia. replace (n =? 13)%N with false by lia.
    replace (n =? 9)%N with false by lia. replace ((n <? 32) || _)%N with false by lia. congruence.
Qed.
Lemma spelt_quote : forall s t, spelt s t -> quote s = quoted t.
Proof.
  intros s t H. unfold quote, quoted. f_equal. f_equal. induction H as [|n s t S H IH|c s t A N H IH]; [reflexivity| |].
  - rewrite quote_spelling, IH by exact S. reflexivity.
  - rewrite quote_bad, IH; [reflexivity|exact A|]. apply bad_iff; assumption.
Qed.
Lemma quote_spelt : forall s, spelt s (quote_body s).
Proof.
  intro s. induction s as [|c s A IH|c d s A R IH|c d e s A R IH|c d e f s A R IH|c s A R IH] using runes_ind.
  - constructor.
  - destruct (rune_1 c A) as [E S]. change (c :: s) with ([c] ++ s). rewrite E, quote_spelling by exact S. apply spelt_rune; assumption.
  - destruct (rune_2 c d R) as (n & S & _ & E). change (c :: d :: s) with ([c; d] ++ s). rewrite E, quote_spelling by exact S. apply spelt_rune; assumption.
  - destruct (rune_3 c d e R) as (n & S & _ & E). change (c :: d :: e :: s) with ([c; d; e] ++ s). rewrite E, quote_spelling by exact S. apply spelt_rune; assumption.
  - destruct (rune_4 c d e f R) as (n & S & _ & E). change (c :: d :: e :: f :: s) with ([c; d; e; f] ++ s). rewrite E, quote_spelling by exact S. apply spelt_rune; assumption.
  - rewrite quote_bad by assumption. change escaped_replacement with (code_escape 0xFFFD). apply spelt_invalid; [exact A|apply bad_iff; assumption|exact IH].
Qed.
Theorem quote_iff : forall s t, quote s = quoted t <-> spelt s t.
Proof.
  intros s t. split; [|apply spelt_quote]. intro E. unfold quote, quoted in E. injection E as E.
  apply app_inj_tail in E as [<- _]. apply quote_spelt.
Qed.
Lemma hexval_digit : forall n, (n < 16)%N -> hexval (hexdigit n) n.
Proof.
  intros n H. unfold hexval.
  assert (X : forallb (fun i => match unhexdigit (hexdigit (N.of_nat i)) with Some v => (v =? N.of_nat i)%N | None => false end) (seq 0 16) = true) by (vm_compute; reflexivity).
  rewrite forallb_forall in X. specialize (X (N.to_nat n)). rewrite N2Nat.id in X. apply hexval_iff.
  destruct (unhexdigit (hexdigit n)) as [v|]; [|discriminate X; apply in_seq; lia].
  f_equal. apply N.eqb_eq, X, in_seq. lia.
Qed.
Lemma code_escape_hex : forall n, (n < 0x10000)%N ->
  hex4 [hexdigit (n / 4096); hexdigit (n / 256 mod 16); hexdigit (n / 16 mod 16); hexdigit (n mod 16)] n.
Proof.
  intros n H. do 8 eexists. split; [reflexivity|].
  split; [apply hexval_digit; lia|]. split; [apply hexval_digit; lia|]. split; [apply hexval_digit; lia|]. split; [apply hexval_digit; lia|]. lia.
Qed.
Lemma spelling_chars : forall n r m, scalar n -> chars r m -> chars (spelling n ++ r) (rune_bytes n ++ m).
Proof.
  intros n r m S H. unfold spelling.
  destruct ((n =? 34) || (n =? 92))%N eqn:E1.
  { apply orb_prop in E1 as [E|E]; apply N.eqb_eq in E; subst n; apply chars_escape; try exact H; cbn; auto. }
  destruct (N.eqb_spec n 10) as [->|E2]; [apply chars_escape; [cbn; tauto|exact H]|].
  destruct (N.eqb_spec n 13) as [->|E3]; [apply chars_escape; [cbn; tauto|exact H]|].
  destruct (N.eqb_spec n 9) as [->|E4]; [apply chars_escape; [cbn; tauto|exact H]|].
  destruct ((n <? 32)%N || _) eqn:E5.
  - unfold code_escape. apply chars_code; [|exact S|exact H]. apply code_escape_hex. cbn [existsb] in E5. lia.
  - apply chars_plain; [exact S|cbn [existsb] in E5; lia|lia|lia|exact H].
Qed.
Lemma spelt_chars : forall s t, unicode s -> spelt s t -> chars t s.
Proof.
  intros s t (rs & F & ->) H. assert (E : spelt (flat_map rune_bytes rs) (flat_map spelling rs)).
  { clear H. induction F as [|n rs S F IH]; [constructor|]. cbn [flat_map]. apply spelt_rune; assumption. }
  assert (t = flat_map spelling rs).
  { apply spelt_quote in H, E. rewrite H in E. unfold quoted in E. injection E as E. apply app_inj_tail in E as [E _]. exact E. }
  subst t. clear H E. induction F as [|n rs S F IH]; [constructor|]. cbn [flat_map]. apply spelling_chars; assumption.
Qed.
