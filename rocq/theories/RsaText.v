(** DER and the texts of keys. *)
From Coq Require Import ZArith Znumtheory Lia ZifyBool ZifyNat ZifyN.
From Verif Require Import Base BaseFacts Edwards25519Model LittleEndian KeygenModel KeygenProofs NumberTheory CancelModel RsaModel RsaSpec RsaNumbers RsaCrypt.
Local Open Scope Z_scope.

(** ** two's complement *)
Lemma twos_signed : forall b, signed_val b = twos b.
Proof.
  intros [|c b]; [reflexivity|]. unfold signed_val, twos. rewrite octets_be.
  destruct (N.leb_spec 128 (b2n c)); destruct (N.ltb_spec (b2n c) 128); lia.
Qed.
Lemma twos_cons : forall c b, twos (c :: b) = (if (b2n c <? 128)%N then b2z c else b2z c - 256) * p256 (length b) + be_val b.
Proof.
  intros c b. unfold twos. rewrite octets_be, be_val_cons. change (256 ^ Z.of_nat (length (c :: b))) with (p256 (S (length b))). rewrite p256_S.
  destruct (b2n c <? 128)%N; ring.
Qed.
Lemma twos_range : forall c b, - 128 * p256 (length b) <= twos (c :: b) < 128 * p256 (length b).
Proof.
  intros c b. rewrite twos_cons. pose proof (be_val_range b). pose proof (b2n_lt c). unfold b2z.
  destruct (N.ltb_spec (b2n c) 128); nia.
Qed.
(** the first nine bits differ *)
Lemma check_tail : forall c c' b, check_integer (c :: c' :: b) = false -> twos (c' :: b) = twos (c :: c' :: b).
Proof.
  intros c c' b H. cbn [check_integer] in H. apply negb_false_iff in H. apply orb_true_iff in H.
  rewrite !twos_cons, be_val_cons. cbn [length]. rewrite p256_S.
  destruct H as [H|H]; apply andb_prop in H as [H1 H2]; apply beq_eq in H1; subst c.
  - rewrite H2. change (b2n x00 <? 128)%N with true. change (b2z x00) with 0. cbv iota. ring.
  - change (b2n xff <? 128)%N with false. change (b2z xff) with 255. cbv iota. destruct (N.ltb_spec (b2n c') 128); [lia|]. ring.
Qed.
Lemma check_large : forall c c' b, check_integer (c :: c' :: b) = true ->
  twos (c :: c' :: b) < - 128 * p256 (length b) \/ 128 * p256 (length b) <= twos (c :: c' :: b).
Proof.
  intros c c' b H. cbn [check_integer] in H. apply negb_true_iff, orb_false_iff in H as [H1 H2].
  rewrite twos_cons, be_val_cons. cbn [length]. rewrite p256_S. pose proof (be_val_range b) as B. pose proof (p256_pos (length b)) as P.
  set (q := p256 (length b)) in *. set (v := be_val b) in *. clearbody q v. pose proof (b2n_lt c) as L. pose proof (b2n_lt c') as L'. unfold b2z in *.
  destruct (N.ltb_spec (b2n c) 128) as [C|C].
  - right. assert (D : (1 <= b2n c \/ 128 <= b2n c')%N).
    { destruct (N.eq_dec (b2n c) 0) as [Z0|]; [|lia]. right. assert (c = x00) by (rewrite <- (n2b_b2n c), Z0; reflexivity). subst c.
      change (beq x00 x00) with true in H1. cbn [andb] in H1. apply N.ltb_ge in H1. exact H1. }
    destruct D as [D|D]; nia.
  - left. assert (D : (b2n c <= 254 \/ b2n c' < 128)%N).
    { destruct (N.eq_dec (b2n c) 255) as [Z0|]; [|lia]. right. assert (c = xff) by (rewrite <- (n2b_b2n c), Z0; reflexivity). subst c.
      change (beq xff xff) with true in H2. cbn [andb] in H2. apply N.leb_gt in H2. exact H2. }
    destruct D as [D|D]; nia.
Qed.
Lemma shortest_intro : forall b z, b <> [] -> twos b = z -> ((length b <= 1)%nat \/ z < - 128 * p256 (length b - 2) \/ 128 * p256 (length b - 2) <= z) -> shortest b z.
Proof.
  intros b z N E H. split; [exact N|]. split; [exact E|]. intros [|c b'] N' E'; [congruence|].
  destruct (Nat.le_gt_cases (length b) (length (c :: b'))) as [L|L]; [exact L|exfalso]. cbn [length] in L.
  pose proof (twos_range c b') as R. rewrite E' in R. pose proof (p256_mono (length b') (length b - 2) ltac:(lia)). destruct H as [H|[H|H]]; lia.
Qed.
Lemma parse_big_iff : forall b z, parse_big b = Ok z <-> shortest b z.
Proof.
  intros b z. unfold parse_big. rewrite twos_signed. split.
  - intro H. destruct (check_integer b) eqn:C; [|discriminate]. assert (E : twos b = z) by congruence.
    destruct b as [|c [|c' b]]; [discriminate C|apply shortest_intro; [discriminate|exact E|left; cbn [length]; lia]|].
    apply shortest_intro; [discriminate|exact E|]. right. cbn [length Nat.sub]. rewrite Nat.sub_0_r. rewrite <- E. apply check_large. exact C.
  - intros (N & E & M). destruct (check_integer b) eqn:C; [congruence|]. destruct b as [|c [|c' b]]; [congruence|discriminate C|].
    exfalso. assert (E' : twos (c' :: b) = z) by (rewrite (check_tail c c' b C); exact E). specialize (M (c' :: b) ltac:(discriminate) E'). cbn [length] in M. lia.
Qed.
Lemma shortest_value : forall b z z', shortest b z -> shortest b z' -> z = z'.
Proof. intros b z z' (_ & E & _) (_ & E' & _). congruence. Qed.
Lemma twos_bytes : forall n z, - 128 * p256 n <= z < 128 * p256 n -> twos (be_bytes (S n) z) = z.
Proof.
  intros n z R. destruct (be_bytes (S n) z) as [|c b] eqn:E.
  { apply (f_equal (@length byte)) in E. rewrite be_bytes_length in E. discriminate. }
  assert (L : length b = n) by (apply (f_equal (@length byte)) in E; rewrite be_bytes_length in E; cbn [length] in E; lia).
  assert (V : be_val (c :: b) = z mod p256 (S n)).
  { rewrite <- E. unfold be_bytes. rewrite be_val_rev, rev_involutive. apply le_val_bytes. }
  rewrite twos_cons, L. rewrite be_val_cons, L, p256_S in V. pose proof (be_val_range b) as B. rewrite L in B. pose proof (p256_pos n) as P.
  pose proof (b2n_lt c) as Bc. unfold b2z in *. set (q := p256 n) in *. clearbody q.
  destruct (Z.le_gt_cases 0 z) as [Z0|Z0].
  - rewrite Z.mod_small in V by lia. destruct (N.ltb_spec (b2n c) 128); [exact V|nia].
  - assert (V' : z mod (256 * q) = z + 256 * q) by (symmetry; apply (Z.mod_unique _ _ (-1)); lia). rewrite V' in V.
    destruct (N.ltb_spec (b2n c) 128); nia.
Qed.
Lemma int64_len_spec : forall fuel z, - 128 * p256 fuel <= z < 128 * p256 fuel ->
  let n := int64_len fuel z in (1 <= n <= S fuel)%nat /\ - 128 * p256 (n - 1) <= z < 128 * p256 (n - 1) /\
  ((n <= 1)%nat \/ z < - 128 * p256 (n - 2) \/ 128 * p256 (n - 2) <= z).
Proof.
  induction fuel as [|fuel IH]; intros z R; cbn [int64_len]; cbn zeta.
  - change (p256 0) with 1 in *. change (p256 (1 - 1)) with 1. lia.
  - destruct (Z.ltb_spec 127 z) as [A|A]; [|destruct (Z.ltb_spec z (-128)) as [A'|A']]; cbn [orb];
      try (change (p256 (1 - 1)) with 1; lia);
      rewrite p256_S in R; (assert (R' : - 128 * p256 fuel <= z / 256 < 128 * p256 fuel) by (Z.to_euclidean_division_equations; lia));
      destruct (IH _ R') as (L & R2 & M); set (n := int64_len fuel (z / 256)) in *; clearbody n;
      (split; [lia|]); replace (S n - 1)%nat with n by lia; replace (S n - 2)%nat with (n - 1)%nat by lia;
      (assert (E : p256 n = 256 * p256 (n - 1)) by (rewrite <- p256_S; f_equal; lia)); pose proof (p256_pos (n - 1)) as P;
      (split; [Z.to_euclidean_division_equations; lia|]); right;
      (destruct (Nat.eq_dec n 1) as [->|N1]; [change (p256 (1 - 1)) with 1; lia|]);
      (assert (E2 : p256 (n - 1) = 256 * p256 (n - 2)) by (rewrite <- p256_S; f_equal; lia));
      (destruct M as [M|M]; [lia|]); Z.to_euclidean_division_equations; lia.
Qed.
Lemma make_int64_shortest : forall z, - 2 ^ 63 <= z < 2 ^ 63 -> shortest (make_int64 z) z /\ (length (make_int64 z) <= 8)%nat.
Proof.
  intros z R. assert (R' : - 128 * p256 7 <= z < 128 * p256 7) by (change (128 * p256 7) with (2 ^ 63); change (- 128 * p256 7) with (- 2 ^ 63); exact R).
  destruct (int64_len_spec 7 z R') as (L & R2 & M). unfold make_int64. set (n := int64_len 7 z) in *. clearbody n.
  split; [|rewrite be_bytes_length; lia]. apply shortest_intro.
  - intro Q. apply (f_equal (@length byte)) in Q. rewrite be_bytes_length in Q. cbn [length] in Q. lia.
  - replace n with (S (n - 1)) by lia. apply twos_bytes. exact R2.
  - rewrite be_bytes_length. exact M.
Qed.
Lemma int_bytes_spec : forall z, 0 < z -> exists c b, int_bytes z = c :: b /\ c <> x00 /\ be_val (c :: b) = z /\ length (c :: b) = byte_len z.
Proof.
  intros z H. unfold int_bytes. destruct (Z.eqb_spec z 0); [lia|]. destruct (byte_len_spec z H) as (L & R).
  pose proof (be_bytes_length (byte_len z) z) as Lb. pose proof (be_val_bytes (byte_len z) z ltac:(lia)) as V.
  destruct (be_bytes (byte_len z) z) as [|c b]; [cbn [length] in Lb; lia|]. exists c, b. split; [reflexivity|]. split; [|split; [exact V|exact Lb]].
  intros ->. rewrite be_val_cons in V. change (b2z x00) with 0 in V. pose proof (be_val_range b) as B. cbn [length] in Lb.
  replace (byte_len z - 1)%nat with (length b) in R by lia. lia.
Qed.
Lemma make_big_int_shortest : forall z, 0 <= z -> shortest (make_big_int z) z.
Proof.
  intros z H. destruct (Z.eq_dec z 0) as [->|NZ].
  { change (make_big_int 0) with [x00]. apply shortest_intro; [discriminate|reflexivity|left; cbn [length]; lia]. }
  unfold make_big_int. destruct (int_bytes_spec z ltac:(lia)) as (c & b & E & Nc & V & _). rewrite E.
  pose proof (p256_pos (length b)) as P. pose proof (be_val_range b) as B.
  assert (C1 : (1 <= b2n c)%N) by (destruct (N.eq_dec (b2n c) 0) as [Z0|]; [exfalso; apply Nc; rewrite <- (n2b_b2n c), Z0; reflexivity|lia]).
  rewrite be_val_cons in V. unfold b2z in V.
  destruct (N.leb_spec 128 (b2n c)) as [C|C].
  - apply shortest_intro; [discriminate| |].
    + rewrite twos_cons. change (b2n x00 <? 128)%N with true. change (b2z x00) with 0. cbv iota. rewrite be_val_cons. unfold b2z. lia.
    + right. right. cbn [length]. replace (S (S (length b)) - 2)%nat with (length b) by lia. nia.
  - apply shortest_intro; [discriminate| |].
    + rewrite twos_cons. destruct (N.ltb_spec (b2n c) 128); [|lia]. unfold b2z. exact V.
    + destruct b as [|c' b]; [left; cbn [length]; lia|]. right. right. cbn [length] in *. replace (S (S (length b)) - 2)%nat with (length b) by lia.
      rewrite p256_S in *. nia.
Qed.

(** ** lengths *)
Definition short (n : nat) : Prop := Z.of_nat n < 2 ^ 31.
Lemma long_pos : forall ds acc rest, 0 < acc -> acc * p256 (length ds) + be_val ds < 2 ^ 31 ->
  long_length (length ds) acc (ds ++ rest) = Ok (acc * p256 (length ds) + be_val ds, rest).
Proof.
  induction ds as [|c ds IH]; intros acc rest A H.
  - change (p256 (length [])) with 1. change (be_val []) with 0. cbn [length long_length app]. rewrite Z.add_0_r, Z.mul_1_r. reflexivity.
  - cbn [length long_length app]. cbn [length] in H. rewrite be_val_cons, p256_S in *. pose proof (p256_pos (length ds)). pose proof (be_val_range ds). pose proof (b2z_range c).
    destruct (Z.leb_spec (2 ^ 23) acc) as [X|X]; [exfalso; change (2 ^ 31) with (2 ^ 23 * 256) in H; nia|].
    destruct (Z.eqb_spec (acc * 256 + b2z c) 0); [lia|]. rewrite IH; [|lia|nia]. f_equal. f_equal. ring.
Qed.
Lemma long_inv : forall n acc b z rest, 0 <= acc -> acc < 2 ^ 31 -> long_length n acc b = Ok (z, rest) ->
  exists ds, b = ds ++ rest /\ length ds = n /\ z = acc * p256 n + be_val ds /\ z < 2 ^ 31 /\ (acc = 0 -> (0 < n)%nat -> hd x00 ds <> x00).
Proof.
  induction n as [|n IH]; intros acc b z rest A A2 H; cbn [long_length] in H.
  - assert (Q : acc = z /\ b = rest) by (split; congruence). destruct Q as [<- <-]. exists []. change (p256 0) with 1. change (be_val []) with 0.
    repeat split; [lia|lia|intros _ X; lia].
  - destruct b as [|c b]; [discriminate|]. destruct (Z.leb_spec (2 ^ 23) acc) as [X|X]; [discriminate|].
    pose proof (b2z_range c). destruct (Z.eqb_spec (acc * 256 + b2z c) 0) as [Y|Y]; [discriminate|].
    change (2 ^ 31) with (2 ^ 23 * 256) in *.
    destruct (IH (acc * 256 + b2z c) b z rest ltac:(lia) ltac:(lia) H) as (ds & E & L & V & Vz & _).
    exists (c :: ds). subst b. split; [reflexivity|]. cbn [length]. split; [lia|]. rewrite be_val_cons, L, p256_S. split; [rewrite V; ring|]. split; [exact Vz|].
    intros -> _. cbn [hd]. intros ->. change (b2z x00) with 0 in Y. lia.
Qed.
Lemma parse_length_iff : forall b z rest, parse_length b = Ok (z, rest) <->
  exists n l, b = l ++ rest /\ z = Z.of_nat n /\ short n /\ length_octets n l.
Proof.
  intros b z rest. split.
  - intro H. destruct b as [|c b]; [discriminate|]. cbn [parse_length] in H. destruct (N.ltb_spec (b2n c) 128) as [C|C].
    + assert (Q : b2z c = z /\ b = rest) by (split; congruence). destruct Q as [<- <-]. exists (N.to_nat (b2n c)), [c].
      split; [reflexivity|]. split; [unfold b2z; lia|]. split; [unfold short; lia|]. left. split; [lia|]. exists c. split; [reflexivity|lia].
    + destruct (N.eqb_spec (b2n c) 128) as [C2|C2]; [discriminate|]. apply rbind_Ok in H as ((n & b') & H1 & H).
      destruct (Z.ltb_spec n 128) as [Y|Y]; [discriminate|]. assert (Q : n = z /\ b' = rest) by (split; congruence). destruct Q as [-> ->].
      destruct (long_inv _ _ _ _ _ (Z.le_refl 0) eq_refl H1) as (ds & E & L & V & Vz & Hd).
      exists (Z.to_nat z), (c :: ds). split; [subst b; reflexivity|]. split; [lia|]. split; [unfold short; lia|]. right. split; [lia|].
      exists c, ds. split; [reflexivity|]. rewrite octets_be. split; [lia|]. split; [lia|]. apply Hd; [reflexivity|lia].
  - intros (n & l & -> & -> & S & [(L & c & -> & V)|(L & c & ds & -> & V & Vd & Hd)]).
    + cbn [app parse_length]. destruct (N.ltb_spec (b2n c) 128); [|lia]. unfold b2z. rewrite V. reflexivity.
    + cbn [app parse_length]. destruct (N.ltb_spec (b2n c) 128); [lia|]. rewrite octets_be in Vd.
      assert (Ld : (0 < length ds)%nat) by (destruct ds; [change (be_val []) with 0 in Vd; lia|cbn [length]; lia]).
      destruct (N.eqb_spec (b2n c) 128); [lia|]. replace (N.to_nat (b2n c - 128)) with (length ds) by lia.
      destruct ds as [|c0 ds]; [cbn [length] in Ld; lia|]. cbn [length long_length app]. change (2 ^ 23 <=? 0) with false. cbv iota.
      cbn [hd] in Hd. assert (C0 : 0 < b2z c0).
      { pose proof (b2z_range c0). destruct (Z.eq_dec (b2z c0) 0) as [Z0|]; [|lia]. exfalso. apply Hd. apply b2z_inj. rewrite Z0. reflexivity. }
      rewrite Z.mul_0_l, Z.add_0_l. destruct (Z.eqb_spec (b2z c0) 0); [lia|]. rewrite be_val_cons in Vd.
      rewrite long_pos; [|exact C0|rewrite Vd; exact S]. cbn [rbind]. rewrite Vd. destruct (Z.ltb_spec (Z.of_nat n) 128); [lia|reflexivity].
Qed.
Lemma der_length_octets : forall n, short n -> length_octets n (der_length n).
Proof.
  intros n S. unfold der_length. destruct (Nat.ltb_spec n 128) as [L|L].
  - left. split; [exact L|]. eexists. split; [reflexivity|]. rewrite b2n_n2b, N.mod_small by lia. lia.
  - right. split; [exact L|]. destruct (int_bytes_spec (Z.of_nat n) ltac:(lia)) as (c & b & E & Nc & V & Lb). rewrite E.
    exists (n2b (128 + N.of_nat (length (c :: b)))), (c :: b). split; [reflexivity|].
    assert (B : (length (c :: b) <= 4)%nat).
    { rewrite Lb. unfold short in S. destruct (byte_len_spec (Z.of_nat n) ltac:(lia)) as (_ & R). destruct (Nat.le_gt_cases (byte_len (Z.of_nat n)) 4) as [|G]; [assumption|].
      pose proof (p256_mono 4 (byte_len (Z.of_nat n) - 1) ltac:(lia)) as M. change (p256 4) with (2 ^ 32) in M. lia. }
    rewrite b2n_n2b, N.mod_small by lia. split; [lia|]. split; [rewrite octets_be; exact V|exact Nc].
Qed.
Lemma der_element : forall tag c, short (length c) -> element tag c (der tag c).
Proof. intros tag c S. exists (der_length (length c)). split; [apply der_length_octets; exact S|reflexivity]. Qed.

(** ** elements *)
Definition tag_byte (tag : Z) (compound : bool) (c : byte) : Prop := (tag = 2 /\ compound = false /\ c = x02) \/ (tag = 16 /\ compound = true /\ c = x30).
Lemma header_byte : forall c, (b2z c mod 32 = 31 -> c <> x02 /\ c <> x30) /\
  (((b2n c / 64 =? 0)%N && (b2z c mod 32 =? 2) && Bool.eqb (N.testbit (b2n c) 5) false = true) <-> c = x02) /\
  (((b2n c / 64 =? 0)%N && (b2z c mod 32 =? 16) && Bool.eqb (N.testbit (b2n c) 5) true = true) <-> c = x30).
Proof. intro c. destruct c; (split; [intro H; try discriminate H; split; discriminate|split; split; intro H; try discriminate H; reflexivity]). Qed.
Lemma header_iff : forall tag compound t b h rest, tag_byte tag compound t ->
  ((parse_header b = Ok (h, rest) /\ is_header tag compound h = true) <->
   exists b', b = t :: b' /\ parse_length b' = Ok (hd_length h, rest) /\ h = Header 0 compound tag (hd_length h)).
Proof.
  intros tag compound t b h rest T. destruct b as [|c b]; [split; [intros [H _]; discriminate H|intros (b' & H & _); discriminate H]|].
  destruct (header_byte c) as (H31 & H2 & H16). cbn [parse_header].
  split.
  - intros [H I]. unfold is_header in I. apply rbind_Ok in H as ((tg & b1) & Ht & H). apply rbind_Ok in H as ((n & b2) & Hn & H).
    assert (Q : Header (b2n c / 64) (N.testbit (b2n c) 5) tg n = h /\ b2 = rest) by (split; congruence). destruct Q as [<- ->]. cbn [hd_class hd_tag hd_compound hd_length] in *.
    destruct (Z.eqb_spec (b2z c mod 32) 31) as [E|E].
    + exfalso. apply rbind_Ok in Ht as ((t' & b3) & _ & Ht). destruct (Z.ltb_spec t' 31); [discriminate|]. assert (t' = tg) by congruence. subst tg.
      destruct T as [(-> & _ & _)|(-> & _ & _)]; apply andb_prop in I as [I _]; apply andb_prop in I as [_ I]; lia.
    + assert (Q : b2z c mod 32 = tg /\ b = b1) by (split; congruence). destruct Q as [<- <-].
      destruct T as [(-> & -> & ->)|(-> & -> & ->)].
      * assert (Ec : c = x02) by (apply H2; exact I). subst c. exists b. split; [reflexivity|]. split; [exact Hn|reflexivity].
      * assert (Ec : c = x30) by (apply H16; exact I). subst c. exists b. split; [reflexivity|]. split; [exact Hn|reflexivity].
  - intros (b' & E & Hn & Eh). assert (Q : c = t /\ b = b') by (split; congruence). destruct Q as [-> ->]. rewrite Eh.
    destruct T as [(-> & -> & ->)|(-> & -> & ->)].
    + change (b2z x02 mod 32 =? 31) with false. cbv iota. cbn [rbind]. rewrite Hn. cbn [rbind]. split; reflexivity.
    + change (b2z x30 mod 32 =? 31) with false. cbv iota. cbn [rbind]. rewrite Hn. cbn [rbind]. split; reflexivity.
Qed.
Lemma element_header : forall tag compound t content b, tag_byte tag compound t -> element t content b -> short (length content) ->
  forall rest, parse_header (b ++ rest) = Ok (Header 0 compound tag (Z.of_nat (length content)), content ++ rest) /\
               is_header tag compound (Header 0 compound tag (Z.of_nat (length content))) = true.
Proof.
  intros tag compound t content b T (l & L & ->) S rest. apply (header_iff tag compound t _ _ _ T). exists (l ++ content ++ rest).
  split; [cbn [app]; rewrite <- app_assoc; reflexivity|]. cbn [hd_length]. split; [|reflexivity]. apply parse_length_iff. exists (length content), l. repeat (split; [reflexivity|]). split; [exact S|exact L].
Qed.
Lemma field_element : forall A (conv : bytes -> res A) tag compound optional t content b, tag_byte tag compound t -> element t content b -> short (length content) ->
  forall rest, parse_field tag compound optional conv (b ++ rest) = (let! a := conv content in Ok (Some a, rest)).
Proof.
  intros A conv tag compound optional t content b T E S rest. destruct (element_header _ _ _ _ _ T E S rest) as [H I].
  unfold parse_field. destruct (b ++ rest) as [|x y] eqn:Q; [rewrite ?Q in H; cbn [parse_header] in H; discriminate|]. rewrite <- Q in *. clear Q.
  rewrite H. cbn [rbind]. rewrite I. cbn [negb hd_length]. rewrite app_length.
  destruct (Z.ltb_spec (Z.of_nat (length content + length rest)) (Z.of_nat (length content))); [lia|].
  rewrite Nat2Z.id, firstn_app, Nat.sub_diag, firstn_all, skipn_app, skipn_all, Nat.sub_diag. cbn [firstn skipn app]. rewrite app_nil_r. reflexivity.
Qed.
Lemma one_iff : forall A (conv : bytes -> res A) tag compound t b a rest, tag_byte tag compound t ->
  (parse_one tag compound conv b = Ok (a, rest) <->
   exists content e, b = e ++ rest /\ element t content e /\ short (length content) /\ conv content = Ok a).
Proof.
  intros A conv tag compound t b a rest T. unfold parse_one. split.
  - intro H. apply rbind_Ok in H as ((o & b1) & H1 & H). destruct o as [a'|]; [|discriminate]. assert (Q : a' = a /\ b1 = rest) by (split; congruence). destruct Q as [-> ->].
    unfold parse_field in H1. destruct b as [|x y]; [discriminate|]. remember (x :: y) as b eqn:Eb. clear Eb x y H.
    apply rbind_Ok in H1 as ((h & inner) & Hh & H1). destruct (is_header tag compound h) eqn:I; cbn [negb] in H1; [|discriminate].
    destruct (Z.ltb_spec (Z.of_nat (length inner)) (hd_length h)) as [L|L]; [discriminate|]. apply rbind_Ok in H1 as (a' & Ha & H1).
    assert (Q : a' = a /\ skipn (Z.to_nat (hd_length h)) inner = rest) by (split; congruence). destruct Q as [-> <-].
    destruct (proj1 (header_iff tag compound t b h inner T) (conj Hh I)) as (b' & -> & Hl & _).
    apply parse_length_iff in Hl as (n & l & -> & Hn & S & Lo). rewrite Hn, Nat2Z.id in *.
    exists (firstn n inner), (t :: l ++ firstn n inner). split; [cbn [app]; rewrite <- app_assoc, firstn_skipn; reflexivity|].
    assert (Ln : length (firstn n inner) = n) by (rewrite firstn_length; lia).
    split; [exists l; rewrite Ln; split; [exact Lo|reflexivity]|]. split; [rewrite Ln; exact S|exact Ha].
  - intros (content & e & -> & E & S & Ha). rewrite (field_element _ conv tag compound false t content e T E S). rewrite Ha. reflexivity.
Qed.
Lemma no_panic_bind : forall A B (x : res A) (f : A -> res B), x <> Panic -> (forall a, x = Ok a -> f a <> Panic) -> rbind x f <> Panic.
Proof. intros A B [a| |] f X F; cbn [rbind]; [apply F; reflexivity|discriminate|congruence]. Qed.
Lemma base128_no_panic : forall b s acc, base128 s acc b <> Panic.
Proof.
  induction b as [|c b IH]; intros s acc; cbn [base128]; [discriminate|]. destruct (s =? 5)%nat; [discriminate|].
  destruct (b2n c <? 128)%N; [destruct (_ <? _); discriminate|apply IH].
Qed.
Lemma parse_length_no_panic : forall b, parse_length b <> Panic.
Proof.
  assert (L : forall n acc b, long_length n acc b <> Panic).
  { induction n as [|n IH]; intros acc b; cbn [long_length]; [discriminate|]. destruct b; [discriminate|]. destruct (_ <=? _); [discriminate|]. destruct (_ =? 0); [discriminate|apply IH]. }
  intros [|c b]; cbn [parse_length]; [discriminate|]. destruct (_ <? 128)%N; [discriminate|]. destruct (_ =? 128)%N; [discriminate|].
  apply no_panic_bind; [apply L|]. intros [n r] _. destruct (_ <? _); discriminate.
Qed.
Lemma parse_header_no_panic : forall b, parse_header b <> Panic.
Proof.
  intros [|c b]; cbn [parse_header]; [discriminate|]. apply no_panic_bind.
  - destruct (_ =? 31); [|discriminate]. apply no_panic_bind; [apply base128_no_panic|]. intros [t r] _. destruct (_ <? _); discriminate.
  - intros [t r] _. apply no_panic_bind; [apply parse_length_no_panic|]. intros [n r'] _. discriminate.
Qed.
Lemma field_no_panic : forall A (conv : bytes -> res A) tag compound optional b, (forall c, conv c <> Panic) -> parse_field tag compound optional conv b <> Panic.
Proof.
  intros A conv tag compound optional b C. unfold parse_field. destruct b as [|x y]; [destruct optional; discriminate|].
  apply no_panic_bind; [apply parse_header_no_panic|]. intros [h inner] _. destruct (negb _); [destruct optional; discriminate|].
  destruct (_ <? _); [discriminate|]. apply no_panic_bind; [apply C|]. intros; discriminate.
Qed.
Lemma one_no_panic : forall A (conv : bytes -> res A) tag compound b, (forall c, conv c <> Panic) -> parse_one tag compound conv b <> Panic.
Proof.
  intros A conv tag compound b C. unfold parse_one. apply no_panic_bind; [apply field_no_panic; exact C|]. intros [[a|] r] _; discriminate.
Qed.
Lemma parse_big_no_panic : forall b, parse_big b <> Panic.
Proof. intro b. unfold parse_big. destruct (check_integer b); discriminate. Qed.
Lemma parse_int64_no_panic : forall b, parse_int64 b <> Panic.
Proof. intro b. unfold parse_int64. destruct (check_integer b); [destruct (_ <? _)%nat|]; discriminate. Qed.
Lemma read_big_no_panic : forall b, read_big b <> Panic. Proof. intro b. apply one_no_panic, parse_big_no_panic. Qed.
Lemma read_int_no_panic : forall b, read_int b <> Panic. Proof. intro b. apply one_no_panic, parse_int64_no_panic. Qed.
Lemma skip_big_no_panic : forall b, skip_big b <> Panic. Proof. intro b. apply field_no_panic, parse_big_no_panic. Qed.
Ltac step_np L := apply no_panic_bind; [apply L|intros [? ?] _].
Lemma parse_sequence_no_panic : forall A (conv : bytes -> res A) b, (forall c, conv c <> Panic) -> parse_sequence_of conv b <> Panic.
Proof.
  intros A conv b C. unfold parse_sequence_of. apply no_panic_bind.
  - generalize (S (length b)). intro n. revert b. induction n as [|n IH]; intro b; cbn [count_elements]; [discriminate|]. destruct b as [|x y]; [discriminate|].
    step_np parse_header_no_panic. destruct (negb _); [discriminate|]. destruct (_ <? _); [discriminate|]. apply no_panic_bind; [apply IH|]. intros; discriminate.
  - intros n _. revert b. induction n as [|n IH]; intro b; cbn [read_elements]; [discriminate|].
    apply no_panic_bind; [apply one_no_panic; exact C|]. intros [a r] _. apply no_panic_bind; [apply IH|]. intros; discriminate.
Qed.
Lemma parse_public_no_panic : forall b, parse_public b <> Panic.
Proof.
  intro b. unfold parse_public. apply no_panic_bind.
  - apply one_no_panic. intro c. unfold parse_public_fields. step_np read_big_no_panic. step_np read_int_no_panic. discriminate.
  - intros [pub [|]] _; [|discriminate]. destruct (negb _); [discriminate|]. destruct (_ <? _); discriminate.
Qed.
Lemma parse_private_no_panic : forall b, parse_private b <> Panic.
Proof.
  intro b. unfold parse_private. apply no_panic_bind.
  - apply one_no_panic. intro c. unfold parse_private_fields. step_np read_int_no_panic. step_np read_big_no_panic. step_np read_int_no_panic.
    do 3 step_np read_big_no_panic. do 3 step_np skip_big_no_panic. apply no_panic_bind; [|intros [? ?] _; discriminate].
    apply field_no_panic. intro c'. apply parse_sequence_no_panic. intro c2. unfold parse_additional. do 3 step_np read_big_no_panic. discriminate.
  - intros [[v k] [|]] _; [|discriminate]. repeat (match goal with |- (if ?x then _ else _) <> _ => destruct x end; [discriminate|]). discriminate.
Qed.

(** ** integers *)
Definition tag2 : tag_byte 2 false x02 := or_introl (conj eq_refl (conj eq_refl eq_refl)).
Definition tag16 : tag_byte 16 true x30 := or_intror (conj eq_refl (conj eq_refl eq_refl)).
Lemma element_long : forall t c b, element t c b -> (length c < length b)%nat.
Proof. intros t c b (l & _ & ->). cbn [length]. rewrite app_length. lia. Qed.
Lemma read_big_ok : forall z e rest, integer z e -> short (length e) -> read_big (e ++ rest) = Ok (z, rest).
Proof.
  intros z e rest (c & Sh & El) S. apply (one_iff _ parse_big 2 false x02 _ _ _ tag2). exists c, e. split; [reflexivity|]. split; [exact El|].
  split; [pose proof (element_long _ _ _ El); unfold short in *; lia|]. apply parse_big_iff. exact Sh.
Qed.
Lemma read_big_inv : forall b z rest, read_big b = Ok (z, rest) -> exists e, b = e ++ rest /\ integer z e.
Proof.
  intros b z rest H. apply (one_iff _ parse_big 2 false x02 _ _ _ tag2) in H as (c & e & E & El & S & H). apply parse_big_iff in H.
  exists e. split; [exact E|]. exists c. auto.
Qed.
Lemma parse_int64_iff : forall b z, parse_int64 b = Ok z <-> shortest b z /\ - 2 ^ 63 <= z < 2 ^ 63.
Proof.
  intros b z. rewrite <- parse_big_iff. unfold parse_int64, parse_big. split.
  - intro H. destruct (check_integer b) eqn:C; [|discriminate]. destruct (Nat.ltb_spec 8 (length b)) as [L|L]; [discriminate|]. split; [exact H|].
    assert (E : signed_val b = z) by congruence. rewrite twos_signed in E. destruct b as [|c b]; [discriminate C|]. pose proof (twos_range c b) as R. rewrite E in R.
    cbn [length] in L. pose proof (p256_mono (length b) 7 ltac:(lia)) as M. change (p256 7) with (2 ^ 56) in M. lia.
  - intros [H R]. assert (Sh : shortest b z) by (apply parse_big_iff; exact H). destruct (check_integer b); [|discriminate].
    destruct (make_int64_shortest z R) as [(N & E & _) L]. destruct Sh as (_ & _ & M). specialize (M _ N E). destruct (Nat.ltb_spec 8 (length b)); [lia|exact H].
Qed.
Lemma read_int_ok : forall z e rest, integer z e -> - 2 ^ 63 <= z < 2 ^ 63 -> short (length e) -> read_int (e ++ rest) = Ok (z, rest).
Proof.
  intros z e rest (c & Sh & El) R S. apply (one_iff _ parse_int64 2 false x02 _ _ _ tag2). exists c, e. split; [reflexivity|]. split; [exact El|].
  split; [pose proof (element_long _ _ _ El); unfold short in *; lia|]. apply parse_int64_iff. auto.
Qed.
Lemma read_int_inv : forall b z rest, read_int b = Ok (z, rest) -> exists e, b = e ++ rest /\ integer z e /\ - 2 ^ 63 <= z < 2 ^ 63.
Proof.
  intros b z rest H. apply (one_iff _ parse_int64 2 false x02 _ _ _ tag2) in H as (c & e & E & El & S & H). apply parse_int64_iff in H as [H R].
  exists e. split; [exact E|]. split; [exists c; auto|exact R].
Qed.
Lemma skip_big_ok : forall z e rest, integer z e -> short (length e) -> skip_big (e ++ rest) = Ok (Some z, rest).
Proof.
  intros z e rest (c & Sh & El) S. unfold skip_big. rewrite (field_element _ parse_big 2 false true x02 c e tag2 El); [|pose proof (element_long _ _ _ El); unfold short in *; lia].
  apply parse_big_iff in Sh. rewrite Sh. reflexivity.
Qed.
Lemma der_int_integer : forall z, 0 <= z -> short (length (make_big_int z)) -> integer z (der_int z).
Proof. intros z Z0 S. exists (make_big_int z). split; [apply make_big_int_shortest; exact Z0|apply der_element; exact S]. Qed.
Lemma der_int64_integer : forall z, - 2 ^ 63 <= z < 2 ^ 63 -> integer z (der x02 (make_int64 z)).
Proof.
  intros z R. destruct (make_int64_shortest z R) as [Sh L]. exists (make_int64 z). split; [exact Sh|]. apply der_element. unfold short. lia.
Qed.

(** ** public keys *)
Lemma parse_public_iff : forall b pub, short (length b) ->
  (parse_public b = Ok pub <-> (exists junk, public_text pub junk b) /\ 0 < pk_n pub /\ 0 < pk_e pub <= 2 ^ 31 - 1).
Proof.
  intros b pub S. split.
  - intro H. unfold parse_public in H. apply rbind_Ok in H as ((pub' & rest) & H1 & H). destruct rest as [|? ?]; [|discriminate].
    destruct (Z.ltb_spec 0 (pk_n pub')) as [N|N]; cbn [andb negb] in H; [|discriminate]. destruct (Z.ltb_spec 0 (pk_e pub')) as [E|E]; cbn [negb] in H; [|discriminate].
    destruct (Z.ltb_spec (2 ^ 31 - 1) (pk_e pub')) as [E2|E2]; [discriminate|]. assert (pub' = pub) by congruence. subst pub'. split; [|lia].
    apply (one_iff _ parse_public_fields 16 true x30 _ _ _ tag16) in H1 as (c & e & Eb & El & Sc & H1). rewrite app_nil_r in Eb. subst e.
    unfold parse_public_fields in H1. apply rbind_Ok in H1 as ((n & b1) & Hn & H1). apply rbind_Ok in H1 as ((e & b2) & He & H1).
    assert (PublicKey n e = pub) by congruence. subst pub. cbn [pk_n pk_e] in *. apply read_big_inv in Hn as (x1 & -> & I1). apply read_int_inv in He as (x2 & -> & I2 & _).
    exists b2, (x1 ++ x2 ++ []). split; [exists x1, (x2 ++ []); split; [reflexivity|]; split; [exact I1|]; exists x2, []; split; [reflexivity|]; split; [exact I2|reflexivity]|].
    rewrite app_nil_r, <- app_assoc; exact El.
  - intros ((junk & b1 & (x1 & y1 & -> & I1 & (x2 & y2 & -> & I2 & ->)) & El) & N & E). cbn [pk_n pk_e] in *.
    assert (Sc : short (length ((x1 ++ x2 ++ []) ++ junk))) by (pose proof (element_long _ _ _ El); unfold short in *; lia).
    unfold parse_public.
    assert (H1 : parse_one 16 true parse_public_fields b = Ok (pub, [])).
    { apply (one_iff _ parse_public_fields 16 true x30 _ _ _ tag16). eexists _, b. split; [rewrite app_nil_r; reflexivity|]. split; [exact El|]. split; [exact Sc|].
      rewrite app_nil_r, <- app_assoc in *. rewrite !app_length in Sc. unfold short in Sc. unfold parse_public_fields.
      rewrite (read_big_ok (pk_n pub)) by (try exact I1; unfold short; lia). cbn [rbind].
      rewrite (read_int_ok (pk_e pub)) by (try exact I2; try lia; unfold short; lia). destruct pub; reflexivity. }
    rewrite H1. cbn [rbind]. destruct (Z.ltb_spec 0 (pk_n pub)); [|lia]. destruct (Z.ltb_spec 0 (pk_e pub)); [|lia]. cbn [andb negb].
    destruct (Z.ltb_spec (2 ^ 31 - 1) (pk_e pub)); [lia|reflexivity].
Qed.
Lemma der_long : forall t c, (length c <= length (der t c))%nat.
Proof. intros t c. unfold der. cbn [length]. rewrite app_length. lia. Qed.
Lemma marshal_public_text : forall pub, 0 <= pk_n pub -> - 2 ^ 63 <= pk_e pub < 2 ^ 63 -> short (length (marshal_public pub)) -> public_text pub [] (marshal_public pub).
Proof.
  intros pub N E S. unfold marshal_public in *. set (a := der_int (pk_n pub)) in *. set (c := der x02 (make_int64 (pk_e pub))) in *.
  pose proof (der_long x30 (a ++ c)) as L1. pose proof (der_long x02 (make_big_int (pk_n pub))) as L2. change (der x02 (make_big_int (pk_n pub))) with a in L2.
  rewrite app_length in L1. unfold short in S.
  exists (a ++ c ++ []). split.
  - exists a, (c ++ []). split; [reflexivity|]. split; [apply der_int_integer; [exact N|unfold short; lia]|]. exists c, []. split; [reflexivity|].
    split; [apply der_int64_integer; exact E|reflexivity].
  - rewrite !app_nil_r. apply der_element. unfold short. rewrite app_length. lia.
Qed.

(** ** private keys *)
Lemma other_long : forall ps r d b, other_primes r d ps b -> ps <> [] -> b <> [].
Proof. intros [|p ps] r d b H N; [congruence|]. destruct H as (c & b0 & b1 & b2 & _ & _ & _ & (l & _ & ->) & -> & _). discriminate. Qed.
Lemma count_ok : forall ps r d b fuel, other_primes r d ps b -> short (length b) -> (length b < fuel)%nat -> count_elements fuel b = Ok (length ps).
Proof.
  induction ps as [|p ps IH]; intros r d b fuel H S F; (destruct fuel as [|fuel]; [lia|]).
  - cbn [other_primes] in H. subst b. reflexivity.
  - destruct H as (c & b0 & b1 & b2 & _ & _ & _ & El & -> & H). rewrite app_length in *.
    assert (S0 : short (length b0)) by (pose proof (element_long _ _ _ El); unfold short in *; lia).
    destruct (element_header _ _ _ _ _ tag16 El S0 b2) as [Hh I]. cbn [count_elements].
    destruct (b1 ++ b2) as [|x y] eqn:Q; [cbn [parse_header] in Hh; discriminate|]. rewrite Hh. cbn [rbind]. rewrite I. cbn [negb hd_length].
    rewrite app_length. destruct (Z.ltb_spec (Z.of_nat (length b0 + length b2)) (Z.of_nat (length b0))); [lia|].
    rewrite Nat2Z.id, skipn_app, skipn_all, Nat.sub_diag. cbn [skipn app].
    pose proof (element_long _ _ _ El). rewrite (IH (r * p) d b2 fuel H); [reflexivity|unfold short in *; lia|lia].
Qed.
Lemma read_ok : forall ps r d b, other_primes r d ps b -> short (length b) -> read_elements parse_additional (length ps) b = Ok ps.
Proof.
  induction ps as [|p ps IH]; intros r d b H S; [reflexivity|]. destruct H as (c & b0 & b1 & b2 & _ & _ & (x1 & y1 & -> & I1 & x2 & y2 & -> & I2 & x3 & y3 & -> & I3 & ->) & El & -> & H).
  rewrite app_length in S. cbn [length read_elements].
  assert (H1 : parse_one 16 true parse_additional (b1 ++ b2) = Ok (p, b2)).
  { apply (one_iff _ parse_additional 16 true x30 _ _ _ tag16). eexists _, b1. split; [reflexivity|]. split; [exact El|].
    pose proof (element_long _ _ _ El) as L. split; [unfold short in *; lia|]. rewrite !app_length in L. unfold short in S. unfold parse_additional.
    rewrite (read_big_ok p) by (try exact I1; unfold short; lia). cbn [rbind]. rewrite (read_big_ok (d mod (p - 1))) by (try exact I2; unfold short; lia). cbn [rbind].
    rewrite (read_big_ok c) by (try exact I3; unfold short; lia). reflexivity. }
  rewrite H1. cbn [rbind]. rewrite (IH (r * p) d b2 H) by (unfold short in *; lia). reflexivity.
Qed.
(** the first nine numbers may be any; the values after the primes are not used *)
Definition text_of (version n e d p q x y z : Z) (r : Z) (more : list Z) (b : bytes) : Prop :=
  exists b1 b2, integers [version; n; e; d; p; q; x; y; z] b1 /\
    match more with [] => b2 = [] | _ => exists b3, other_primes r d more b3 /\ element x30 b3 b2 end /\
    element x30 (b1 ++ b2) b.
Lemma fields_ok : forall version n e d p q x y z r more b, text_of version n e d p q x y z r more b -> short (length b) ->
  - 2 ^ 63 <= version < 2 ^ 63 -> - 2 ^ 63 <= e < 2 ^ 63 ->
  parse_one 16 true parse_private_fields b = Ok ((version, RsaKey (PublicKey n e) d p q more None), []).
Proof.
  intros version n e d p q x y z r more b (b1 & b2 & I & M & El) S V E. apply (one_iff _ parse_private_fields 16 true x30 _ _ _ tag16).
  exists (b1 ++ b2), b. split; [rewrite app_nil_r; reflexivity|]. split; [exact El|]. pose proof (element_long _ _ _ El) as L. split; [unfold short in *; lia|].
  destruct I as (v1 & w1 & -> & I1 & v2 & w2 & -> & I2 & v3 & w3 & -> & I3 & v4 & w4 & -> & I4 & v5 & w5 & -> & I5 & v6 & w6 & -> & I6 & v7 & w7 & -> & I7 & v8 & w8 & -> & I8 & v9 & w9 & -> & I9 & ->).
  rewrite app_nil_r in *. rewrite <- !app_assoc in *. rewrite !app_length in L. unfold short in S. unfold parse_private_fields.
  rewrite (read_int_ok version) by (try exact I1; try exact V; unfold short; lia). cbn [rbind].
  rewrite (read_big_ok n) by (try exact I2; unfold short; lia). cbn [rbind].
  rewrite (read_int_ok e) by (try exact I3; try exact E; unfold short; lia). cbn [rbind].
  rewrite (read_big_ok d) by (try exact I4; unfold short; lia). cbn [rbind].
  rewrite (read_big_ok p) by (try exact I5; unfold short; lia). cbn [rbind].
  rewrite (read_big_ok q) by (try exact I6; unfold short; lia). cbn [rbind].
  rewrite (skip_big_ok x) by (try exact I7; unfold short; lia). cbn [rbind].
  rewrite (skip_big_ok y) by (try exact I8; unfold short; lia). cbn [rbind].
  rewrite (skip_big_ok z) by (try exact I9; unfold short; lia). cbn [rbind].
  destruct more as [|m more]; [subst b2; reflexivity|]. destruct M as (b3 & Ho & El3). pose proof (element_long _ _ _ El3) as L3.
  rewrite <- (app_nil_r b2). rewrite (field_element _ (parse_sequence_of parse_additional) 16 true true x30 b3 b2 tag16 El3) by (unfold short; lia).
  unfold parse_sequence_of. rewrite (count_ok _ _ _ _ _ Ho) by (unfold short; lia). cbn [rbind].
  rewrite (read_ok _ _ _ _ Ho) by (unfold short; lia). reflexivity.
Qed.
Lemma validate_iff : forall k, (0 < rk_d k /\ validate k = true) <-> checked_numbers k.
Proof.
  intro k. unfold validate, checked_numbers, check_pub, rk_n, rk_e. rewrite !andb_true_iff, !forallb_forall, Z.eqb_eq, Forall_forall, fold_mul.
  rewrite Z.mul_1_l. split.
  - intros (D & (((E1 & E2) & P) & N) & C). split; [lia|]. split; [exact D|]. split; [intros p Hp; specialize (P p Hp); lia|]. split; [auto|].
    intros p Hp. specialize (C p Hp). lia.
  - intros (E & D & P & N & C). split; [exact D|]. split; [split; [split; [lia|]|auto]|].
    + intros p Hp. specialize (P p Hp). lia.
    + intros p Hp. specialize (C p Hp). lia.
Qed.
Lemma product_pos : forall l, Forall (fun p => 1 < p) l -> 0 < fold_right Z.mul 1 l.
Proof. induction 1; cbn [fold_right]; nia. Qed.
Lemma checks_ok : forall version k, version <= 1 -> checked_numbers k ->
  (if 1 <? version then Err
   else if negb ((0 <? rk_n k) && (0 <? rk_d k) && (0 <? rk_p k) && (0 <? rk_q k)) then Err
   else if negb (forallb (fun p => 0 <? p) (rk_more k)) then Err
   else if negb (validate k) then Err else Ok (precompute k)) = Ok (precompute k).
Proof.
  intros version k V G. pose proof (proj2 (validate_iff k) G) as [D Va]. destruct G as (_ & _ & P & N & _).
  destruct (Z.ltb_spec 1 version); [lia|]. unfold rk_n. rewrite N. pose proof (product_pos _ P) as N0. destruct (Z.ltb_spec 0 (fold_right Z.mul 1 (rk_primes k))); [|lia].
  unfold rk_primes in P. inversion P as [|? ? P1 P']; subst. inversion P' as [|? ? P2 P3]; subst.
  destruct (Z.ltb_spec 0 (rk_d k)); [|lia]. destruct (Z.ltb_spec 0 (rk_p k)); [|lia]. destruct (Z.ltb_spec 0 (rk_q k)); [|lia]. cbn [andb negb].
  assert (F : forallb (fun p => 0 <? p) (rk_more k) = true) by (apply forallb_forall; intros p Hp; rewrite Forall_forall in P3; specialize (P3 p Hp); cbn beta in P3; lia).
  rewrite F, Va. reflexivity.
Qed.
Lemma parse_text : forall version n e d p q x y z r more b, text_of version n e d p q x y z r more b -> short (length b) -> - 2 ^ 63 <= version <= 1 ->
  let k := RsaKey (PublicKey n e) d p q more None in checked_numbers k -> parse_private b = Ok (precompute k).
Proof.
  intros version n e d p q x y z r more b T S V k G. unfold parse_private. rewrite (fields_ok _ _ _ _ _ _ _ _ _ _ _ _ T S) by (destruct G as (Ge & _); cbn [rk_pub pk_e k] in Ge; lia).
  cbn [rbind]. apply checks_ok; [lia|exact G].
Qed.
Lemma parse_private_inv : forall b k, parse_private b = Ok k ->
  exists version b1 b2 more, integers [version; pk_n (rk_pub k); pk_e (rk_pub k); rk_d k; rk_p k; rk_q k] b1 /\ element x30 (b1 ++ b2) b /\ version <= 1 /\
    more = rk_more k /\ checked_numbers k /\ k = precompute (RsaKey (rk_pub k) (rk_d k) (rk_p k) (rk_q k) (rk_more k) None).
Proof.
  intros b k H. unfold parse_private in H. apply rbind_Ok in H as (((version & k0) & rest) & H1 & H). destruct rest; [|discriminate].
  destruct (Z.ltb_spec 1 version) as [V|V]; [discriminate|]. destruct (negb _) eqn:P in H; [discriminate|]. destruct (negb _) eqn:Q in H; [discriminate|].
  destruct (validate k0) eqn:Va; cbn [negb] in H; [|discriminate]. assert (Ek : precompute k0 = k) by congruence. clear H.
  apply (one_iff _ parse_private_fields 16 true x30 _ _ _ tag16) in H1 as (c & e & Eb & El & Sc & H1). rewrite app_nil_r in Eb. subst e.
  unfold parse_private_fields in H1.
  apply rbind_Ok in H1 as ((v & b1) & R1 & H1). apply rbind_Ok in H1 as ((n & b2) & R2 & H1). apply rbind_Ok in H1 as ((e & b3) & R3 & H1).
  apply rbind_Ok in H1 as ((d & b4) & R4 & H1). apply rbind_Ok in H1 as ((p & b5) & R5 & H1). apply rbind_Ok in H1 as ((q & b6) & R6 & H1).
  apply rbind_Ok in H1 as ((o1 & b7) & R7 & H1). apply rbind_Ok in H1 as ((o2 & b8) & R8 & H1). apply rbind_Ok in H1 as ((o3 & b9) & R9 & H1).
  apply rbind_Ok in H1 as ((more & b10) & R10 & H1). clear R7 R8 R9 R10.
  set (m := match more with Some l => l | None => [] end) in H1. clearbody m.
  assert (Q1 : v = version /\ RsaKey (PublicKey n e) d p q m None = k0) by (split; congruence). destruct Q1 as [-> <-]. clear H1.
  assert (G : checked_numbers (RsaKey (PublicKey n e) d p q m None)).
  { apply validate_iff. split; [|exact Va]. cbn [rk_d] in *. apply negb_false_iff in P. rewrite !andb_true_iff in P. lia. }
  rewrite <- Ek. cbn [precompute rk_pre rk_pub rk_d rk_p rk_q rk_more pk_n pk_e] in *.
  apply read_int_inv in R1 as (x1 & -> & I1 & _). apply read_big_inv in R2 as (x2 & -> & I2). apply read_int_inv in R3 as (x3 & -> & I3 & _).
  apply read_big_inv in R4 as (x4 & -> & I4). apply read_big_inv in R5 as (x5 & -> & I5). apply read_big_inv in R6 as (x6 & -> & I6).
  exists version, (x1 ++ x2 ++ x3 ++ x4 ++ x5 ++ x6 ++ []), b6, m. split.
  { exists x1, (x2 ++ x3 ++ x4 ++ x5 ++ x6 ++ []). split; [reflexivity|]. split; [exact I1|]. exists x2, (x3 ++ x4 ++ x5 ++ x6 ++ []). split; [reflexivity|]. split; [exact I2|].
    exists x3, (x4 ++ x5 ++ x6 ++ []). split; [reflexivity|]. split; [exact I3|]. exists x4, (x5 ++ x6 ++ []). split; [reflexivity|]. split; [exact I4|].
    exists x5, (x6 ++ []). split; [reflexivity|]. split; [exact I5|]. exists x6, []. split; [reflexivity|]. split; [exact I6|reflexivity]. }
  split; [rewrite app_nil_r, <- !app_assoc; exact El|]. split; [exact V|]. split; [reflexivity|]. split; [exact G|reflexivity].
Qed.
