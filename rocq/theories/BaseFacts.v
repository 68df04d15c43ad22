(** Lemmas about the encodings of [Base]. *)
From Coq Require Import Lia DecimalNat DecimalPos DecimalN DecimalZ DecimalFacts.
From Coq Require Import ZifyBool ZifyNat ZifyN.
From Verif Require Import Base.
Local Open Scope N_scope.

Ltac Zify.zify_post_hook ::= Z.div_mod_to_equations.

Lemma rbind_Ok : forall {A B} (x : res A) (f : A -> res B) b,
  rbind x f = Ok b -> exists a, x = Ok a /\ f a = Ok b.
Proof. intros A B [a| |] f b H; cbn in H; try discriminate; eauto. Qed.

Lemma rbind_assoc : forall {A B C} (x : res A) (f : A -> res B) (g : B -> res C),
  rbind (rbind x f) g = rbind x (fun a => rbind (f a) g).
Proof. intros A B C [a| |] f g; reflexivity. Qed.

(** ** bytes *)
Lemma b2n_lt : forall b, b2n b < 256.
Proof. intro b. pose proof (Byte.to_N_bounded b). unfold b2n. lia. Qed.

Lemma n2b_b2n : forall b, n2b (b2n b) = b.
Proof.
  intro b. unfold n2b, b2n. rewrite N.mod_small by apply (b2n_lt b).
  rewrite Byte.of_to_N. reflexivity.
Qed.

Lemma b2n_n2b : forall n, b2n (n2b n) = n mod 256.
Proof.
  intro n. unfold n2b, b2n. destruct (Byte.of_N (n mod 256)) eqn:E.
  - apply Byte.to_of_N. exact E.
  - apply Byte.of_N_None_iff in E. pose proof (N.mod_lt n 256). lia.
Qed.

Lemma b2n_inj : forall a b, b2n a = b2n b -> a = b.
Proof. intros a b H. rewrite <- (n2b_b2n a), <- (n2b_b2n b), H. reflexivity. Qed.

Lemma n2b_inj : forall a b, a < 256 -> b < 256 -> n2b a = n2b b -> a = b.
Proof.
  intros a b Ha Hb H. apply (f_equal b2n) in H. rewrite !b2n_n2b in H.
  rewrite !N.mod_small in H by assumption. exact H.
Qed.

Lemma beq_eq : forall a b, beq a b = true <-> a = b.
Proof.
  intros a b. unfold beq. split; intro H.
  - apply Byte.byte_dec_bl. exact H.
  - apply Byte.byte_dec_lb. exact H.
Qed.

Lemma beq_refl : forall a, beq a a = true.
Proof. intro a. apply beq_eq. reflexivity. Qed.

Lemma beq_neq : forall a b, beq a b = false <-> a <> b.
Proof.
  intros a b. destruct (beq a b) eqn:E.
  - apply beq_eq in E. split; [discriminate|contradiction].
  - split; [|reflexivity]. intros _ H. apply beq_eq in H. congruence.
Qed.

Lemma bseq_eq : forall a b, bseq a b = true <-> a = b.
Proof.
  induction a as [|x a IH]; intros [|y b]; cbn; split; intro H; try discriminate; try reflexivity.
  - apply andb_true_iff in H as [H1 H2]. apply beq_eq in H1. apply IH in H2. congruence.
  - injection H as -> ->. rewrite beq_refl. cbn. apply IH. reflexivity.
Qed.

Lemma bseq_refl : forall a, bseq a a = true.
Proof. intro a. apply bseq_eq. reflexivity. Qed.

Lemma bseq_neq : forall a b, bseq a b = false <-> a <> b.
Proof.
  intros a b. destruct (bseq a b) eqn:E.
  - apply bseq_eq in E. split; [discriminate|contradiction].
  - split; [|reflexivity]. intros _ H. apply bseq_eq in H. congruence.
Qed.

Lemma bseq_sym : forall a b, bseq a b = bseq b a.
Proof.
  intros a b. destruct (bseq a b) eqn:E.
  - apply bseq_eq in E. subst. symmetry. apply bseq_refl.
  - apply bseq_neq in E. symmetry. apply bseq_neq. congruence.
Qed.

Lemma bytes_eq_dec : forall a b : bytes, {a = b} + {a <> b}.
Proof.
  intros a b. destruct (bseq a b) eqn:E.
  - left. apply bseq_eq. exact E.
  - right. apply bseq_neq. exact E.
Defined.

(** ** lists *)
Lemma app_inj_len : forall {A} (a a' b b' : list A),
  length a = length a' -> a ++ b = a' ++ b' -> a = a' /\ b = b'.
Proof.
  induction a as [|x a IH]; intros [|x' a'] b b' HL H; cbn in *; try discriminate.
  - auto.
  - injection H as -> H. injection HL as HL. destruct (IH _ _ _ HL H). subst. auto.
Qed.

Lemma app_inj_len_r : forall {A} (a a' b b' : list A),
  length b = length b' -> a ++ b = a' ++ b' -> a = a' /\ b = b'.
Proof.
  intros A a a' b b' HL H. apply app_inj_len; [|exact H].
  apply (f_equal (@length A)) in H. rewrite !app_length in H. lia.
Qed.

Lemma concat_inj_len : forall {A} (n : nat) (l l' : list (list A)),
  (0 < n)%nat ->
  Forall (fun x => length x = n) l -> Forall (fun x => length x = n) l' ->
  concat l = concat l' -> l = l'.
Proof.
  intros A n l l' Hn Hl. revert l'. induction Hl as [|x l Hx Hl IH]; intros l' Hl' H.
  - destruct Hl' as [|y l' Hy Hl']; [reflexivity|].
    apply (f_equal (@length A)) in H. cbn in H. rewrite app_length in H. lia.
  - destruct Hl' as [|y l' Hy Hl'].
    + apply (f_equal (@length A)) in H. cbn in H. rewrite app_length in H. lia.
    + cbn in H. apply app_inj_len in H as [-> H]; [|congruence].
      rewrite (IH _ Hl' H). reflexivity.
Qed.

Lemma concat_len : forall {A} (n : nat) (l : list (list A)),
  Forall (fun x => length x = n) l -> length (concat l) = (length l * n)%nat.
Proof.
  intros A n l H. induction H as [|x l Hx H IH]; cbn; [reflexivity|].
  rewrite app_length, IH. lia.
Qed.

Lemma rmapM_Ok_iff : forall {A B} (f : A -> res B) l ys,
  rmapM f l = Ok ys <-> Forall2 (fun x y => f x = Ok y) l ys.
Proof.
  intros A B f. induction l as [|x l IH]; intros ys; cbn.
  - split; intro H; [injection H as <-; constructor|inversion H; reflexivity].
  - split; intro H.
    + apply rbind_Ok in H as (y & Hy & H). apply rbind_Ok in H as (ys' & Hys & H).
      injection H as <-. constructor; [exact Hy|]. apply IH. exact Hys.
    + inversion H as [|? y ? ys' Hy Hys]; subst. rewrite Hy. cbn.
      apply IH in Hys. rewrite Hys. reflexivity.
Qed.

Lemma rmapM_map_Ok : forall {A B} (f : A -> res B) (g : A -> B) l,
  (forall x, In x l -> f x = Ok (g x)) -> rmapM f l = Ok (map g l).
Proof.
  intros A B f g l H. apply rmapM_Ok_iff. induction l as [|x l IH]; cbn; constructor.
  - apply H. left. reflexivity.
  - apply IH. intros y Hy. apply H. right. exact Hy.
Qed.

Lemma rmapM_length : forall {A B} (f : A -> res B) l ys,
  rmapM f l = Ok ys -> length ys = length l.
Proof.
  intros A B f l ys H. apply rmapM_Ok_iff in H. induction H; cbn; congruence.
Qed.

(** ** decimal text *)
Definition is_digit (b : byte) : Prop := 48 <= b2n b <= 57.

Lemma uint_bytes_inj : forall d d', uint_bytes d = uint_bytes d' -> d = d'.
Proof.
  induction d; destruct d'; cbn; intro H; try discriminate; try reflexivity;
    injection H as H; f_equal; auto.
Qed.

Lemma uint_bytes_digits : forall d, Forall is_digit (uint_bytes d).
Proof.
  induction d; cbn; constructor; try assumption; unfold is_digit, b2n; cbn; lia.
Qed.

Lemma uint_bytes_nil : forall d, uint_bytes d = [] -> d = Decimal.Nil.
Proof. destruct d; cbn; intro H; try discriminate; reflexivity. Qed.

Lemma ntoa_inj : forall a b, ntoa a = ntoa b -> a = b.
Proof.
  intros a b H. apply uint_bytes_inj in H. apply DecimalN.Unsigned.to_uint_inj. exact H.
Qed.

Lemma ntoa_digits : forall n, Forall is_digit (ntoa n).
Proof. intro n. apply uint_bytes_digits. Qed.

Lemma ntoa_nonnil : forall n, ntoa n <> [].
Proof.
  intros n H. apply uint_bytes_nil in H. destruct n as [|p]; [discriminate|].
  exact (DecimalPos.Unsigned.to_uint_nonnil p H).
Qed.

Lemma Zto_int_inj : forall a b, Z.to_int a = Z.to_int b -> a = b.
Proof.
  intros a b H. rewrite <- (DecimalZ.of_to a), <- (DecimalZ.of_to b), H. reflexivity.
Qed.

Lemma itoa_inj : forall a b, itoa a = itoa b -> a = b.
Proof.
  intros a b H. apply Zto_int_inj. unfold itoa in H.
  destruct (Z.to_int a) as [d|d], (Z.to_int b) as [d'|d'].
  - f_equal. apply uint_bytes_inj. exact H.
  - exfalso. pose proof (uint_bytes_digits d) as F. rewrite H in F. inversion F as [|? ? F1 ?].
    unfold is_digit, b2n in F1. cbn in F1. lia.
  - exfalso. pose proof (uint_bytes_digits d') as F. rewrite <- H in F. inversion F as [|? ? F1 ?].
    unfold is_digit, b2n in F1. cbn in F1. lia.
  - f_equal. apply uint_bytes_inj. injection H as H. exact H.
Qed.

Lemma itoa_nonnil : forall a, itoa a <> [].
Proof.
  intros a H. unfold itoa in H. destruct a as [|p|p]; cbn in H.
  - discriminate.
  - apply uint_bytes_nil in H. exact (DecimalPos.Unsigned.to_uint_nonnil p H).
  - discriminate.
Qed.

(** Characters of [strconv.Itoa]: digits, and a minus sign at most at the front. *)
Lemma itoa_chars : forall a, Forall (fun b => is_digit b \/ b = x2d) (itoa a).
Proof.
  intro a. unfold itoa.
  assert (D : forall d, Forall (fun b => is_digit b \/ b = x2d) (uint_bytes d)).
  { intro d. eapply Forall_impl; [|apply uint_bytes_digits]. intros; left; assumption. }
  destruct (Z.to_int a); [apply D|]. constructor; [right; reflexivity|apply D].
Qed.

Lemma itoa_nat : forall n, itoa (Z.of_N n) = ntoa n.
Proof. intros [|p]; reflexivity. Qed.

Lemma int_of_u64_inj : forall a b, a < 2 ^ 64 -> b < 2 ^ 64 -> int_of_u64 a = int_of_u64 b -> a = b.
Proof.
  intros a b Ha Hb. unfold int_of_u64.
  change (2 ^ 64) with 18446744073709551616 in *.
  change (2 ^ 64)%Z with 18446744073709551616%Z.
  change (2 ^ 63) with 9223372036854775808.
  destruct (N.ltb_spec a 9223372036854775808); destruct (N.ltb_spec b 9223372036854775808); lia.
Qed.

Lemma itoa_u64_inj : forall a b, a < 2 ^ 64 -> b < 2 ^ 64 -> itoa_u64 a = itoa_u64 b -> a = b.
Proof. intros a b Ha Hb H. apply int_of_u64_inj; auto. apply itoa_inj. exact H. Qed.

(** ** hex *)
Lemma unhexdigit_hexdigit : forall n, n < 16 -> unhexdigit (hexdigit n) = Some n.
Proof.
  intros n H. unfold unhexdigit, hexdigit.
  destruct (N.ltb_spec n 10); rewrite b2n_n2b, N.mod_small by lia;
    repeat match goal with |- context [?a <=? ?b] => destruct (N.leb_spec a b) end;
    cbn [andb]; try (exfalso; lia); f_equal; lia.
Qed.

Lemma hex_decode_encode : forall l, hex_decode (hex_encode l) = Ok l.
Proof.
  induction l as [|b l IH]; [reflexivity|].
  change (hex_encode (b :: l)) with (hexdigit (b2n b / 16) :: hexdigit (b2n b mod 16) :: hex_encode l).
  cbn [hex_decode]. pose proof (b2n_lt b).
  rewrite !unhexdigit_hexdigit by lia. rewrite IH. cbn [rbind].
  replace (16 * (b2n b / 16) + b2n b mod 16) with (b2n b) by lia.
  rewrite n2b_b2n. reflexivity.
Qed.

Lemma hex_encode_length : forall l, length (hex_encode l) = (2 * length l)%nat.
Proof.
  induction l as [|b l IH]; [reflexivity|].
  change (hex_encode (b :: l)) with (hex_byte b ++ hex_encode l).
  rewrite app_length, IH. cbn [length hex_byte]. lia.
Qed.

Lemma hex_encode_inj : forall a b, hex_encode a = hex_encode b -> a = b.
Proof.
  intros a b H. apply (f_equal hex_decode) in H. rewrite !hex_decode_encode in H. congruence.
Qed.

Lemma hex_encode_app : forall a b, hex_encode (a ++ b) = hex_encode a ++ hex_encode b.
Proof. intros a b. unfold hex_encode. apply flat_map_app. Qed.

Definition is_lowhex (b : byte) : Prop := 48 <= b2n b <= 57 \/ 97 <= b2n b <= 102.

Lemma hexdigit_lowhex : forall n, n < 16 -> is_lowhex (hexdigit n).
Proof.
  intros n H. unfold is_lowhex, hexdigit.
  destruct (N.ltb_spec n 10); rewrite b2n_n2b, N.mod_small by lia; lia.
Qed.

Lemma hex_encode_lowhex : forall l, Forall is_lowhex (hex_encode l).
Proof.
  induction l as [|b l IH]; [constructor|].
  change (hex_encode (b :: l)) with (hexdigit (b2n b / 16) :: hexdigit (b2n b mod 16) :: hex_encode l).
  pose proof (b2n_lt b).
  constructor; [|constructor]; try apply hexdigit_lowhex; try lia. exact IH.
Qed.

Lemma list_ind2 : forall {A} (P : list A -> Prop),
  P [] -> (forall a, P [a]) -> (forall a b l, P l -> P (a :: b :: l)) -> forall l, P l.
Proof.
  intros A P H0 H1 H2. fix F 1. intros [|a [|b l]]; [exact H0|apply H1|apply H2, F].
Qed.

Lemma hex_decode_length : forall l r, hex_decode l = Ok r -> length l = (2 * length r)%nat.
Proof.
  induction l as [|a|a b l IH] using list_ind2; cbn; intros r H; try discriminate.
  - injection H as <-. reflexivity.
  - destruct (unhexdigit a); [|discriminate]. destruct (unhexdigit b); [|discriminate].
    apply rbind_Ok in H as (r' & H1 & H2). injection H2 as <-. cbn. rewrite (IH _ H1). lia.
Qed.

Lemma hex_decode_no_panic : forall l, hex_decode l <> Panic.
Proof.
  induction l as [|a|a b l IH] using list_ind2; cbn; try discriminate.
  destruct (unhexdigit a); [|discriminate]. destruct (unhexdigit b); [|discriminate].
  destruct (hex_decode l); cbn; congruence.
Qed.

(** ** base64 *)
Lemma unb64_b64 : forall n, n < 64 -> unb64char (b64char n) = Some n.
Proof.
  intros n H. unfold unb64char, b64char.
  destruct (N.ltb_spec n 26); [|destruct (N.ltb_spec n 52); [|destruct (N.ltb_spec n 62);
    [|destruct (N.eqb_spec n 62)]]].
  1-3: rewrite b2n_n2b, N.mod_small by lia;
    repeat match goal with |- context [?a <=? ?b] => destruct (N.leb_spec a b) end;
    cbn [andb]; try (exfalso; lia); f_equal; lia.
  - subst. reflexivity.
  - replace n with 63 by lia. reflexivity.
Qed.

Definition is_b64 (b : byte) : Prop := (exists n, n < 64 /\ b = b64char n) \/ b = x3d.

Lemma list_ind3 : forall {A} (P : list A -> Prop),
  P [] -> (forall a, P [a]) -> (forall a b, P [a; b]) ->
  (forall a b c l, P l -> P (a :: b :: c :: l)) -> forall l, P l.
Proof.
  intros A P H0 H1 H2 H3. fix F 1. intros [|a [|b [|c l]]]; [exact H0|apply H1|apply H2|apply H3, F].
Qed.

Lemma b64char_is_b64 : forall n, n < 64 -> is_b64 (b64char n).
Proof. intros n H. left. exists n. auto. Qed.

Lemma b64_encode_chars : forall l, Forall is_b64 (b64_encode l).
Proof.
  assert (P : is_b64 x3d) by (right; reflexivity).
  induction l as [|a|a b|a b c l IH] using list_ind3; cbn [b64_encode].
  - apply Forall_nil.
  - pose proof (b2n_lt a).
    repeat (apply Forall_cons; [first [exact P | apply b64char_is_b64; lia]|]). apply Forall_nil.
  - pose proof (b2n_lt a); pose proof (b2n_lt b).
    repeat (apply Forall_cons; [first [exact P | apply b64char_is_b64; lia]|]). apply Forall_nil.
  - pose proof (b2n_lt a); pose proof (b2n_lt b); pose proof (b2n_lt c).
    repeat (apply Forall_cons; [apply b64char_is_b64; lia|]). exact IH.
Qed.

Lemma is_b64_no_newline : forall b, is_b64 b -> negb (beq b x0a || beq b x0d) = true.
Proof.
  intros b H. destruct (beq b x0a) eqn:E1; [|destruct (beq b x0d) eqn:E2; [|reflexivity]].
  - apply beq_eq in E1. subst. destruct H as [(n & Hn & H)|H]; [|discriminate].
    apply (f_equal unb64char) in H. rewrite unb64_b64 in H by exact Hn. discriminate.
  - apply beq_eq in E2. subst. destruct H as [(n & Hn & H)|H]; [|discriminate].
    apply (f_equal unb64char) in H. rewrite unb64_b64 in H by exact Hn. discriminate.
Qed.

Lemma filter_all : forall {A} (f : A -> bool) l, Forall (fun x => f x = true) l -> filter f l = l.
Proof.
  intros A f l H. induction H as [|x l Hx H IH]; [reflexivity|]. cbn. rewrite Hx, IH. reflexivity.
Qed.

Lemma n2b_eq : forall n b, n mod 256 = b2n b -> n2b n = b.
Proof. intros n b H. apply b2n_inj. rewrite b2n_n2b. exact H. Qed.

Lemma b64_quads_encode : forall l, b64_quads (b64_encode l) = Ok l.
Proof.
  induction l as [|a|a b|a b c l IH] using list_ind3; cbn [b64_encode].
  - reflexivity.
  - pose proof (b2n_lt a). cbn [b64_quads]. rewrite !unb64_b64 by lia. cbn -[N.mul N.add N.div N.modulo].
    repeat f_equal. apply n2b_eq. lia.
  - pose proof (b2n_lt a); pose proof (b2n_lt b). cbn [b64_quads]. rewrite !unb64_b64 by lia.
    cbn -[N.mul N.add N.div N.modulo].
    f_equal. f_equal; [|f_equal]; apply n2b_eq; lia.
  - pose proof (b2n_lt a); pose proof (b2n_lt b); pose proof (b2n_lt c).
    cbn [b64_quads]. rewrite !unb64_b64 by lia. rewrite IH. cbn [rbind].
    f_equal. f_equal; [|f_equal; [|f_equal]]; apply n2b_eq; lia.
Qed.

Lemma b64_decode_encode : forall l, b64_decode (b64_encode l) = Ok l.
Proof.
  intro l. unfold b64_decode. rewrite filter_all.
  - apply b64_quads_encode.
  - eapply Forall_impl; [|apply b64_encode_chars]. intros b H. apply is_b64_no_newline. exact H.
Qed.

Lemma b64_encode_inj : forall a b, b64_encode a = b64_encode b -> a = b.
Proof.
  intros a b H. apply (f_equal b64_decode) in H. rewrite !b64_decode_encode in H. congruence.
Qed.

(** ** split *)
Lemma split_app : forall sep w r, ~ In sep w -> split sep (w ++ sep :: r) = w :: split sep r.
Proof.
  intros sep. induction w as [|x w IH]; intros r H; cbn [app split].
  - rewrite beq_refl. reflexivity.
  - destruct (beq x sep) eqn:E.
    + apply beq_eq in E. subst. exfalso. apply H. left. reflexivity.
    + rewrite IH by (intro; apply H; right; assumption). reflexivity.
Qed.

Lemma split_none : forall sep w, ~ In sep w -> split sep w = [w].
Proof.
  intros sep. induction w as [|x w IH]; intro H; cbn [split].
  - reflexivity.
  - destruct (beq x sep) eqn:E.
    + apply beq_eq in E. subst. exfalso. apply H. left. reflexivity.
    + rewrite IH by (intro; apply H; right; assumption). reflexivity.
Qed.

(** ** association lists *)
Section AssocFacts.
  Context {K V : Type} (keq : K -> K -> bool).
  Hypothesis keq_spec : forall a b, keq a b = true <-> a = b.

  Lemma keq_refl : forall a, keq a a = true.
  Proof. intro a. apply keq_spec. reflexivity. Qed.

  Lemma keq_neq : forall a b, a <> b -> keq a b = false.
  Proof.
    intros a b H. destruct (keq a b) eqn:E; [|reflexivity]. apply keq_spec in E. contradiction.
  Qed.

  Lemma aget_aput_eq : forall k (v : V) m, aget keq k (aput k v m) = Some v.
  Proof. intros k v m. cbn. rewrite keq_refl. reflexivity. Qed.

  Lemma aget_aput_neq : forall k k' (v : V) m, k <> k' -> aget keq k (aput k' v m) = aget keq k m.
  Proof. intros k k' v m H. cbn. rewrite keq_neq by exact H. reflexivity. Qed.

  Lemma aget_adel_eq : forall k (m : list (K * V)), aget keq k (adel keq k m) = None.
  Proof.
    intros k m. induction m as [|[k' v] m IH]; [reflexivity|]. cbn.
    destruct (keq k k') eqn:E; cbn; [exact IH|]. rewrite E. exact IH.
  Qed.

  Lemma aget_adel_neq : forall k k' (m : list (K * V)), k <> k' -> aget keq k (adel keq k' m) = aget keq k m.
  Proof.
    intros k k' m H. unfold adel in *. induction m as [|[k2 v] m IH]; [reflexivity|]. cbn.
    destruct (keq k' k2) eqn:E; cbn.
    - rewrite IH. apply keq_spec in E. subst. rewrite keq_neq by exact H. reflexivity.
    - rewrite IH. reflexivity.
  Qed.
End AssocFacts.

Lemma b64_decode_no_panic : forall l, b64_decode l <> Panic.
Proof.
  intro l. unfold b64_decode. remember (filter _ l) as q. clear Heqq l.
  remember (length q) as n eqn:E. assert (L : (length q <= n)%nat) by lia. clear E. revert q L.
  induction n as [n IH] using (well_founded_induction Wf_nat.lt_wf); intros q L.
  destruct q as [|a [|b [|c [|d q]]]]; cbn [b64_quads]; try discriminate.
  assert (Hq : b64_quads q <> Panic) by (apply (IH (n - 1)%nat); cbn in L; lia).
  destruct (unb64char a), (unb64char b), (unb64char c), (unb64char d); try discriminate.
  - destruct (b64_quads q); cbn; congruence.
  - destruct (beq d x3d); [destruct q|]; discriminate.
  - destruct (beq c x3d && beq d x3d); [destruct q|]; discriminate.
Qed.

(** lengths of decimal texts *)
Lemma uint_bytes_length : forall d, length (uint_bytes d) = Decimal.nb_digits d.
Proof. induction d; cbn; congruence. Qed.

Lemma of_uint_acc_ge : forall l acc,
  N.pos acc * 10 ^ N.of_nat (Decimal.nb_digits l) <= N.pos (Pos.of_uint_acc l acc).
Proof.
  induction l; intro acc; cbn [Decimal.nb_digits Pos.of_uint_acc];
    [change (10 ^ N.of_nat 0) with 1; lia|..];
    rewrite Nat2N.inj_succ, N.pow_succ_r' ;
    (eapply N.le_trans; [|apply IHl]); rewrite N.mul_assoc; apply N.mul_le_mono_r; lia.
Qed.

Lemma pos_to_uint_head : forall p l, Pos.to_uint p <> Decimal.D0 l.
Proof.
  intros p l E.
  pose proof (DecimalPos.Unsigned.of_to p) as H1. rewrite E in H1.
  assert (H3 : Decimal.unorm (Decimal.D0 l) = Pos.to_uint p).
  { rewrite <- DecimalN.Unsigned.to_of. unfold N.of_uint. rewrite H1. reflexivity. }
  rewrite E in H3. unfold Decimal.unorm in H3. 
  assert (H4 : forall d, (Decimal.nb_digits (Decimal.nzhead d) <= Decimal.nb_digits d)%nat).
  { induction d; cbn; lia. }
  cbn [Decimal.nzhead] in H3. specialize (H4 l). destruct (Decimal.nzhead l) eqn:Z.
  1: injection H3 as <-; cbn in H1; discriminate.
  all: apply (f_equal Decimal.nb_digits) in H3; cbn in H3, H4; lia.
Qed.
Lemma pos_to_uint_len : forall p k, N.pos p < 10 ^ N.of_nat k -> (Decimal.nb_digits (Pos.to_uint p) <= k)%nat.
Proof.
  intros p k H. pose proof (DecimalPos.Unsigned.of_to p) as E. pose proof (pos_to_uint_head p) as Hd.
  destruct (Pos.to_uint p) as [|l|l|l|l|l|l|l|l|l|l]; [cbn; lia|exfalso; eapply Hd; reflexivity|..];
  cbn [Pos.of_uint] in E; injection E as E;
  match type of E with Pos.of_uint_acc l ?a = _ => pose proof (of_uint_acc_ge l a) as G end;
  rewrite E in G; cbn [Decimal.nb_digits];
  (assert (10 ^ N.of_nat (Decimal.nb_digits l) < 10 ^ N.of_nat k) as L
    by (eapply N.le_lt_trans; [|exact H]; eapply N.le_trans; [|exact G];
        rewrite <- (N.mul_1_l (10 ^ _)) at 1; apply N.mul_le_mono_r; lia));
  apply N.pow_lt_mono_r_iff in L; lia.
Qed.
Lemma itoa_u64_length : forall n, n < 2 ^ 64 -> (1 <= length (itoa_u64 n) <= 20)%nat.
Proof.
  intros n H. split.
  - pose proof (itoa_nonnil (int_of_u64 n)) as E. unfold itoa_u64. destruct (itoa _); [congruence|cbn; lia].
  - unfold itoa_u64, int_of_u64, itoa.
    change (2 ^ 64)%Z with 18446744073709551616%Z. change (2 ^ 64) with 18446744073709551616 in H.
    change (2 ^ 63) with 9223372036854775808.
    set (z := if n <? 9223372036854775808 then Z.of_N n else (Z.of_N n - 18446744073709551616)%Z).
    assert (B : (- 9223372036854775808 <= z <= 9223372036854775807)%Z) by (subst z; destruct (N.ltb_spec n 9223372036854775808); lia).
    clearbody z. destruct z as [|p|p]; cbn [Z.to_int].
    + cbn. lia.
    + rewrite uint_bytes_length. apply pos_to_uint_len. change (10 ^ N.of_nat 20) with 100000000000000000000. lia.
    + cbn [length]. rewrite uint_bytes_length. pose proof (pos_to_uint_len p 19) as L.
      change (10 ^ N.of_nat 19) with 10000000000000000000 in L. lia.
Qed.
