(** The arithmetic of RSA: Euclid, Fermat with Chinese remainders, big endian bytes. *)
From Coq Require Import ZArith Znumtheory Lia ZifyBool ZifyNat ZifyN.
From Verif Require Import Base BaseFacts Edwards25519Model LittleEndian KeygenModel KeygenProofs NumberTheory RsaModel.
Local Open Scope Z_scope.

(** ** Euclid *)
Lemma euclid_spec : forall fuel n g r0 s0 r1 s1, 0 < n -> 0 <= r1 -> 0 < r0 -> r1 <= r0 ->
  r0 * r1 < 2 ^ Z.of_nat fuel -> (n | r0 - s0 * g) -> (n | r1 - s1 * g) ->
  let (d, x) := euclid (S fuel) r0 s0 r1 s1 in d = Z.gcd r0 r1 /\ (n | d - x * g).
Proof.
  induction fuel as [|fuel IH]; intros n g r0 s0 r1 s1 N R1 R0 L F D0 D1.
  - cbn [Z.of_nat] in F. change (2 ^ 0) with 1 in F. assert (r1 = 0) by nia. subst. cbn [euclid]. change (0 =? 0) with true. cbv iota.
    rewrite Z.gcd_0_r, Z.abs_eq by lia. auto.
  - remember (S fuel) as f eqn:Ef. cbn [euclid]. destruct (Z.eqb_spec r1 0) as [->|NZ].
    { rewrite Z.gcd_0_r, Z.abs_eq by lia. auto. }
    pose proof (Z.mod_pos_bound r0 r1 ltac:(lia)) as B. pose proof (Z.div_mod r0 r1 NZ) as E.
    assert (Q : 1 <= r0 / r1) by (apply Z.div_le_lower_bound; lia).
    rewrite Ef, Nat2Z.inj_succ, Z.pow_succ_r in F by lia.
    specialize (IH n g r1 s1 (r0 mod r1) (s0 - r0 / r1 * s1) N ltac:(lia) ltac:(lia) ltac:(lia)).
    destruct (euclid f r1 s1 (r0 mod r1) (s0 - r0 / r1 * s1)) as [d x].
    assert (H : d = Z.gcd r1 (r0 mod r1) /\ (n | d - x * g)).
    { assert (2 * (r0 mod r1) <= r0) by nia. apply IH; [nia|exact D1|].
      replace (r0 mod r1 - (s0 - r0 / r1 * s1) * g) with ((r0 - s0 * g) - r0 / r1 * (r1 - s1 * g)) by nia.
      apply Z.divide_sub_r; [exact D0|]. apply Z.divide_mul_r. exact D1. }
    destruct H as [-> H]. split; [|exact H]. rewrite (Z.gcd_comm r1), Z.gcd_mod by exact NZ. apply Z.gcd_comm.
Qed.
Lemma mod_inverse_spec : forall g n, 0 < n ->
  match mod_inverse g n with
  | Some x => Z.gcd g n = 1 /\ 0 <= x < n /\ (n | x * g - 1)
  | None => Z.gcd g n <> 1
  end.
Proof.
  intros g n N. unfold mod_inverse. pose proof (Z.mod_pos_bound g n N) as B.
  assert (L2 : 0 <= Z.log2 (n * n)) by apply Z.log2_nonneg.
  replace (Z.to_nat (Z.log2 (n * n) + 2)) with (S (Z.to_nat (Z.log2 (n * n) + 1))) by lia.
  pose proof (euclid_spec (Z.to_nat (Z.log2 (n * n) + 1)) n g n 0 (g mod n) 1 N ltac:(lia) N ltac:(lia)) as H.
  destruct (euclid (S (Z.to_nat (Z.log2 (n * n) + 1))) n 0 (g mod n) 1) as [d x].
  assert (H' : d = Z.gcd n (g mod n) /\ (n | d - x * g)).
  { apply H.
    - rewrite Z2Nat.id by lia. pose proof (Z.log2_spec (n * n) ltac:(nia)) as S. rewrite <- Z.add_1_r in S. nia.
    - rewrite Z.sub_0_r. apply Z.divide_refl.
    - exists (- (g / n)). pose proof (Z.div_mod g n ltac:(lia)). nia. }
  destruct H' as [Hd Hx]. rewrite Z.gcd_comm, Z.gcd_mod, Z.gcd_comm in Hd by lia.
  destruct (Z.eqb_spec d 1) as [E|E].
  - split; [congruence|]. split; [apply Z.mod_pos_bound; exact N|]. rewrite E in Hx. destruct Hx as [q Hq].
    exists (- q - x / n * g). pose proof (Z.div_mod x n ltac:(lia)) as M. nia.
  - congruence.
Qed.
Lemma mod_inverse_coprime : forall g n, 0 < n -> Z.gcd g n = 1 -> exists x, mod_inverse g n = Some x /\ 0 <= x < n /\ (n | x * g - 1).
Proof. intros g n N G. pose proof (mod_inverse_spec g n N) as H. destruct (mod_inverse g n) as [x|]; [exists x; tauto|contradiction]. Qed.
Lemma mod_inverse_none : forall g n, 0 < n -> Z.gcd g n <> 1 -> mod_inverse g n = None.
Proof. intros g n N G. pose proof (mod_inverse_spec g n N) as H. destruct (mod_inverse g n) as [x|]; [tauto|reflexivity]. Qed.

(** ** Congruence as divisibility *)
Definition cong (n a b : Z) : Prop := (n | a - b).
Lemma cong_refl : forall n a, cong n a a. Proof. intros n a. exists 0. ring. Qed.
Lemma cong_sym : forall n a b, cong n a b -> cong n b a. Proof. intros n a b [q H]. exists (- q). lia. Qed.
Lemma cong_trans : forall n a b c, cong n a b -> cong n b c -> cong n a c. Proof. intros n a b c [q H] [q' H']. exists (q + q'). lia. Qed.
Lemma cong_add : forall n a b c d, cong n a b -> cong n c d -> cong n (a + c) (b + d). Proof. intros n a b c d [q H] [q' H']. exists (q + q'). lia. Qed.
Lemma cong_sub : forall n a b c d, cong n a b -> cong n c d -> cong n (a - c) (b - d). Proof. intros n a b c d [q H] [q' H']. exists (q - q'). lia. Qed.
Lemma cong_mul : forall n a b c d, cong n a b -> cong n c d -> cong n (a * c) (b * d).
Proof. intros n a b c d [q H] [q' H']. exists (q * c + b * q'). replace (a * c - b * d) with ((a - b) * c + b * (c - d)) by ring. rewrite H, H'. ring. Qed.
Lemma cong_pow : forall n a b e, 0 <= e -> cong n a b -> cong n (a ^ e) (b ^ e).
Proof.
  intros n a b e E H. revert e E. apply natlike_ind; [apply cong_refl|]. intros e E IH. rewrite !Z.pow_succ_r by exact E. apply cong_mul; assumption.
Qed.
Lemma cong_mod : forall n a, n <> 0 -> cong n (a mod n) a.
Proof. intros n a N. exists (- (a / n)). pose proof (Z.div_mod a n N). lia. Qed.
Lemma cong_div : forall n m a b, (m | n) -> cong n a b -> cong m a b.
Proof. intros n m a b D H. exact (Z.divide_trans _ _ _ D H). Qed.
Lemma cong_eq : forall n a b, cong n a b -> 0 <= a < n -> 0 <= b < n -> a = b.
Proof. intros n a b [q H] A B. assert (q = 0) by nia. nia. Qed.
Lemma powmod_cong : forall a e n, 0 < n -> 0 <= e -> cong n (powmod a e n) (a ^ e) /\ 0 <= powmod a e n < n.
Proof. intros a e n N E. rewrite powmod_eq by lia. split; [apply cong_mod; lia|apply Z.mod_pos_bound; exact N]. Qed.

(** ** Fermat *)
Lemma fermat_cong : forall p x k, prime p -> 0 <= k -> cong p (x ^ (1 + k * (p - 1))) x.
Proof.
  intros p x k P K. pose proof (prime_pos p P) as P1. assert (X : 0 <= p - 1) by lia. rewrite Z.pow_add_r, Z.pow_1_r by nia.
  destruct (Znumtheory.Zdivide_dec p x) as [[q D]|D].
  - exists (q * (x ^ (k * (p - 1)) - 1)). rewrite D. ring.
  - assert (C : cong p (x ^ (k * (p - 1))) 1).
    { rewrite Z.mul_comm, Z.pow_mul_r by lia. apply cong_trans with (1 ^ k); [|rewrite Z.pow_1_l by exact K; apply cong_refl].
      apply cong_pow; [exact K|]. pose proof (fermat p x P D) as F. exists (x ^ (p - 1) / p). pose proof (Z.div_mod (x ^ (p - 1)) p ltac:(lia)). lia. }
    pose proof (cong_mul _ _ _ _ _ (cong_refl p x) C) as H. rewrite Z.mul_1_r in H. exact H.
Qed.
(** the exponents of a key undo each other modulo its primes *)
Lemma exponents : forall p e d x, prime p -> 0 < e -> (e * d) mod (p - 1) = 1 ->
  cong p ((x ^ e) ^ (d mod (p - 1))) x.
Proof.
  intros p e d x P E H. pose proof (prime_pos p P) as P1. set (u := d mod (p - 1)).
  assert (NP : p - 1 <> 1) by (intro Q; rewrite Q, Z.mod_1_r in H; lia).
  assert (U : 0 <= u < p - 1) by (apply Z.mod_pos_bound; lia).
  assert (H' : (e * u) mod (p - 1) = 1) by (unfold u; rewrite Z.mul_mod_idemp_r by lia; exact H).
  pose proof (Z.div_mod (e * u) (p - 1) ltac:(lia)) as D. rewrite H' in D.
  rewrite <- Z.pow_mul_r by lia. replace (e * u) with (1 + e * u / (p - 1) * (p - 1)) by lia. apply fermat_cong; [exact P|].
  apply Z.div_pos; nia.
Qed.

(** ** Products of distinct primes *)
Lemma product_divides : forall ps x, Forall prime ps -> NoDup ps -> (forall p, In p ps -> (p | x)) -> (fold_right Z.mul 1 ps | x).
Proof.
  induction ps as [|p ps IH]; intros x F N H; cbn [fold_right]; [apply Z.divide_1_l|].
  inversion F as [|? ? F1 F2]; subst. inversion N as [|? ? N1 N2]; subst.
  destruct (IH x F2 N2 (fun q I => H q (or_intror I))) as [y Y].
  assert (D : (p | y * fold_right Z.mul 1 ps)) by (rewrite <- Y; apply H; left; reflexivity).
  assert (C : ~ (p | fold_right Z.mul 1 ps)).
  { clear -F1 F2 N1. induction ps as [|q ps IH]; cbn [fold_right].
    - intro D. pose proof (prime_pos p F1). apply Z.divide_pos_le in D; lia.
    - inversion F2; subst. intro D. apply prime_mult in D; [|exact F1]. destruct D as [D|D].
      + apply N1. left. symmetry. apply prime_div_prime; assumption.
      + apply IH; auto. intro I. apply N1. right. exact I. }
  apply prime_mult in D; [|exact F1]. destruct D as [D|D]; [|contradiction]. destruct D as [z Z']. exists z. rewrite Y, Z'. ring.
Qed.
Lemma fold_mul : forall l a, fold_left Z.mul l a = a * fold_right Z.mul 1 l.
Proof. induction l as [|x l IH]; intro a; cbn [fold_left fold_right]; [ring|]. rewrite IH. ring. Qed.

(** ** Big endian *)
Lemma be_bytes_length : forall n z, length (be_bytes n z) = n.
Proof. intros n z. unfold be_bytes. rewrite rev_length. apply le_bytes_length. Qed.
Lemma be_val_bytes : forall n z, 0 <= z < p256 n -> be_val (be_bytes n z) = z.
Proof. intros n z H. rewrite be_val_rev. unfold be_bytes. rewrite rev_involutive. apply le_bytes_small. exact H. Qed.
Lemma be_bytes_val : forall b, be_bytes (length b) (be_val b) = b.
Proof. intro b. rewrite be_val_rev. unfold be_bytes. rewrite <- (rev_length b), le_bytes_val. apply rev_involutive. Qed.
Lemma be_val_range : forall b, 0 <= be_val b < p256 (length b).
Proof. intro b. rewrite be_val_rev, <- rev_length. apply le_val_range. Qed.
Lemma be_val_cons : forall c b, be_val (c :: b) = b2z c * p256 (length b) + be_val b.
Proof. intros c b. rewrite !be_val_rev. cbn [rev]. rewrite le_val_app, rev_length. cbn [le_val]. ring. Qed.
Lemma be_val_inj : forall a b, length a = length b -> be_val a = be_val b -> a = b.
Proof. intros a b L E. rewrite <- (be_bytes_val a), <- (be_bytes_val b), L, E. reflexivity. Qed.
Lemma p256_pow : forall n, p256 n = 2 ^ (8 * Z.of_nat n).
Proof. intro n. unfold p256. change 256 with (2 ^ 8). rewrite <- Z.pow_mul_r by lia. reflexivity. Qed.
Lemma p256_add : forall a b, p256 (a + b) = p256 a * p256 b.
Proof. intros a b. unfold p256. rewrite Nat2Z.inj_add, Z.pow_add_r by lia. reflexivity. Qed.
Lemma p256_mono : forall a b, (a <= b)%nat -> p256 a <= p256 b.
Proof. intros a b H. unfold p256. apply Z.pow_le_mono_r; lia. Qed.
(** the bytes of a number: between 256^(n-1) and 256^n *)
Lemma byte_len_spec : forall z, 0 < z -> (1 <= byte_len z)%nat /\ p256 (byte_len z - 1) <= z < p256 (byte_len z).
Proof.
  intros z H. unfold byte_len, bit_len. pose proof (Z.log2_spec z H) as S. pose proof (Z.log2_nonneg z) as L.
  set (l := Z.log2 z) in *. set (k := N.to_nat ((Z.to_N (l + 1) + 7) / 8)).
  assert (K : Z.of_nat k = (l + 8) / 8) by (unfold k; zify; Z.to_euclidean_division_equations; lia).
  assert (K1 : l < 8 * Z.of_nat k <= l + 8) by (rewrite K; Z.to_euclidean_division_equations; lia).
  split; [lia|]. rewrite !p256_pow. split.
  - apply Z.le_trans with (2 ^ l); [|lia]. apply Z.pow_le_mono_r; lia.
  - apply Z.lt_le_trans with (2 ^ Z.succ l); [lia|]. apply Z.pow_le_mono_r; lia.
Qed.
Lemma byte_len_unique : forall z n, p256 n <= z < p256 (S n) -> byte_len z = S n.
Proof.
  intros z n H. pose proof (p256_pos n). destruct (byte_len_spec z ltac:(lia)) as (A & B).
  destruct (Nat.lt_trichotomy (byte_len z) (S n)) as [T|[T|T]]; [|exact T|].
  - pose proof (p256_mono (byte_len z) n ltac:(lia)). lia.
  - pose proof (p256_mono (S n) (byte_len z - 1) ltac:(lia)). lia.
Qed.
