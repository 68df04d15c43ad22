(** Making keys, their texts, and keys whose primes are equal. *)
From Coq Require Import ZArith Znumtheory Lia ZifyBool ZifyNat ZifyN.
From Verif Require Import Base BaseFacts Edwards25519Model LittleEndian KeygenModel KeygenProofs NumberTheory CancelModel CancelSpec RsaModel RsaSpec RsaNumbers RsaCrypt RsaText.
Local Open Scope Z_scope.

(** ** the values for the Chinese remainders *)
Lemma inverse_unique : forall p r c c', 0 < p -> 0 <= c < p -> 0 <= c' < p -> (p | c * r - 1) -> (p | c' * r - 1) -> c = c'.
Proof.
  intros p r c c' P B B' D D'. apply (cong_eq p); [|exact B|exact B'].
  assert (E1 : cong p (c * (c' * r)) (c * 1)) by (apply cong_mul; [apply cong_refl|exact D']).
  assert (E2 : cong p (c' * (c * r)) (c' * 1)) by (apply cong_mul; [apply cong_refl|exact D]).
  rewrite Z.mul_1_r in *. apply cong_trans with (c * (c' * r)); [apply cong_sym; exact E1|]. replace (c * (c' * r)) with (c' * (c * r)) by ring. exact E2.
Qed.
Lemma prime_gcd : forall p q, prime p -> prime q -> p <> q -> Z.gcd p q = 1.
Proof.
  intros p q P Q N. apply Zgcd_1_rel_prime. apply rel_prime_sym, prime_rel_prime; [exact Q|]. intro D. apply N. symmetry. apply prime_div_prime; assumption.
Qed.
Lemma gcd_product : forall p before, prime p -> Forall prime before -> ~ In p before -> Z.gcd (fold_right Z.mul 1 before) p = 1.
Proof.
  intros p before P F N. induction F as [|q l Q F IH]; cbn [fold_right]; [apply Z.gcd_1_l|].
  apply Zgcd_1_rel_prime. apply rel_prime_sym, rel_prime_mult; apply rel_prime_sym, Zgcd_1_rel_prime.
  - apply prime_gcd; [exact Q|exact P|]. intros ->. apply N. left. reflexivity.
  - apply IH. intro I. apply N. right. exact I.
Qed.
Lemma more_right : forall d ps before r, r = fold_right Z.mul 1 before -> Forall prime (before ++ ps) -> NoDup (before ++ ps) -> right_more d r ps (precompute_more d r ps).
Proof.
  intros d ps. induction ps as [|p ps IH]; intros before r -> F N; cbn [precompute_more]; [constructor|].
  apply Forall_app in F as [Fb Fp]. inversion Fp as [|? ? P F']; subst.
  assert (Np : ~ In p before) by (apply NoDup_remove in N as [_ N]; intro I; apply N, in_or_app; left; exact I).
  pose proof (prime_ge_2 p P). destruct (mod_inverse_coprime (fold_right Z.mul 1 before) p ltac:(lia) (gcd_product p before P Fb Np)) as (c & -> & B & D).
  constructor; [exact B|exact D|]. apply (IH (before ++ [p])).
  - rewrite fold_right_app. cbn [fold_right]. rewrite Z.mul_1_r. clear. induction before as [|a l IH]; cbn [fold_right]; [ring|]. rewrite <- IH. ring.
  - rewrite <- app_assoc. cbn [app]. apply Forall_app. split; [exact Fb|constructor; assumption].
  - rewrite <- app_assoc. exact N.
Qed.
Definition strip (k : rsa_key) : rsa_key := RsaKey (rk_pub k) (rk_d k) (rk_p k) (rk_q k) (rk_more k) None.
Lemma precompute_right : forall k, key_numbers k -> rk_pre k = None -> ready_key (precompute k).
Proof.
  intros k K E. pose proof K as (_ & _ & F & N & _). unfold precompute. rewrite E. split; [exact K|]. eexists. split; [reflexivity|].
  unfold rk_primes in *. inversion F as [|? ? P F']; subst. inversion F' as [|? ? Q F2]; subst.
  unfold right_values. cbn [cr_dp cr_dq cr_qinv cr_more rk_d rk_p rk_q rk_more]. split; [reflexivity|]. split; [reflexivity|]. split.
  - pose proof (prime_ge_2 _ P). apply (mod_inverse_coprime (rk_q k) (rk_p k) ltac:(lia)). apply prime_gcd; [exact Q|exact P|].
    intro X. inversion N as [|? ? Np _]; subst. apply Np. left. exact X.
  - apply (more_right _ _ [rk_p k; rk_q k]); [cbn [fold_right]; ring|exact F|exact N].
Qed.
Lemma right_more_unique : forall d r ps vs, right_more d r ps vs -> Forall prime ps -> forall vs', right_more d r ps vs' -> vs = vs'.
Proof.
  induction 1 as [|r p ps c vs B D H IH]; intros F vs' H'; inversion H'; subst; [reflexivity|]. inversion F as [|? ? P F']; subst.
  pose proof (prime_ge_2 _ P). f_equal; [|apply IH; assumption]. f_equal. f_equal. eapply inverse_unique; [|exact B|eassumption|exact D|eassumption]. lia.
Qed.
Lemma precompute_strip : forall k, key_numbers k -> (rk_pre k = None \/ exists v, rk_pre k = Some v /\ right_values k v) -> precompute (strip k) = precompute k.
Proof.
  intros k K [E|(v & E & V)]; [unfold precompute; rewrite E; reflexivity|].
  destruct (precompute_right (strip k) K eq_refl) as (_ & v' & E' & V'). replace (precompute k) with k by (unfold precompute; rewrite E; reflexivity).
  assert (Ev : v' = v).
  { destruct K as (_ & _ & F & _). inversion F as [|? ? P F']; subst. inversion F' as [|? ? Q F2]; subst. pose proof (prime_ge_2 _ P).
    destruct v as [dp dq qi m], v' as [dp' dq' qi' m']. destruct V as (A & B & (x & C & Bx & Dx) & M). destruct V' as (A' & B' & (x' & C' & Bx' & Dx') & M').
    unfold strip in *. cbn [cr_dp cr_dq cr_qinv cr_more rk_d rk_p rk_q rk_more precompute rk_pre] in *. rewrite A, A', B, B', C, C'. f_equal.
    - f_equal. apply (inverse_unique (rk_p k) (rk_q k)); assumption || lia.
    - eapply right_more_unique; eassumption. }
  subst v'. destruct k as [pub d p q m pre]. cbn [rk_pre] in E. subst pre. unfold strip, precompute in *. cbn [rk_pre rk_pub rk_d rk_p rk_q rk_more] in *. rewrite E'. reflexivity.
Qed.
Lemma numbers_checked : forall k, key_numbers k -> checked_numbers k.
Proof.
  intros k (E & D & F & _ & N & C). split; [exact E|]. split; [exact D|]. split; [|split; [exact N|exact C]].
  eapply Forall_impl; [|exact F]. intros p P. pose proof (prime_ge_2 p P). lia.
Qed.

(** ** texts *)
Lemma parse_private_text : forall k b, key_numbers k -> (rk_pre k = None \/ exists v, rk_pre k = Some v /\ right_values k v) ->
  private_text k b -> short (length b) -> parse_private b = Ok (precompute k).
Proof.
  intros k b K V (qinv & b1 & b2 & _ & _ & I & M & El) S. rewrite <- (precompute_strip k K V). pose proof (numbers_checked k K) as G.
  unfold strip. destruct k as [[n e] d p q more pre]. cbn [rk_pub rk_d rk_p rk_q rk_more pk_n pk_e] in *.
  apply (parse_text (match more with [] => 0 | _ => 1 end) n e d p q (d mod (p - 1)) (d mod (q - 1)) qinv (p * q) more b).
  - exists b1, b2. split; [exact I|]. split; [exact M|exact El].
  - exact S.
  - destruct more; lia.
  - exact G.
Qed.
Lemma ready_text : forall k b, ready_key k -> private_text k b -> short (length b) -> parse_private b = Ok k.
Proof.
  intros k b (K & v & E & V) T S. replace k with (precompute k) by (unfold precompute; rewrite E; reflexivity).
  apply parse_private_text; try assumption; unfold precompute; rewrite E; try assumption. right. exists v. auto.
Qed.
Lemma integers_app : forall zs z b1 b2, integers zs b1 -> integer z b2 -> integers (zs ++ [z]) (b1 ++ b2).
Proof.
  induction zs as [|y zs IH]; intros z b1 b2 H I; cbn [integers app] in *.
  - subst b1. exists b2, []. split; [rewrite app_nil_r; reflexivity|]. split; [exact I|reflexivity].
  - destruct H as (x & y' & -> & I1 & H). exists x, (y' ++ b2). split; [rewrite app_assoc; reflexivity|]. split; [exact I1|]. apply IH; assumption.
Qed.
Lemma integers_one : forall z b zs c, integer z b -> integers zs c -> integers (z :: zs) (b ++ c).
Proof. intros z b zs c I H. exists b, c. auto. Qed.
Lemma der_int_ok : forall z m, 0 <= z -> (length (der_int z) <= m)%nat -> short m -> integer z (der_int z).
Proof. intros z m Z0 L S. apply der_int_integer; [exact Z0|]. pose proof (der_long x02 (make_big_int z)) as D. change (der x02 (make_big_int z)) with (der_int z) in D. unfold short in *. lia. Qed.
Lemma marshal_more_text : forall d r ps vs, right_more d r ps vs -> Forall prime ps -> exists b, marshal_more ps vs = Some b /\ (short (length b) -> other_primes r d ps b).
Proof.
  induction 1 as [|r p ps c vs B D H IH]; intro F; cbn [marshal_more].
  - exists []. split; [reflexivity|]. intros _. reflexivity.
  - inversion F as [|? ? P F']; subst. pose proof (prime_ge_2 _ P). destruct (IH F') as (b & -> & T). cbn [cv_coeff cv_exp]. eexists. split; [reflexivity|].
    intro S. rewrite app_length in S. set (x := der_int p ++ der_int (d mod (p - 1)) ++ der_int c) in *. pose proof (der_long x30 x) as L.
    assert (Lx : length x = (length (der_int p) + (length (der_int (d mod (p - 1))) + length (der_int c)))%nat) by (unfold x; rewrite !app_length; reflexivity).
    assert (Sx : short (length x)) by (unfold short in *; lia).
    assert (Bd : 0 <= d mod (p - 1)) by (apply Z.mod_pos_bound; lia).
    exists c, x, (der x30 x), b. split; [exact B|]. split; [exact D|]. split; [|split; [apply der_element; exact Sx|split; [reflexivity|apply T; unfold short in *; lia]]].
    unfold x. rewrite <- (app_nil_r (der_int c)). apply integers_one; [apply (der_int_ok p (length x)); [lia|lia|exact Sx]|].
    apply integers_one; [apply (der_int_ok _ (length x)); [exact Bd|lia|exact Sx]|].
    apply integers_one; [apply (der_int_ok _ (length x)); [lia|lia|exact Sx]|reflexivity].
Qed.
Lemma marshal_private_text : forall k, key_numbers k -> (rk_pre k = None \/ exists v, rk_pre k = Some v /\ right_values k v) ->
  short (length (marshal_private k)) -> private_text k (marshal_private k).
Proof.
  intros k K V S. unfold marshal_private in *.
  assert (R : exists v, rk_pre (precompute k) = Some v /\ right_values k v).
  { destruct V as [E|(v & E & V)].
    - destruct (precompute_right k K E) as (_ & v & Ev & Vv). exists v. split; [exact Ev|]. unfold precompute in Vv. rewrite E in Vv. exact Vv.
    - exists v. split; [unfold precompute; rewrite E; exact E|exact V]. }
  destruct R as (v & Ev & (Vp & Vq & (x & Ex & Bx & Dx) & Vm)). rewrite Ev, Ex in *.
  pose proof K as (Ke & Kd & F & _ & Kn & _). pose proof F as F0. inversion F0 as [|? ? P F']; subst. inversion F' as [|? ? Q F2]; subst.
  pose proof (prime_ge_2 _ P) as P2. pose proof (prime_ge_2 _ Q) as Q2. clear F'.
  destruct (marshal_more_text _ _ _ _ Vm F2) as (m & Em & Tm). rewrite Em in *. rewrite Vp, Vq in *.
  pose proof (n_pos k K) as Np. unfold rk_n, rk_e in *.
  assert (B1 : 0 <= rk_d k mod (rk_p k - 1)) by (apply Z.mod_pos_bound; lia). assert (B2 : 0 <= rk_d k mod (rk_q k - 1)) by (apply Z.mod_pos_bound; lia).
  set (t0 := der x02 (make_int64 (match rk_more k with [] => 0 | _ => 1 end))) in *. set (t1 := der_int (pk_n (rk_pub k))) in *.
  set (t2 := der x02 (make_int64 (pk_e (rk_pub k)))) in *. set (t3 := der_int (rk_d k)) in *. set (t4 := der_int (rk_p k)) in *. set (t5 := der_int (rk_q k)) in *.
  set (t6 := der_int (rk_d k mod (rk_p k - 1))) in *. set (t7 := der_int (rk_d k mod (rk_q k - 1))) in *. set (t8 := der_int x) in *.
  set (t9 := match m with [] => [] | _ => der x30 m end) in *.
  set (whole := t0 ++ t1 ++ t2 ++ t3 ++ t4 ++ t5 ++ t6 ++ t7 ++ t8 ++ t9) in *.
  assert (Sw : short (length whole)) by (pose proof (der_long x30 whole); unfold short in *; lia).
  assert (Lw : length whole = (length t0 + (length t1 + (length t2 + (length t3 + (length t4 + (length t5 + (length t6 + (length t7 + (length t8 + length t9)))))))))%nat)
    by (unfold whole; rewrite !app_length; reflexivity).
  exists x, (t0 ++ t1 ++ t2 ++ t3 ++ t4 ++ t5 ++ t6 ++ t7 ++ t8), t9. split; [exact Bx|]. split; [exact Dx|]. split; [|split].
  - rewrite <- (app_nil_r t8).
    apply integers_one; [apply der_int64_integer; destruct (rk_more k); lia|].
    apply integers_one; [apply (der_int_ok _ (length whole)); [lia|fold t1; lia|exact Sw]|].
    apply integers_one; [apply der_int64_integer; lia|].
    apply integers_one; [apply (der_int_ok _ (length whole)); [lia|fold t3; lia|exact Sw]|].
    apply integers_one; [apply (der_int_ok _ (length whole)); [lia|fold t4; lia|exact Sw]|].
    apply integers_one; [apply (der_int_ok _ (length whole)); [lia|fold t5; lia|exact Sw]|].
    apply integers_one; [apply (der_int_ok _ (length whole)); [lia|fold t6; lia|exact Sw]|].
    apply integers_one; [apply (der_int_ok _ (length whole)); [lia|fold t7; lia|exact Sw]|].
    apply integers_one; [apply (der_int_ok _ (length whole)); [lia|fold t8; lia|exact Sw]|reflexivity].
  - destruct (rk_more k) as [|p0 ps] eqn:Emore.
    + inversion Vm as [? E1 E2 E3|]; subst. rewrite <- E3 in Em. cbn [marshal_more] in Em. assert (m = []) by congruence. subst m. reflexivity.
    + assert (Sm : short (length m)).
      { destruct m as [|c m0]; [reflexivity|]. unfold t9 in Lw. pose proof (der_long x30 (c :: m0)). unfold short in *. lia. }
      pose proof (other_long _ _ _ _ (Tm Sm) ltac:(discriminate)) as Nm. exists m. split; [apply Tm; exact Sm|]. unfold t9. destruct m as [|c m0]; [congruence|].
      apply der_element. exact Sm.
  - replace ((t0 ++ t1 ++ t2 ++ t3 ++ t4 ++ t5 ++ t6 ++ t7 ++ t8) ++ t9) with whole by (unfold whole; rewrite <- !app_assoc; reflexivity). apply der_element. exact Sw.
Qed.
Lemma public_back : forall pub, 0 < pk_n pub -> 2 <= pk_e pub <= 2 ^ 31 - 1 -> short (length (marshal_public pub)) -> parse_public (marshal_public pub) = Ok pub.
Proof.
  intros pub N E S. apply (parse_public_iff _ _ S). split; [|lia]. exists []. apply marshal_public_text; [lia|lia|exact S].
Qed.

(** ** making a key *)
Lemma bit_len_range : forall z n, 0 < z -> (Z.of_N (bit_len z) = n <-> 2 ^ (n - 1) <= z < 2 ^ n).
Proof.
  intros z n H. unfold bit_len. pose proof (Z.log2_spec z H) as S. pose proof (Z.log2_nonneg z) as L.
  rewrite Z2N.id by lia. split.
  - intros <-. replace (Z.log2 z + 1 - 1) with (Z.log2 z) by lia. replace (Z.log2 z + 1) with (Z.succ (Z.log2 z)) by lia. exact S.
  - intros [A B]. destruct (Z.le_gt_cases n 0) as [N|N]; [exfalso; destruct (Z.eq_dec n 0) as [->|]; [change (2 ^ 0) with 1 in B; lia|rewrite (Z.pow_neg_r 2 n) in B by lia; lia]|].
    rewrite (Z.log2_unique z (n - 1)); [lia|lia|]. replace (Z.succ (n - 1)) with n by lia. lia.
Qed.
Section Generate.
Variable rand_prime : bytes -> Z -> res (Z * bytes).
Hypothesis PS : prime_source rand_prime.
Lemma generated : forall fuel rnd bits k, 12 <= bits -> generate_rounds rand_prime fuel rnd bits = Ok k ->
  ready_key k /\ pk_e (rk_pub k) = 65537 /\ rk_more k = [] /\ 2 ^ (bits - 1) <= pk_n (rk_pub k) < 2 ^ bits.
Proof.
  induction fuel as [|fuel IH]; intros rnd bits k B H; cbn [generate_rounds] in H; [discriminate|].
  apply rbind_Ok in H as ((p & r1) & Hp & H). apply rbind_Ok in H as ((q & r2) & Hq & H).
  destruct (PS _ _ _ _ Hp) as [P Bp]. destruct (PS _ _ _ _ Hq) as [Q Bq]. pose proof (prime_ge_2 p P) as P2. pose proof (prime_ge_2 q Q) as Q2.
  assert (Hb : Z.quot bits 2 = bits / 2) by (apply Z.quot_div_nonneg; lia).
  assert (Bh : 6 <= bits / 2 <= bits - 6) by (Z.to_euclidean_division_equations; lia).
  assert (Lp : Z.of_N (bit_len p) = bits / 2) by (apply bit_len_range; [lia|]; rewrite <- Hb; exact Bp). rewrite Lp in Bq. rewrite Hb in Bp.
  assert (P32 : 32 <= p) by (change 32 with (2 ^ 5); apply Z.le_trans with (2 ^ (bits / 2 - 1)); [apply Z.pow_le_mono_r; lia|lia]).
  assert (Q32 : 32 <= q) by (change 32 with (2 ^ 5); apply Z.le_trans with (2 ^ (bits - bits / 2 - 1)); [apply Z.pow_le_mono_r; lia|lia]).
  destruct (Z.eqb_spec p q) as [E|E]; [apply (IH _ _ _ B H)|].
  destruct (Z.eqb_spec (Z.of_N (bit_len (p * q))) bits) as [Eb|Eb]; cbn [negb] in H; [|apply (IH _ _ _ B H)].
  destruct (mod_inverse 65537 ((p - 1) * (q - 1))) as [d|] eqn:Ed; [|apply (IH _ _ _ B H)].
  assert (Ek : precompute (RsaKey (PublicKey (p * q) 65537) d p q [] None) = k) by congruence. rewrite <- Ek. clear H Ek.
  split; [|split; [reflexivity|split; [reflexivity|]]].
  - apply precompute_right; [|reflexivity].
    assert (T : 1 < (p - 1) * (q - 1)) by nia.
    assert (Id : 0 <= d < (p - 1) * (q - 1) /\ ((p - 1) * (q - 1) | d * 65537 - 1)).
    { destruct (Z.eq_dec (Z.gcd 65537 ((p - 1) * (q - 1))) 1) as [G|G].
      - destruct (mod_inverse_coprime 65537 ((p - 1) * (q - 1)) ltac:(lia) G) as (x & Hx & Bx). assert (x = d) by congruence. subst x. exact Bx.
      - rewrite (mod_inverse_none 65537 ((p - 1) * (q - 1)) ltac:(lia) G) in Ed. discriminate. }
    destruct Id as [Bd [z Dz]].
    unfold key_numbers, rk_primes. cbn [rk_pub rk_d rk_p rk_q rk_more pk_e pk_n].
    split; [lia|]. split; [destruct (Z.eq_dec d 0); [subst d; exfalso|lia]|].
    { set (t := (p - 1) * (q - 1)) in *. clearbody t. rewrite Z.mul_0_l in Dz. clear - T Dz. destruct (Z.le_gt_cases 0 z); nia. }
    split; [constructor; [exact P|constructor; [exact Q|constructor]]|].
    split; [constructor; [intros [X|[]]; congruence|constructor; [intros []|constructor]]|]. split; [cbn [fold_right]; ring|].
    intros y [<-|[<-|[]]]; symmetry.
    + apply (Z.mod_unique _ _ (z * (q - 1))); [lia|]. lia.
    + apply (Z.mod_unique _ _ (z * (p - 1))); [lia|]. lia.
  - cbn [precompute rk_pre rk_pub pk_n]. apply bit_len_range; [nia|exact Eb].
Qed.
(** rounds beyond the bytes there are *)
Lemma rounds_enough : (forall rnd bits p rest, rand_prime rnd bits = Ok (p, rest) -> (length rest < length rnd)%nat) ->
  forall fuel rnd bits, (length rnd < fuel)%nat -> generate_rounds rand_prime fuel rnd bits = generate_rounds rand_prime (S (length rnd)) rnd bits.
Proof.
  intro Cs.
  assert (G : forall f f' rnd bits, (length rnd < f)%nat -> (length rnd < f')%nat -> generate_rounds rand_prime f rnd bits = generate_rounds rand_prime f' rnd bits).
  { induction f as [|f IH]; intros f' rnd bits L L'; [lia|]. destruct f' as [|f']; [lia|]. cbn [generate_rounds].
    destruct (rand_prime rnd (Z.quot bits 2)) as [[p r1]| |] eqn:H1; cbn [rbind]; try reflexivity.
    destruct (rand_prime r1 (bits - Z.of_N (bit_len p))) as [[q r2]| |] eqn:H2; cbn [rbind]; try reflexivity.
    pose proof (Cs _ _ _ _ H1). pose proof (Cs _ _ _ _ H2). rewrite (IH f' r2 bits) by lia. reflexivity. }
  intros fuel rnd bits L. apply G; lia.
Qed.
End Generate.

(** ** keys whose primes are equal *)
Lemma equal_primes : forall p e d, 2 < p -> 2 <= e <= 2 ^ 31 - 1 -> 0 < d -> (e * d) mod (p - 1) = 1 ->
  forall version x y z b, loose_text version x y z (RsaKey (PublicKey (p * p) e) d p p [] None) b -> - 2 ^ 63 <= version <= 1 -> short (length b) ->
  exists k, parse_private b = Ok k /\ rk_pub k = PublicKey (p * p) e /\
    forall draws cipher len, octets_of (p * p) len -> (66 <= len)%nat -> usable (p * p) draws -> (length cipher <= len)%nat -> octets_val cipher <= p * p ->
      decrypt_oaep draws k cipher = Panic.
Proof.
  intros p e d P E D Ed version x y z b (b1 & I & El) V S. cbn [rk_pub rk_d rk_p rk_q pk_n pk_e] in I.
  assert (G : checked_numbers (RsaKey (PublicKey (p * p) e) d p p [] None)).
  { unfold checked_numbers, rk_primes. cbn [rk_pub rk_d rk_p rk_q rk_more pk_e pk_n fold_right]. split; [exact E|]. split; [exact D|].
    split; [repeat constructor; lia|]. split; [ring|]. intros q [<-|[<-|[]]]; exact Ed. }
  eexists. split; [apply (parse_text version (p * p) e d p p x y z 0 [] b); [|exact S|exact V|exact G]|].
  { exists b1, []. split; [exact I|]. split; [reflexivity|]. rewrite app_nil_r. exact El. }
  split; [reflexivity|]. intros draws cipher len O L U Lc Bc. cbn [precompute rk_pre rk_pub rk_d rk_p rk_q rk_more precompute_more].
  assert (Mi : mod_inverse p p = None) by (apply mod_inverse_none; [lia|]; rewrite Z.gcd_diag; lia). rewrite Mi.
  unfold decrypt_oaep. cbn [rk_pub]. unfold check_pub. cbn [pk_e]. destruct (Z.leb_spec 2 e); [|lia]. destruct (Z.leb_spec e (2 ^ 31 - 1)); [|lia]. cbn [andb negb].
  unfold rk_n. cbn [rk_pub pk_n]. apply octets_len in O as [N ->]. destruct (Nat.ltb_spec len (length cipher)); [lia|]. destruct (Nat.ltb_spec len (2 * 32 + 2)); [lia|]. cbn [orb].
  rewrite <- octets_be. unfold decrypt_int, rk_n. cbn [rk_pub pk_n]. destruct (Z.ltb_spec (p * p) (octets_val cipher)); [lia|].
  destruct (Z.eqb_spec (p * p) 0); [nia|]. destruct (blinding_spec (p * p) draws N) as [(r & ir & -> & _)|[_ U']]; [|contradiction]. cbn [rbind rk_pre].
  unfold crt. cbn [cr_qinv]. reflexivity.
Qed.
(** texts of one key *)
Lemma loose : forall k, ready_key k -> rk_more k = [] -> forall version x y z b, loose_text version x y z k b -> - 2 ^ 63 <= version <= 1 -> short (length b) -> parse_private b = Ok k.
Proof.
  intros k (K & v & E & V) M version x y z b (b1 & I & El) Bv S.
  replace (Ok k) with (Ok (precompute (strip k))).
  2:{ f_equal. rewrite (precompute_strip k K) by (right; exists v; auto). unfold precompute. rewrite E. reflexivity. }
  pose proof (numbers_checked k K) as G. destruct k as [[n e] d p q more pre]. cbn [rk_more] in M. subst more. unfold strip. cbn [rk_pub rk_d rk_p rk_q rk_more pk_n pk_e] in *.
  apply (parse_text version n e d p q x y z 0 [] b); [|exact S|exact Bv|exact G]. exists b1, []. split; [exact I|]. split; [reflexivity|]. rewrite app_nil_r. exact El.
Qed.
Lemma integer_exists : forall z, 0 <= z -> short (length (make_big_int z)) -> exists b, integer z b.
Proof. intros z Z0 S. exists (der_int z). apply der_int_integer; assumption. Qed.
