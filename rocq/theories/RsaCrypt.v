(** OAEP and the arithmetic of keys. *)
From Coq Require Import ZArith Znumtheory Lia ZifyBool ZifyNat ZifyN.
From Verif Require Import Base BaseFacts Sha256 Edwards25519Model LittleEndian KeygenModel KeygenProofs NumberTheory CancelModel RsaModel RsaSpec RsaNumbers.
Local Open Scope Z_scope.
Local Opaque sha_256.

(** ** the numbers of octets *)
Lemma octets_be : forall b, octets_val b = be_val b.
Proof. induction b as [|c b IH]; [reflexivity|]. cbn [octets_val]. rewrite be_val_cons, IH. reflexivity. Qed.
Lemma octets_len : forall n k, octets_of n k <-> 0 < n /\ byte_len n = k.
Proof.
  intros n k. unfold octets_of. split.
  - intros (K & H). assert (0 < 256 ^ (Z.of_nat k - 1)) by (apply Z.pow_pos_nonneg; lia). split; [lia|].
    destruct k as [|k]; [lia|]. apply byte_len_unique. unfold p256. replace (Z.of_nat k) with (Z.of_nat (S k) - 1) by lia. exact H.
  - intros [N <-]. destruct (byte_len_spec n N) as (A & B). split; [exact A|]. unfold p256 in B.
    replace (Z.of_nat (byte_len n - 1)) with (Z.of_nat (byte_len n) - 1) in B by lia. exact B.
Qed.

(** ** masks *)
Lemma xor_app : forall a1 a2 b1 b2, length a1 = length b1 -> xored (a1 ++ a2) (b1 ++ b2) = xored a1 b1 ++ xored a2 b2.
Proof.
  induction a1 as [|x a1 IH]; intros a2 [|y b1] b2 L; try discriminate; [reflexivity|]. injection L as L.
  unfold xored in *. cbn [app combine map]. f_equal. apply IH. exact L.
Qed.
Lemma xor_length : forall a b, length (xored a b) = Nat.min (length a) (length b).
Proof. intros a b. unfold xored. rewrite map_length. apply combine_length. Qed.
Lemma xor_firstn : forall a b, xored a b = xored a (firstn (length a) b).
Proof. intros a b. unfold xored. rewrite combine_firstn_l. reflexivity. Qed.
Lemma xor_twice : forall a b, (length a <= length b)%nat -> xored (xored a b) b = a.
Proof.
  induction a as [|x a IH]; intros [|y b] L; cbn [length] in L; try reflexivity; [lia|].
  unfold xored in *. cbn [combine map]. f_equal; [|apply IH; lia]. cbn [fst snd].
  rewrite b2n_n2b, N.mod_small.
  - rewrite N.lxor_assoc, N.lxor_nilpotent, N.lxor_0_r. apply n2b_b2n.
  - pose proof (b2n_lt x). pose proof (b2n_lt y).
    destruct (N.eq_dec (N.lxor (b2n x) (b2n y)) 0) as [->|NZ]; [reflexivity|]. apply (N.log2_lt_pow2 _ 8); [lia|].
    eapply N.le_lt_trans; [apply N.log2_lxor|]. apply N.max_lub_lt.
    + destruct (N.eq_dec (b2n x) 0) as [->|]; [reflexivity|]. apply N.log2_lt_pow2; [lia|assumption].
    + destruct (N.eq_dec (b2n y) 0) as [->|]; [reflexivity|]. apply N.log2_lt_pow2; [lia|assumption].
Qed.
Lemma four_be : forall i, be_bytes 4 (Z.of_nat i) = four i.
Proof.
  intro i. unfold be_bytes, four. cbn [le_bytes rev app map]. unfold z2b.
  assert (E : forall (z : Z) (n : N), 0 <= z -> Z.to_N z = n -> n2b (Z.to_N (z mod 256)) = n2b n).
  { intros z n Hz <-. assert (Q : Z.to_N (z mod 256) = (Z.to_N z mod 256)%N) by (zify; Z.to_euclidean_division_equations; lia). rewrite Q.
    rewrite <- (n2b_b2n (n2b (Z.to_N z mod 256))), b2n_n2b, N.mod_mod by lia. rewrite <- b2n_n2b. apply n2b_b2n. }
  assert (A : forall a b c d a' b' c' d' : byte, a = a' -> b = b' -> c = c' -> d = d' -> [a; b; c; d] = [a'; b'; c'; d']) by (intros; subst; reflexivity).
  change (256 ^ 3)%N with 16777216%N. change (256 ^ 2)%N with 65536%N. change (256 ^ 1)%N with 256%N. change (256 ^ 0)%N with 1%N.
  apply A; apply E; zify; Z.to_euclidean_division_equations; lia.
Qed.
Lemma mask_nil : forall seed, mask seed 0 = [].
Proof. reflexivity. Qed.
Definition stream (seed : bytes) (from n : nat) : bytes := concat (map (fun i => sha_256 (seed ++ four i)) (seq from n)).
Lemma stream_length : forall seed n from, length (stream seed from n) = (32 * n)%nat.
Proof.
  intros seed. induction n as [|n IH]; intro from; [reflexivity|]. unfold stream in *. cbn [seq map concat].
  rewrite app_length, IH, sha_256_length. lia.
Qed.
Lemma mgf_rounds : forall fuel i out seed, (length out <= fuel)%nat ->
  mgf1_rounds fuel (Z.of_nat i) out seed = xored out (stream seed i ((length out + 31) / 32)).
Proof.
  induction fuel as [|fuel IH]; intros i out seed L.
  - destruct out; [reflexivity|cbn [length] in L; lia].
  - destruct out as [|x out0]; [reflexivity|]. set (out := x :: out0) in *.
    assert (X : mgf1_rounds (S fuel) (Z.of_nat i) out seed =
                xor_bytes (firstn 32 out) (sha_256 (seed ++ be_bytes 4 (Z.of_nat i))) ++ mgf1_rounds fuel (Z.of_nat i + 1) (skipn 32 out) seed) by reflexivity.
    rewrite X. clear X. replace (Z.of_nat i + 1) with (Z.of_nat (S i)) by lia.
    assert (L1 : (1 <= length out)%nat) by (unfold out; cbn [length]; lia).
    rewrite IH by (rewrite skipn_length; lia). rewrite four_be, skipn_length. change xor_bytes with xored.
    destruct (Nat.le_gt_cases (length out) 32) as [S|S].
    + rewrite (skipn_all2 out) by lia. replace (length out - 32)%nat with 0%nat by lia.
      replace ((length out + 31) / 32)%nat with 1%nat by (symmetry; Z.to_euclidean_division_equations; lia).
      rewrite firstn_all2 by lia. unfold stream. cbn [seq map concat]. change (xored [] _) with (@nil byte). rewrite !app_nil_r. reflexivity.
    + replace ((length out + 31) / 32)%nat with (Datatypes.S ((length out - 32 + 31) / 32)).
      2:{ replace (length out + 31)%nat with ((length out - 32 + 31) + 1 * 32)%nat by lia. rewrite Nat.div_add by lia. lia. }
      unfold stream. cbn [seq map concat].
      rewrite <- xor_app; [|rewrite firstn_length, sha_256_length; lia]. rewrite firstn_skipn. reflexivity.
Qed.
Lemma mgf1_mask : forall out seed, mgf1_xor out seed = xored out (mask seed (length out)).
Proof.
  intros out seed. unfold mgf1_xor. change 0 with (Z.of_nat 0). rewrite (mgf_rounds (length out) 0 out seed) by lia. rewrite xor_firstn. reflexivity.
Qed.
Lemma mask_length : forall seed n, length (mask seed n) = n.
Proof.
  intros seed n. unfold mask. rewrite firstn_length. fold (stream seed 0 ((n + 31) / 32)). rewrite stream_length.
  Z.to_euclidean_division_equations; lia.
Qed.
Lemma masked_length : forall a seed n, length a = n -> length (xored a (mask seed n)) = n.
Proof. intros a seed n L. rewrite xor_length, mask_length. lia. Qed.
Lemma masked_twice : forall a seed n, length a = n -> xored (xored a (mask seed n)) (mask seed n) = a.
Proof. intros a seed n L. apply xor_twice. rewrite mask_length. lia. Qed.

(** ** padding *)
Lemma app_parts : forall (a b c d : bytes), length a = length c -> a ++ b = c ++ d -> a = c /\ b = d.
Proof.
  induction a as [|x a IH]; intros b [|y c] d L E; try discriminate; [auto|]. injection L as L. cbn [app] in E.
  assert (Q : x = y /\ a ++ b = c ++ d) by (split; congruence). destruct Q as [-> Q]. destruct (IH _ _ _ L Q). subst. auto.
Qed.
Lemma scan_found : forall rest i index invalid, scan_rest i rest (Scan false index invalid) = Scan false index invalid.
Proof.
  induction rest as [|c rest IH]; intros i index invalid; [reflexivity|]. cbn [scan_rest sc_looking sc_index sc_invalid andb].
  destruct (beq c x01); apply IH.
Qed.
Lemma scan_invalid : forall rest i s, sc_invalid s = true -> sc_invalid (scan_rest i rest s) = true.
Proof.
  induction rest as [|c rest IH]; intros i s H; [exact H|]. cbn [scan_rest]. apply IH. cbn [sc_invalid]. rewrite H.
  destruct (_ && _); reflexivity.
Qed.
Lemma scan_zeros : forall n rest i, scan_rest i (repeat x00 n ++ x01 :: rest) (Scan true 0 false) = Scan false (i + n) false.
Proof.
  induction n as [|n IH]; intros rest i; cbn [repeat app scan_rest sc_looking sc_index sc_invalid].
  - change (beq x01 x01) with true. cbn [andb]. rewrite Nat.add_0_r. apply scan_found.
  - change (beq x00 x01) with false. change (beq x00 x00) with true. cbn [andb negb]. rewrite IH. f_equal. lia.
Qed.
Lemma scan_good : forall rest i, let s := scan_rest i rest (Scan true 0 false) in sc_invalid s = false -> sc_looking s = false ->
  exists n msg, rest = repeat x00 n ++ x01 :: msg /\ s = Scan false (i + n) false.
Proof.
  induction rest as [|c rest IH]; intros i; cbn zeta; [intros _ H; discriminate H|].
  destruct (beq c x01) eqn:E1.
  - apply beq_eq in E1. subst. intros _ _. exists 0%nat, rest. split; [reflexivity|]. apply (scan_zeros 0).
  - destruct (beq c x00) eqn:E0.
    + apply beq_eq in E0. subst. cbn [scan_rest sc_looking sc_index sc_invalid]. rewrite E1. change (beq x00 x00) with true. cbn [andb negb].
      intros I L. destruct (IH (S i) I L) as (n & msg & E & Es). exists (S n), msg. split; [cbn [repeat app]; congruence|]. rewrite Es. f_equal. lia.
    + cbn [scan_rest sc_looking sc_index sc_invalid]. rewrite E1, E0. cbn [andb negb]. intro I. rewrite scan_invalid in I by reflexivity. discriminate.
Qed.
Lemma oaep_length : forall k seed msg, (66 + length msg <= k)%nat -> length seed = 32%nat -> length (oaep k seed msg) = k.
Proof.
  intros k seed msg K S. unfold oaep. cbn [app length]. rewrite app_length, (masked_length seed) by exact S.
  rewrite masked_length; [lia|]. rewrite !app_length, repeat_length, sha_256_length. cbn [length]. lia.
Qed.
Lemma unpad_iff : forall em k msg, length em = k -> (66 <= k)%nat ->
  (unpad em = Ok msg <-> exists seed, length seed = 32%nat /\ (66 + length msg <= k)%nat /\ em = oaep k seed msg).
Proof.
  intros em k msg L K. destruct em as [|c em]; [cbn [length] in L; lia|]. cbn [length] in L.
  unfold unpad. rewrite !mgf1_mask. change (skipn 1 (c :: em)) with em. change (skipn 33 (c :: em)) with (skipn 32 em). cbn [hd].
  set (ms := firstn 32 em). set (mdb := skipn 32 em).
  assert (Lm : length ms = 32%nat) by (unfold ms; rewrite firstn_length; lia).
  assert (Ld : length mdb = (k - 33)%nat) by (unfold mdb; rewrite skipn_length; lia).
  rewrite Lm, Ld. set (seed := xored ms (mask mdb 32)). set (db := xored mdb (mask seed (k - 33))).
  assert (Ls : length seed = 32%nat) by (apply masked_length; exact Lm).
  assert (Lb : length db = (k - 33)%nat) by (apply masked_length; exact Ld).
  assert (Em : em = ms ++ mdb) by (symmetry; apply firstn_skipn). clearbody ms mdb.
  split.
  - intro H. destruct (beq c x00) eqn:Ec; [|discriminate H]. apply beq_eq in Ec. subst c.
    destruct (bseq (sha_256 []) (firstn 32 db)) eqn:Eh; [|discriminate H]. apply bseq_eq in Eh.
    set (s := scan_rest 0 (skipn 32 db) (Scan true 0 false)) in *.
    destruct (sc_invalid s) eqn:Ei; [discriminate H|]. destruct (sc_looking s) eqn:El; [discriminate H|]. cbn [andb negb] in H.
    destruct (scan_good (skipn 32 db) 0 Ei El) as (n & m & Er & Es). fold s in Es. rewrite Es in H. cbn [sc_index] in H. rewrite Er in H. clear Es.
    assert (Hm : msg = m).
    { assert (Hs : skipn (S (0 + n)) (repeat x00 n ++ x01 :: m) = m).
      { clear. replace (S (0 + n)) with (length (repeat x00 n ++ [x01])) by (rewrite app_length, repeat_length; cbn [length]; lia).
        replace (repeat x00 n ++ x01 :: m) with ((repeat x00 n ++ [x01]) ++ m) by (rewrite <- app_assoc; reflexivity).
        rewrite skipn_app, skipn_all, Nat.sub_diag. reflexivity. }
      rewrite Hs in H. congruence. }
    subst m. clear H.
    assert (Ln : (n + 66 + length msg = k)%nat).
    { apply (f_equal (@length byte)) in Er. rewrite skipn_length, app_length, repeat_length in Er. cbn [length] in Er. lia. }
    exists seed. split; [exact Ls|]. split; [lia|]. unfold oaep.
    replace (k - length msg - 66)%nat with n by lia.
    assert (Edb : db = sha_256 [] ++ repeat x00 n ++ [x01] ++ msg).
    { rewrite <- (firstn_skipn 32 db), <- Eh, Er. reflexivity. }
    rewrite <- Edb. unfold db at 1. rewrite masked_twice by exact Ld. unfold seed. rewrite masked_twice by exact Lm.
    unfold db. rewrite masked_twice by exact Ld. rewrite Em. reflexivity.
  - intros (sd & Lsd & Km & E). unfold oaep in E. cbn [app] in E.
    set (db0 := sha_256 [] ++ repeat x00 (k - length msg - 66) ++ x01 :: msg) in *.
    assert (Ldb0 : length db0 = (k - 33)%nat) by (unfold db0; rewrite !app_length, repeat_length, sha_256_length; cbn [length]; lia).
    assert (Q : c = x00 /\ em = xored sd (mask (xored db0 (mask sd (k - 33))) 32) ++ xored db0 (mask sd (k - 33))) by (split; congruence).
    destruct Q as [-> Q]. rewrite Em in Q.
    assert (Q2 : ms = xored sd (mask (xored db0 (mask sd (k - 33))) 32) /\ mdb = xored db0 (mask sd (k - 33))).
    { apply app_parts; [|exact Q]. rewrite (masked_length sd) by exact Lsd. exact Lm. }
    destruct Q2 as [Qs Qd].
    assert (Es : seed = sd) by (unfold seed; rewrite Qs, Qd; apply masked_twice; exact Lsd).
    assert (Eb : db = db0) by (unfold db; rewrite Es, Qd; apply masked_twice; exact Ldb0).
    rewrite Eb. unfold db0.
    assert (F1 : firstn 32 (sha_256 [] ++ repeat x00 (k - length msg - 66) ++ x01 :: msg) = sha_256 []).
    { rewrite firstn_app, firstn_all2 by (rewrite sha_256_length; lia). rewrite sha_256_length. cbn [Nat.sub firstn]. apply app_nil_r. }
    assert (F2 : skipn 32 (sha_256 [] ++ repeat x00 (k - length msg - 66) ++ x01 :: msg) = repeat x00 (k - length msg - 66) ++ x01 :: msg).
    { rewrite skipn_app, skipn_all2 by (rewrite sha_256_length; lia). rewrite sha_256_length. reflexivity. }
    rewrite F1, F2, bseq_refl, scan_zeros. cbn [sc_invalid sc_looking sc_index negb]. change (beq x00 x00) with true. cbn [andb]. f_equal.
    set (n := (k - length msg - 66)%nat).
    replace (repeat x00 n ++ x01 :: msg) with ((repeat x00 n ++ [x01]) ++ msg) by (rewrite <- app_assoc; reflexivity).
    replace (S (0 + n)) with (length (repeat x00 n ++ [x01])) by (rewrite app_length, repeat_length; cbn [length]; lia).
    rewrite skipn_app, skipn_all, Nat.sub_diag. reflexivity.
Qed.
Lemma unpad_no_panic : forall em, unpad em <> Panic.
Proof. intro em. unfold unpad. destruct (_ && _); discriminate. Qed.

(** ** the arithmetic of a key *)
Lemma blinding_spec : forall n draws, 0 < n ->
  (exists r ir, blinding n draws = Ok (r, ir) /\ (n | ir * r - 1) /\ usable n draws) \/ (blinding n draws = Err /\ ~ usable n draws).
Proof.
  intros n draws N. induction draws as [|r draws IH]; cbn [blinding].
  - right. split; [reflexivity|]. intros (r & [] & _).
  - pose proof (mod_inverse_spec (if r =? 0 then 1 else r) n N) as M.
    destruct (mod_inverse (if r =? 0 then 1 else r) n) as [ir|].
    + left. exists (if r =? 0 then 1 else r), ir. split; [reflexivity|]. split; [tauto|]. exists r. split; [left; reflexivity|].
      destruct (Z.eqb_spec r 0); [left; assumption|right; tauto].
    + destruct IH as [(r' & ir & E & D & (x & I & U))|[E U]].
      * left. exists r', ir. split; [exact E|]. split; [exact D|]. exists x. split; [right; exact I|exact U].
      * right. split; [exact E|]. intros (x & [->|I] & V); [|apply U; exists x; auto].
        destruct (Z.eqb_spec x 0) as [X|X]; [rewrite Z.gcd_1_l in M|destruct V]; congruence.
Qed.
Section Key.
Variable k : rsa_key.
Hypothesis K : key_numbers k.
Let e := pk_e (rk_pub k).
Let n := pk_n (rk_pub k).
Let d := rk_d k.
Lemma n_pos : 0 < n.
Proof.
  destruct K as (_ & _ & F & _ & E & _). unfold n. rewrite E. clear E. induction F as [|p l P F IH]; cbn [fold_right]; [lia|].
  pose proof (prime_pos p P). nia.
Qed.
Lemma divides_n : forall p, In p (rk_primes k) -> prime p /\ (p | n) /\ (e * d) mod (p - 1) = 1.
Proof.
  destruct K as (_ & _ & F & _ & E & D). intros p I. rewrite Forall_forall in F. split; [apply F; exact I|]. split; [|apply D; exact I].
  unfold n. rewrite E. clear -I. induction (rk_primes k) as [|q l IH]; [destruct I|]. cbn [fold_right]. destruct I as [->|I].
  - apply Z.divide_factor_l.
  - apply Z.divide_mul_r. apply IH. exact I.
Qed.
Lemma n_joins : forall x y, (forall p, In p (rk_primes k) -> cong p x y) -> cong n x y.
Proof.
  intros x y H. destruct K as (_ & _ & F & N & E & _). unfold cong, n. rewrite E. apply product_divides; [exact F|exact N|exact H].
Qed.
Lemma e_pos : 2 <= e. Proof. unfold e. destruct K as (E & _). lia. Qed.
(** what the Chinese remainders give *)
Definition remainders (c m : Z) : Prop := 0 <= m < n /\ forall p, In p (rk_primes k) -> cong p m (c ^ (d mod (p - 1))).
Lemma u_range : forall p, In p (rk_primes k) -> 0 < d mod (p - 1).
Proof.
  intros p I. destruct (divides_n p I) as (P & _ & H). pose proof (prime_pos p P).
  assert (p - 1 <> 1) by (intro Q; rewrite Q, Z.mod_1_r in H; lia). pose proof (Z.mod_pos_bound d (p - 1) ltac:(lia)).
  destruct (Z.eq_dec (d mod (p - 1)) 0) as [Z0|]; [|lia]. rewrite <- Z.mul_mod_idemp_r, Z0, Z.mul_0_r, Z.mod_0_l in H by lia. lia.
Qed.
Lemma garner_range : forall m m2 r p, 0 <= m < r -> 0 <= m2 < p -> 0 <= m + m2 * r < r * p.
Proof. intros m m2 r p A B. nia. Qed.
Lemma crt_rest_spec : forall c r ps vs, right_more d r ps vs -> forall before m, 0 < r -> Forall prime ps -> NoDup (before ++ ps) ->
  (forall p, In p before -> (p | r)) -> 0 <= m < r ->
  (forall p, In p before -> cong p m (c ^ (d mod (p - 1)))) ->
  exists m', crt_rest c vs ps m = Ok m' /\ 0 <= m' < r * fold_right Z.mul 1 ps /\ forall p, In p (before ++ ps) -> cong p m' (c ^ (d mod (p - 1))).
Proof.
  intros c r ps vs R. induction R as [r|r p ps x vs X D R IH]; intros before m Rp F N Db M C.
  - exists m. cbn [crt_rest fold_right]. rewrite app_nil_r. split; [reflexivity|]. split; [lia|exact C].
  - cbn [crt_rest cv_coeff cv_exp cv_r]. inversion F as [|? ? P F']; subst. pose proof (prime_pos p P).
    pose proof (Z.mod_pos_bound d (p - 1) ltac:(lia)) as U.
    destruct (powmod_cong c (d mod (p - 1)) p ltac:(lia) ltac:(lia)) as [PC PB].
    set (m2 := ((powmod c (d mod (p - 1)) p - m) * x) mod p). pose proof (Z.mod_pos_bound ((powmod c (d mod (p - 1)) p - m) * x) p ltac:(lia)) as B2. fold m2 in B2.
    assert (M2 : m2 = ((powmod c (d mod (p - 1)) p - m) * x) mod p) by reflexivity. clearbody m2. destruct (IH (before ++ [p]) (m + m2 * r)) as (m' & E & B & C').
    + apply Z.mul_pos_pos; lia.
    + exact F'.
    + rewrite <- app_assoc. exact N.
    + intros q I. apply in_app_or in I as [I|[->|[]]]; [apply Z.divide_mul_l; apply Db; exact I|apply Z.divide_factor_r].
    + apply garner_range; assumption.
    + intros q I. apply in_app_or in I as [I|[->|[]]].
      * apply cong_trans with m; [|apply C; exact I]. destruct (Db q I) as [y Y]. exists (m2 * y). rewrite Y. ring.
      * apply cong_trans with (powmod c (d mod (q - 1)) q); [|exact PC].
        assert (G : cong q (m2 * r) (powmod c (d mod (q - 1)) q - m)).
        { apply cong_trans with ((powmod c (d mod (q - 1)) q - m) * x * r).
          - apply cong_mul; [rewrite M2; apply cong_mod; lia|apply cong_refl].
          - destruct D as [y Y]. exists ((powmod c (d mod (q - 1)) q - m) * y).
            replace ((powmod c (d mod (q - 1)) q - m) * x * r - (powmod c (d mod (q - 1)) q - m)) with ((powmod c (d mod (q - 1)) q - m) * (x * r - 1)) by ring.
            rewrite Y. ring. }
        pose proof (cong_add _ _ _ _ _ (cong_refl q m) G) as G'. replace (m + (powmod c (d mod (q - 1)) q - m)) with (powmod c (d mod (q - 1)) q) in G' by ring. exact G'.
    + exists m'. split; [exact E|]. cbn [fold_right]. split; [rewrite Z.mul_assoc; exact B|]. intros q I. apply C'. rewrite <- app_assoc. exact I.
Qed.
Lemma crt_spec : forall c v, right_values k v -> exists m, crt c k v = Ok m /\ remainders c m.
Proof.
  intros c v (Edp & Edq & (x & Ex & Bx & Dx) & R). unfold crt. rewrite Edp, Edq, Ex. fold d.
  destruct K as (_ & _ & F & N & En & _). unfold rk_primes in F, N. inversion F as [|? ? P F1]; subst. inversion F1 as [|? ? Q F2]; subst.
  set (p := rk_p k) in *. set (q := rk_q k) in *. pose proof (prime_pos p P). pose proof (prime_pos q Q).
  pose proof (Z.mod_pos_bound d (p - 1) ltac:(lia)). pose proof (Z.mod_pos_bound d (q - 1) ltac:(lia)).
  destruct (powmod_cong c (d mod (p - 1)) p ltac:(lia) ltac:(lia)) as [C1 B1].
  destruct (powmod_cong c (d mod (q - 1)) q ltac:(lia) ltac:(lia)) as [C2 B2].
  set (m1 := powmod c (d mod (p - 1)) p) in *. set (m2 := powmod c (d mod (q - 1)) q) in *.
  set (a := if m1 - m2 <? 0 then m1 - m2 + p else m1 - m2).
  assert (Ca : cong p a (m1 - m2)) by (unfold a; destruct (m1 - m2 <? 0); [exists 1; ring|apply cong_refl]).
  pose proof (Z.mod_pos_bound (a * x) p ltac:(lia)) as Ba.
  assert (G : cong p ((a * x) mod p * q) (m1 - m2)).
  { apply cong_trans with (a * x * q); [apply cong_mul; [apply cong_mod; lia|apply cong_refl]|]. apply cong_trans with a; [|exact Ca].
    destruct Dx as [y Y]. exists (a * y). replace (a * x * q - a) with (a * (x * q - 1)) by ring. rewrite Y. ring. }
  destruct (crt_rest_spec c (p * q) (rk_more k) (cr_more v) R [p; q] ((a * x) mod p * q + m2)) as (m & E & B & C).
  - apply Z.mul_pos_pos; lia.
  - exact F2.
  - exact N.
  - intros z [<-|[<-|[]]]; [apply Z.divide_factor_l|apply Z.divide_factor_r].
  - rewrite Z.add_comm, (Z.mul_comm p q). apply garner_range; assumption.
  - intros z [<-|[<-|[]]].
    + apply cong_trans with m1; [|exact C1]. pose proof (cong_add _ _ _ _ _ G (cong_refl p m2)) as G'. replace (m1 - m2 + m2) with m1 in G' by ring. exact G'.
    + apply cong_trans with m2; [|exact C2]. exists ((a * x) mod p). ring.
  - exists m. split; [exact E|]. split; [|exact C]. unfold n. rewrite En. cbn [rk_primes fold_right]. fold p q. rewrite Z.mul_assoc. exact B.
Qed.
Lemma bare_spec : forall c, remainders c (powmod c d n).
Proof.
  intro c. destruct K as (_ & D & _). fold d in D. destruct (powmod_cong c d n n_pos ltac:(lia)) as [C B]. split; [exact B|]. intros p I.
  destruct (divides_n p I) as (P & Dn & _). pose proof (prime_pos p P). pose proof (u_range p I) as U.
  apply cong_trans with (c ^ d); [eapply cong_div; eassumption|]. set (u := d mod (p - 1)) in *.
  assert (p - 1 <> 0) by lia. pose proof (Z.div_mod d (p - 1) ltac:(lia)) as E. fold u in E. pose proof (Z.div_pos d (p - 1) ltac:(lia) ltac:(lia)) as J.
  assert (E2 : c ^ d = c ^ (u - 1) * c ^ (1 + d / (p - 1) * (p - 1))) by (rewrite <- Z.pow_add_r by nia; f_equal; lia).
  assert (E3 : c ^ u = c ^ (u - 1) * c) by (rewrite <- (Z.pow_1_r c) at 3; rewrite <- Z.pow_add_r by lia; f_equal; lia).
  rewrite E2, E3. apply cong_mul; [apply cong_refl|]. apply fermat_cong; assumption.
Qed.
Lemma root_unique : forall a b, 0 <= a < n -> 0 <= b < n -> cong n (a ^ e) (b ^ e) -> a = b.
Proof.
  intros a b A B C. apply (cong_eq n); [|exact A|exact B]. apply n_joins. intros p I. destruct (divides_n p I) as (P & D & H).
  pose proof e_pos. pose proof (u_range p I).
  apply cong_trans with ((a ^ e) ^ (d mod (p - 1))); [apply cong_sym; apply exponents; [exact P|lia|exact H]|].
  apply cong_trans with ((b ^ e) ^ (d mod (p - 1))); [|apply exponents; [exact P|lia|exact H]].
  apply cong_pow; [lia|]. eapply cong_div; eassumption.
Qed.
Hypothesis V : rk_pre k = None \/ exists v, rk_pre k = Some v /\ right_values k v.
Lemma decrypt_int_spec : forall draws c, 0 <= c <= n ->
  (usable n draws -> exists m, decrypt_int draws k c = Ok m /\ 0 <= m < n /\ cong n (m ^ e) c) /\
  (~ usable n draws -> decrypt_int draws k c = Err).
Proof.
  intros draws c C. pose proof n_pos as N. pose proof e_pos as E2. unfold decrypt_int, rk_n, rk_e. fold n e d.
  destruct (Z.ltb_spec n c); [lia|]. destruct (Z.eqb_spec n 0); [lia|].
  destruct (blinding_spec n draws N) as [(r & ir & B & D & U)|[B U]]; rewrite B; cbn [rbind]; [|tauto]. split; [|tauto]. intros _.
  set (c' := (c * powmod r e n) mod n).
  assert (R : exists m, match rk_pre k with None => Ok (powmod c' d n) | Some pre => crt c' k pre end = Ok m /\ remainders c' m).
  { destruct V as [->|(v & -> & Rv)]; [eexists; split; [reflexivity|apply bare_spec]|]. apply crt_spec. exact Rv. }
  destruct R as (m & -> & Bm & Cm). cbn [rbind]. exists ((m * ir) mod n). split; [reflexivity|]. split; [apply Z.mod_pos_bound; exact N|].
  apply n_joins. intros p I. destruct (divides_n p I) as (P & Dn & Hx). pose proof (prime_pos p P) as P1. pose proof (u_range p I) as Up.
  set (u := d mod (p - 1)) in *.
  assert (Cc : cong p c' (c * r ^ e)).
  { apply (cong_div n); [exact Dn|]. unfold c'. apply cong_trans with (c * powmod r e n); [apply cong_mod; lia|].
    apply cong_mul; [apply cong_refl|]. apply powmod_cong; lia. }
  assert (Cx : cong p ((m * ir) mod n) (c ^ u)).
  { apply cong_trans with (m * ir); [apply (cong_div n); [exact Dn|]; apply cong_mod; lia|].
    apply cong_trans with (c ^ u * (r * ir)).
    - rewrite Z.mul_assoc. apply cong_mul; [|apply cong_refl]. apply cong_trans with (c' ^ u); [apply Cm; exact I|].
      apply cong_trans with ((c * r ^ e) ^ u); [apply cong_pow; [lia|exact Cc]|]. rewrite Z.pow_mul_l. apply cong_mul; [apply cong_refl|].
      apply exponents; [exact P|lia|exact Hx].
    - pose proof (cong_mul p _ _ _ _ (cong_refl p (c ^ u)) (cong_div n p (r * ir) 1 Dn ltac:(rewrite Z.mul_comm; exact D))) as G. rewrite Z.mul_1_r in G. exact G. }
  apply cong_trans with ((c ^ u) ^ e); [apply cong_pow; [lia|exact Cx]|]. rewrite <- Z.pow_mul_r, Z.mul_comm, Z.pow_mul_r by lia.
  apply exponents; [exact P|lia|exact Hx].
Qed.
(** decryption: exactly the padded messages whose power is the cipher *)
Lemma decrypt_oaep_iff : forall draws cipher msg len, octets_of n len ->
  (decrypt_oaep draws k cipher = Ok msg <->
   usable n draws /\ (length cipher <= len)%nat /\ octets_val cipher <= n /\
   exists seed, length seed = 32%nat /\ (66 + length msg <= len)%nat /\ octets_val (oaep len seed msg) < n /\
     (octets_val (oaep len seed msg) ^ e - octets_val cipher) mod n = 0).
Proof.
  intros draws cipher msg len O. apply octets_len in O as [N L]. pose proof e_pos as E2.
  assert (CP : check_pub (rk_pub k) = true) by (destruct K as (E & _); unfold check_pub; apply andb_true_intro; split; apply Z.leb_le; lia).
  unfold decrypt_oaep. rewrite CP. unfold rk_n. fold n. rewrite L. cbn [negb]. rewrite octets_be.
  pose proof (be_val_range cipher) as Bc.
  assert (Em : forall em, length em = len -> octets_val em < n -> be_bytes len (octets_val em) = em).
  { intros em <- _. rewrite octets_be. apply be_bytes_val. }
  assert (Lt : forall m, 0 <= m < n -> be_val (be_bytes len m) = m).
  { intros m M. apply be_val_bytes. destruct (byte_len_spec n N) as (_ & X). rewrite L in X. lia. }
  destruct (Nat.ltb_spec len (length cipher)) as [B1|B1]; cbn [orb].
  { split; [discriminate|]. intros (_ & X & _). lia. }
  destruct (Nat.ltb_spec len (2 * 32 + 2)) as [B2|B2].
  { split; [discriminate|]. intros (_ & _ & _ & s & _ & X & _). lia. }
  destruct (Z.le_gt_cases (be_val cipher) n) as [Lc|Lc].
  2:{ unfold decrypt_int, rk_n. fold n. destruct (Z.ltb_spec n (be_val cipher)); [|lia]. cbn [rbind]. split; [discriminate|]. intros (_ & _ & X & _). lia. }
  destruct (decrypt_int_spec draws (be_val cipher) ltac:(lia)) as [Good Bad].
  assert (Dec : usable n draws \/ ~ usable n draws) by (destruct (blinding_spec n draws N) as [(r & ir & _ & _ & U)|[_ U]]; auto).
  destruct Dec as [U|U]; [|rewrite Bad by exact U; cbn [rbind]; split; [discriminate|tauto]].
  destruct (Good U) as (m & -> & Bm & Cm). cbn [rbind].
  rewrite (unpad_iff (be_bytes len m) len msg (be_bytes_length len m) ltac:(lia)). split.
  - intros (seed & Ls & Lm & Eo). split; [exact U|]. split; [exact B1|]. split; [exact Lc|]. exists seed. split; [exact Ls|]. split; [exact Lm|].
    rewrite <- Eo, octets_be, Lt by exact Bm. split; [lia|]. apply Z.mod_divide; [lia|]. exact Cm.
  - intros (_ & _ & _ & seed & Ls & Lm & Bo & Co). exists seed. split; [exact Ls|]. split; [exact Lm|].
    rewrite <- (Em (oaep len seed msg)) by (try apply oaep_length; assumption). f_equal. apply root_unique; [exact Bm| |].
    + split; [rewrite octets_be; apply be_val_range|exact Bo].
    + apply cong_trans with (be_val cipher); [exact Cm|]. apply cong_sym. apply Z.mod_divide in Co; [exact Co|lia].
Qed.
Lemma decrypt_no_panic : forall draws cipher, decrypt_oaep draws k cipher <> Panic.
Proof.
  intros draws cipher. pose proof n_pos as N. unfold decrypt_oaep. destruct (negb _); [discriminate|]. destruct (_ || _); [discriminate|].
  pose proof (be_val_range cipher). destruct (Z.le_gt_cases (be_val cipher) n) as [Lc|Lc].
  2:{ unfold decrypt_int, rk_n. fold n. destruct (Z.ltb_spec n (be_val cipher)); [discriminate|lia]. }
  destruct (decrypt_int_spec draws (be_val cipher) ltac:(lia)) as [Good Bad].
  destruct (blinding_spec n draws N) as [(r & ir & _ & _ & U)|[_ U]]; [|rewrite Bad by exact U; discriminate].
  destruct (Good U) as (m & -> & _). cbn [rbind]. apply unpad_no_panic.
Qed.
End Key.

(** ** encryption *)
Lemma encrypt_iff : forall rnd pub msg c len, octets_of (pk_n pub) len ->
  (encrypt_oaep rnd pub msg = Ok c <->
   2 <= pk_e pub <= 2 ^ 31 - 1 /\ (66 + length msg <= len)%nat /\ (32 <= length rnd)%nat /\ length c = len /\
   octets_val c = octets_val (oaep len (firstn 32 rnd) msg) ^ pk_e pub mod pk_n pub).
Proof.
  intros rnd pub msg c len O. apply octets_len in O as [N L]. unfold encrypt_oaep. rewrite L. unfold check_pub.
  destruct (Z.leb_spec 2 (pk_e pub)) as [E1|E1]; [|split; [discriminate|lia]].
  destruct (Z.leb_spec (pk_e pub) (2 ^ 31 - 1)) as [E2|E2]; [|split; [discriminate|lia]]. cbn [andb negb].
  destruct (Z.ltb_spec (Z.of_nat len - 2 * 32 - 2) (Z.of_nat (length msg))) as [B1|B1]; [split; [discriminate|lia]|].
  destruct (Nat.ltb_spec (length rnd) 32) as [B2|B2]; [split; [discriminate|lia]|].
  set (seed := firstn 32 rnd). assert (Ls : length seed = 32%nat) by (unfold seed; rewrite firstn_length; lia).
  rewrite !mgf1_mask.
  assert (Ld : length (sha_256 [] ++ repeat x00 (len - 66 - length msg) ++ x01 :: msg) = (len - 33)%nat)
    by (rewrite !app_length, repeat_length, sha_256_length; cbn [length]; lia).
  rewrite Ld, Ls. replace (len - 66 - length msg)%nat with (len - length msg - 66)%nat in * by lia.
  match goal with |- context [be_val ?x] => change x with (oaep len seed msg) end. rewrite <- octets_be.
  destruct (byte_len_spec (pk_n pub) N) as (_ & Bn). rewrite L in Bn.
  destruct (powmod_cong (octets_val (oaep len seed msg)) (pk_e pub) (pk_n pub) N ltac:(lia)) as [_ B].
  rewrite powmod_eq in B |- * by lia. split.
  - intro H. assert (Ec : c = be_bytes len (octets_val (oaep len seed msg) ^ pk_e pub mod pk_n pub)) by congruence. rewrite Ec.
    split; [lia|]. split; [lia|]. split; [lia|]. split; [apply be_bytes_length|]. rewrite octets_be. apply be_val_bytes. lia.
  - intros (_ & _ & _ & Lc & Vc). f_equal. rewrite <- Vc, octets_be, <- Lc. apply be_bytes_val.
Qed.
Lemma encrypt_no_panic : forall rnd pub msg, encrypt_oaep rnd pub msg <> Panic.
Proof. intros rnd pub msg. unfold encrypt_oaep. destruct (negb _); [discriminate|]. destruct (_ <? _); [discriminate|]. destruct (_ <? _)%nat; discriminate. Qed.
(** the padded message is smaller than the modulus *)
Lemma oaep_small : forall n len seed msg, octets_of n len -> (66 + length msg <= len)%nat -> length seed = 32%nat -> octets_val (oaep len seed msg) < n.
Proof.
  intros n len seed msg O L S. pose proof (oaep_length len seed msg L S) as E. unfold oaep in *. cbn [app] in *.
  set (x := xored seed _ ++ _) in *. cbn [length] in E. rewrite octets_be, be_val_cons. change (b2z x00) with 0. pose proof (be_val_range x) as B.
  destruct O as (_ & O). replace (Z.of_nat len - 1) with (Z.of_nat (length x)) in O by lia. fold (p256 (length x)) in O. lia.
Qed.
Lemma roundtrip : forall k, key_numbers k -> (rk_pre k = None \/ exists v, rk_pre k = Some v /\ right_values k v) ->
  forall rnd draws msg len, octets_of (pk_n (rk_pub k)) len -> (66 + length msg <= len)%nat -> (32 <= length rnd)%nat -> usable (pk_n (rk_pub k)) draws ->
  exists c, encrypt_oaep rnd (rk_pub k) msg = Ok c /\ length c = len /\ decrypt_oaep draws k c = Ok msg.
Proof.
  intros k K V rnd draws msg len O L R U. pose proof (n_pos k K) as N. pose proof K as (E & _).
  assert (S : length (firstn 32 rnd) = 32%nat) by (rewrite firstn_length; lia).
  set (x := octets_val (oaep len (firstn 32 rnd) msg) ^ pk_e (rk_pub k) mod pk_n (rk_pub k)).
  assert (Bx : 0 <= x < pk_n (rk_pub k)) by (apply Z.mod_pos_bound; exact N).
  assert (Vx : octets_val (be_bytes len x) = x).
  { rewrite octets_be. apply be_val_bytes. destruct O as (_ & O). unfold p256. lia. }
  exists (be_bytes len x).
  split; [|split; [apply be_bytes_length|]].
  - apply (encrypt_iff rnd (rk_pub k) msg _ len O). rewrite be_bytes_length. auto.
  - apply (decrypt_oaep_iff k K V draws _ msg len O). split; [exact U|]. rewrite be_bytes_length, Vx. split; [lia|]. split; [lia|].
    exists (firstn 32 rnd). split; [exact S|]. split; [exact L|]. split; [apply oaep_small; assumption|].
    unfold x. rewrite Zminus_mod_idemp_r, Z.sub_diag. apply Z.mod_0_l. lia.
Qed.
