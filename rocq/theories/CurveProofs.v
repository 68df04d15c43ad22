(** Keys and signatures over edwards25519 itself. *)
From Coq Require Import Lia ZifyBool ZifyNat ZifyN Znumtheory.
From Verif Require Import Base BaseFacts HashModel Primes25519 NumberTheory Field25519 GroupMultiples
  LittleEndian Edwards25519Model Edwards25519Proofs Edwards25519More Edwards25519Digits Sha256 SignModel SignSpec SignProofs
  Ed25519Curve CurveSpec.
Local Open Scope Z_scope.

(** ** Multiples *)

Lemma times_eq n p : 0 <= n -> times n p = n ** p.
Proof.
  intro H. unfold times. rewrite <- (Z2N.id n H) at 2. generalize (Z.to_N n) as k. clear n H.
  induction k using N.peano_ind.
  - rewrite zm_0. reflexivity.
  - rewrite N.iter_succ, IHk, N2Z.inj_succ, point_add_eq.
    unfold Z.succ. rewrite Z.add_comm, zm_add, zm_1. reflexivity.
Qed.

(** a multiple in all cases *)
Theorem point_mul_any a p : length a = 32%nat ->
  (le_val a <= last_multiplier /\ point_mul a p = le_val a ** p) \/
  exists top, 9 <= top <= 16 /\ last_multiplier < le_val a /\ point_mul a p = (le_val a - top * 2 ^ 252) ** p.
Proof.
  intro L. rewrite (point_mul_all a p L). pose proof (le_val_range a) as R. rewrite L, p256_32 in R.
  assert (T : top_digit (le_val a) <= 16).
  { unfold top_digit. apply Z.lt_succ_r. apply Z.div_lt_upper_bound; [reflexivity|].
    assert (O : 2 ^ 252 = 15 * ones63 + 1) by reflexivity. assert (W : 2 ^ 256 = 16 * 2 ^ 252) by reflexivity.
    assert (0 < ones63) by reflexivity. lia. }
  destruct (Z_le_gt_dec (top_digit (le_val a)) 8) as [S|S].
  - left. apply (proj1 (top_digit_iff _)) in S. split; [exact S|]. rewrite (multiplier_same _ S). reflexivity.
  - right. exists (top_digit (le_val a)). split; [lia|]. split.
    + destruct (Z_lt_le_dec last_multiplier (le_val a)) as [B|B]; [exact B|]. apply (proj2 (top_digit_iff _)) in B. lia.
    + unfold multiplier. replace (top_digit (le_val a) <=? 8) with false by lia. reflexivity.
Qed.

Lemma point_mul_near a p : length a = 32%nat -> le_val a <= last_multiplier -> point_mul a p = le_val a ** p.
Proof. intros L B. destruct (point_mul_any a p L) as [[_ E]|(t & _ & F & _)]; [exact E|lia]. Qed.

Lemma point_mul_times a p : length a = 32%nat -> le_val a <= last_multiplier -> point_mul a p = times (le_val a) p.
Proof. intros L B. rewrite times_eq by (pose proof (le_val_range a); lia). apply point_mul_near; assumption. Qed.

Lemma scalar_from_length b x : scalar_from b = Some x -> length x = 32%nat.
Proof.
  unfold scalar_from. destruct (Nat.ltb (length b) 32) eqn:E; [discriminate|]. intro H.
  apply Nat.ltb_ge in E. assert (X : x = firstn 32 b) by congruence. rewrite X, firstn_length. lia.
Qed.

Lemma scalar_string_length t x : scalar_of_string ed25519 t = Ok x -> length x = 32%nat.
Proof.
  unfold scalar_of_string. destruct (hex_decode t) as [b| |]; cbn [rbind]; try discriminate.
  cbn [ed25519 sdec]. destruct (scalar_from b) as [y|] eqn:E; cbn [of_opt]; [|discriminate].
  intro H. injection H as <-. exact (scalar_from_length b y E).
Qed.

Lemma top_product top : 9 <= top <= 16 -> ~ (l25519 | top * 2 ^ 252).
Proof.
  intros T D. apply Z.mod_divide in D; [|discriminate].
  assert (A : forallb (fun t => negb ((t * 2 ^ 252) mod l25519 =? 0)) [9; 10; 11; 12; 13; 14; 15; 16] = true)
    by (vm_compute; reflexivity).
  rewrite forallb_forall in A. specialize (A top). rewrite D in A. cbn [Z.eqb negb] in A.
  assert (C : false = true); [|discriminate C]. apply A. cbn [In]. lia.
Qed.

Lemma l_near : l25519 < last_multiplier.
Proof. reflexivity. Qed.

(** ** Public keys *)

Lemma public_any x : length x = 32%nat -> exists z, public_key ed25519 x = z ** point_base.
Proof. intro L. destruct (point_mul_any x point_base L) as [[_ E]|(t & _ & _ & E)]; eexists; exact E. Qed.

Lemma public_near x : length x = 32%nat -> le_val x <= last_multiplier -> public_key ed25519 x = le_val x ** point_base.
Proof. intros L B. apply (point_mul_near x point_base L B). Qed.

Lemma public_far x : length x = 32%nat -> last_multiplier < le_val x ->
  exists t, ~ (l25519 | t) /\ public_key ed25519 x = (le_val x - t) ** point_base.
Proof.
  intros L B. destruct (point_mul_any x point_base L) as [[F _]|(top & T & _ & E)]; [lia|].
  exists (top * 2 ^ 252). split; [apply top_product; exact T|exact E].
Qed.

Lemma public_far_wrong x : length x = 32%nat -> last_multiplier < le_val x ->
  public_key ed25519 x <> times (le_val x) point_base.
Proof.
  intros L B E. destruct (public_far x L B) as (t & T & E'). apply T.
  rewrite E', times_eq in E by (pose proof (le_val_range x); lia).
  apply (proj1 (base_multiple_eq _ _)) in E. apply Z.mod_divide in E; [|discriminate].
  replace (le_val x - t - le_val x) with (- t) in E by ring. apply Z.divide_opp_r. exact E.
Qed.

Lemma public_injective x y : generated x -> generated y ->
  public_key ed25519 x = public_key ed25519 y -> x = y.
Proof.
  intros X Y E. pose proof l_near.
  rewrite !public_near in E by (apply X || apply Y || (destruct X, Y; lia)).
  apply (proj1 (base_multiple_eq _ _)) in E.
  apply reduced_eq; [exact X|exact Y|].
  apply Z.mod_divide in E; [|discriminate]. destruct E as [k K].
  replace (le_val x) with (le_val y + k * l25519) by lia. apply Z.mod_add. discriminate.
Qed.

Lemma has_private_iff p : has_private_key p <-> exists x, generated x /\ public_key ed25519 x = p.
Proof.
  pose proof l_near as LB. split.
  - intros (n & N & ->). exists (scalar_of n). split; [apply scalar_of_reduced|].
    unfold public_key. cbn [ed25519 pmul base]. rewrite point_mul_of, times_eq by lia. reflexivity.
  - intros (x & [L B] & <-). exists (le_val x). split; [pose proof (le_val_range x); lia|].
    rewrite times_eq by (pose proof (le_val_range x); lia). apply public_near; [exact L|lia].
Qed.

(** ** Only the value modulo the order matters to Sign *)

Definition norm (x : bytes) : bytes := scalar_of (le_val x).

Lemma norm_generated x : generated (norm x).
Proof. apply scalar_of_reduced. Qed.

Lemma norm_val x : le_val (norm x) = le_val x mod l25519.
Proof. apply scalar_of_val. Qed.

Lemma norm_sstr x : sstr ed25519 (norm x) = sstr ed25519 x.
Proof.
  unfold sstr. cbn [ed25519 senc]. unfold scalar_bytes, norm. f_equal.
  unfold scalar_of at 1 3. rewrite scalar_of_val, Z.mod_mod by discriminate. reflexivity.
Qed.

Lemma norm_mul e x : smul ed25519 e (norm x) = smul ed25519 e x.
Proof.
  cbn [ed25519 smul]. unfold scalar_mul, scalar_of. rewrite norm_val, Z.mul_mod_idemp_r by discriminate. reflexivity.
Qed.

Lemma norm_gen_k x msg : gen_k ed25519 (norm x) msg = gen_k ed25519 x msg.
Proof. unfold gen_k. rewrite norm_sstr. reflexivity. Qed.

Lemma norm_public x : length x = 32%nat -> le_val x <= last_multiplier -> public_key ed25519 (norm x) = public_key ed25519 x.
Proof.
  intros L B. pose proof l_near. destruct (norm_generated x) as [L' B'].
  rewrite !public_near by (assumption || lia). rewrite norm_val. apply zm_mod.
Qed.

Lemma sign_norm rnd x msg : sign ed25519 rnd (norm x) msg = sign ed25519 rnd x msg.
Proof. unfold sign. cbv zeta. rewrite norm_gen_k, norm_mul. reflexivity. Qed.

Lemma ring_loop_norm fuel : forall i signer r x msg ring es ss,
  ring_loop ed25519 fuel i signer r (norm x) msg ring es ss = ring_loop ed25519 fuel i signer r x msg ring es ss.
Proof.
  induction fuel; intros; cbn [ring_loop]; [reflexivity|].
  destruct (Nat.eqb i signer); [reflexivity|].
  destruct (nth_error ring i); [|reflexivity]. destruct (nth i es None); [|reflexivity].
  cbv zeta. rewrite IHfuel, norm_gen_k. reflexivity.
Qed.

Lemma ring_sign_norm x msg ring : length x = 32%nat -> le_val x <= last_multiplier ->
  ring_sign ed25519 (norm x) msg ring = ring_sign ed25519 x msg ring.
Proof.
  intros L B. unfold ring_sign. rewrite norm_public by assumption.
  destruct (signer_index _ ring _); [|reflexivity]. cbv zeta. rewrite ring_loop_norm, norm_gen_k.
  destruct (ring_loop _ _ _ _ _ _ _ _ _ _) as [[es ss]| |]; cbn [rbind]; [|reflexivity|reflexivity].
  destruct (nth n es None); [|reflexivity]. rewrite norm_mul. reflexivity.
Qed.

(** ** Signatures with keys that were read *)

Lemma mul_of z : pmul ed25519 (scalar_of z) (base ed25519) = z ** point_base.
Proof. apply point_mul_of. Qed.

Lemma hash_reduced msg : generated (create_hash ed25519 msg).
Proof. apply scalar_of_reduced. Qed.

Lemma mul_gen s p : generated s -> pmul ed25519 s p = le_val s ** p.
Proof. exact (point_mul_reduced s p). Qed.

Theorem near_sign rnd x msg : length x = 32%nat -> le_val x <= last_multiplier ->
  let r := pmul ed25519 (gen_k ed25519 x msg) (base ed25519) in
  create_hash ed25519 (itoa rnd ++ pstr ed25519 r) <> scalar_zero ->
  create_hash ed25519 (msg ++ pstr ed25519 r) <> scalar_zero ->
  exists g, sign ed25519 rnd x msg = Ok g /\ sg_r g = r /\ generated (sg_s g) /\
            sig_public_key ed25519 g msg = public_key ed25519 x.
Proof.
  intros L B r E1 E2. unfold r in *. rewrite <- sign_norm, <- norm_gen_k, <- norm_public by assumption.
  rewrite <- norm_gen_k in E1, E2.
  exact (sign_recovers ed25519 scalar_reduced scalar_zero scalar_add ed25519_laws rnd (norm x) msg (norm_generated x) E1 E2).
Qed.

Theorem far_sign rnd x msg : length x = 32%nat -> last_multiplier < le_val x ->
  let r := pmul ed25519 (gen_k ed25519 x msg) (base ed25519) in
  create_hash ed25519 (itoa rnd ++ pstr ed25519 r) <> scalar_zero ->
  create_hash ed25519 (msg ++ pstr ed25519 r) <> scalar_zero ->
  exists g, sign ed25519 rnd x msg = Ok g /\ sig_public_key ed25519 g msg <> public_key ed25519 x.
Proof.
  intros L B r E1 E2. unfold r in *. rewrite <- norm_gen_k in E1, E2.
  destruct (sign_recovers ed25519 scalar_reduced scalar_zero scalar_add ed25519_laws rnd (norm x) msg (norm_generated x) E1 E2)
    as (g & G & _ & _ & P).
  exists g. split; [rewrite <- sign_norm; exact G|]. rewrite P. intro E.
  apply (public_far_wrong x L B). rewrite <- E, times_eq by (pose proof (le_val_range x); lia).
  rewrite public_near; [|apply norm_generated|pose proof l_near; destruct (norm_generated x); lia].
  rewrite norm_val. apply zm_mod.
Qed.

Theorem near_ring_sign x msg ring : length x = 32%nat -> le_val x <= last_multiplier ->
  match ring_sign ed25519 x msg ring with
  | Ok sig => In (public_key ed25519 x) ring /\ rs_ring sig = ring /\ length (rs_s sig) = length ring /\
              ring_verify ed25519 sig msg = Ok true
  | Err => ~ In (public_key ed25519 x) ring
  | Panic => False
  end.
Proof.
  intros L B. rewrite <- ring_sign_norm, <- norm_public by assumption.
  pose proof (norm_generated x) as G. set (y := norm x) in *. clearbody y. clear L B x.
  destruct (signer_index ed25519 ring (public_key ed25519 y)) as [i|] eqn:E.
  - assert (Hin : In (public_key ed25519 y) ring)
      by (eapply nth_error_In; eapply signer_index_some; [exact ed25519_laws|exact E]).
    destruct (ring_sign_verifies ed25519 scalar_reduced scalar_zero scalar_add ed25519_laws y msg ring G Hin) as (sig & -> & H). auto.
  - assert (Hin : ~ In (public_key ed25519 y) ring)
      by (eapply signer_index_none; [exact ed25519_laws|exact E]).
    rewrite (ring_sign_outside ed25519 scalar_reduced scalar_zero scalar_add ed25519_laws) by exact Hin. exact Hin.
Qed.

(** the signature of one key over itself *)
Lemma ring_sign_one x msg : let e := create_hash ed25519 (msg ++ pstr ed25519 (pmul ed25519 (gen_k ed25519 x msg) (base ed25519))) in
  ring_sign ed25519 x msg [public_key ed25519 x] =
  Ok (RingSig [public_key ed25519 x] [ssub ed25519 (gen_k ed25519 x msg) (smul ed25519 e x)] e).
Proof.
  intro e. unfold ring_sign. cbn [signer_index].
  rewrite (proj2 (point_eqb_eq (public_key ed25519 x) (public_key ed25519 x)) eq_refl : peqb ed25519 _ _ = true).
  reflexivity.
Qed.

Lemma sub_value k z : (k - z mod l25519 - (k - z)) mod l25519 = 0.
Proof.
  replace (k - z mod l25519 - (k - z)) with (z - z mod l25519) by ring.
  rewrite Zminus_mod, Z.mod_mod, Z.sub_diag by discriminate. reflexivity.
Qed.

Lemma response_value k e x : generated k -> generated e ->
  point_mul (scalar_sub k (scalar_mul e x)) point_base = (le_val k - le_val e * le_val x) ** point_base.
Proof.
  intros K E. unfold scalar_sub. rewrite point_mul_of. apply base_multiple_eq.
  unfold scalar_mul. rewrite scalar_of_val. apply sub_value.
Qed.

Local Opaque point_mul point_add point_sub point_base scalar_sub scalar_mul scalar_of sha_256.

Lemma far_equation k e x t : generated k -> generated e -> e <> scalar_zero -> ~ (l25519 | t) ->
  point_mul k point_base <>
  point_add (point_mul (scalar_sub k (scalar_mul e x)) point_base) (point_mul e ((le_val x - t) ** point_base)).
Proof.
  intros K E Z T I. rewrite response_value, !point_mul_reduced in I by assumption.
  rewrite point_add_eq, <- zm_mul, <- zm_add in I.
  apply (proj1 (base_multiple_eq _ _)) in I. apply Z.mod_divide in I; [|discriminate].
  assert (A : forall k e x t, k - (k - e * x + e * (x - t)) = e * t) by (intros; ring).
  rewrite A in I.
  apply prime_mult in I; [|exact l25519_prime]. destruct I as [I|I]; [|tauto].
  revert I. apply reduced_nonzero; [exact E|exact Z].
Qed.

Lemma far_collision first msg s e p : 
  first <> msg ++ pstr ed25519 (padd ed25519 (pmul ed25519 s (base ed25519)) (pmul ed25519 e p)) ->
  e = create_hash ed25519 first ->
  ring_verify ed25519 (RingSig [p] [s] e) msg = Ok true ->
  challenge_collision ed25519 first (last_input ed25519 msg [p] [s] e).
Proof.
  intros N E V. unfold ring_verify in V. cbn [rs_ring rs_s rs_e ring_fold rbind] in V.
  split; [exact N|]. rewrite <- E. apply (seqb_eq _ _ _ _ ed25519_laws).
  assert (X : forall b : bool, Ok b = Ok true -> b = true) by congruence. apply X. exact V.
Qed.

Theorem far_ring_sign x msg : length x = 32%nat -> last_multiplier < le_val x ->
  let p := public_key ed25519 x in
  let first := msg ++ pstr ed25519 (pmul ed25519 (gen_k ed25519 x msg) (base ed25519)) in
  exists sig, ring_sign ed25519 x msg [p] = Ok sig /\
  (ring_verify ed25519 sig msg = Ok true ->
   create_hash ed25519 first = scalar_zero \/
   challenge_collision ed25519 first (last_input ed25519 msg [p] (rs_s sig) (rs_e sig))).
Proof.
  intros L B p first. eexists. split; [exact (ring_sign_one x msg)|]. fold p first.
  cbn [rs_s rs_e]. intro V.
  destruct (list_eq_dec Byte.byte_eq_dec (create_hash ed25519 first) scalar_zero) as [Z|Z]; [left; exact Z|right].
  apply far_collision; [|reflexivity|exact V].
  intro I. unfold first in I at 1. apply app_inv_head in I.
  unfold pstr in I. apply hex_encode_inj in I. apply point_bytes_inj in I.
  destruct (public_far x L B) as (t & T & P). unfold p in I. rewrite P in I.
  cbn [ed25519 pmul padd base ssub smul] in I.
  revert I. apply far_equation; [apply hash_reduced|apply hash_reduced|exact Z|exact T].
Qed.

Local Transparent point_mul point_add point_sub point_base scalar_sub scalar_mul scalar_of sha_256.

(** ** Points outside the subgroup of the base point *)

Definition two : point := point_at gzero (gopp gone).

Lemma two_on : on_curveb gzero (gopp gone) = true.
Proof. vm_compute. reflexivity. Qed.

Lemma two_x : px two = gzero.
Proof. apply point_at_x. apply on_curveb_iff. exact two_on. Qed.
Lemma two_y : py two = gopp gone.
Proof. apply point_at_y. apply on_curveb_iff. exact two_on. Qed.

Lemma two_order : order_two two.
Proof.
  split.
  - intro E. apply (f_equal py) in E. rewrite two_y, null_y in E. apply geqb_eq in E.
    assert (X : geqb (gopp gone) gone = false) by (vm_compute; reflexivity). congruence.
  - apply point_eq; apply geqb_eq; vm_compute; reflexivity.
Qed.

Lemma opp_self x : (- x)%gf = x -> x = gzero.
Proof.
  intro E. destruct (gf_dec x gzero) as [X|X]; [exact X|].
  pose proof (negative_opp x X) as N. rewrite E in N. destruct (fe_negative x); discriminate N.
Qed.

(** the only one *)
Lemma order_two_two t : order_two t -> t = two.
Proof.
  intros [N D]. rewrite point_add_eq in D.
  assert (E : pneg t = t).
  { rewrite <- (psum_null (pneg t)), <- D, <- psum_assoc, (psum_comm (pneg t)), psum_pneg, psum_comm. apply psum_null. }
  assert (X : px t = gzero).
  { apply (f_equal px) in E. rewrite pneg_x in E. apply opp_self. exact E. }
  pose proof (point_on t) as ON. apply gon_square in ON. rewrite X in ON.
  assert (Y : (py t * py t = gone * gone)%gf).
  { transitivity (py t * py t - gone + gone)%gf; [ring|]. rewrite <- ON. ring. }
  apply square_eq in Y. destruct Y as [Y|Y].
  - exfalso. apply N. apply point_eq; [rewrite X, null_x|rewrite Y, null_y]; reflexivity.
  - apply point_eq; [rewrite X, two_x|rewrite Y, two_y]; reflexivity.
Qed.

Local Opaque two zmul psum pneg point_base point_null point_add point_sub point_mul scalar_inverse create_hash l25519.

Lemma two_twice : psum two two = point_null.
Proof. rewrite <- point_add_eq. apply two_order. Qed.

Lemma two_multiple z : z ** two = if Z.odd z then two else point_null.
Proof.
  rewrite (Z.div2_odd z) at 1. rewrite zm_add, (Z.mul_comm 2), zm_mul.
  change 2 with (1 + 1). rewrite zm_add, zm_1, two_twice, zm_zero, psum_comm.
  rewrite psum_null. destruct (Z.odd z); cbn [Z.b2z]; [apply zm_1|apply zm_0].
Qed.

Lemma odd_l : Z.odd l25519 = true.
Proof. reflexivity. Qed.

Lemma two_outside z : z ** point_base <> two.
Proof.
  intro E. apply (proj1 two_order).
  assert (X : l25519 ** two = two) by (rewrite two_multiple, odd_l; reflexivity).
  rewrite <- X, <- E, <- zm_mul, Z.mul_comm, zm_mul, base_order. apply zm_zero.
Qed.

(** the same for sums *)
Lemma two_plus z (b : bool) : psum (z ** point_base) (if b then two else point_null) = point_null <-> (l25519 | z) /\ b = false.
Proof.
  destruct b.
  - split; [|intros [_ D]; discriminate D]. intro E. exfalso. apply (two_outside (- z)).
    rewrite zm_opp. symmetry.
    exact (opp_unique point point_null psum pneg psum_comm psum_assoc psum_null psum_pneg _ _ E).
  - rewrite psum_null, base_multiple_null. tauto.
Qed.

Theorem no_private_key x : length x = 32%nat -> public_key ed25519 x <> two.
Proof. intros L E. destruct (public_any x L) as (z & Z). apply (two_outside z). congruence. Qed.

Definition two_text : bytes := pstr ed25519 two.

Lemma point_text p : point_of_string ed25519 (pstr ed25519 p) = Ok p.
Proof.
  exact (proj2 (key_strings ed25519 scalar_reduced scalar_zero scalar_add ed25519_laws scalar_zero p
    (conj eq_refl eq_refl))).
Qed.

(** anyone signs for the ring of that key *)
Theorem two_forged s msg : generated s ->
  let e := create_hash ed25519 (msg ++ pstr ed25519 (public_key ed25519 s)) in
  Z.even (le_val e) = true -> ring_verify ed25519 (@RingSig ed25519 [two] [s] e) msg = Ok true.
Proof.
  intros G e E. unfold ring_verify. cbn [rs_ring rs_s rs_e ring_fold rbind]. f_equal.
  apply (seqb_eq _ _ _ _ ed25519_laws). unfold link.
  replace (padd ed25519 (pmul ed25519 s (base ed25519)) (pmul ed25519 e two)) with (public_key ed25519 s); [reflexivity|].
  rewrite (mul_gen e) by apply hash_reduced. rewrite two_multiple, <- Z.negb_even, E. cbn [negb].
  cbn [ed25519 padd]. rewrite point_add_eq, psum_null. reflexivity.
Qed.

Lemma zero_near : le_val scalar_zero <= last_multiplier.
Proof. rewrite scalar_zero_val. pose proof l_near. pose proof l_pos. lia. Qed.

Lemma zero_public : public_key ed25519 scalar_zero = point_null.
Proof. rewrite public_near; [apply zm_0|reflexivity|exact zero_near]. Qed.

(** and for every ring with the null point *)
Theorem null_forged ring msg : In point_null ring ->
  exists sig, ring_sign ed25519 scalar_zero msg ring = Ok sig /\ rs_ring sig = ring /\ ring_verify ed25519 sig msg = Ok true.
Proof.
  intro I. pose proof (near_ring_sign scalar_zero msg ring eq_refl zero_near) as H. rewrite zero_public in H.
  destruct (ring_sign ed25519 scalar_zero msg ring) as [sig| |]; [|tauto|tauto].
  exists sig. intuition.
Qed.

(** ** Verify, exactly *)

Definition challenge (rnd : Z) (r : point) : bytes := create_hash ed25519 (itoa rnd ++ pstr ed25519 r).

(** the challenge times its inverse, as numbers *)
Definition roundabout (rnd : Z) (r : point) : Z :=
  le_val (challenge rnd r) * le_val (scalar_inverse (challenge rnd r)).

Lemma inverse_generated e : generated (scalar_inverse e).
Proof. apply scalar_of_reduced. Qed.

Lemma zm_psum z a b : z ** psum a b = psum (z ** a) (z ** b).
Proof. exact (zmul_sum point point_null psum pneg psum_comm psum_assoc psum_null psum_pneg z a b). Qed.

Lemma psum_cancel a b c : psum a b = psum a c -> b = c.
Proof. exact (add_cancel point point_null psum pneg psum_comm psum_assoc psum_null psum_pneg a b c). Qed.

Lemma psum_move a b : psum (psum a (pneg b)) b = a.
Proof. rewrite psum_assoc, (psum_comm (pneg b)), psum_pneg. apply psum_null. Qed.

Lemma psum_swap a b c : c = psum a (pneg b) <-> psum b c = a.
Proof.
  split; intro H.
  - rewrite H, psum_comm. apply psum_move.
  - rewrite <- H, (psum_comm b), psum_assoc, psum_pneg, psum_null. reflexivity.
Qed.

Theorem verify_exact rnd r s : sig_verify ed25519 rnd (@Sig ed25519 r s) = true <->
  let d := point_sub r (point_mul s point_base) in roundabout rnd r ** d = d.
Proof.
  cbv zeta. unfold sig_verify, sig_public_key. cbn [sg_r sg_s].
  fold (challenge rnd r). cbn [ed25519 pmul psub peqb sinv base].
  rewrite point_eqb_eq.
  rewrite (point_mul_reduced (challenge rnd r)) by apply hash_reduced.
  rewrite (point_mul_reduced (scalar_inverse _)) by apply inverse_generated.
  rewrite <- zm_mul. fold (roundabout rnd r). rewrite !point_sub_eq.
  set (q := point_mul s point_base). set (m := roundabout rnd r ** psum r (pneg q)). clearbody q m.
  split; intro H; apply psum_swap; apply psum_swap in H; rewrite psum_comm; exact H.
Qed.

Lemma inverse_value e : generated e -> e <> scalar_zero ->
  (l25519 | le_val e * le_val (scalar_inverse e) - 1).
Proof.
  intros G N. apply Z.mod_divide; [discriminate|].
  rewrite scalar_inverse_val. pose proof (inverse_product (le_val e) 1 (reduced_nonzero e G N)) as I.
  rewrite Z.mul_1_r in I. rewrite Zminus_mod, Z.mul_mod_idemp_r by discriminate.
  rewrite Z.mul_comm, I. reflexivity.
Qed.

(** a number shown to be the inverse by one product *)
Lemma inverse_witness e w : generated e -> generated w -> (le_val e * le_val w) mod l25519 = 1 -> scalar_inverse e = w.
Proof.
  intros G W M.
  assert (D : (l25519 | le_val e * le_val w - 1)).
  { apply Z.mod_divide; [discriminate|]. rewrite Zminus_mod, M. reflexivity. }
  assert (N : e <> scalar_zero).
  { intro E. rewrite E in M. change (le_val scalar_zero) with 0 in M. rewrite Z.mul_0_l in M. discriminate M. }
  pose proof (inverse_value e G N) as I.
  assert (P : (l25519 | le_val e * (le_val (scalar_inverse e) - le_val w))).
  { replace (le_val e * (le_val (scalar_inverse e) - le_val w))
      with ((le_val e * le_val (scalar_inverse e) - 1) - (le_val e * le_val w - 1)) by ring.
    apply Z.divide_sub_r; assumption. }
  apply prime_mult in P; [|exact l25519_prime]. destruct P as [P|P].
  - elim (reduced_nonzero e G N P).
  - apply reduced_eq; [apply inverse_generated|exact W|].
    destruct P as [k K]. apply Z.sub_move_r in K. rewrite K, Z.add_comm. apply Z_mod_plus_full.
Qed.

Lemma inverse_zero : scalar_inverse scalar_zero = scalar_zero.
Proof. vm_compute. reflexivity. Qed.

(** a point of the subgroup, with or without the point of order two *)
Theorem verify_two rnd k (b : bool) s : length s = 32%nat ->
  let r := point_add (times k point_base) (if b then two else point_null) in
  challenge rnd r <> scalar_zero ->
  sig_verify ed25519 rnd (@Sig ed25519 r s) = (if b then Z.odd (roundabout rnd r) else true).
Proof.
  intros L r N. apply Bool.eq_iff_eq_true. rewrite verify_exact. cbv zeta.
  destruct (public_any s L) as (z & Z). change (point_mul s point_base = z ** point_base) in Z. rewrite Z. clear Z.
  pose proof (inverse_value (challenge rnd r) (hash_reduced _) N) as I. fold (roundabout rnd r) in I.
  set (m := roundabout rnd r) in *.
  assert (K : exists k', times k point_base = k' ** point_base).
  { destruct k; [exists 0; reflexivity|eexists; apply times_eq; lia|exists 0; reflexivity]. }
  destruct K as (k' & K).
  assert (D : point_sub r (z ** point_base) = psum ((k' - z) ** point_base) ((if b then 1 else 0) ** two)).
  { rewrite point_sub_eq. unfold r. rewrite K, point_add_eq. unfold Z.sub. rewrite zm_add, zm_opp.
    rewrite !psum_assoc. f_equal. rewrite psum_comm. f_equal. destruct b; [rewrite zm_1|rewrite zm_0]; reflexivity. }
  rewrite D. clearbody m. clear D K N r.
  destruct I as [j J]. assert (M : m = j * l25519 + 1) by lia.
  assert (E : m ** psum ((k' - z) ** point_base) ((if b then 1 else 0) ** two) =
              psum ((k' - z) ** point_base) ((m * (if b then 1 else 0)) ** two)).
  { rewrite zm_psum, <- !zm_mul. f_equal. apply base_multiple_eq. rewrite M.
    replace ((j * l25519 + 1) * (k' - z) - (k' - z)) with (j * (k' - z) * l25519) by ring.
    apply Z.mod_mul. discriminate. }
  rewrite E. clear E. destruct b.
  - cbv iota. rewrite (Z.mul_1_r m), (zm_1 two), (two_multiple m). split; intro H.
    + apply psum_cancel in H. destruct (Z.odd m); [reflexivity|]. exfalso. apply (proj1 two_order). congruence.
    + rewrite H. reflexivity.
  - rewrite Z.mul_0_r. tauto.
Qed.

(** ** Texts of keys *)

Lemma fe_from_iff s y : y = fe_from s <-> gfv y = (le_val s mod 2 ^ 255) mod p25519.
Proof.
  unfold fe_from. rewrite <- gfv_gof. split; intro H; [rewrite H; reflexivity|apply gf_eq; exact H].
Qed.

Theorem decode_exact s p : point_from s = Some p <->
  length s = 32%nat /\ gfv (py p) = (le_val s mod 2 ^ 255) mod p25519 /\
  (px p = gzero \/ fe_negative (px p) = (2 ^ 255 <=? le_val s)).
Proof. rewrite point_from_iff, fe_from_iff. reflexivity. Qed.

Lemma le_val_32 s : length s = 32%nat -> 0 <= le_val s < 2 ^ 256.
Proof. intro L. pose proof (le_val_range s) as R. rewrite L, p256_32 in R. exact R. Qed.

Lemma split_255 v : 0 <= v < 2 ^ 256 -> v = v mod 2 ^ 255 + (if 2 ^ 255 <=? v then 2 ^ 255 else 0).
Proof.
  intro R. destruct (2 ^ 255 <=? v) eqn:E.
  - apply Z.leb_le in E. replace v with ((v - 2 ^ 255) + 1 * 2 ^ 255) at 2 by ring.
    rewrite Z.mod_add by discriminate. rewrite Z.mod_small; [ring|].
    change (2 ^ 256) with (2 * 2 ^ 255) in R. lia.
  - apply Z.leb_gt in E. rewrite Z.mod_small; lia.
Qed.

Theorem decode_unique s p : point_from s = Some p -> le_val s mod 2 ^ 255 < p25519 -> px p <> gzero ->
  s = point_bytes p.
Proof.
  intros D B X. apply decode_exact in D. destruct D as (L & Y & [S|S]); [tauto|].
  rewrite Z.mod_small in Y by (split; [apply Z.mod_pos_bound; reflexivity|exact B]).
  apply le_val_inj; [unfold point_bytes; rewrite ge_bytes_length; exact L|].
  unfold point_bytes. rewrite ge_bytes_val, S, Y. apply split_255. apply le_val_32. exact L.
Qed.

Lemma le_32 v : 0 <= v < 2 ^ 256 -> length (le_bytes 32 v) = 32%nat /\ le_val (le_bytes 32 v) = v.
Proof. intro R. split; [apply le_bytes_length|]. apply le_bytes_small. rewrite p256_32. exact R. Qed.

Lemma p_range : 0 < p25519 < 2 ^ 255 /\ 2 ^ 255 = p25519 + 19.
Proof. repeat match goal with |- _ /\ _ => split end; reflexivity. Qed.

Lemma two_bits : 2 ^ 256 = 2 ^ 255 + 2 ^ 255.
Proof. reflexivity. Qed.

(** the sign of a point without one is not looked at *)
Theorem decode_sign p (b : bool) : px p = gzero ->
  point_from (le_bytes 32 (gfv (py p) + if b then 2 ^ 255 else 0)) = Some p.
Proof.
  intro X. pose proof (gfv_range (py p)) as R. destruct p_range as [P Q]. pose proof two_bits as T.
  set (y := gfv (py p)) in *. set (w := 2 ^ 255) in *.
  assert (V : 0 <= y + (if b then w else 0) < 2 ^ 256) by (destruct b; lia).
  destruct (le_32 _ V) as [L E]. apply decode_exact. split; [exact L|]. split; [|left; exact X].
  fold w. rewrite E. replace ((y + (if b then w else 0)) mod w) with y.
  - symmetry. apply Z.mod_small. exact R.
  - destruct b; [replace (y + w) with (y + 1 * w) by ring; rewrite Z.mod_add by (unfold w; discriminate)|rewrite Z.add_0_r];
      symmetry; apply Z.mod_small; lia.
Qed.

(** a coordinate that is small is also read from the number above the modulus *)
Theorem decode_above p : gfv (py p) < 19 ->
  let s := le_bytes 32 (gfv (py p) + p25519 + if fe_negative (px p) then 2 ^ 255 else 0) in
  point_from s = Some p /\ s <> point_bytes p.
Proof.
  intro Y. cbv zeta. pose proof (gfv_range (py p)) as R. destruct p_range as [P Q]. pose proof two_bits as T.
  set (y := gfv (py p)) in *. set (w := 2 ^ 255) in *. set (n := fe_negative (px p)).
  assert (V : 0 <= y + p25519 + (if n then w else 0) < 2 ^ 256) by (destruct n; lia).
  destruct (le_32 _ V) as [L E]. split.
  - apply decode_exact. split; [exact L|]. fold w y n. rewrite E. split.
    + replace ((y + p25519 + (if n then w else 0)) mod w) with (y + 1 * p25519).
      * rewrite Z.mod_add by (intro H; lia). symmetry. apply Z.mod_small. exact R.
      * destruct n; [replace (y + p25519 + w) with (y + p25519 + 1 * w) by ring; rewrite Z.mod_add by (unfold w; discriminate)|rewrite Z.add_0_r];
          symmetry; rewrite Z.mod_small; lia.
    + right. symmetry. destruct n; [apply Z.leb_le|apply Z.leb_gt]; lia.
  - intro H. apply (f_equal le_val) in H. unfold point_bytes in H. rewrite E, ge_bytes_val in H. fold y n w in H. lia.
Qed.

Lemma lower_l : 15 * l25519 < 2 ^ 256.
Proof. reflexivity. Qed.

(** fifteen numbers and any text behind are read as the same private key *)
Theorem key_texts x j more : generated x -> 0 <= j <= 14 ->
  let y := le_bytes 32 (le_val x + j * l25519) in
  scalar_of_string ed25519 (hex_encode (y ++ more)) = Ok y /\ sstr ed25519 y = sstr ed25519 x /\
  (j <> 0 -> y <> x).
Proof.
  intros [L B] J y. pose proof lower_l as LL. pose proof (le_val_range x) as R. pose proof l_pos as LP.
  assert (V : 0 <= le_val x + j * l25519 < 2 ^ 256) by nia.
  destruct (le_32 _ V) as [L' E]. fold y in L', E.
  repeat match goal with |- _ /\ _ => split end.
  - unfold scalar_of_string. rewrite hex_decode_encode. cbn [rbind]. cbn [ed25519 sdec]. unfold scalar_from.
    rewrite app_length, L'. replace (Nat.ltb (32 + length more) 32) with false by (symmetry; apply Nat.ltb_ge; lia).
    rewrite firstn_app, L', Nat.sub_diag, firstn_all2 by lia. cbn [firstn]. rewrite app_nil_r. reflexivity.
  - unfold sstr. f_equal. cbn [ed25519 senc]. unfold scalar_bytes. apply le_val_inj; [rewrite !scalar_of_length; reflexivity|].
    rewrite !scalar_of_val, E. apply Z.mod_add. discriminate.
  - intros N H. rewrite H in E. nia.
Qed.
