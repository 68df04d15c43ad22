(** The curve of the code, as an instance of the parameter the signature model
    is written over (SignModel.v), and the laws that the signature theorems
    assume of a curve: they hold of this one. *)
From Coq Require Import Lia ZifyBool ZifyNat ZifyN Znumtheory.
From Verif Require Import Base BaseFacts Primes25519 NumberTheory Field25519 GroupMultiples
  LittleEndian Edwards25519Model Edwards25519Proofs Edwards25519More Sha256 SignModel SignSpec.
Local Open Scope Z_scope.

(** libs/cryptography/pk/signature/sdk.go:30:
    [var curve = edwards25519.NewBlakeSHA256Ed25519()] *)
Definition ed25519 : Curve := mkCurve
  bytes point point_base point_mul point_add point_sub point_eqb point_bytes point_from
  scalar_sub scalar_mul scalar_inverse scalar_eqb scalar_bytes scalar_from scalar_set_bytes
  sha_256.

(** a scalar below the order *)
Definition scalar_reduced (s : bytes) : Prop := length s = 32%nat /\ le_val s < l25519.

Lemma l_pos : 0 < l25519.
Proof. reflexivity. Qed.

Lemma l_below : l25519 < 2 ^ 255.
Proof. reflexivity. Qed.

Lemma scalar_of_val z : le_val (scalar_of z) = z mod l25519.
Proof.
  unfold scalar_of. apply le_bytes_small. rewrite p256_32.
  pose proof (Z.mod_pos_bound z l25519 l_pos). assert (l25519 < 2 ^ 256) by reflexivity. lia.
Qed.

Lemma scalar_of_length z : length (scalar_of z) = 32%nat.
Proof. apply le_bytes_length. Qed.

Lemma scalar_of_reduced z : scalar_reduced (scalar_of z).
Proof.
  split; [apply scalar_of_length|]. rewrite scalar_of_val. apply Z.mod_pos_bound. exact l_pos.
Qed.

Lemma reduced_mod_l s : scalar_reduced s -> le_val s mod l25519 = le_val s.
Proof. intros [_ H]. apply Z.mod_small. pose proof (le_val_range s). lia. Qed.

Lemma scalar_of_le s : scalar_reduced s -> scalar_of (le_val s) = s.
Proof.
  intro H. unfold scalar_of. rewrite reduced_mod_l by exact H. apply le_bytes_val_n. apply H.
Qed.

Lemma reduced_eq s t : scalar_reduced s -> scalar_reduced t -> le_val s mod l25519 = le_val t mod l25519 -> s = t.
Proof.
  intros S T E. rewrite !reduced_mod_l in E by assumption.
  apply le_val_inj; [rewrite (proj1 S), (proj1 T); reflexivity|exact E].
Qed.

Lemma point_mul_reduced s p : scalar_reduced s -> point_mul s p = le_val s ** p.
Proof.
  intros [L B]. apply point_mul_eq; [exact L|]. pose proof l_below. lia.
Qed.

(** a multiple of the base point by a computed scalar *)
Lemma point_mul_of z : point_mul (scalar_of z) point_base = z ** point_base.
Proof. rewrite point_mul_reduced by apply scalar_of_reduced. rewrite scalar_of_val. apply zm_mod. Qed.

(** ** Inversion of scalars *)

Lemma scalar_inv_fold a n : forall r,
  le_val r mod l25519 = (le_val a ^ Z.shiftr l_minus_2 (Z.of_nat n)) mod l25519 ->
  le_val (fold_left (fun r i => let r := scalar_mul r r in
                                if Z.testbit l_minus_2 (Z.of_nat i) then scalar_mul r a else r)
                    (rev (seq 0 n)) r) mod l25519
  = (le_val a ^ l_minus_2) mod l25519.
Proof.
  assert (L0 : l25519 <> 0) by discriminate.
  induction n; intros r H.
  - cbn [seq rev fold_left]. rewrite H. rewrite Z.shiftr_0_r. reflexivity.
  - rewrite seq_S, rev_app_distr. cbn [rev app fold_left plus]. apply IHn. clear IHn.
    set (x := le_val a) in *. set (e := Z.shiftr l_minus_2 (Z.of_nat (S n))) in *.
    assert (E0 : 0 <= e) by (unfold e; rewrite Z.shiftr_nonneg; discriminate).
    assert (E : Z.shiftr l_minus_2 (Z.of_nat n) = 2 * e + (if Z.testbit l_minus_2 (Z.of_nat n) then 1 else 0)).
    { unfold e. rewrite Nat2Z.inj_succ, <- Z.add_1_r, <- Z.shiftr_shiftr by lia.
      rewrite (Z.div2_odd (Z.shiftr l_minus_2 (Z.of_nat n))) at 1.
      rewrite <- (Z.bit0_odd (Z.shiftr _ _)), Z.shiftr_spec, Z.add_0_l by lia.
      rewrite Z.div2_spec. destruct (Z.testbit l_minus_2 (Z.of_nat n)); reflexivity. }
    assert (SQ : le_val (scalar_mul r r) mod l25519 = (x ^ (2 * e)) mod l25519).
    { unfold scalar_mul. rewrite scalar_of_val, Z.mod_mod, Z.mul_mod, H, <- Z.mul_mod by exact L0.
      rewrite Z.pow_twice_r. reflexivity. }
    cbv zeta. destruct (Z.testbit l_minus_2 (Z.of_nat n)).
    + unfold scalar_mul at 1. rewrite scalar_of_val, Z.mod_mod, Z.mul_mod, SQ, <- Z.mul_mod by exact L0.
      rewrite E, Z.pow_add_r, Z.pow_1_r by lia. reflexivity.
    + rewrite SQ, E, Z.add_0_r. reflexivity.
Qed.

Lemma scalar_inv_val a : le_val (scalar_inv a) mod l25519 = (le_val a ^ (l25519 - 2)) mod l25519.
Proof.
  unfold scalar_inv. rewrite (scalar_inv_fold a 256); [reflexivity|].
  change (Z.shiftr l_minus_2 (Z.of_nat 256)) with 0. rewrite Z.pow_0_r. reflexivity.
Qed.

Lemma scalar_inverse_val a : le_val (scalar_inverse a) = (le_val a ^ (l25519 - 2)) mod l25519.
Proof.
  unfold scalar_inverse, scalar_mul. rewrite scalar_of_val. change (le_val scalar_one) with 1.
  rewrite Z.mul_1_l. apply scalar_inv_val.
Qed.

Lemma scalar_zero_val : le_val scalar_zero = 0.
Proof. reflexivity. Qed.

Lemma reduced_nonzero e : scalar_reduced e -> e <> scalar_zero -> ~ (l25519 | le_val e).
Proof.
  intros R N D. apply N. apply reduced_eq; [exact R| |].
  - split; reflexivity.
  - apply Z.mod_divide in D; [|discriminate]. rewrite D. reflexivity.
Qed.

Lemma inverse_product e x : ~ (l25519 | e) -> ((e ^ (l25519 - 2)) * (e * x)) mod l25519 = x mod l25519.
Proof.
  intro N. assert (L0 : l25519 <> 0) by discriminate.
  replace (e ^ (l25519 - 2) * (e * x)) with (e ^ (l25519 - 1) * x).
  - rewrite Z.mul_mod, (fermat l25519 e l25519_prime N) by exact L0. rewrite Z.mul_1_l. apply Z.mod_mod. exact L0.
  - replace (l25519 - 1) with (Z.succ (l25519 - 2)) by reflexivity.
    rewrite Z.pow_succ_r by discriminate. ring.
Qed.

Theorem ed25519_laws : CurveLaws ed25519 scalar_reduced scalar_zero scalar_add.
Proof.
  assert (L0 : l25519 <> 0) by discriminate.
  constructor; cbn [ed25519 Sc Pt base pmul padd psub peqb penc pdec ssub smul sinv seqb senc sdec sofb].
  - exact point_eqb_eq.
  - exact bseq_eq.
  - intro p. apply ge_bytes_length.
  - intro s. apply scalar_of_length.
  - exact point_from_bytes.
  - intros s H. unfold scalar_bytes. rewrite scalar_of_le by exact H.
    unfold scalar_from. destruct H as [L _]. rewrite L. cbn [Nat.ltb Nat.leb].
    rewrite firstn_all2 by lia. reflexivity.
  - intros. apply scalar_of_reduced.
  - intros. apply scalar_of_reduced.
  - intros. apply scalar_of_reduced.
  - intros. apply scalar_of_reduced.
  - intros a b A B. unfold scalar_mul. rewrite point_mul_of, zm_mul.
    rewrite (point_mul_reduced b) by exact B. apply point_mul_reduced. exact A.
  - intros a b A B. unfold scalar_add. rewrite point_mul_of, zm_add, point_add_eq.
    rewrite !point_mul_reduced by assumption. reflexivity.
  - intros a b A B. unfold scalar_sub. rewrite point_mul_of, point_sub_eq.
    rewrite !point_mul_reduced by assumption. unfold Z.sub. rewrite zm_add, zm_opp. reflexivity.
  - intros k a K A. apply reduced_eq; [apply scalar_of_reduced|exact K|].
    unfold scalar_add, scalar_sub. rewrite !scalar_of_val, Z.mod_mod, Z.add_mod_idemp_l by exact L0.
    f_equal. lia.
  - intros k a K A. apply reduced_eq; [apply scalar_of_reduced|exact A|].
    unfold scalar_sub. rewrite !scalar_of_val, Z.mod_mod, Zminus_mod_idemp_r by exact L0.
    f_equal. lia.
  - intros e x E X N. apply reduced_eq; [apply scalar_of_reduced|exact X|].
    unfold scalar_mul. rewrite !scalar_of_val, scalar_inverse_val, Z.mod_mod, Z.mul_mod_idemp_l, Z.mul_mod_idemp_r by exact L0.
    apply inverse_product. apply reduced_nonzero; assumption.
  - intros e x E X N. apply reduced_eq; [apply scalar_of_reduced|exact X|].
    unfold scalar_mul. rewrite !scalar_of_val, scalar_inverse_val, Z.mod_mod by exact L0.
    rewrite Z.mul_mod_idemp_r by exact L0. rewrite Z.mul_assoc, (Z.mul_comm (le_val e)).
    rewrite <- Z.mul_assoc, Z.mul_mod_idemp_l by exact L0.
    apply inverse_product. apply reduced_nonzero; assumption.
Qed.
