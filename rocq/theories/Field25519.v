(** The field of the curve: the integers modulo [2^255 - 19].

    The Go code (vendor/go.dedis.ch/kyber/v3/group/edwards25519/fe.go) keeps an
    element as ten signed limbs of 26 and 25 bits.  The model keeps the number
    they stand for, reduced.  This is the simplification of this file; LimbProofs.v relates
    the limbs to it. *)
From Coq Require Import ZArith Znumtheory Bool Field Eqdep_dec Lia ZifyBool ZifyNat ZifyN.
From Verif Require Import NumberTheory Primes25519.
Local Open Scope Z_scope.

Definition reduced25519 (z : Z) : bool := (0 <=? z) && (z <? p25519).

(** fe.go:16: [type fieldElement [10]int32] *)
Record gf : Type := mkgf { gfv : Z; gfok : reduced25519 gfv = true }.

Lemma p25519_pos : 0 < p25519.
Proof. reflexivity. Qed.

(** [z mod p25519], computed by folding the bits above the 255th *)
Definition fold255 (z : Z) : Z := Z.land z (2 ^ 255 - 1) + 19 * Z.shiftr z 255.
Definition modp (z : Z) : Z :=
  if z <? 0 then (if - p25519 <=? z then z + p25519 else z mod p25519)
  else let z := fold255 (fold255 z) in
       if z <? p25519 then z
       else if z <? 2 * p25519 then z - p25519 else z mod p25519.

Lemma fold255_eq z : 0 <= z -> 0 <= fold255 z /\ exists k, fold255 z = z - k * p25519.
Proof.
  intro Z0. unfold fold255.
  change (2 ^ 255 - 1) with (Z.ones 255). rewrite Z.land_ones by discriminate.
  rewrite Z.shiftr_div_pow2 by discriminate.
  pose proof (Z.div_mod z (2 ^ 255) ltac:(discriminate)) as E.
  pose proof (Z.mod_pos_bound z (2 ^ 255) eq_refl) as B.
  pose proof (Z.div_pos z (2 ^ 255) Z0 eq_refl) as D.
  split; [lia|]. exists (z / 2 ^ 255). rewrite p25519_eq.
  set (q := z / 2 ^ 255) in *. set (r := z mod 2 ^ 255) in *. rewrite E.
  ring_simplify. lia.
Qed.

Lemma modp_eq z : modp z = z mod p25519.
Proof.
  unfold modp. destruct (z <? 0) eqn:N.
  - destruct (- p25519 <=? z) eqn:B; [|reflexivity].
    destruct (Z.eq_dec z (- p25519)) as [E|E].
    + subst z. reflexivity.
    + apply Z.mod_unique with (q := -1); [left; lia|]. lia.
  - destruct (fold255_eq z ltac:(lia)) as [P1 [k1 E1]].
    destruct (fold255_eq _ P1) as [P2 [k2 E2]].
    set (w := fold255 (fold255 z)) in *. rewrite E1 in E2. clearbody w. clear E1 P1.
    assert (M : w mod p25519 = z mod p25519).
    { rewrite E2. replace (z - k1 * p25519 - k2 * p25519) with (z + (- k1 - k2) * p25519) by ring.
      apply Z.mod_add. discriminate. }
    rewrite <- M. clear - P2. destruct (w <? p25519) eqn:L.
    + symmetry. apply Z.mod_small. lia.
    + destruct (w <? 2 * p25519) eqn:L2; [|reflexivity].
      apply Z.mod_unique with (q := 1); [left; lia|]. lia.
Qed.

Lemma reduced_mod z : reduced25519 (modp z) = true.
Proof.
  rewrite modp_eq. unfold reduced25519. pose proof (Z.mod_pos_bound z p25519 p25519_pos). lia.
Qed.

Definition gof (z : Z) : gf := mkgf (modp z) (reduced_mod z).

(** fe.go:20-33, 37-40, 274-285, 307-545: the operations on the numbers *)
Definition gzero : gf := gof 0.
Definition gone : gf := gof 1.
Definition gadd (a b : gf) : gf := gof (gfv a + gfv b).
Definition gsub (a b : gf) : gf := gof (gfv a - gfv b).
Definition gopp (a : gf) : gf := gof (- gfv a).
Definition gmul (a b : gf) : gf := gof (gfv a * gfv b).

(** the inverse as a power; fe.go:860-913 is shown to compute it *)
Definition ginv (a : gf) : gf := gof (powmod (gfv a) (p25519 - 2) p25519).
Definition gdiv (a b : gf) : gf := gmul a (ginv b).

Definition geqb (a b : gf) : bool := gfv a =? gfv b.

Lemma gf_eq a b : gfv a = gfv b -> a = b.
Proof.
  destruct a as [a A], b as [b B]. cbn [gfv]. intro E. subst b. f_equal.
  apply UIP_dec. apply bool_dec.
Qed.

Lemma geqb_eq a b : geqb a b = true <-> a = b.
Proof.
  unfold geqb. split.
  - intro E. apply gf_eq. lia.
  - intro E. subst b. lia.
Qed.

Lemma gf_dec (a b : gf) : {a = b} + {a <> b}.
Proof.
  destruct (geqb a b) eqn:E.
  - left. apply geqb_eq. exact E.
  - right. intro H. apply geqb_eq in H. congruence.
Qed.

Lemma gfv_range a : 0 <= gfv a < p25519.
Proof. destruct a as [a A]. cbn [gfv]. unfold reduced25519 in A. lia. Qed.

Lemma gfv_gof z : gfv (gof z) = z mod p25519.
Proof. exact (modp_eq z). Qed.

Lemma gof_gfv a : gof (gfv a) = a.
Proof. apply gf_eq. rewrite gfv_gof. apply Z.mod_small. apply gfv_range. Qed.

Lemma gof_eq a b : a mod p25519 = b mod p25519 -> gof a = gof b.
Proof. intro E. apply gf_eq. rewrite !gfv_gof. exact E. Qed.

Lemma gof_mod a : gof (a mod p25519) = gof a.
Proof. apply gof_eq. apply Z.mod_mod. discriminate. Qed.

Lemma gadd_of a b : gadd (gof a) (gof b) = gof (a + b).
Proof. apply gof_eq. rewrite !gfv_gof. symmetry. apply Z.add_mod. discriminate. Qed.

Lemma gmul_of a b : gmul (gof a) (gof b) = gof (a * b).
Proof. apply gof_eq. rewrite !gfv_gof. symmetry. apply Z.mul_mod. discriminate. Qed.

Lemma gsub_of a b : gsub (gof a) (gof b) = gof (a - b).
Proof. apply gof_eq. rewrite !gfv_gof. symmetry. apply Zminus_mod. Qed.

Lemma gopp_of a : gopp (gof a) = gof (- a).
Proof.
  apply gof_eq. rewrite gfv_gof. rewrite <- !Z.sub_0_l, Zminus_mod, Z.mod_mod by discriminate.
  rewrite <- Zminus_mod. reflexivity.
Qed.

Ltac gf_lift a := rewrite <- (gof_gfv a); generalize (gfv a); clear a; intro a.

Lemma gf_ring : ring_theory gzero gone gadd gmul gsub gopp eq.
Proof.
  constructor; unfold gzero, gone; intros;
    repeat match goal with x : gf |- _ => gf_lift x end;
    repeat (rewrite ?gadd_of, ?gmul_of, ?gsub_of, ?gopp_of); f_equal; ring.
Qed.

Lemma gf_divided a : (p25519 | gfv a) -> a = gzero.
Proof.
  intro D. apply gf_eq. apply Z.mod_divide in D; [|discriminate].
  rewrite Z.mod_small in D by apply gfv_range. rewrite D. reflexivity.
Qed.

Lemma gf_inverse a : a <> gzero -> gmul (ginv a) a = gone.
Proof.
  intro A. rewrite <- (gof_gfv a) at 2. unfold ginv. rewrite gmul_of. apply gof_eq.
  rewrite powmod_eq by discriminate. rewrite Z.mul_mod_idemp_l by discriminate.
  rewrite (Z.mul_comm _ (gfv a)), <- Z.pow_succ_r by discriminate.
  replace (Z.succ (p25519 - 2)) with (p25519 - 1) by reflexivity.
  rewrite fermat; [reflexivity|exact p25519_prime|].
  intro D. apply A. apply gf_divided. exact D.
Qed.

Lemma gf_field : field_theory gzero gone gadd gmul gsub gopp gdiv ginv eq.
Proof.
  constructor.
  - exact gf_ring.
  - intro H. apply (f_equal gfv) in H. discriminate H.
  - reflexivity.
  - exact gf_inverse.
Qed.

(** powers *)
Fixpoint gpow_pos (a : gf) (e : positive) : gf :=
  match e with
  | xH => a
  | xO e' => let r := gpow_pos a e' in gmul r r
  | xI e' => let r := gpow_pos a e' in gmul (gmul r r) a
  end.

Lemma gpow_pos_of a e : gpow_pos (gof a) e = gof (a ^ Zpos e).
Proof.
  induction e; cbn [gpow_pos].
  - rewrite IHe, !gmul_of, Pos2Z.inj_xI, Z.pow_add_r, Z.pow_1_r, Z.pow_twice_r by lia. reflexivity.
  - rewrite IHe, gmul_of, Pos2Z.inj_xO, Z.pow_twice_r. reflexivity.
  - rewrite Z.pow_1_r. reflexivity.
Qed.

Lemma gpow_pos_eq a e : gpow_pos a e = gof (gfv a ^ Zpos e).
Proof. rewrite <- (gof_gfv a) at 1. apply gpow_pos_of. Qed.

Lemma gpow_add a m n : gmul (gpow_pos a m) (gpow_pos a n) = gpow_pos a (m + n).
Proof. rewrite !gpow_pos_eq, gmul_of, Pos2Z.inj_add, Z.pow_add_r by lia. reflexivity. Qed.

Lemma gpow_mul a m n : gpow_pos (gpow_pos a m) n = gpow_pos a (m * n).
Proof.
  rewrite (gpow_pos_eq a m), gpow_pos_of, gpow_pos_eq, Pos2Z.inj_mul, Z.pow_mul_r by lia. reflexivity.
Qed.

Lemma gpow_mult a b n : gpow_pos (gmul a b) n = gmul (gpow_pos a n) (gpow_pos b n).
Proof.
  gf_lift a; gf_lift b. rewrite gmul_of, !gpow_pos_of, gmul_of, Z.pow_mul_l. reflexivity.
Qed.

Lemma ginv_pow a : ginv a = gpow_pos a (Z.to_pos (p25519 - 2)).
Proof.
  rewrite gpow_pos_eq. unfold ginv. rewrite powmod_eq by discriminate. apply gof_mod.
Qed.

Lemma gf_fermat a : a <> gzero -> gpow_pos a (Z.to_pos (p25519 - 1)) = gone.
Proof.
  intro A. rewrite gpow_pos_eq. apply gof_eq.
  change (Zpos (Z.to_pos (p25519 - 1))) with (p25519 - 1).
  rewrite fermat; [reflexivity|exact p25519_prime|].
  intro D. apply A. apply gf_divided. exact D.
Qed.
