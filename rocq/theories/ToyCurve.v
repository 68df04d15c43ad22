(** A small curve meeting the laws: the additive group of the field with 251
    elements, with a one-byte challenge. *)
From Coq Require Import Lia Eqdep_dec ZArith.
From Verif Require Import Base BaseFacts SignModel SignSpec.
Local Open Scope Z_scope.

Definition toy_ok (z : Z) : bool := (0 <=? z) && (z <? 251).
Definition F := { z : Z | toy_ok z = true }.

Lemma toy_mod : forall z, toy_ok (z mod 251) = true.
Proof.
  intro z. pose proof (Z.mod_pos_bound z 251). unfold toy_ok.
  apply andb_true_iff. split; [apply Z.leb_le|apply Z.ltb_lt]; lia.
Qed.
Definition mk (z : Z) : F := exist _ (z mod 251) (toy_mod z).
Definition v (f : F) : Z := proj1_sig f.

Lemma v_range : forall f, 0 <= v f < 251.
Proof.
  intros [z H]. cbn. unfold toy_ok in H. apply andb_true_iff in H as [H1 H2].
  apply Z.leb_le in H1. apply Z.ltb_lt in H2. lia.
Qed.
Lemma v_inj : forall f g, v f = v g -> f = g.
Proof.
  intros [z H] [y H'] E. cbn in E. subst y. f_equal. apply UIP_dec. apply Bool.bool_dec.
Qed.
Lemma v_mk : forall z, v (mk z) = z mod 251.
Proof. reflexivity. Qed.
Lemma mk_v : forall f, mk (v f) = f.
Proof. intro f. apply v_inj. rewrite v_mk. apply Z.mod_small. apply v_range. Qed.

Definition toy_enc (f : F) : bytes := n2b (Z.to_N (v f)) :: repeat x00 31.
Definition toy_dec (b : bytes) : option F :=
  match b with
  | c :: t => if (length t =? 31)%nat then Some (mk (Z.of_N (b2n c))) else None
  | [] => None
  end.
Fixpoint pow_mod (n : nat) (a : Z) : Z :=
  match n with O => 1 | S n => (a * pow_mod n a) mod 251 end.
Definition toy_inv (a : F) : F := mk (pow_mod 249 (v a)).

Definition toy : Curve := {|
  Sc := F; Pt := F; base := mk 1;
  pmul := fun a b => mk (v a * v b);
  padd := fun a b => mk (v a + v b);
  psub := fun a b => mk (v a - v b);
  peqb := fun a b => v a =? v b;
  penc := toy_enc; pdec := toy_dec;
  ssub := fun a b => mk (v a - v b);
  smul := fun a b => mk (v a * v b);
  sinv := toy_inv;
  seqb := fun a b => v a =? v b;
  senc := toy_enc; sdec := toy_dec;
  sofb := fun b => mk (fold_left (fun acc c => (acc * 7 + Z.of_N (b2n c)) mod 251) b 0);
  sha256 := fun m => m
|}.

Lemma inv_table : forallb (fun n => ((Z.of_nat n * pow_mod 249 (Z.of_nat n)) mod 251 =? 1)) (seq 1 250) = true.
Proof. vm_compute. reflexivity. Qed.

Lemma inv_ok : forall e, 0 < e < 251 -> (e * pow_mod 249 e) mod 251 = 1.
Proof.
  intros e H. pose proof inv_table as T. rewrite forallb_forall in T.
  specialize (T (Z.to_nat e)). rewrite Z2Nat.id in T by lia. apply Z.eqb_eq. apply T.
  apply in_seq. lia.
Qed.

Lemma toy_dec_enc : forall f, toy_dec (toy_enc f) = Some f.
Proof.
  intro f. unfold toy_enc, toy_dec. change (length (repeat x00 31) =? 31)%nat with true. cbv iota.
  pose proof (v_range f). rewrite b2n_n2b, N.mod_small by lia. rewrite Z2N.id by lia. rewrite mk_v. reflexivity.
Qed.

Lemma toy_inv_mul : forall e x : F, e <> mk 0 -> mk (v (toy_inv e) * v (mk (v e * v x))) = x.
Proof.
  intros e x He. apply v_inj. unfold toy_inv. rewrite !v_mk.
  assert (R : 0 < v e < 251).
  { pose proof (v_range e). assert (v e <> 0); [|lia]. intro Z0. apply He. apply v_inj. rewrite Z0. reflexivity. }
  pose proof (inv_ok (v e) R) as I. pose proof (v_range x).
  rewrite <- Zmult_mod.
  replace (pow_mod 249 (v e) * (v e * v x)) with ((v e * pow_mod 249 (v e)) * v x) by ring.
  rewrite Zmult_mod, I, Z.mul_1_l, Zmod_mod. apply Z.mod_small. lia.
Qed.

Theorem toy_laws : CurveLaws toy (fun _ => True) (mk 0) (fun a b => mk (v a + v b)).
Proof.
  constructor; cbn [Sc Pt base pmul padd psub peqb penc pdec ssub smul sinv seqb senc sdec sofb toy]; try (intros; exact I).
  - intros p q. rewrite Z.eqb_eq. split; [apply v_inj|congruence].
  - intros p q. rewrite Z.eqb_eq. split; [apply v_inj|congruence].
  - reflexivity.
  - reflexivity.
  - apply toy_dec_enc.
  - intros s _. apply toy_dec_enc.
  - intros a b _ _. apply v_inj. rewrite !v_mk. rewrite (Z.mod_small 1 251), !Z.mul_1_r by lia.
    rewrite Zmod_mod. rewrite Zmult_mod_idemp_r. reflexivity.
  - intros a b _ _. apply v_inj. rewrite !v_mk. rewrite (Z.mod_small 1 251), !Z.mul_1_r by lia.
    rewrite <- Zplus_mod, Zmod_mod. reflexivity.
  - intros a b _ _. apply v_inj. rewrite !v_mk. rewrite (Z.mod_small 1 251), !Z.mul_1_r by lia.
    rewrite <- Zminus_mod, Zmod_mod. reflexivity.
  - intros k a _ _. apply v_inj. rewrite !v_mk. rewrite Zplus_mod_idemp_l.
    replace (v k - v a + v a) with (v k) by ring. apply Z.mod_small. apply v_range.
  - intros k a _ _. apply v_inj. rewrite !v_mk. rewrite Zminus_mod_idemp_r.
    replace (v k - (v k - v a)) with (v a) by ring. apply Z.mod_small. apply v_range.
  - intros e x _ _ He. apply toy_inv_mul. exact He.
  - intros e x _ _ He. rewrite <- (toy_inv_mul e x He) at 2. apply v_inj. rewrite !v_mk.
    rewrite !Zmult_mod_idemp_r. f_equal. ring.
Qed.
