(** The group law of a twisted Edwards curve [- x^2 + y^2 = 1 + d x^2 y^2] over
    a field where [-1] is a square and [d] is not.  The law is total there.
    Nothing in this file is a model of code of /repo. *)
From Coq Require Import Field Ring.

Section Edwards.
Variable F : Type.
Variables (f0 f1 : F) (fadd fmul fsub : F -> F -> F) (fopp : F -> F)
          (fdiv : F -> F -> F) (finv : F -> F).
Hypothesis Fth : field_theory f0 f1 fadd fmul fsub fopp fdiv finv eq.

Declare Scope F_scope.
Local Open Scope F_scope.
Local Notation "0" := f0 : F_scope.
Local Notation "1" := f1 : F_scope.
Local Infix "+" := fadd : F_scope.
Local Infix "*" := fmul : F_scope.
Local Infix "-" := fsub : F_scope.
Local Infix "/" := fdiv : F_scope.
Local Notation "- x" := (fopp x) : F_scope.

Add Field Ffield : Fth.

Variables d i : F.
Hypothesis eq_dec : forall x y : F, {x = y} + {x <> y}.
Hypothesis i_square : i * i = - (1).
Hypothesis d_nonsquare : forall x, x * x <> d.
Hypothesis two_nonzero : 1 + 1 <> 0.

Definition on_curve (x y : F) : Prop := - (x * x) + y * y = 1 + d * (x * x) * (y * y).

(** the sum of two points *)
Definition ed_k (x1 y1 x2 y2 : F) : F := d * x1 * x2 * y1 * y2.
Definition ed_x (x1 y1 x2 y2 : F) : F := (x1 * y2 + y1 * x2) / (1 + ed_k x1 y1 x2 y2).
Definition ed_y (x1 y1 x2 y2 : F) : F := (y1 * y2 + x1 * x2) / (1 - ed_k x1 y1 x2 y2).

Lemma f1_nonzero : 1 <> 0.
Proof. exact (F_1_neq_0 Fth). Qed.

Lemma mul_zero a b : a * b = 0 -> a = 0 \/ b = 0.
Proof.
  intro H. destruct (eq_dec a 0) as [A|A]; [left; exact A|right].
  assert (E : b = (a * b) / a) by (field; exact A). rewrite E, H. field. exact A.
Qed.

Lemma mul_nonzero a b : a <> 0 -> b <> 0 -> a * b <> 0.
Proof. intros A B H. apply mul_zero in H. tauto. Qed.

Lemma sub_zero a b : a - b = 0 -> a = b.
Proof. intro H. assert (E : a = (a - b) + b) by ring. rewrite E, H. ring. Qed.

Lemma d_nonzero : d <> 0.
Proof. intro H. apply (d_nonsquare 0). rewrite H. ring. Qed.

(** if [a^2 = d b^2] then both are zero *)
Lemma nonsquare_zero a b : a * a = d * (b * b) -> b = 0.
Proof.
  intro H. destruct (eq_dec b 0) as [B|B]; [exact B|exfalso].
  apply (d_nonsquare (a / b)).
  replace (a / b * (a / b)) with ((a * a) / (b * b)) by (field; exact B).
  rewrite H. field. exact B.
Qed.

(** completeness: the denominators never vanish *)
Lemma complete_square x1 y1 x2 y2 : on_curve x1 y1 -> on_curve x2 y2 ->
  ed_k x1 y1 x2 y2 * ed_k x1 y1 x2 y2 <> 1.
Proof.
  unfold on_curve. intros H1 H2 K. set (k := ed_k x1 y1 x2 y2) in *.
  assert (KN : k <> 0). { intro Z. rewrite Z in K. apply f1_nonzero. rewrite <- K. ring. }
  assert (E : d * (x1 * x1) * (y1 * y1) * (- (x2 * x2) + y2 * y2) = - (x1 * x1) + y1 * y1).
  { rewrite H2, H1. replace (d * (x1 * x1) * (y1 * y1) * (1 + d * (x2 * x2) * (y2 * y2)))
      with (d * (x1 * x1) * (y1 * y1) + k * k) by (unfold k, ed_k; ring).
    rewrite K. ring. }
  assert (KD : k = d * x1 * x2 * y1 * y2) by reflexivity.
  (* (i x1 + s k y1)^2 = d (x1 y1 (i x2 + s y2) )^2 for s = 1, -1 *)
  assert (S1 : (i * x1 + k * y1) * (i * x1 + k * y1) = d * ((x1 * y1 * (i * x2 + y2)) * (x1 * y1 * (i * x2 + y2)))).
  { transitivity (- (x1 * x1) + (k * k) * (y1 * y1) + (1 + 1) * i * x1 * y1 * k).
    - ring [i_square].
    - rewrite K. rewrite KD.
      transitivity (d * (x1 * x1) * (y1 * y1) * (- (x2 * x2) + y2 * y2) + (1 + 1) * i * x1 * y1 * (d * x1 * x2 * y1 * y2)).
      + rewrite E. ring.
      + ring [i_square]. }
  assert (S2 : (i * x1 - k * y1) * (i * x1 - k * y1) = d * ((x1 * y1 * (i * x2 - y2)) * (x1 * y1 * (i * x2 - y2)))).
  { transitivity (- (x1 * x1) + (k * k) * (y1 * y1) - (1 + 1) * i * x1 * y1 * k).
    - ring [i_square].
    - rewrite K. rewrite KD.
      transitivity (d * (x1 * x1) * (y1 * y1) * (- (x2 * x2) + y2 * y2) - (1 + 1) * i * x1 * y1 * (d * x1 * x2 * y1 * y2)).
      + rewrite E. ring.
      + ring [i_square]. }
  apply nonsquare_zero in S1. apply nonsquare_zero in S2.
  assert (X1 : x1 <> 0) by (intro Z; apply KN; rewrite KD, Z; ring).
  assert (Y1 : y1 <> 0) by (intro Z; apply KN; rewrite KD, Z; ring).
  assert (Y2 : y2 <> 0) by (intro Z; apply KN; rewrite KD, Z; ring).
  apply mul_zero in S1. destruct S1 as [S1|S1]; [apply mul_zero in S1; tauto|].
  apply mul_zero in S2. destruct S2 as [S2|S2]; [apply mul_zero in S2; tauto|].
  assert (T : (1 + 1) * y2 = 0).
  { transitivity ((i * x2 + y2) - (i * x2 - y2)); [ring|]. rewrite S1, S2. ring. }
  apply mul_zero in T. tauto.
Qed.

Lemma complete_plus x1 y1 x2 y2 : on_curve x1 y1 -> on_curve x2 y2 ->
  1 + ed_k x1 y1 x2 y2 <> 0.
Proof.
  intros H1 H2 Z. apply (complete_square x1 y1 x2 y2 H1 H2).
  set (k := ed_k x1 y1 x2 y2) in *.
  transitivity ((1 + k) * (k - 1) + 1); [ring|]. rewrite Z. ring.
Qed.

Lemma complete_minus x1 y1 x2 y2 : on_curve x1 y1 -> on_curve x2 y2 ->
  1 - ed_k x1 y1 x2 y2 <> 0.
Proof.
  intros H1 H2 Z. apply (complete_square x1 y1 x2 y2 H1 H2).
  set (k := ed_k x1 y1 x2 y2) in *.
  transitivity (1 - (1 - k) * (1 + k)); [ring|]. rewrite Z. ring.
Qed.

Lemma div_eq a b c e : b <> 0 -> e <> 0 -> a * e = c * b -> a / b = c / e.
Proof.
  intros B E H. transitivity ((a * e) / (b * e)); [field; split; assumption|].
  rewrite H. field. split; assumption.
Qed.

(** the curve equation, solved for the product of the squares *)
Lemma on_curve_prod x y : on_curve x y <-> x * x * (y * y) = (1 / d) * (- (x * x) + y * y - 1).
Proof.
  unfold on_curve. split; intro H.
  - transitivity ((1 / d) * ((1 + d * (x * x) * (y * y)) - 1)).
    + field. exact d_nonzero.
    + rewrite <- H. reflexivity.
  - transitivity (1 + d * (x * x * (y * y))).
    + rewrite H. field. exact d_nonzero.
    + ring.
Qed.

(** closure *)
Lemma ed_on_curve x1 y1 x2 y2 : on_curve x1 y1 -> on_curve x2 y2 ->
  on_curve (ed_x x1 y1 x2 y2) (ed_y x1 y1 x2 y2).
Proof.
  intros H1 H2. pose proof (complete_plus _ _ _ _ H1 H2) as P. pose proof (complete_minus _ _ _ _ H1 H2) as M.
  unfold ed_x, ed_y. unfold on_curve.
  apply on_curve_prod in H1. apply on_curve_prod in H2.
  set (c := 1 / d) in *. assert (DC : d * c = 1) by (unfold c; field; exact d_nonzero).
  clearbody c.
  set (k := ed_k x1 y1 x2 y2) in *.
  set (a := x1 * y2 + y1 * x2). set (b := y1 * y2 + x1 * x2).
  assert (E : - (a * a) * ((1 - k) * (1 - k)) + (b * b) * ((1 + k) * (1 + k))
              = (1 + k) * (1 + k) * ((1 - k) * (1 - k)) + d * (a * a) * (b * b)).
  { unfold a, b, k, ed_k. clear P M k a b. ring [DC H1 H2]. }
  clearbody a b k.
  transitivity ((- (a * a) * ((1 - k) * (1 - k)) + (b * b) * ((1 + k) * (1 + k))) / ((1 + k) * (1 + k) * ((1 - k) * (1 - k)))).
  - field. split; assumption.
  - rewrite E. field. split; assumption.
Qed.

Ltac nonzero :=
  match goal with
  | H : ?a <> f0 |- ?b <> f0 => let Z := fresh in intro Z; apply H; rewrite <- Z; ring
  end.

(** associativity, on the numerators *)
Lemma ed_assoc x1 y1 x2 y2 x3 y3 : on_curve x1 y1 -> on_curve x2 y2 -> on_curve x3 y3 ->
  ed_x (ed_x x1 y1 x2 y2) (ed_y x1 y1 x2 y2) x3 y3 = ed_x x1 y1 (ed_x x2 y2 x3 y3) (ed_y x2 y2 x3 y3) /\
  ed_y (ed_x x1 y1 x2 y2) (ed_y x1 y1 x2 y2) x3 y3 = ed_y x1 y1 (ed_x x2 y2 x3 y3) (ed_y x2 y2 x3 y3).
Proof.
  intros H1 H2 H3.
  pose proof (ed_on_curve _ _ _ _ H1 H2) as H12. pose proof (ed_on_curve _ _ _ _ H2 H3) as H23.
  pose proof (complete_plus _ _ _ _ H12 H3) as P12. pose proof (complete_minus _ _ _ _ H12 H3) as M12.
  pose proof (complete_plus _ _ _ _ H1 H23) as P23. pose proof (complete_minus _ _ _ _ H1 H23) as M23.
  pose proof (complete_plus _ _ _ _ H1 H2) as P1. pose proof (complete_minus _ _ _ _ H1 H2) as M1.
  pose proof (complete_plus _ _ _ _ H2 H3) as P2. pose proof (complete_minus _ _ _ _ H2 H3) as M2.
  clear H12 H23.
  apply on_curve_prod in H1. apply on_curve_prod in H2. apply on_curve_prod in H3.
  set (c := 1 / d) in *. assert (DC : d * c = 1) by (unfold c; field; exact d_nonzero).
  clearbody c.
  unfold ed_x, ed_y in *.
  set (k := ed_k x1 y1 x2 y2) in *. set (k' := ed_k x2 y2 x3 y3) in *.
  unfold ed_k in P12, M12, P23, M23 |- *.
  set (a := x1 * y2 + y1 * x2) in *. set (b := y1 * y2 + x1 * x2) in *.
  set (a' := x2 * y3 + y2 * x3) in *. set (b' := y2 * y3 + x2 * x3) in *.
  assert (Q12 : (1 + k) * (1 - k) + d * a * b * x3 * y3 <> 0).
  { intro Z. apply P12. transitivity (((1 + k) * (1 - k) + d * a * b * x3 * y3) / ((1 + k) * (1 - k))).
    - field. split; assumption. - rewrite Z. field. split; assumption. }
  assert (N12 : (1 + k) * (1 - k) - d * a * b * x3 * y3 <> 0).
  { intro Z. apply M12. transitivity (((1 + k) * (1 - k) - d * a * b * x3 * y3) / ((1 + k) * (1 - k))).
    - field. split; assumption. - rewrite Z. field. split; assumption. }
  assert (Q23 : (1 + k') * (1 - k') + d * a' * b' * x1 * y1 <> 0).
  { intro Z. apply P23. transitivity (((1 + k') * (1 - k') + d * a' * b' * x1 * y1) / ((1 + k') * (1 - k'))).
    - field. split; assumption. - rewrite Z. field. split; assumption. }
  assert (N23 : (1 + k') * (1 - k') - d * a' * b' * x1 * y1 <> 0).
  { intro Z. apply M23. transitivity (((1 + k') * (1 - k') - d * a' * b' * x1 * y1) / ((1 + k') * (1 - k'))).
    - field. split; assumption. - rewrite Z. field. split; assumption. }
  split.
  - transitivity ((a * (1 - k) * y3 + b * (1 + k) * x3) / ((1 + k) * (1 - k) + d * a * b * x3 * y3)).
    { clearbody a b a' b' k k'. field. repeat split; first [assumption | nonzero]. }
    transitivity ((x1 * b' * (1 + k') + y1 * a' * (1 - k')) / ((1 + k') * (1 - k') + d * a' * b' * x1 * y1)).
    2: { clearbody a b a' b' k k'. field. repeat split; first [assumption | nonzero]. }
    apply div_eq; [assumption|assumption|].
    unfold a, b, a', b', k, k', ed_k. clear - DC H1 H2 H3 Fth. Time ring [DC H1 H2 H3].
  - transitivity ((b * (1 + k) * y3 + a * (1 - k) * x3) / ((1 + k) * (1 - k) - d * a * b * x3 * y3)).
    { clearbody a b a' b' k k'. field. repeat split; first [assumption | nonzero]. }
    transitivity ((y1 * b' * (1 + k') + x1 * a' * (1 - k')) / ((1 + k') * (1 - k') - d * a' * b' * x1 * y1)).
    2: { clearbody a b a' b' k k'. field. repeat split; first [assumption | nonzero]. }
    apply div_eq; [assumption|assumption|].
    unfold a, b, a', b', k, k', ed_k. clear - DC H1 H2 H3 Fth. Time ring [DC H1 H2 H3].
Qed.
End Edwards.
