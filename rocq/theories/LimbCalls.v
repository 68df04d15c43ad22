(** The calls of the straight-line functions: nothing wraps around in them, and the
    result may be written over an argument. *)
From Coq Require Import String.
From Coq Require Import Lia ZifyBool ZifyNat ZifyN.
From Verif Require Import Base Primes25519 LittleEndian GoIntModel GoIntCheck LimbCode Edwards25519Model LimbModel LimbSpec LimbProofs LimbScalars.
Local Open Scope Z_scope.

(** ** Nothing wraps around *)

Lemma bounded_never_wraps A p xs is r : bounded A p xs is = true -> holds A r -> never_wraps p r.
Proof.
  unfold bounded. destruct (after A p xs) as [js|] eqn:E; [|discriminate]. intros _ H.
  exact (after_never_wraps A p xs js r E H).
Qed.

Local Opaque feMul feSquare feSquare2 feFromBytes feToBytes scAdd scSub scMul never_wraps exec start.

Lemma two_hold f g : wide f -> wide g ->
  holds (fe_start "f" ++ fe_start "g") (start (combine (elems "f" 10) f ++ combine (elems "g" 10) g)).
Proof.
  intros F G. apply start_holds. apply Forall2_app; [exact (fe_start_holds f F)|].
  apply Forall2_combine; [rewrite (bnd_length _ _ _ G); reflexivity|]. apply bnd_inside. exact G.
Qed.

Theorem mul_never_wraps f g : wide f -> wide g ->
  never_wraps feMul (start (combine (elems "f" 10) f ++ combine (elems "g" 10) g)).
Proof. intros F G. exact (bounded_never_wraps _ _ _ _ _ mul_bounded (two_hold f g F G)). Qed.

Theorem square_never_wraps f : wide f -> never_wraps feSquare (start (combine (elems "f" 10) f)).
Proof. intros F. exact (bounded_never_wraps _ _ _ _ _ square_bounded (start_holds _ _ (fe_start_holds f F))). Qed.

Theorem square2_never_wraps f : wide f -> never_wraps feSquare2 (start (combine (elems "f" 10) f)).
Proof. intros F. exact (bounded_never_wraps _ _ _ _ _ square2_bounded (start_holds _ _ (fe_start_holds f F))). Qed.

Theorem from_never_wraps s : length s = 32%nat ->
  never_wraps feFromBytes (start (combine (elems "src" 32) (map b2z s))).
Proof. intro L. exact (bounded_never_wraps _ _ _ _ _ from_bounded (start_holds _ _ (byte_start_holds "src" s L))). Qed.

Theorem to_never_wraps h : wide h -> never_wraps feToBytes (start (combine (elems "h" 10) h)).
Proof.
  intro F. apply (bounded_never_wraps _ _ _ _ _ to_bounded). apply start_holds.
  apply Forall2_combine; [rewrite (bnd_length _ _ _ F); reflexivity|]. apply bnd_inside. exact F.
Qed.

Lemma tail_bounded A p : tail_ok A p = true -> bounded A p (elems "s" 32) (repeat (0, 255) 32) = true.
Proof. unfold tail_ok. intro T. rewrite !andb_true_iff in T. tauto. Qed.

Lemma scalars_never_wrap y p a b : tail_ok (two_scalars y) p = true -> length a = 32%nat -> length b = 32%nat ->
  never_wraps p (start (combine (elems "a" 32) (map b2z a) ++ combine (elems y 32) (map b2z b))).
Proof.
  intros T A B. apply (bounded_never_wraps _ _ _ _ _ (tail_bounded _ _ T)).
  apply start_holds. apply Forall2_app; apply byte_start_holds; assumption.
Qed.

(** ** The result over an argument *)

Lemma in_place_any p xs ys out D r r' : unharmed xs ys D p out = true ->
  (forall y, mem y D = false -> r y = r' (onto xs ys y)) ->
  outs (exec (renames (onto xs ys) p) r') (map (onto xs ys) out) = outs (exec p r) out /\
  (never_wraps p r -> never_wraps (renames (onto xs ys) p) r').
Proof.
  intros U H. destruct (unharmed_sound xs ys p out D r r' U H) as [E W]. split; [|exact W].
  unfold outs. rewrite map_map. apply map_ext_in. exact E.
Qed.

Definition over_ok (p : list stmt) (xs ys : list string) : bool :=
  unharmed xs ys xs p xs && forallb (fun '(a, b) => String.eqb a b) (combine (map (onto xs ys) xs) ys) &&
  Nat.eqb (length xs) (length ys).

Lemma over_map (ys l : list string) : length l = length ys -> forallb (fun '(a, b) => String.eqb a b) (combine l ys) = true -> l = ys.
Proof.
  revert l. induction ys as [|y ys IH]; intros [|x l] L H; try discriminate; [reflexivity|].
  cbn [combine forallb] in H. apply andb_true_iff in H. destruct H as [H1 H2]. apply String.eqb_eq in H1.
  subst x. f_equal. apply IH; [cbn in L; lia|exact H2].
Qed.

(** the array [xs] of results is the array [ys] *)
Theorem over_sound p xs ys r : over_ok p xs ys = true ->
  outs (exec (renames (onto xs ys) p) r) ys = outs (exec p r) xs /\
  (never_wraps p r -> never_wraps (renames (onto xs ys) p) r).
Proof.
  unfold over_ok. rewrite !andb_true_iff. intros [[U M] L]. apply Nat.eqb_eq in L.
  assert (E : map (onto xs ys) xs = ys) by (apply over_map; [rewrite map_length; exact L|exact M]).
  destruct (in_place_any p xs ys xs xs r r U) as [A B].
  - intros y Y. rewrite (onto_off xs ys y Y). reflexivity.
  - rewrite E in A. split; assumption.
Qed.

Local Transparent feMul feSquare feSquare2 scAdd scSub scMul.
Lemma mul_over_f : over_ok feMul (elems "h" 10) (elems "f" 10) = true. Proof. vm_compute. reflexivity. Qed.
Lemma mul_over_g : over_ok feMul (elems "h" 10) (elems "g" 10) = true. Proof. vm_compute. reflexivity. Qed.
Lemma square_over : over_ok feSquare (elems "h" 10) (elems "f" 10) = true. Proof. vm_compute. reflexivity. Qed.
Lemma square2_over : over_ok feSquare2 (elems "h" 10) (elems "f" 10) = true. Proof. vm_compute. reflexivity. Qed.
Lemma add_over_a : over_ok scAdd (elems "s" 32) (elems "a" 32) = true. Proof. vm_compute. reflexivity. Qed.
Lemma add_over_c : over_ok scAdd (elems "s" 32) (elems "c" 32) = true. Proof. vm_compute. reflexivity. Qed.
Lemma sub_over_a : over_ok scSub (elems "s" 32) (elems "a" 32) = true. Proof. vm_compute. reflexivity. Qed.
Lemma sub_over_c : over_ok scSub (elems "s" 32) (elems "c" 32) = true. Proof. vm_compute. reflexivity. Qed.
Lemma scmul_over_a : over_ok scMul (elems "s" 32) (elems "a" 32) = true. Proof. vm_compute. reflexivity. Qed.
Lemma scmul_over_b : over_ok scMul (elems "s" 32) (elems "b" 32) = true. Proof. vm_compute. reflexivity. Qed.

(** scalar.go:125: all three are one array *)
Definition sb : list string := elems "s" 32 ++ elems "b" 32.
Definition aa : list string := elems "a" 32 ++ elems "a" 32.
Lemma scmul_over_all : unharmed sb aa (elems "s" 32) scMul (elems "s" 32) = true. Proof. vm_compute. reflexivity. Qed.
Local Opaque feMul feSquare feSquare2 scAdd scSub scMul.

Lemma start_app_l args rest x : existsb (String.eqb x) (map fst rest) = false -> start (args ++ rest) x = start args x.
Proof.
  Local Transparent start.
  intro H. induction args as [|[y v] args IH]; cbn [app start].
  - rewrite start_other by exact H. reflexivity.
  - unfold set. rewrite IH. reflexivity.
  Local Opaque start.
Qed.

Lemma mem_app x a b : mem x (a ++ b) = mem x a || mem x b.
Proof. unfold mem. apply existsb_app. Qed.

Theorem square_in_place a : length a = 32%nat ->
  map z2b (outs (exec (renames (onto sb aa) scMul) (start (combine (elems "a" 32) (map b2z a)))) (elems "a" 32))
  = l_scalar_mul a a.
Proof.
  intro L. unfold l_scalar_mul. f_equal.
  set (r' := start (combine (elems "a" 32) (map b2z a))).
  set (r := start (combine (elems "a" 32) (map b2z a) ++ combine (elems "b" 32) (map b2z a))).
  assert (LA : length (elems "a" 32) = length (map b2z a)) by (rewrite map_length, L; reflexivity).
  assert (LB : length (elems "b" 32) = length (map b2z a)) by (rewrite map_length, L; reflexivity).
  assert (OA : outs r' (elems "a" 32) = map b2z a).
  { unfold r'. rewrite <- (app_nil_r (combine _ _)). apply outs_start; [vm_compute; reflexivity|exact LA]. }
  assert (OB : outs r (elems "b" 32) = map b2z a).
  { apply outs_second; [exact LA|exact LB|vm_compute; reflexivity|vm_compute; reflexivity]. }
  assert (H : forall y, mem y (elems "s" 32) = false -> r y = r' (onto sb aa y)).
  { intros y Y. destruct (mem y (elems "b" 32)) eqn:B.
    - assert (E : map (onto sb aa) (elems "b" 32) = elems "a" 32) by (vm_compute; reflexivity).
      rewrite <- E, <- OB in OA. unfold outs in OA. rewrite map_map in OA.
      symmetry. apply mem_in in B. clear - OA B.
      exact (ext_in_map OA y B).
    - rewrite onto_off by (unfold sb; rewrite mem_app, Y, B; reflexivity).
      apply start_app_l. rewrite fst_combine by exact LB. exact B. }
  destruct (in_place_any scMul sb aa (elems "s" 32) (elems "s" 32) r r' scmul_over_all H) as [E _].
  assert (M : map (onto sb aa) (elems "s" 32) = elems "a" 32) by (vm_compute; reflexivity).
  rewrite M in E. exact E.
Qed.
