(** scalar.go's arithmetic at the level of its machine integers: scAdd, scSub and
    scMul give the reduced sum, difference and product of any 32 bytes each. *)
From Coq Require Import String.
From Coq Require Import Lia ZifyBool ZifyNat ZifyN.
From Verif Require Import Base Primes25519 NumberTheory LittleEndian GoIntModel GoIntCheck LimbCode
  Edwards25519Model LimbModel LimbSpec LimbProofs.
Local Open Scope Z_scope.

(** ** The parts of a program, counted from its end *)

Definition cut (k : nat) (p : list stmt) : list stmt := firstn (length p - k) p.
Definition part (a b : nat) (p : list stmt) : list stmt := skipn (length p - a) (cut b p).

Lemma cut_part a b p r : (b <= a)%nat -> iexec (cut b p) r = iexec (part a b p) (iexec (cut a p) r).
Proof.
  intro L. unfold part. rewrite (iexec_split (length p - a) (cut b p)). unfold cut at 2.
  rewrite firstn_firstn, Nat.min_l by lia. reflexivity.
Qed.

Lemma cut_0 p : cut 0 p = p.
Proof. unfold cut. rewrite Nat.sub_0_r. apply firstn_all. Qed.

(** ** Numbers in limbs of 21 bits *)

Definition limbs21 (x : string) (k : nat) : list string := map (fun i => String.append x (numeral i)) (seq 0 k).
Definition weights21 : list Z := map (fun i => 2 ^ Z.of_nat (21 * i)) (seq 0 12).
Definition sum21 (x : string) : list (Z * string) := combine weights21 (limbs21 x 12).
(** [2 ^ 252] is [fold21] up to multiples of the order *)
Definition fold21 : Z := 2 ^ 252 - l25519.
Definition places21 (x : string) : list (nat * string) := combine (map (fun i => (21 * i)%nat) (seq 0 12)) (limbs21 x 12).
Definition entries21 : list (nat * string * nat) := combine (places21 "s") (repeat 21%nat 11 ++ [22%nat]).

Definition small21 : list interval := repeat (0, 2 ^ 21 - 1) 12.
Definition before21 : list interval := repeat (- (2 ^ 28), 2 ^ 28) 11 ++ [(- (2 ^ 20), 2 ^ 20)].

(** what is checked of the last 108 statements: the two passes of carries, the fold
    between them, and the bytes *)
Definition tail_ok (A : list (string * interval)) (p : list stmt) : bool :=
  bounded A p (elems "s" 32) (repeat (0, 255) 32) &&
  bounded A (cut 108 p) (limbs21 "s" 12 ++ ["s12"%string]) (before21 ++ [(0, 0)]) &&
  bounded A (cut 72 p) (limbs21 "s" 12) small21 &&
  bounded A (cut 32 p) (limbs21 "s" 11) (firstn 11 small21) &&
  agrees 0 (limbs21 "s" 13) (part 108 72 p) (sum21 "s" ++ [(2 ^ 252, "s12"%string)])
    (goal_poly (Plus (Sum (sum21 "s")) (Sum [(2 ^ 252, "s12"%string)]))) &&
  agrees 0 (limbs21 "s" 13) (part 72 65 p) (sum21 "s")
    (goal_poly (Plus (Sum (sum21 "s")) (Sum [(fold21, "s12"%string)]))) &&
  agrees 0 (limbs21 "s" 12) (part 65 32 p) (sum21 "s") (goal_poly (Sum (sum21 "s"))) &&
  repacks entries21 (part 32 0 p) (map fst (byte_entries "s")) 256.

Definition two_scalars (y : string) : list (string * interval) := byte_start "a" ++ byte_start y.

Lemma add_tail : tail_ok (two_scalars "c") scAdd = true.
Proof. vm_compute. reflexivity. Qed.
Lemma sub_tail : tail_ok (two_scalars "c") scSub = true.
Proof. vm_compute. reflexivity. Qed.
Lemma mul_tail : tail_ok (two_scalars "b") scMul = true.
Proof. vm_compute. reflexivity. Qed.

(** the two arguments in limbs *)
Definition loads_ok (y : string) (p : list stmt) : bool :=
  repacks (byte_entries "a") (firstn 12 p) (places21 "a") 256 &&
  repacks (byte_entries y) (firstn 12 (skipn 12 p)) (places21 y) 256 &&
  forallb (fun x => negb (assigned x (firstn 12 p))) (elems y 32) &&
  forallb (fun x => negb (assigned x (firstn 12 (skipn 12 p)))) (limbs21 "a" 12).

Lemma add_loads : loads_ok "c" scAdd = true.
Proof. vm_compute. reflexivity. Qed.
Lemma sub_loads : loads_ok "c" scSub = true.
Proof. vm_compute. reflexivity. Qed.
Lemma mul_loads : loads_ok "b" scMul = true.
Proof. vm_compute. reflexivity. Qed.

(** from there to the last 108 statements: the number modulo the order *)
Definition middle (p : list stmt) : list stmt := skipn 24 (cut 108 p).

Lemma add_middle : agrees l25519 (limbs21 "a" 12 ++ limbs21 "c" 12) (middle scAdd) (sum21 "s")
  (goal_poly (Plus (Sum (sum21 "a")) (Sum (sum21 "c")))) = true.
Proof. vm_compute. reflexivity. Qed.
Lemma sub_middle : agrees l25519 (limbs21 "a" 12 ++ limbs21 "c" 12) (middle scSub) (sum21 "s")
  (goal_poly (Plus (Sum (sum21 "a")) (Scaled (-1) (Sum (sum21 "c"))))) = true.
Proof. vm_compute. reflexivity. Qed.
Lemma mul_middle : agrees l25519 (limbs21 "a" 12 ++ limbs21 "b" 12) (middle scMul) (sum21 "s")
  (goal_poly (Times (Sum (sum21 "a")) (Sum (sum21 "b")))) = true.
Proof. vm_compute. reflexivity. Qed.

(** ** Their meaning *)

Local Opaque exec iexec start scAdd scSub scMul.

Lemma weigh_app r a b : weigh r (a ++ b) = weigh r a + weigh r b.
Proof. induction a as [|[w y] a IH]; cbn [app weigh]; [lia|]. rewrite IH. lia. Qed.

Ltac twelve H :=
  repeat match type of H with Forall2 _ ?l (_ :: _) =>
    let X := fresh in inversion H as [|? ? ? ? X ?]; clear H; subst; rename X into H end.

Lemma twelve_limbs (l : list Z) : length l = 12%nat ->
  exists a b c d e f g h i j k m, l = [a; b; c; d; e; f; g; h; i; j; k; m].
Proof. intro L. do 12 (destruct l as [|? l]; [discriminate|]). destruct l; [|discriminate]. repeat eexists. Qed.

Lemma wsum21 a b c d e f g h i j k m : wsum weights21 [a; b; c; d; e; f; g; h; i; j; k; m] =
  a + 2 ^ 21 * b + 2 ^ 42 * c + 2 ^ 63 * d + 2 ^ 84 * e + 2 ^ 105 * f + 2 ^ 126 * g + 2 ^ 147 * h +
  2 ^ 168 * i + 2 ^ 189 * j + 2 ^ 210 * k + 2 ^ 231 * m.
Proof.
  change weights21 with [2 ^ 0; 2 ^ 21; 2 ^ 42; 2 ^ 63; 2 ^ 84; 2 ^ 105; 2 ^ 126; 2 ^ 147; 2 ^ 168; 2 ^ 189; 2 ^ 210; 2 ^ 231].
  cbn [wsum]. rewrite Z.pow_0_r. ring.
Qed.

Lemma before_value l : Forall2 inside l before21 -> - (2 ^ 252) < wsum weights21 l < 2 ^ 252.
Proof.
  intro H. assert (L : length l = 12%nat) by (apply Forall2_len in H; exact H).
  apply twelve_limbs in L. destruct L as (a & b & c & d & e & f & g & h & i & j & k & m & ->).
  rewrite wsum21. unfold before21 in H. cbn [repeat app] in H.
  repeat match goal with H : Forall2 _ (_ :: _) (_ :: _) |- _ => inversion H; clear H; subst end.
  unfold inside in *. cbn [fst snd] in *. lia.
Qed.

Lemma small_value l : Forall2 inside l small21 -> 0 <= wsum weights21 l < 2 ^ 252.
Proof.
  intro H. assert (L : length l = 12%nat) by (apply Forall2_len in H; exact H).
  apply twelve_limbs in L. destruct L as (a & b & c & d & e & f & g & h & i & j & k & m & ->).
  rewrite wsum21. unfold small21 in H. cbn [repeat] in H.
  repeat match goal with H : Forall2 _ (_ :: _) (_ :: _) |- _ => inversion H; clear H; subst end.
  unfold inside in *. cbn [fst snd] in *. lia.
Qed.

(** the highest limb, from the number *)
Lemma highest_limb l m : length l = 11%nat -> Forall2 inside l (firstn 11 small21) -> 
  0 <= wsum weights21 (l ++ [m]) < l25519 -> 0 <= m < 2 ^ 22.
Proof.
  intros L H V. unfold l25519 in V.
  do 11 (destruct l as [|? l]; [discriminate|]). destruct l; [|discriminate]. cbn [app] in V. rewrite wsum21 in V.
  unfold small21 in H. cbn [repeat firstn] in H.
  repeat match goal with H : Forall2 _ (_ :: _) (_ :: _) |- _ => inversion H; clear H; subst end.
  unfold inside in *. cbn [fst snd] in *. lia.
Qed.

Lemma folded V W s : - (2 ^ 252) < V < 2 ^ 252 -> 0 <= W < 2 ^ 252 -> W + 2 ^ 252 * s = V ->
  W + fold21 * s = V mod l25519.
Proof.
  intros BV BW E. assert (S : s = 0 \/ s = -1) by lia. unfold fold21.
  apply Z.mod_unique with (q := s).
  - left. unfold l25519. lia.
  - lia.
Qed.

Lemma outs_limbs21 r x : outs r (limbs21 x 12) = outs r (limbs21 x 11) ++ [r (String.append x "11")].
Proof. reflexivity. Qed.

Lemma entries_ok r : Forall2 inside (outs r (limbs21 "s" 11)) (firstn 11 small21) -> 0 <= r "s11"%string < 2 ^ 22 ->
  forall w y n, List.In (w, y, n) entries21 -> 0 <= r y < 2 ^ Z.of_nat n.
Proof.
  intros H M w y n I.
  change (outs r (limbs21 "s" 11)) with
    ([r "s0"; r "s1"; r "s2"; r "s3"; r "s4"; r "s5"; r "s6"; r "s7"; r "s8"; r "s9"; r "s10"])%string in H.
  unfold small21 in H. cbn [repeat firstn] in H.
  repeat match goal with H : Forall2 _ (_ :: _) (_ :: _) |- _ => inversion H; clear H; subst end.
  unfold inside in *. cbn [fst snd] in *. change (2 ^ Z.of_nat 21) with (2 ^ 21).
  vm_compute in I.
  repeat (destruct I as [I|I]; [injection I as <- <- <-; cbn [Z.of_nat]; lia|]). destruct I.
Qed.

Lemma entries_places : weights (map fst entries21) = sum21 "s".
Proof. vm_compute. reflexivity. Qed.

Theorem tail_sound A p r : tail_ok A p = true -> holds A r ->
  exec p r = iexec p r /\
  map z2b (outs (iexec p r) (elems "s" 32)) = scalar_of (wsum weights21 (outs (iexec (cut 108 p) r) (limbs21 "s" 12))).
Proof.
  intros T H. unfold tail_ok in T.
  repeat match goal with H : (_ && _)%bool = true |- _ =>
    let X := fresh "T" in apply andb_true_iff in H; destruct H as [H X] end.
  rename T into C0, T6 into C1, T5 into C2, T4 into C3, T3 into X1, T2 into X2, T1 into X3, T0 into R.
  destruct (bounded_sound _ _ _ _ r C0 H) as [E B0]. destruct (bounded_sound _ _ _ _ r C1 H) as [_ B1].
  destruct (bounded_sound _ _ _ _ r C2 H) as [_ B2]. destruct (bounded_sound _ _ _ _ r C3 H) as [_ B3].
  clear C0 C1 C2 C3 H. split; [exact E|]. clear E.
  set (r1 := iexec (cut 108 p) r) in *.
  assert (E2 : iexec (cut 72 p) r = iexec (part 108 72 p) r1) by (apply cut_part; lia).
  assert (E3 : iexec (cut 65 p) r = iexec (part 72 65 p) (iexec (part 108 72 p) r1)) by (rewrite <- E2; apply cut_part; lia).
  assert (E4 : iexec (cut 32 p) r = iexec (part 65 32 p) (iexec (part 72 65 p) (iexec (part 108 72 p) r1)))
    by (rewrite <- E3; apply cut_part; lia).
  assert (E5 : iexec p r = iexec (part 32 0 p) (iexec (part 65 32 p) (iexec (part 72 65 p) (iexec (part 108 72 p) r1)))).
  { rewrite <- E4. rewrite <- (cut_0 p) at 1. apply cut_part. lia. }
  rewrite E2 in B2. rewrite E4 in B3. rewrite E5 in B0 |- *. clear E2 E3 E4 E5.
  set (r2 := iexec (part 108 72 p) r1) in *. set (r3 := iexec (part 72 65 p) r2) in *.
  set (r4 := iexec (part 65 32 p) r3) in *.
  pose proof (computes_exactly _ _ _ _ r1 X1) as Y1. pose proof (computes_exactly _ _ _ _ r2 X2) as Y2.
  pose proof (computes_exactly _ _ _ _ r3 X3) as Y3. fold r2 in Y1. fold r3 in Y2. fold r4 in Y3.
  clear X1 X2 X3. cbn [goal_val] in Y1, Y2, Y3. rewrite weigh_app in Y1. unfold sum21 in Y1, Y2, Y3.
  rewrite !weigh_outs in Y1, Y2, Y3. cbn [weigh] in Y1, Y2.
  assert (S12 : r1 "s12"%string = 0 /\ Forall2 inside (outs r1 (limbs21 "s" 12)) before21).
  { unfold outs in B1. rewrite map_app in B1. apply Forall2_app_inv_r in B1.
    destruct B1 as (l1 & l2 & F1 & F2 & EQ). 
    assert (LL : length l1 = length (map r1 (limbs21 "s" 12))).
    { apply Forall2_len in F1. rewrite F1. reflexivity. }
    assert (X : map r1 (limbs21 "s" 12) = l1 /\ map r1 ["s12"%string] = l2).
    { clear - EQ LL. revert EQ. generalize (map r1 ["s12"%string]) as b. revert LL.
      generalize (map r1 (limbs21 "s" 12)) as a. intros a L b EQ.
      split.
      - apply (f_equal (firstn (length l1))) in EQ. rewrite L in EQ at 1.
        rewrite !firstn_app, !firstn_all, !Nat.sub_diag in EQ. cbn [firstn] in EQ. rewrite !app_nil_r in EQ. exact EQ.
      - apply (f_equal (skipn (length l1))) in EQ. rewrite L in EQ at 1.
        rewrite !skipn_app, !skipn_all, !Nat.sub_diag in EQ. exact EQ. }
    destruct X as [X1 X2]. subst l1 l2. split; [|exact F1].
    inversion F2 as [|? ? ? ? I _]; subst. unfold inside in I. cbn [fst snd] in I. lia. }
  destruct S12 as [S12 F1]. rewrite S12, Z.mul_0_r, !Z.add_0_r in Y1. rewrite Z.add_0_r in Y2.
  pose proof (folded _ _ _ (before_value _ F1) (small_value _ B2) Y1) as V.
  set (v := wsum weights21 (outs r1 (limbs21 "s" 12))) in *.
  assert (V4 : wsum weights21 (outs r4 (limbs21 "s" 12)) = v mod l25519) by (rewrite Y3, Y2; exact V).
  assert (RV : 0 <= v mod l25519 < l25519) by (apply Z.mod_pos_bound; reflexivity).
  assert (HI : 0 <= r4 "s11"%string < 2 ^ 22).
  { apply (highest_limb (outs r4 (limbs21 "s" 11))); [reflexivity|exact B3|].
    change (r4 "s11"%string) with (r4 (String.append "s" "11")). rewrite <- outs_limbs21, V4. exact RV. }
  pose proof (repacks_sound _ _ _ _ r4 R (entries_ok r4 B3 HI)) as P.
  rewrite byte_places, entries_places in P. unfold byte_sum, sum21 in P. rewrite !weigh_outs, V4 in P.
  unfold scalar_of. apply byte_list_eq; [exact B0|]. rewrite P. apply Z.mod_small.
  split; [apply RV|]. apply Z.lt_trans with l25519; [apply RV|reflexivity].
Qed.

Lemma firstn_24 (p : list stmt) : firstn 24 p = firstn 12 p ++ firstn 12 (skipn 12 p).
Proof.
  rewrite <- (firstn_skipn 12 (firstn 24 p)), firstn_firstn. f_equal. rewrite skipn_firstn_comm. reflexivity.
Qed.

Lemma load_value x p r s : repacks (byte_entries x) p (places21 x) 256 = true -> weights (places21 x) = sum21 x ->
  length s = 32%nat -> outs r (elems x 32) = map b2z s ->
  wsum weights21 (outs (iexec p r) (limbs21 x 12)) = le_val s.
Proof.
  intros R W L O.
  assert (R' : forall w y n, List.In (w, y, n) (byte_entries x) -> 0 <= r y < 2 ^ Z.of_nat n).
  { apply byte_entries_ok. apply (in_outs r _ (repeat (0, 255) 32)); [|intros i; apply repeat_spec].
    rewrite O, <- L. apply bytes_inside. }
  pose proof (repacks_sound _ _ _ _ r R R') as P. rewrite W, byte_places in P. unfold sum21, byte_sum in P.
  rewrite !weigh_outs, O, bytes_val in P by exact L. rewrite P. apply Z.mod_small.
  pose proof (le_val_range s) as B. rewrite L in B. exact B.
Qed.

Lemma loads_sound y p r a b : loads_ok y p = true -> weights (places21 y) = sum21 y ->
  length a = 32%nat -> length b = 32%nat ->
  outs r (elems "a" 32) = map b2z a -> outs r (elems y 32) = map b2z b ->
  wsum weights21 (outs (iexec (firstn 24 p) r) (limbs21 "a" 12)) = le_val a /\
  wsum weights21 (outs (iexec (firstn 24 p) r) (limbs21 y 12)) = le_val b.
Proof.
  intros T W LA LB OA OB. unfold loads_ok in T.
  repeat match goal with H : (_ && _)%bool = true |- _ =>
    let X := fresh "T" in apply andb_true_iff in H; destruct H as [H X] end.
  rewrite firstn_24, iexec_app. split.
  - rewrite iexec_others by exact T0. apply load_value; try assumption. vm_compute. reflexivity.
  - apply load_value; try assumption. rewrite iexec_others by exact T1. exact OB.
Qed.

Definition long (p : list stmt) : bool := Nat.leb 132 (length p).

Lemma middle_split p r : long p = true -> iexec (cut 108 p) r = iexec (middle p) (iexec (firstn 24 p) r).
Proof.
  intro L. apply Nat.leb_le in L. unfold middle. rewrite (iexec_split 24 (cut 108 p)). unfold cut at 2.
  rewrite firstn_firstn, Nat.min_l by lia. reflexivity.
Qed.

Lemma scalar_program y p g (G : Z -> Z -> Z) a b :
  tail_ok (two_scalars y) p = true -> loads_ok y p = true -> long p = true -> weights (places21 y) = sum21 y ->
  agrees l25519 (limbs21 "a" 12 ++ limbs21 y 12) (middle p) (sum21 "s") (goal_poly g) = true ->
  (forall r, goal_val r g = G (wsum weights21 (outs r (limbs21 "a" 12))) (wsum weights21 (outs r (limbs21 y 12)))) ->
  distinct (elems y 32) = true -> forallb (fun x => negb (existsb (String.eqb x) (elems "a" 32))) (elems y 32) = true ->
  length a = 32%nat -> length b = 32%nat ->
  map z2b (outs (exec p (start (combine (elems "a" 32) (map b2z a) ++ combine (elems y 32) (map b2z b)))) (elems "s" 32))
  = scalar_of (G (le_val a) (le_val b)).
Proof.
  intros T L N W M GV D1 D2 LA LB.
  remember (start (combine (elems "a" 32) (map b2z a) ++ combine (elems y 32) (map b2z b))) as r eqn:R.
  assert (H : holds (two_scalars y) r).
  { subst r. apply start_holds. apply Forall2_app; apply byte_start_holds; assumption. }
  assert (LE : length (elems y 32) = 32%nat) by (unfold elems; rewrite map_length, seq_length; reflexivity).
  assert (OA : outs r (elems "a" 32) = map b2z a).
  { subst r. apply outs_start; [vm_compute; reflexivity|]. rewrite map_length, LA. reflexivity. }
  assert (OB : outs r (elems y 32) = map b2z b).
  { subst r. apply outs_second; [rewrite map_length, LA; reflexivity|rewrite map_length, LB; exact LE|exact D1|exact D2]. }
  clear R. destruct (tail_sound _ p r T H) as [E V]. rewrite E, V. clear E V T H.
  destruct (loads_sound y p r a b L W LA LB OA OB) as [VA VB].
  unfold scalar_of. f_equal. rewrite (middle_split p r N).
  assert (L0 : l25519 <> 0) by discriminate.
  pose proof (computes_mod _ _ _ _ _ (iexec (firstn 24 p) r) L0 M) as C.
  rewrite GV, VA, VB in C. unfold sum21 in C. rewrite weigh_outs in C. exact C.
Qed.

Ltac closed := vm_compute; reflexivity.

(** scalar.go:81-84, 87-90, 93-96 *)
Theorem l_scalar_add_eq a b : length a = 32%nat -> length b = 32%nat -> l_scalar_add a b = scalar_add a b.
Proof.
  apply (scalar_program "c" scAdd (Plus (Sum (sum21 "a")) (Sum (sum21 "c"))) Z.add a b add_tail add_loads); [closed|closed|exact add_middle| |closed|closed].
  intro r. cbn [goal_val]. unfold sum21. rewrite !weigh_outs. reflexivity.
Qed.

Theorem l_scalar_sub_eq a b : length a = 32%nat -> length b = 32%nat -> l_scalar_sub a b = scalar_sub a b.
Proof.
  apply (scalar_program "c" scSub (Plus (Sum (sum21 "a")) (Scaled (-1) (Sum (sum21 "c")))) Z.sub a b sub_tail sub_loads); [closed|closed|exact sub_middle| |closed|closed].
  intro r. cbn [goal_val]. unfold sum21. rewrite !weigh_outs. lia.
Qed.

Theorem l_scalar_mul_eq a b : length a = 32%nat -> length b = 32%nat -> l_scalar_mul a b = scalar_mul a b.
Proof.
  apply (scalar_program "b" scMul (Times (Sum (sum21 "a")) (Sum (sum21 "b"))) Z.mul a b mul_tail mul_loads); [closed|closed|exact mul_middle| |closed|closed].
  intro r. cbn [goal_val]. unfold sum21. rewrite !weigh_outs. reflexivity.
Qed.

Lemma scalar_of_length z : length (scalar_of z) = 32%nat.
Proof. apply le_bytes_length. Qed.

Theorem l_scalar_inv_eq a : length a = 32%nat -> l_scalar_inv a = scalar_inv a.
Proof.
  intro L. unfold l_scalar_inv, scalar_inv.
  assert (S : forall l r, length r = 32%nat ->
    fold_left (fun r i => let r := l_scalar_mul r r in if Z.testbit l_minus_2 (Z.of_nat i) then l_scalar_mul r a else r) l r =
    fold_left (fun r i => let r := scalar_mul r r in if Z.testbit l_minus_2 (Z.of_nat i) then scalar_mul r a else r) l r).
  { induction l as [|i l IH]; intros r R; [reflexivity|]. cbn [fold_left]. cbn zeta.
    rewrite (l_scalar_mul_eq r r R R).
    assert (R' : length (scalar_mul r r) = 32%nat) by apply scalar_of_length.
    rewrite (l_scalar_mul_eq _ a R' L). apply IH.
    destruct (Z.testbit _ _); [apply scalar_of_length|exact R']. }
  apply S. reflexivity.
Qed.

Theorem l_scalar_inverse_eq a : length a = 32%nat -> l_scalar_inverse a = scalar_inverse a.
Proof.
  intro L. unfold l_scalar_inverse, scalar_inverse. rewrite (l_scalar_inv_eq a L).
  apply l_scalar_mul_eq; [reflexivity|]. unfold scalar_inv.
  assert (S : forall l r, length r = 32%nat -> length (
    fold_left (fun r i => let r := scalar_mul r r in if Z.testbit l_minus_2 (Z.of_nat i) then scalar_mul r a else r) l r) = 32%nat).
  { induction l as [|i l IH]; intros r R; [exact R|]. cbn [fold_left]. cbn zeta. apply IH.
    destruct (Z.testbit _ _); apply scalar_of_length. }
  apply S. reflexivity.
Qed.
