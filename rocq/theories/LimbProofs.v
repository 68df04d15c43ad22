(** The programs of LimbCode.v compute what they should, and no operation in them
    wraps around: fe.go and scalar.go at the level of their machine integers. *)
From Coq Require Import String.
From Coq Require Import Lia ZifyBool ZifyNat ZifyN.
From Verif Require Import Base Primes25519 NumberTheory Field25519 LittleEndian GoIntModel GoIntCheck LimbCode
  Edwards25519Model LimbModel LimbSpec.
Local Open Scope Z_scope.

(** ** Arguments *)

Lemma start_holds args A : Forall2 (fun a b => fst a = fst b /\ inside (snd a) (snd b)) args A -> holds A (start args).
Proof.
  intro H. induction H as [|[x v] [y i] args A [E I] H IH]; intros z j F; cbn [find start] in *; [discriminate|].
  cbn [fst snd] in *. subst y. destruct (String.eqb z x) eqn:Z.
  - apply String.eqb_eq in Z. subst z. injection F as <-. rewrite set_same. exact I.
  - apply String.eqb_neq in Z. rewrite set_other by congruence. exact (IH _ _ F).
Qed.

Lemma Forall2_combine (names : list string) (l : list Z) (is : list interval) : length names = length l ->
  Forall2 inside l is ->
  Forall2 (fun (a : string * Z) (b : string * interval) => fst a = fst b /\ inside (snd a) (snd b))
          (combine names l) (combine names is).
Proof.
  intros L H. revert names L. induction H as [|v i l is I H IH]; intros [|x names] L; cbn in *; try discriminate; constructor.
  - split; [reflexivity|exact I].
  - apply IH. lia.
Qed.

Lemma weigh_outs r w xs : weigh r (combine w xs) = wsum w (outs r xs).
Proof.
  revert xs. induction w as [|a w IH]; intros [|x xs]; try reflexivity.
  cbn [combine weigh outs map wsum]. f_equal. apply IH.
Qed.

(** ** What a check says *)

(** what a polynomial check compares with: sums and products of numbers of the start *)
Inductive goal := Sum (l : list (Z * string)) | Times (a b : goal) | Scaled (k : Z) (a : goal) | Plus (a b : goal).
Fixpoint goal_val (r : env) (g : goal) : Z :=
  match g with
  | Sum l => weigh r l
  | Times a b => goal_val r a * goal_val r b
  | Scaled k a => k * goal_val r a
  | Plus a b => goal_val r a + goal_val r b
  end.
Fixpoint goal_poly (g : goal) (P : list (string * poly)) : option poly :=
  match g with
  | Sum l => pweigh P l
  | Times a b => match goal_poly a P, goal_poly b P with Some p, Some q => Some (pmul p q) | _, _ => None end
  | Scaled k a => match goal_poly a P with Some p => Some (pconst k p) | None => None end
  | Plus a b => match goal_poly a P, goal_poly b P with Some p, Some q => Some (padd p q) | _, _ => None end
  end.

Lemma goal_poly_val v P r g p : valued v P r -> goal_poly g P = Some p -> goal_val r g = pval v p.
Proof.
  intro V. revert p. induction g; intros p E; cbn [goal_poly goal_val] in *.
  - exact (pweigh_val v P r l p V E).
  - destruct (goal_poly g1 P); [|discriminate]. destruct (goal_poly g2 P); [|discriminate]. injection E as <-.
    rewrite pmul_val, (IHg1 _ eq_refl), (IHg2 _ eq_refl). reflexivity.
  - destruct (goal_poly g P); [|discriminate]. injection E as <-. rewrite pconst_val, (IHg _ eq_refl). reflexivity.
  - destruct (goal_poly g1 P); [|discriminate]. destruct (goal_poly g2 P); [|discriminate]. injection E as <-.
    rewrite padd_val, (IHg1 _ eq_refl), (IHg2 _ eq_refl). reflexivity.
Qed.

Theorem computes m ins p out g r : agrees m ins p out (goal_poly g) = true ->
  (m | weigh (iexec p r) out - goal_val r g).
Proof.
  intro H. destruct (agrees_sound m ins p out _ r H) as (v & P & b & V & G & D).
  rewrite (goal_poly_val v P r g b V G). exact D.
Qed.

Lemma computes_mod m ins p out g r : m <> 0 -> agrees m ins p out (goal_poly g) = true ->
  weigh (iexec p r) out mod m = goal_val r g mod m.
Proof.
  intros M H. apply (computes m ins p out g r) in H. destruct H as [k H].
  replace (weigh (iexec p r) out) with (goal_val r g + k * m) by lia. apply Z.mod_add. exact M.
Qed.

Lemma computes_exactly ins p out g r : agrees 0 ins p out (goal_poly g) = true ->
  weigh (iexec p r) out = goal_val r g.
Proof. intro H. apply (computes 0 ins p out g r) in H. apply Z.divide_0_l in H. lia. Qed.

Fixpoint contains (is js : list (option interval)) : bool :=
  match is, js with
  | [], [] => true
  | Some i :: is, Some j :: js => (fst j <=? fst i) && (snd i <=? snd j) && contains is js
  | _, _ => false
  end.

(** the program does not wrap around, and its results are within the given bounds *)
Definition bounded (A : list (string * interval)) (p : list stmt) (xs : list string) (is : list interval) : bool :=
  match after A p xs with Some js => contains js (map Some is) | None => false end.

Theorem bounded_sound A p xs is r : bounded A p xs is = true -> holds A r ->
  exec p r = iexec p r /\ Forall2 inside (outs (iexec p r) xs) is.
Proof.
  unfold bounded. destruct (after A p xs) as [js|] eqn:E; [|discriminate]. intros C H.
  destruct (after_sound A p xs js r E H) as [X F]. split; [exact X|]. clear E X H.
  revert is C. induction F as [|x o xs js I F IH]; intros [|i is] C; cbn [contains map outs] in *; try discriminate.
  - constructor.
  - destruct o; discriminate.
  - destruct o as [j|]; [|discriminate]. apply andb_true_iff in C. destruct C as [C1 C2]. constructor; [|exact (IH _ C2)].
    unfold inside in *. lia.
Qed.

(** ** Field elements *)

Definition around (l : list Z) : list interval := map (fun b => (- b, b)) l.

Lemma Forall2_len {A B} (R : A -> B -> Prop) l m : Forall2 R l m -> length l = length m.
Proof. intro H. induction H; cbn; congruence. Qed.

Lemma bnd_length e o f : bnd e o f -> length f = 10%nat.
Proof. intro H. apply Forall2_len in H. symmetry. exact H. Qed.

Lemma bnd_inside e o f : bnd e o f <-> Forall2 inside f (around (alternating e o)).
Proof.
  unfold bnd, around. generalize (alternating e o) as l. intro l. split.
  - intro H. induction H; cbn [map]; constructor; assumption.
  - revert f. induction l as [|b l IH]; intros f H; inversion H; subst; constructor; [assumption|apply IH; assumption].
Qed.

Lemma bnd_weaken e o e' o' f : e <= e' -> o <= o' -> bnd e o f -> bnd e' o' f.
Proof.
  unfold bnd, alternating. intros E O H.
  repeat match goal with H : Forall2 _ (_ :: _) _ |- _ => inversion H; clear H; subst end.
  match goal with H : Forall2 _ [] _ |- _ => inversion H; subst end.
  repeat constructor; lia.
Qed.

Lemma ten_limbs (f : fe) : length f = 10%nat ->
  exists a b c d e g h i j k, f = [a; b; c; d; e; g; h; i; j; k].
Proof.
  intro L. do 10 (destruct f as [|? f]; [discriminate|]). destruct f; [|discriminate]. repeat eexists.
Qed.

Lemma limbs_fval f : length f = 10%nat -> limbs f = gof (fval f).
Proof.
  intro L. apply ten_limbs in L. destruct L as (a & b & c & d & e & g & h & i & j & k & ->).
  unfold limbs, fval, fe_weights. cbn [combine map fold_right wsum]. f_equal. ring.
Qed.

(** after feToBytes *)
Definition canonical (f : fe) : Prop :=
  Forall2 inside f [(0, 2 ^ 26 - 1); (0, 2 ^ 25 - 1); (0, 2 ^ 26 - 1); (0, 2 ^ 25 - 1); (0, 2 ^ 26 - 1);
                    (0, 2 ^ 25 - 1); (0, 2 ^ 26 - 1); (0, 2 ^ 25 - 1); (0, 2 ^ 26 - 1); (0, 2 ^ 25 - 1)].

Lemma tight_wide f : tight f -> wide f.
Proof. apply bnd_weaken; vm_compute; discriminate. Qed.

(** *** Sums *)

Ltac limbs_of H :=
  let L := fresh in pose proof (bnd_length _ _ _ H) as L; apply ten_limbs in L;
  destruct L as (? & ? & ? & ? & ? & ? & ? & ? & ? & ? & ->);
  unfold bnd, alternating in H;
  repeat match goal with H : Forall2 _ (_ :: _) (_ :: _) |- _ => inversion H; clear H; subst end;
  try match goal with H : Forall2 _ [] [] |- _ => clear H end.

Lemma wrap32 z : - 2 ^ 31 <= z <= 2 ^ 31 - 1 -> wrap I32 z = z.
Proof. intro H. apply wrap_id. exact H. Qed.

Lemma l_add_spec e1 o1 e2 o2 f g : bnd e1 o1 f -> bnd e2 o2 g -> e1 + e2 < 2 ^ 31 -> o1 + o2 < 2 ^ 31 ->
  bnd (e1 + e2) (o1 + o2) (l_add f g) /\ fval (l_add f g) = fval f + fval g.
Proof.
  intros F G E O. limbs_of F. limbs_of G. cbn [l_add zip]. rewrite !wrap32 by lia. split.
  - unfold bnd, alternating. repeat constructor; lia.
  - unfold fval, fe_weights. cbn [wsum]. ring.
Qed.

Lemma l_sub_spec e1 o1 e2 o2 f g : bnd e1 o1 f -> bnd e2 o2 g -> e1 + e2 < 2 ^ 31 -> o1 + o2 < 2 ^ 31 ->
  bnd (e1 + e2) (o1 + o2) (l_sub f g) /\ fval (l_sub f g) = fval f - fval g.
Proof.
  intros F G E O. limbs_of F. limbs_of G. cbn [l_sub zip]. rewrite !wrap32 by lia. split.
  - unfold bnd, alternating. repeat constructor; lia.
  - unfold fval, fe_weights. cbn [wsum]. ring.
Qed.

Lemma l_neg_spec e o f : bnd e o f -> e < 2 ^ 31 -> o < 2 ^ 31 ->
  bnd e o (l_neg f) /\ fval (l_neg f) = - fval f.
Proof.
  intros F E O. limbs_of F. cbn [l_neg map]. rewrite !wrap32 by lia. split.
  - unfold bnd, alternating. repeat constructor; lia.
  - unfold fval, fe_weights. cbn [wsum]. ring.
Qed.

(** *** Products *)

Definition fe_sum (x : string) : list (Z * string) := combine fe_weights (elems x 10).
Definition fe_start (x : string) : list (string * interval) := combine (elems x 10) (around (alternating me mo)).

Lemma outs_one x f : length f = 10%nat -> x = "f"%string \/ x = "h"%string ->
  outs (start (combine (elems x 10) f)) (elems x 10) = f.
Proof.
  intros L X. apply ten_limbs in L. destruct L as (a & b & c & d & e & g & h & i & j & k & ->).
  destruct X as [-> | ->]; reflexivity.
Qed.

Lemma outs_two f g : length f = 10%nat -> length g = 10%nat ->
  outs (start (combine (elems "f" 10) f ++ combine (elems "g" 10) g)) (elems "f" 10) = f /\
  outs (start (combine (elems "f" 10) f ++ combine (elems "g" 10) g)) (elems "g" 10) = g.
Proof.
  intros L M. apply ten_limbs in L, M. destruct L as (a & b & c & d & e & o & h & i & j & k & ->).
  destruct M as (a' & b' & c' & d' & e' & o' & h' & i' & j' & k' & ->). split; reflexivity.
Qed.

Lemma mul_bounded : bounded (fe_start "f" ++ fe_start "g") feMul (elems "h" 10) (around (alternating te to_)) = true.
Proof. vm_compute. reflexivity. Qed.
Lemma mul_computes : agrees p25519 (elems "f" 10 ++ elems "g" 10) feMul (fe_sum "h")
  (goal_poly (Times (Sum (fe_sum "f")) (Sum (fe_sum "g")))) = true.
Proof. vm_compute. reflexivity. Qed.
Lemma square_bounded : bounded (fe_start "f") feSquare (elems "h" 10) (around (alternating te to_)) = true.
Proof. vm_compute. reflexivity. Qed.
Lemma square_computes : agrees p25519 (elems "f" 10) feSquare (fe_sum "h")
  (goal_poly (Times (Sum (fe_sum "f")) (Sum (fe_sum "f")))) = true.
Proof. vm_compute. reflexivity. Qed.
Lemma square2_bounded : bounded (fe_start "f") feSquare2 (elems "h" 10) (around (alternating te to_)) = true.
Proof. vm_compute. reflexivity. Qed.
Lemma square2_computes : agrees p25519 (elems "f" 10) feSquare2 (fe_sum "h")
  (goal_poly (Scaled 2 (Times (Sum (fe_sum "f")) (Sum (fe_sum "f"))))) = true.
Proof. vm_compute. reflexivity. Qed.

Lemma p_nonzero : p25519 <> 0.
Proof. discriminate. Qed.

Lemma fe_start_holds f : wide f -> Forall2 (fun (a : string * Z) (b : string * interval) => fst a = fst b /\ inside (snd a) (snd b))
  (combine (elems "f" 10) f) (fe_start "f").
Proof.
  intro F. apply Forall2_combine; [rewrite (bnd_length _ _ _ F); reflexivity|]. apply bnd_inside. exact F.
Qed.

Theorem l_mul_spec f g : wide f -> wide g ->
  tight (l_mul f g) /\ fval (l_mul f g) mod p25519 = (fval f * fval g) mod p25519.
Proof.
  intros F G. pose proof (bnd_length _ _ _ F) as LF. pose proof (bnd_length _ _ _ G) as LG.
  set (r := start (combine (elems "f" 10) f ++ combine (elems "g" 10) g)).
  assert (H : holds (fe_start "f" ++ fe_start "g") r).
  { apply start_holds. apply Forall2_app; [exact (fe_start_holds f F)|].
    apply Forall2_combine; [rewrite LG; reflexivity|]. apply bnd_inside. exact G. }
  destruct (bounded_sound _ _ _ _ r mul_bounded H) as [E B]. unfold l_mul. fold r. rewrite E.
  split; [apply bnd_inside; exact B|].
  pose proof (computes_mod _ _ _ _ _ r p_nonzero mul_computes) as C. cbn [goal_val] in C.
  unfold fe_sum in C. rewrite !weigh_outs in C. destruct (outs_two f g LF LG) as [O1 O2].
  unfold r in C at 2 3. rewrite O1, O2 in C. exact C.
Qed.

Theorem l_square_spec f : wide f ->
  tight (l_square f) /\ fval (l_square f) mod p25519 = (fval f * fval f) mod p25519.
Proof.
  intros F. pose proof (bnd_length _ _ _ F) as LF.
  set (r := start (combine (elems "f" 10) f)).
  assert (H : holds (fe_start "f") r) by (apply start_holds; exact (fe_start_holds f F)).
  destruct (bounded_sound _ _ _ _ r square_bounded H) as [E B]. unfold l_square. fold r. rewrite E.
  split; [apply bnd_inside; exact B|].
  pose proof (computes_mod _ _ _ _ _ r p_nonzero square_computes) as C. cbn [goal_val] in C.
  unfold fe_sum in C. rewrite !weigh_outs in C. unfold r in C at 2 3. rewrite (outs_one "f" f LF) in C by tauto. exact C.
Qed.

Theorem l_square2_spec f : wide f ->
  tight (l_square2 f) /\ fval (l_square2 f) mod p25519 = (2 * (fval f * fval f)) mod p25519.
Proof.
  intros F. pose proof (bnd_length _ _ _ F) as LF.
  set (r := start (combine (elems "f" 10) f)).
  assert (H : holds (fe_start "f") r) by (apply start_holds; exact (fe_start_holds f F)).
  destruct (bounded_sound _ _ _ _ r square2_bounded H) as [E B]. unfold l_square2. fold r. rewrite E.
  split; [apply bnd_inside; exact B|].
  pose proof (computes_mod _ _ _ _ _ r p_nonzero square2_computes) as C. cbn [goal_val] in C.
  unfold fe_sum in C. rewrite !weigh_outs in C. unfold r in C at 2 3. rewrite (outs_one "f" f LF) in C by tauto. exact C.
Qed.

(** *** Bytes *)

Fixpoint distinct (l : list string) : bool :=
  match l with [] => true | x :: l => negb (existsb (String.eqb x) l) && distinct l end.

Lemma start_other args x : existsb (String.eqb x) (map fst args) = false -> start args x = 0.
Proof.
  induction args as [|[y v] args IH]; cbn [map fst existsb start]; [reflexivity|].
  intro H. apply orb_false_iff in H. destruct H as [H1 H2]. apply String.eqb_neq in H1.
  rewrite set_other by congruence. exact (IH H2).
Qed.

Lemma start_app args rest x : existsb (String.eqb x) (map fst args) = false -> start (args ++ rest) x = start rest x.
Proof.
  induction args as [|[y v] args IH]; cbn [map fst existsb start app]; [reflexivity|].
  intro H. apply orb_false_iff in H. destruct H as [H1 H2]. apply String.eqb_neq in H1.
  rewrite set_other by congruence. exact (IH H2).
Qed.

Lemma outs_start names : forall l rest, distinct names = true -> length names = length l ->
  outs (start (combine names l ++ rest)) names = l.
Proof.
  induction names as [|x names IH]; intros [|v l] rest D L; try discriminate; [reflexivity|].
  cbn [distinct] in D. apply andb_true_iff in D. destruct D as [D1 D2]. apply negb_true_iff in D1.
  cbn [combine app start outs map]. rewrite set_same. f_equal.
  transitivity (outs (start (combine names l ++ rest)) names); [|apply IH; [exact D2|cbn in L; lia]].
  apply map_ext_in. intros y Y. apply set_other. intros ->.
  assert (X : existsb (String.eqb y) names = true); [|congruence].
  apply existsb_exists. exists y. split; [exact Y|apply String.eqb_refl].
Qed.

Lemma fst_combine {A B} (a : list A) (b : list B) : length a = length b -> map fst (combine a b) = a.
Proof.
  revert b. induction a as [|x a IH]; intros [|y b] L; try discriminate; [reflexivity|].
  cbn. f_equal. apply IH. cbn in L. lia.
Qed.

Lemma outs_second names names2 l l2 : length names = length l -> length names2 = length l2 -> distinct names2 = true ->
  forallb (fun x => negb (existsb (String.eqb x) names)) names2 = true ->
  outs (start (combine names l ++ combine names2 l2)) names2 = l2.
Proof.
  intros L L2 D N. transitivity (outs (start (combine names2 l2 ++ [])) names2); [|apply outs_start; assumption].
  rewrite app_nil_r. apply map_ext_in. intros x X. apply start_app. rewrite fst_combine by exact L.
  rewrite forallb_forall in N. apply negb_true_iff. apply N. exact X.
Qed.

Definition byte_names (x : string) : list string := elems x 32.
Definition byte_entries (x : string) : list (nat * string * nat) :=
  map (fun '(i, y) => ((8 * i)%nat, y, 8%nat)) (combine (seq 0 32) (elems x 32)).
Definition byte_weights : list Z := map (fun i => 2 ^ Z.of_nat (8 * i)) (seq 0 32).
Definition byte_sum (x : string) : list (Z * string) := combine byte_weights (elems x 32).
Definition byte_start (x : string) : list (string * interval) := combine (elems x 32) (repeat (0, 255) 32).

Lemma wsum_bytes s : forall k n, n = length s -> wsum (map (fun i => 2 ^ Z.of_nat (8 * i)) (seq k n)) (map b2z s) = 2 ^ Z.of_nat (8 * k) * le_val s.
Proof.
  induction s as [|b s IH]; intros k n ->; cbn [length seq map wsum le_val]; [ring|].
  rewrite IH by reflexivity. replace (8 * S k)%nat with (8 * k + 8)%nat by lia.
  rewrite Nat2Z.inj_add, Z.pow_add_r by lia. change (2 ^ Z.of_nat 8) with 256. ring.
Qed.

Lemma bytes_val s : length s = 32%nat -> wsum byte_weights (map b2z s) = le_val s.
Proof. intro L. unfold byte_weights. rewrite wsum_bytes by (symmetry; exact L). change (2 ^ Z.of_nat (8 * 0)) with 1. ring. Qed.

Lemma bytes_inside s : Forall2 inside (map b2z s) (repeat (0, 255) (length s)).
Proof.
  induction s as [|b s IH]; cbn; constructor; [|exact IH]. pose proof (b2z_range b). unfold inside. cbn. lia.
Qed.

Lemma byte_start_holds x s : length s = 32%nat ->
  Forall2 (fun (a : string * Z) (b : string * interval) => fst a = fst b /\ inside (snd a) (snd b))
    (combine (elems x 32) (map b2z s)) (byte_start x).
Proof.
  intro L. apply Forall2_combine; [rewrite map_length, L; unfold elems; rewrite map_length, seq_length; reflexivity|].
  rewrite <- L. apply bytes_inside.
Qed.

(** numbers below 256 are bytes *)
Lemma z2b_bytes l : Forall2 inside l (repeat (0, 255) (length l)) -> map b2z (map z2b l) = l.
Proof.
  induction l as [|z l IH]; intro H; [reflexivity|]. inversion H as [|? ? ? ? I H']; subst. cbn [map]. f_equal; [|exact (IH H')].
  rewrite b2z_z2b. apply Z.mod_small. unfold inside in I. cbn in I. lia.
Qed.

Lemma byte_list_eq l v : Forall2 inside l (repeat (0, 255) 32) -> wsum byte_weights l = v -> map z2b l = le_bytes 32 v.
Proof.
  intros I V. assert (L : length l = 32%nat) by (apply Forall2_len in I; rewrite repeat_length in I; exact I).
  assert (B : map b2z (map z2b l) = l) by (apply z2b_bytes; rewrite L; exact I).
  rewrite <- (le_bytes_val_n 32 (map z2b l)) by (rewrite map_length; exact L). f_equal.
  rewrite <- bytes_val by (rewrite map_length; exact L). rewrite B. exact V.
Qed.

Definition hs : list string := map (fun i => String.append "h" (numeral i)) (seq 0 10).
Definition fe_places (xs : list string) : list (nat * string) :=
  combine [0; 26; 51; 77; 102; 128; 153; 179; 204; 230]%nat xs.

Lemma from_bounded : bounded (byte_start "src") feFromBytes (elems "dst" 10) (around (alternating te to_)) = true.
Proof. vm_compute. reflexivity. Qed.
Lemma from_loads : repacks (byte_entries "src") (firstn 10 feFromBytes) (fe_places hs) 255 = true.
Proof. vm_compute. reflexivity. Qed.
Lemma from_computes : agrees p25519 hs (skipn 10 feFromBytes) (fe_sum "dst") (goal_poly (Sum (combine fe_weights hs))) = true.
Proof. vm_compute. reflexivity. Qed.

Lemma byte_entries_ok x r : (forall y, List.In y (elems x 32) -> 0 <= r y < 256) ->
  forall w y n, List.In (w, y, n) (byte_entries x) -> 0 <= r y < 2 ^ Z.of_nat n.
Proof.
  intros H w y n I. unfold byte_entries in I. apply in_map_iff in I. destruct I as [[i z] [E I]].
  injection E as <- <- <-. apply in_combine_r in I. change (2 ^ Z.of_nat 8) with 256. apply H. exact I.
Qed.

Lemma in_outs r xs is : Forall2 inside (outs r xs) is -> (forall i, List.In i is -> i = (0, 255)) ->
  forall y, List.In y xs -> 0 <= r y < 256.
Proof.
  revert is. induction xs as [|x xs IH]; intros is F Z y Y; [destruct Y|].
  inversion F as [|? i ? is' I F']; subst. destruct Y as [<-|Y].
  - unfold inside in I. rewrite (Z i (or_introl eq_refl)) in I. cbn in I. lia.
  - apply (IH is'); [exact F'|intros j J; apply Z; right; exact J|exact Y].
Qed.

Lemma repeat_all {A} (a : A) n i : List.In i (repeat a n) -> i = a.
Proof. apply repeat_spec. Qed.

Lemma from_places : weights (fe_places hs) = combine fe_weights hs.
Proof. vm_compute. reflexivity. Qed.
Lemma byte_places x : weights (map fst (byte_entries x)) = byte_sum x.
Proof. cbv - [Z.pow String.append Z.of_nat]. reflexivity. Qed.

Lemma iexec_split n p r : iexec p r = iexec (skipn n p) (iexec (firstn n p) r).
Proof. rewrite <- iexec_app, firstn_skipn. reflexivity. Qed.

Local Opaque exec iexec start feFromBytes feToBytes scAdd scSub scMul.

Lemma from_value r s : length s = 32%nat -> outs r (elems "src" 32) = map b2z s ->
  wsum fe_weights (outs (iexec feFromBytes r) (elems "dst" 10)) mod p25519 = (le_val s mod 2 ^ 255) mod p25519.
Proof.
  intros L O. rewrite (iexec_split 10 feFromBytes r).
  pose proof (computes_mod _ _ _ _ _ (iexec (firstn 10 feFromBytes) r) p_nonzero from_computes) as C.
  cbn [goal_val] in C. unfold fe_sum in C. rewrite !weigh_outs in C. rewrite C. clear C. f_equal.
  assert (R' : forall w y n, List.In (w, y, n) (byte_entries "src") -> 0 <= r y < 2 ^ Z.of_nat n).
  { apply byte_entries_ok. apply (in_outs r _ (repeat (0, 255) 32)); [|intros i; apply repeat_spec].
    rewrite O, <- L. apply bytes_inside. }
  pose proof (repacks_sound _ _ _ _ r from_loads R') as R. rewrite from_places, byte_places in R.
  unfold byte_sum in R. rewrite !weigh_outs, O, bytes_val in R by exact L.
  change (Z.of_nat 255) with 255 in R. exact R.
Qed.

Theorem l_from_spec s : length s = 32%nat ->
  tight (l_from s) /\ fval (l_from s) mod p25519 = (le_val s mod 2 ^ 255) mod p25519.
Proof.
  intro L. unfold l_from. remember (start (combine (elems "src" 32) (map b2z s))) as r eqn:R.
  assert (H : holds (byte_start "src") r) by (subst r; apply start_holds; apply byte_start_holds; exact L).
  assert (O : outs r (elems "src" 32) = map b2z s).
  { subst r. rewrite <- (app_nil_r (combine _ _)). apply outs_start; [vm_compute; reflexivity|].
    rewrite map_length, L. reflexivity. }
  clear R. destruct (bounded_sound _ _ _ _ r from_bounded H) as [E B]. rewrite E.
  split; [apply bnd_inside; exact B|]. exact (from_value r s L O).
Qed.

Lemma floor_chain a b m n : 0 < m -> 0 < n -> (b + a / m) / n = (a + b * m) / (m * n).
Proof.
  intros M N. rewrite <- Z.div_div by lia. f_equal. rewrite Z.div_add by lia. lia.
Qed.

Lemma floor_chains h0 h1 h2 h3 h4 h5 h6 h7 h8 h9 q0 :
  (h9 + (h8 + (h7 + (h6 + (h5 + (h4 + (h3 + (h2 + (h1 + (h0 + q0) / 2 ^ 26) / 2 ^ 25) / 2 ^ 26) / 2 ^ 25) / 2 ^ 26) / 2 ^ 25) / 2 ^ 26) / 2 ^ 25) / 2 ^ 26) / 2 ^ 25
  = (wsum fe_weights [h0; h1; h2; h3; h4; h5; h6; h7; h8; h9] + q0) / 2 ^ 255.
Proof.
  rewrite (floor_chain (h0 + q0) h1 (2 ^ 26) (2 ^ 25)), <- (Z.pow_add_r 2 26 25) by lia.
  change (26 + 25) with 51.
  rewrite (floor_chain ((h0 + q0) + h1 * 2 ^ 26) h2 (2 ^ 51) (2 ^ 26)), <- (Z.pow_add_r 2 51 26) by lia.
  change (51 + 26) with 77.
  rewrite (floor_chain (((h0 + q0) + h1 * 2 ^ 26) + h2 * 2 ^ 51) h3 (2 ^ 77) (2 ^ 25)), <- (Z.pow_add_r 2 77 25) by lia.
  change (77 + 25) with 102.
  rewrite (floor_chain ((((h0 + q0) + h1 * 2 ^ 26) + h2 * 2 ^ 51) + h3 * 2 ^ 77) h4 (2 ^ 102) (2 ^ 26)), <- (Z.pow_add_r 2 102 26) by lia.
  change (102 + 26) with 128.
  rewrite (floor_chain (((((h0 + q0) + h1 * 2 ^ 26) + h2 * 2 ^ 51) + h3 * 2 ^ 77) + h4 * 2 ^ 102) h5 (2 ^ 128) (2 ^ 25)), <- (Z.pow_add_r 2 128 25) by lia.
  change (128 + 25) with 153.
  rewrite (floor_chain ((((((h0 + q0) + h1 * 2 ^ 26) + h2 * 2 ^ 51) + h3 * 2 ^ 77) + h4 * 2 ^ 102) + h5 * 2 ^ 128) h6 (2 ^ 153) (2 ^ 26)), <- (Z.pow_add_r 2 153 26) by lia.
  change (153 + 26) with 179.
  rewrite (floor_chain (((((((h0 + q0) + h1 * 2 ^ 26) + h2 * 2 ^ 51) + h3 * 2 ^ 77) + h4 * 2 ^ 102) + h5 * 2 ^ 128) + h6 * 2 ^ 153) h7 (2 ^ 179) (2 ^ 25)), <- (Z.pow_add_r 2 179 25) by lia.
  change (179 + 25) with 204.
  rewrite (floor_chain ((((((((h0 + q0) + h1 * 2 ^ 26) + h2 * 2 ^ 51) + h3 * 2 ^ 77) + h4 * 2 ^ 102) + h5 * 2 ^ 128) + h6 * 2 ^ 153) + h7 * 2 ^ 179) h8 (2 ^ 204) (2 ^ 26)), <- (Z.pow_add_r 2 204 26) by lia.
  change (204 + 26) with 230.
  rewrite (floor_chain (((((((((h0 + q0) + h1 * 2 ^ 26) + h2 * 2 ^ 51) + h3 * 2 ^ 77) + h4 * 2 ^ 102) + h5 * 2 ^ 128) + h6 * 2 ^ 153) + h7 * 2 ^ 179) + h8 * 2 ^ 204) h9 (2 ^ 230) (2 ^ 25)), <- (Z.pow_add_r 2 230 25) by lia.
  change (230 + 25) with 255.
  f_equal. unfold fe_weights. cbn [wsum]. ring.
Qed.

Lemma to_quotient r : let q0 := (19 * r "h[9]"%string + 2 ^ 24) / 2 ^ 25 in
  iexec (firstn 11 feToBytes) r "q"%string = (wsum fe_weights (outs r (elems "h" 10)) + q0) / 2 ^ 255.
Proof.
  intro q0.
  change (outs r (elems "h" 10)) with
    ([r "h[0]"; r "h[1]"; r "h[2]"; r "h[3]"; r "h[4]"; r "h[5]"; r "h[6]"; r "h[7]"; r "h[8]"; r "h[9]"])%string.
  rewrite <- floor_chains. reflexivity.
Qed.

Fixpoint assigned (x : string) (p : list stmt) : bool :=
  match p with [] => false | s :: p => String.eqb (lhs s) x || assigned x p end.

Lemma iexec_other x p : assigned x p = false -> forall r, iexec p r x = r x.
Proof.
  induction p as [|s p IH]; intros A r; [reflexivity|]. cbn [assigned iexec] in *.
  apply orb_false_iff in A. destruct A as [A1 A2]. rewrite (IH A2). apply set_other. apply String.eqb_neq. exact A1.
Qed.

Lemma iexec_others xs p r : forallb (fun x => negb (assigned x p)) xs = true -> outs (iexec p r) xs = outs r xs.
Proof.
  intro H. apply map_ext_in. intros x X. rewrite forallb_forall in H. apply iexec_other. apply negb_true_iff. apply H. exact X.
Qed.

Definition canon : list interval :=
  [(0, 2 ^ 26 - 1); (0, 2 ^ 25 - 1); (0, 2 ^ 26 - 1); (0, 2 ^ 25 - 1); (0, 2 ^ 26 - 1);
   (0, 2 ^ 25 - 1); (0, 2 ^ 26 - 1); (0, 2 ^ 25 - 1); (0, 2 ^ 26 - 1); (0, 2 ^ 25 - 1)].
Definition canon_entries : list (nat * string * nat) :=
  combine (fe_places (elems "h" 10)) [26; 25; 26; 25; 26; 25; 26; 25; 26; 25]%nat.

Lemma to_bounded : bounded (fe_start "h") feToBytes (elems "s" 32) (repeat (0, 255) 32) = true.
Proof. vm_compute. reflexivity. Qed.
Lemma to_limbs : bounded (fe_start "h") (firstn 41 feToBytes) (elems "h" 10) canon = true.
Proof. vm_compute. reflexivity. Qed.
Lemma to_carries : agrees 0 (elems "h" 10 ++ ["q"%string]) (skipn 11 (firstn 41 feToBytes))
  (fe_sum "h" ++ [(2 ^ 255, "carry[9]"%string)])
  (goal_poly (Plus (Sum (fe_sum "h")) (Sum [(19, "q"%string)]))) = true.
Proof. vm_compute. reflexivity. Qed.
Lemma to_packs : repacks canon_entries (skipn 41 feToBytes) (map fst (byte_entries "s")) 256 = true.
Proof. vm_compute. reflexivity. Qed.

(** fe.go:137-158: the quotient is right for limbs far beyond the stated bounds *)
Lemma quotient_right V h9 L q0 q : V = h9 * 2 ^ 230 + L -> - (2 ^ 245) <= L <= 2 ^ 245 -> - (2 ^ 31) <= h9 <= 2 ^ 31 ->
  q0 = (19 * h9 + 2 ^ 24) / 2 ^ 25 -> q = (V + q0) / 2 ^ 255 -> q = V / p25519.
Proof.
  intros EV BL B9 E0 Eq. unfold p25519.
  pose proof (Z.div_mod (19 * h9 + 2 ^ 24) (2 ^ 25) ltac:(lia)) as D0.
  pose proof (Z.mod_pos_bound (19 * h9 + 2 ^ 24) (2 ^ 25) ltac:(lia)) as M0. rewrite <- E0 in D0.
  set (r0 := (19 * h9 + 2 ^ 24) mod 2 ^ 25) in *. clearbody r0. clear E0.
  apply Z.div_unique with (r := V - (2 ^ 255 - 19) * q); [|ring]. left.
  pose proof (Z.div_mod (V + q0) (2 ^ 255) ltac:(lia)) as D1.
  pose proof (Z.mod_pos_bound (V + q0) (2 ^ 255) ltac:(lia)) as M1. rewrite <- Eq in D1.
  set (r1 := (V + q0) mod 2 ^ 255) in *. clearbody r1. clear Eq.
  lia.
Qed.

Lemma wide_value h : wide h -> let L := wsum (firstn 9 fe_weights) (firstn 9 h) in
  fval h = nth 9 h 0 * 2 ^ 230 + L /\ - (2 ^ 245) <= L <= 2 ^ 245 /\ - (2 ^ 31) <= nth 9 h 0 <= 2 ^ 31.
Proof.
  intro F. unfold wide in F. limbs_of F. unfold me, mo in *. unfold fval, fe_weights. cbn [nth firstn wsum].
  split; [ring|]. lia.
Qed.

Lemma canon_value l : Forall2 inside l canon -> 0 <= wsum fe_weights l < 2 ^ 255.
Proof.
  unfold canon. intro H.
  repeat match goal with H : Forall2 _ _ (_ :: _) |- _ => inversion H; clear H; subst end.
  match goal with H : Forall2 _ _ [] |- _ => inversion H; subst end.
  unfold inside in *. cbn [fst snd] in *. unfold fe_weights. cbn [wsum]. lia.
Qed.

Lemma remainder_found V q c W : q = V / p25519 -> W + 2 ^ 255 * c = V + 19 * q -> 0 <= W < 2 ^ 255 -> W = V mod p25519.
Proof.
  intros Q E B. rewrite Z.mod_eq by exact p_nonzero. rewrite <- Q.
  pose proof (Z.div_mod V p25519 p_nonzero) as D. pose proof (Z.mod_pos_bound V p25519 eq_refl) as M.
  rewrite <- Q in D. revert D M. unfold p25519. intros. lia.
Qed.

Lemma to_values r h : wide h -> holds (fe_start "h") r -> outs r (elems "h" 10) = h ->
  let r2 := iexec (firstn 41 feToBytes) r in
  canonical (outs r2 (elems "h" 10)) /\ fval (outs r2 (elems "h" 10)) = fval h mod p25519.
Proof.
  intros F H O r2. destruct (bounded_sound _ _ _ _ r to_limbs H) as [_ B].
  split; [exact B|]. pose proof (canon_value _ B) as C. fold r2 in C. unfold fval at 1.
  assert (S : iexec (firstn 41 feToBytes) r = iexec (skipn 11 (firstn 41 feToBytes)) (iexec (firstn 11 feToBytes) r)).
  { rewrite (iexec_split 11 (firstn 41 feToBytes)), firstn_firstn. reflexivity. }
  pose proof (to_quotient r) as Q. cbn zeta in Q. rewrite O in Q.
  assert (N9 : r "h[9]"%string = nth 9 h 0) by (rewrite <- O; reflexivity). rewrite N9 in Q.
  destruct (wide_value h F) as (EV & BL & B9).
  pose proof (quotient_right (fval h) (nth 9 h 0) _ _ _ EV BL B9 eq_refl Q) as QR.
  pose proof (computes_exactly _ _ _ _ (iexec (firstn 11 feToBytes) r) to_carries) as X.
  rewrite <- S in X. cbn [goal_val] in X. unfold fe_sum in X.
  rewrite (weigh_outs (iexec (firstn 11 feToBytes) r) fe_weights) in X.
  rewrite (iexec_others (elems "h" 10) (firstn 11 feToBytes) r) in X by (vm_compute; reflexivity).
  rewrite O in X. fold (fval h) in X. fold r2 in X.
  assert (Y : forall a b, weigh r2 (a ++ b) = weigh r2 a + weigh r2 b).
  { intros a b. induction a as [|[w y] a IH]; cbn [app weigh]; [lia|]. rewrite IH. lia. }
  rewrite Y, weigh_outs in X. cbn [weigh] in X.
  refine (remainder_found (fval h) _ (r2 "carry[9]"%string) _ QR _ C).
  rewrite !Z.add_0_r in X. exact X.
Qed.

Lemma canonical_entries r : canonical (outs r (elems "h" 10)) ->
  forall w y n, List.In (w, y, n) canon_entries -> 0 <= r y < 2 ^ Z.of_nat n.
Proof.
  intro H. change (outs r (elems "h" 10)) with
    ([r "h[0]"; r "h[1]"; r "h[2]"; r "h[3]"; r "h[4]"; r "h[5]"; r "h[6]"; r "h[7]"; r "h[8]"; r "h[9]"])%string in H.
  unfold canonical in H.
  repeat match goal with H : Forall2 _ _ (_ :: _) |- _ => inversion H; clear H; subst end.
  unfold inside in *. cbn [fst snd] in *.
  intros w y n I. cbn in I.
  repeat (destruct I as [I|I]; [injection I as <- <- <-; cbn [Z.of_nat]; lia|]). destruct I.
Qed.

Lemma canon_places : weights (map fst canon_entries) = fe_sum "h".
Proof. vm_compute. reflexivity. Qed.

Lemma to_packed r h : Forall2 inside (outs (iexec feToBytes r) (elems "s" 32)) (repeat (0, 255) 32) ->
  canonical (outs (iexec (firstn 41 feToBytes) r) (elems "h" 10)) ->
  fval (outs (iexec (firstn 41 feToBytes) r) (elems "h" 10)) = h ->
  map z2b (outs (iexec feToBytes r) (elems "s" 32)) = le_bytes 32 h.
Proof.
  intros I C V. apply byte_list_eq; [exact I|]. rewrite (iexec_split 41 feToBytes r).
  pose proof (repacks_sound _ _ _ _ (iexec (firstn 41 feToBytes) r) to_packs (canonical_entries _ C)) as R.
  rewrite byte_places, canon_places in R. unfold byte_sum, fe_sum in R. rewrite !weigh_outs in R.
  fold (fval (outs (iexec (firstn 41 feToBytes) r) (elems "h" 10))) in R. rewrite V in R. rewrite R.
  apply Z.mod_small. rewrite <- V. pose proof (canon_value _ C) as B. unfold fval.
  change (2 ^ Z.of_nat 256) with (2 * 2 ^ 255). lia.
Qed.

Theorem l_bytes_spec h : wide h ->
  fst (l_bytes h) = le_bytes 32 (fval h mod p25519) /\
  canonical (snd (l_bytes h)) /\ fval (snd (l_bytes h)) = fval h mod p25519.
Proof.
  intro F. unfold l_bytes. remember (start (combine (elems "h" 10) h)) as r eqn:R.
  assert (L : length h = 10%nat) by exact (bnd_length _ _ _ F).
  assert (H : holds (fe_start "h") r).
  { subst r. apply start_holds. apply Forall2_combine; [rewrite L; reflexivity|]. apply bnd_inside. exact F. }
  assert (O : outs r (elems "h" 10) = h) by (subst r; apply outs_one; [exact L|tauto]).
  clear R. destruct (bounded_sound _ _ _ _ r to_bounded H) as [E B]. rewrite E. cbn [fst snd].
  destruct (to_values r h F H O) as [C V].
  assert (X : outs (iexec feToBytes r) (elems "h" 10) = outs (iexec (firstn 41 feToBytes) r) (elems "h" 10)).
  { rewrite (iexec_split 41 feToBytes r). apply iexec_others. vm_compute. reflexivity. }
  rewrite X. split; [apply to_packed; assumption|]. split; [exact C|exact V].
Qed.
