(** Checkers for the programs of GoIntModel.v, and why they can be trusted:
    intervals (nothing wraps around), polynomials (what a program computes up to
    multiples of a modulus) and bits (how numbers are cut into bytes). *)
From Coq Require Import ZArith String List Bool Lia ZifyBool ZifyNat ZifyN.
From Verif Require Import GoIntModel LimbSpec.
Import ListNotations.
Local Open Scope Z_scope.

(** ** The same programs with unbounded integers *)

(** [Or] is only met where the operands have no bit in common. *)
Fixpoint ideal (r : env) (e : expr) : Z :=
  match e with
  | Var x => r x
  | Lit z => z
  | Add _ a b => ideal r a + ideal r b
  | Sub _ a b => ideal r a - ideal r b
  | Mul _ a b => ideal r a * ideal r b
  | Shl _ a n => ideal r a * 2 ^ n
  | Shr a n => ideal r a / 2 ^ n
  | Or a b => ideal r a + ideal r b
  | And a b => Z.land (ideal r a) (ideal r b)
  | Conv U8 a => ideal r a mod 2 ^ 8
  | Conv _ a => ideal r a
  end.

Fixpoint iexec (p : list stmt) (r : env) : env :=
  match p with
  | [] => r
  | s :: p => iexec p (set r (lhs s) (ideal r (rhs s)))
  end.

Lemma iexec_app p q r : iexec (p ++ q) r = iexec q (iexec p r).
Proof. revert r. induction p; intro r; [reflexivity|]. cbn [app iexec]. apply IHp. Qed.

Lemma exec_app p q r : exec (p ++ q) r = exec q (exec p r).
Proof. revert r. induction p; intro r; [reflexivity|]. cbn [app exec]. apply IHp. Qed.

(** ** Intervals *)

Lemma wrap_id t z : lowest t <= z <= highest t -> wrap t z = z.
Proof.
  unfold lowest, highest, wrap. destruct t; intro H.
  - rewrite Z.mod_small; lia.
  - rewrite Z.mod_small; lia.
  - apply Z.mod_small. lia.
Qed.

Definition interval := (Z * Z)%type.
Definition inside (z : Z) (i : interval) : Prop := fst i <= z <= snd i.
Definition fits (t : gotype) (i : interval) : option interval :=
  if (lowest t <=? fst i) && (snd i <=? highest t) then Some i else None.

Lemma fits_some t i j : fits t i = Some j -> i = j /\ lowest t <= fst i /\ snd i <= highest t.
Proof.
  unfold fits. destruct (_ && _) eqn:E; [|discriminate]. intros [= <-]. split; [reflexivity|lia].
Qed.

Fixpoint find {A} (x : string) (l : list (string * A)) : option A :=
  match l with
  | [] => None
  | (y, a) :: l => if String.eqb x y then Some a else find x l
  end.

Definition imul (i j : interval) : interval :=
  let a := fst i * fst j in let b := fst i * snd j in
  let c := snd i * fst j in let d := snd i * snd j in
  (Z.min (Z.min a b) (Z.min c d), Z.max (Z.max a b) (Z.max c d)).

Lemma imul_inside x y i j : inside x i -> inside y j -> inside (x * y) (imul i j).
Proof.
  destruct i as [a b], j as [c d]. unfold inside, imul. cbn [fst snd]. intros X Y.
  assert (L : Z.min (a * y) (b * y) <= x * y <= Z.max (a * y) (b * y)) by (destruct (Z_le_gt_dec 0 y); nia).
  assert (La : Z.min (a * c) (a * d) <= a * y <= Z.max (a * c) (a * d)) by (destruct (Z_le_gt_dec 0 a); nia).
  assert (Lb : Z.min (b * c) (b * d) <= b * y <= Z.max (b * c) (b * d)) by (destruct (Z_le_gt_dec 0 b); nia).
  set (ay := a * y) in *. set (by_ := b * y) in *. set (xy := x * y) in *.
  set (ac := a * c) in *. set (ad := a * d) in *. set (bc := b * c) in *. set (bd := b * d) in *.
  clearbody ay by_ xy ac ad bc bd. lia.
Qed.

(** a mask of ones: how many *)
Definition ones (m : Z) : option Z :=
  let k := Z.log2 (m + 1) in if (0 <=? k) && (m =? 2 ^ k - 1) then Some k else None.

Lemma ones_some m k : ones m = Some k -> 0 <= k /\ m = Z.ones k.
Proof.
  unfold ones. destruct (_ && _) eqn:E; [|discriminate]. intros [= <-].
  rewrite Z.ones_equiv. lia.
Qed.

Definition shl_count (e : expr) : option Z := match e with Shl _ _ n => Some n | _ => None end.

Section Intervals.
Variable A : list (string * interval).

Fixpoint ival (e : expr) : option interval :=
  match e with
  | Var x => find x A
  | Lit z => Some (z, z)
  | Add t a b => match ival a, ival b with
                 | Some i, Some j => fits t (fst i + fst j, snd i + snd j) | _, _ => None end
  | Sub t a b => match ival a, ival b with
                 | Some i, Some j => fits t (fst i - snd j, snd i - fst j) | _, _ => None end
  | Mul t a b => match ival a, ival b with
                 | Some i, Some j => fits t (imul i j) | _, _ => None end
  | Shl t a n => match ival a with
                 | Some i => if 0 <=? n then fits t (fst i * 2 ^ n, snd i * 2 ^ n) else None | None => None end
  | Shr a n => match ival a with
               | Some i => if 0 <=? n then Some (fst i / 2 ^ n, snd i / 2 ^ n) else None | None => None end
  | Or a b => match ival a, ival b, shl_count b with
              | Some i, Some j, Some n =>
                  if (0 <=? n) && (0 <=? fst i) && (snd i <? 2 ^ n)
                  then Some (fst i + fst j, snd i + snd j) else None
              | _, _, _ => None end
  | And (Lit m) a => match ival a, ones m with
                     | Some _, Some _ => Some (0, m) | _, _ => None end
  | And a (Lit m) => match ival a, ones m with
                     | Some _, Some _ => Some (0, m) | _, _ => None end
  | And _ _ => None
  | Conv U8 a => match ival a with Some _ => Some (0, 255) | None => None end
  | Conv t a => match ival a with Some i => fits t i | None => None end
  end.
End Intervals.

Definition holds (A : list (string * interval)) (r : env) : Prop :=
  forall x i, find x A = Some i -> inside (r x) i.

Lemma lor_sum a b n : 0 <= n -> 0 <= a < 2 ^ n -> Z.lor a (b * 2 ^ n) = a + b * 2 ^ n.
Proof.
  intros N R. rewrite Z.add_nocarry_lxor, Z.lxor_lor; [reflexivity| |].
  all: apply Z.bits_inj'; intros i I; rewrite Z.land_spec, Z.bits_0.
  all: destruct (Z_lt_ge_dec i n).
  1,3: rewrite Z.mul_pow2_bits_low by lia; apply andb_false_r.
  all: rewrite <- (Z.mod_small a (2 ^ n)) by lia; rewrite Z.mod_pow2_bits_high by lia; reflexivity.
Qed.

Lemma land_ones_l m k z : ones m = Some k -> Z.land m z = z mod 2 ^ k /\ 0 <= Z.land m z <= m.
Proof.
  intro O. apply ones_some in O. destruct O as [K ->].
  rewrite Z.land_comm, Z.land_ones by exact K. split; [reflexivity|].
  rewrite Z.ones_equiv. pose proof (Z.mod_pos_bound z (2 ^ k) ltac:(lia)). lia.
Qed.

Lemma ideal_shl r e n : shl_count e = Some n -> exists z, ideal r e = z * 2 ^ n.
Proof. destruct e; cbn; try discriminate. intros [= <-]. eauto. Qed.

Lemma ival_sound A r : holds A r -> forall e i, ival A e = Some i ->
  eval r e = ideal r e /\ inside (ideal r e) i.
Proof.
  intro H. induction e; intros i E; cbn [ival eval ideal] in *.
  - split; [reflexivity|]. exact (H _ _ E).
  - injection E as <-. unfold inside. cbn. lia.
  - destruct (ival A e1) as [i1|] eqn:E1; [|discriminate]. destruct (ival A e2) as [i2|] eqn:E2; [|discriminate].
    destruct (IHe1 _ eq_refl) as [-> I1], (IHe2 _ eq_refl) as [-> I2]. apply fits_some in E. destruct E as [<- F].
    unfold inside in *. cbn [fst snd] in *. split; [apply wrap_id; lia|lia].
  - destruct (ival A e1) as [i1|] eqn:E1; [|discriminate]. destruct (ival A e2) as [i2|] eqn:E2; [|discriminate].
    destruct (IHe1 _ eq_refl) as [-> I1], (IHe2 _ eq_refl) as [-> I2]. apply fits_some in E. destruct E as [<- F].
    unfold inside in *. cbn [fst snd] in *. split; [apply wrap_id; lia|lia].
  - destruct (ival A e1) as [i1|] eqn:E1; [|discriminate]. destruct (ival A e2) as [i2|] eqn:E2; [|discriminate].
    destruct (IHe1 _ eq_refl) as [-> I1], (IHe2 _ eq_refl) as [-> I2]. apply fits_some in E. destruct E as [<- F].
    pose proof (imul_inside _ _ _ _ I1 I2) as M. unfold inside in M. split; [apply wrap_id; lia|exact M].
  - destruct (ival A e) as [i1|] eqn:E1; [|discriminate]. destruct (0 <=? n) eqn:N; [|discriminate].
    destruct (IHe _ eq_refl) as [-> I1]. apply fits_some in E. destruct E as [<- F].
    rewrite Z.shiftl_mul_pow2 by lia. assert (0 < 2 ^ n) by lia. unfold inside in *. cbn [fst snd] in *.
    set (m := 2 ^ n) in *. clearbody m. assert (fst i1 * m <= ideal r e * m <= snd i1 * m) by nia.
    split; [apply wrap_id; lia|lia].
  - destruct (ival A e) as [i1|] eqn:E1; [|discriminate]. destruct (0 <=? n) eqn:N; [|discriminate].
    destruct (IHe _ eq_refl) as [-> I1]. injection E as <-.
    rewrite Z.shiftr_div_pow2 by lia. split; [reflexivity|]. unfold inside in *. cbn [fst snd] in *.
    assert (0 < 2 ^ n) by lia. split; apply Z.div_le_mono; lia.
  - destruct (ival A e1) as [i1|] eqn:E1; [|discriminate]. destruct (ival A e2) as [i2|] eqn:E2; [|discriminate].
    destruct (shl_count e2) as [n|] eqn:S; [|discriminate]. destruct (_ && _) eqn:C; [|discriminate].
    destruct (IHe1 _ eq_refl) as [-> I1], (IHe2 _ eq_refl) as [-> I2]. injection E as <-.
    destruct (ideal_shl r e2 n S) as [z Z]. unfold inside in *. cbn [fst snd] in *.
    rewrite Z in *. rewrite lor_sum by lia. lia.
  - assert (G : forall a m, ones m <> None -> inside (Z.land (ideal r a) m) (0, m)).
    { intros a m O. destruct (ones m) as [k|] eqn:K; [|congruence]. rewrite Z.land_comm.
      unfold inside. cbn. apply (land_ones_l m k). exact K. }
    assert (D : (exists m a, e1 = Lit m /\ e2 = a) \/ (exists m, e2 = Lit m)).
    { destruct e1; destruct e2; try discriminate; eauto. }
    destruct D as [(m & a & -> & ->)|[m ->]].
    + destruct (ival A a) as [j|] eqn:Ea; [|discriminate]. destruct (ones m) as [k|] eqn:K; [|discriminate].
      injection E as <-. destruct (IHe2 _ eq_refl) as [-> _]. pose proof (G a m ltac:(congruence)) as In. cbn [eval ideal].
      split; [reflexivity|]. rewrite Z.land_comm. exact In.
    + assert (E' : match ival A e1, ones m with Some _, Some _ => Some (0, m) | _, _ => None end = Some i \/
                   exists m', e1 = Lit m' /\ match ones m' with Some _ => Some (0, m') | None => None end = Some i).
      { destruct e1; try (left; exact E). right. exists z. split; [reflexivity|]. exact E. }
      destruct E' as [E'|(m' & -> & E')].
      * destruct (ival A e1) as [j|] eqn:Ea; [|discriminate]. destruct (ones m) as [k|] eqn:K; [|discriminate].
        injection E' as <-. destruct (IHe1 _ eq_refl) as [-> _]. pose proof (G e1 m ltac:(congruence)) as In. cbn [eval ideal].
        split; [reflexivity|]. exact In.
      * destruct (ones m') as [k|] eqn:K; [|discriminate]. injection E' as <-. cbn [eval ideal].
        split; [reflexivity|]. unfold inside. cbn. apply (land_ones_l m' k). exact K.
  - destruct t; (destruct (ival A e) as [j|] eqn:Ea; [|discriminate]); destruct (IHe _ eq_refl) as [-> In].
    + apply fits_some in E. destruct E as [<- F]. unfold inside in *. split; [apply wrap_id; lia|lia].
    + apply fits_some in E. destruct E as [<- F]. unfold inside in *. split; [apply wrap_id; lia|lia].
    + injection E as <-. split; [reflexivity|]. unfold inside. cbn [fst snd].
      pose proof (Z.mod_pos_bound (ideal r e) (2 ^ 8) eq_refl). lia.
Qed.

Lemma stays_cut r e : stays false r e -> stays true r e.
Proof. induction e; cbn [stays]; intuition. Qed.

Lemma ival_stays A r : holds A r -> forall e i, ival A e = Some i -> stays false r e.
Proof.
  intro H. induction e; intros i E.
  - exact I.
  - exact I.
  - pose proof (ival_sound A r H _ _ E) as [V _]. cbn [ival stays ideal] in *.
    destruct (ival A e1) as [i1|] eqn:E1; [|discriminate]. destruct (ival A e2) as [i2|] eqn:E2; [|discriminate].
    destruct (ival_sound A r H _ _ E1) as [-> I1], (ival_sound A r H _ _ E2) as [-> I2].
    apply fits_some in E. destruct E as [<- F]. unfold inside, in_type in *. cbn [fst snd] in *.
    repeat split; eauto; lia.
  - pose proof (ival_sound A r H _ _ E) as [V _]. cbn [ival stays ideal] in *.
    destruct (ival A e1) as [i1|] eqn:E1; [|discriminate]. destruct (ival A e2) as [i2|] eqn:E2; [|discriminate].
    destruct (ival_sound A r H _ _ E1) as [-> I1], (ival_sound A r H _ _ E2) as [-> I2].
    apply fits_some in E. destruct E as [<- F]. unfold inside, in_type in *. cbn [fst snd] in *.
    repeat split; eauto; lia.
  - pose proof (ival_sound A r H _ _ E) as [V _]. cbn [ival stays ideal] in *.
    destruct (ival A e1) as [i1|] eqn:E1; [|discriminate]. destruct (ival A e2) as [i2|] eqn:E2; [|discriminate].
    destruct (ival_sound A r H _ _ E1) as [-> I1], (ival_sound A r H _ _ E2) as [-> I2].
    apply fits_some in E. destruct E as [<- F].
    pose proof (imul_inside _ _ _ _ I1 I2) as M. unfold inside in M. unfold in_type.
    repeat split; eauto; lia.
  - pose proof (ival_sound A r H _ _ E) as [_ In]. cbn [ival stays ideal] in *.
    destruct (ival A e) as [i1|] eqn:E1; [|discriminate]. destruct (0 <=? n) eqn:N; [|discriminate].
    destruct (ival_sound A r H _ _ E1) as [-> I1]. apply fits_some in E. destruct E as [<- F].
    unfold inside, in_type in *. split; [eauto|right; lia].
  - cbn [ival stays] in *. destruct (ival A e) as [i1|] eqn:E1; [|discriminate]. eauto.
  - cbn [ival stays] in *. destruct (ival A e1) as [i1|] eqn:E1; [|discriminate].
    destruct (ival A e2) as [i2|] eqn:E2; [|discriminate]. eauto.
  - cbn [stays]. assert (D : (exists m, e1 = Lit m) \/ (exists m, e2 = Lit m)).
    { cbn [ival] in E. destruct e1; destruct e2; try discriminate; eauto. }
    destruct D as [[m ->]|[m ->]].
    + split; [exact I|]. cbn [ival] in E. destruct (ival A e2) as [j|] eqn:Ea; [eauto|discriminate].
    + split; [|exact I].
      assert (E' : match ival A e1, ones m with Some _, Some _ => Some (0, m) | _, _ => None end = Some i \/
                   exists m', e1 = Lit m').
      { destruct e1; try (left; exact E). right. eexists. reflexivity. }
      destruct E' as [E'|[m' ->]]; [|exact I]. destruct (ival A e1) as [j|] eqn:Ea; [eauto|discriminate].
  - destruct (ival A e) as [j|] eqn:Ea; [|cbn [ival] in E; rewrite Ea in E; destruct t; discriminate].
    destruct (ival_sound A r H _ _ Ea) as [V In]. pose proof (IHe _ eq_refl) as S.
    destruct t; [| |apply stays_cut; exact S].
    all: cbn [ival stays] in *; rewrite Ea in E; apply fits_some in E; destruct E as [_ F]; unfold inside, in_type in *;
      rewrite V; split; [exact S|lia].
Qed.

(** [byte(a | b << n)]: what the shift loses is not in the byte *)
Definition ival_top (A : list (string * interval)) (e : expr) : option interval :=
  match e with
  | Conv U8 (Or a (Shl t b n)) =>
      match t, ival A a, ival A b with
      | U8, _, _ => None
      | _, Some i, Some _ =>
          if (0 <=? n) && (n <=? 32) && (0 <=? fst i) && (snd i <? 2 ^ n) then Some (0, 255) else None
      | _, _, _ => None
      end
  | _ => ival A e
  end.

Lemma wrap_shift t z n : t <> U8 -> 0 <= n <= 32 -> exists k, wrap t (z * 2 ^ n) = (z + k * 2 ^ (32 - n)) * 2 ^ n.
Proof.
  intros T N. assert (W : exists k, wrap t (z * 2 ^ n) = z * 2 ^ n + k * 2 ^ 32).
  { destruct t; [| |congruence]; unfold wrap; eexists; rewrite Z.mod_eq by lia.
    - instantiate (1 := - ((z * 2 ^ n + 2 ^ 31) / 2 ^ 32)). ring.
    - instantiate (1 := - (2 ^ 32 * ((z * 2 ^ n + 2 ^ 63) / 2 ^ 64))). ring. }
  destruct W as [k ->]. exists k. replace (2 ^ 32) with (2 ^ (32 - n) * 2 ^ n); [ring|].
  rewrite <- Z.pow_add_r by lia. f_equal. lia.
Qed.

Lemma ival_top_sound A r e i : holds A r -> ival_top A e = Some i ->
  eval r e = ideal r e /\ inside (ideal r e) i.
Proof.
  intros H E. unfold ival_top in E.
  assert (D : ival A e = Some i \/ exists a t b n, e = Conv U8 (Or a (Shl t b n))).
  { destruct e as [| | | | | | | | |[] a]; try (left; exact E).
    destruct a as [| | | | | | |a b| |]; try (left; exact E).
    destruct b as [| | | | |t b n| | | |]; try (left; exact E). right. repeat eexists. }
  destruct D as [D|(a & t & b & n & ->)]; [exact (ival_sound A r H e i D)|].
  assert (T : t <> U8) by (intros ->; discriminate).
  assert (E' : match ival A a, ival A b with
               | Some i, Some _ => if (0 <=? n) && (n <=? 32) && (0 <=? fst i) && (snd i <? 2 ^ n) then Some (0, 255) else None
               | _, _ => None end = Some i) by (destruct t; [exact E|exact E|congruence]).
  clear E. destruct (ival A a) as [ia|] eqn:Ia; [|discriminate]. destruct (ival A b) as [ib|] eqn:Ib; [|discriminate].
  destruct (_ && _) eqn:C; [|discriminate]. injection E' as <-.
  destruct (ival_sound A r H a _ Ia) as [Ea Na]. destruct (ival_sound A r H b _ Ib) as [Eb Nb].
  cbn [eval ideal]. rewrite Ea, Eb, Z.shiftl_mul_pow2 by lia.
  destruct (wrap_shift t (ideal r b) n T ltac:(lia)) as [k ->]. unfold inside in Na.
  rewrite lor_sum by lia. unfold wrap, inside. cbn [fst snd].
  split; [|pose proof (Z.mod_pos_bound (ideal r a + ideal r b * 2 ^ n) (2 ^ 8) eq_refl); lia].
  replace (ideal r a + (ideal r b + k * 2 ^ (32 - n)) * 2 ^ n)
    with (ideal r a + ideal r b * 2 ^ n + (k * 2 ^ 24) * 2 ^ 8); [apply Z.mod_add; lia|].
  assert (P : 2 ^ 24 * 2 ^ 8 = 2 ^ (32 - n) * 2 ^ n) by (rewrite <- !Z.pow_add_r by lia; f_equal; lia).
  rewrite <- Z.mul_assoc, P. ring.
Qed.

Lemma ival_top_stays A r e i : holds A r -> ival_top A e = Some i -> stays false r e.
Proof.
  intros H E. unfold ival_top in E.
  assert (D : ival A e = Some i \/ exists a t b n, e = Conv U8 (Or a (Shl t b n))).
  { destruct e as [| | | | | | | | |[] a]; try (left; exact E).
    destruct a as [| | | | | | |a b| |]; try (left; exact E).
    destruct b as [| | | | |t b n| | | |]; try (left; exact E). right. repeat eexists. }
  destruct D as [D|(a & t & b & n & ->)]; [exact (ival_stays A r H e i D)|].
  cbn [stays]. destruct t; [| |discriminate].
  all: destruct (ival A a) as [ia|] eqn:Ia; [|discriminate]; destruct (ival A b) as [ib|] eqn:Ib; [|discriminate].
  all: split; [apply stays_cut; exact (ival_stays A r H a _ Ia)|split; [exact (ival_stays A r H b _ Ib)|left; reflexivity]].
Qed.

(** A carry: after [c = (x + d) >> k] the assignment [x -= c << k] leaves [x] between
    [-d] and [2^k - 1 - d].  The entries say which variables hold such a carry. *)
Definition carries := list (string * (string * Z * Z)).
Definition kept (C : carries) (r : env) : Prop :=
  forall c x d k, find c C = Some (x, d, k) -> 0 <= k /\ r c = (r x + d) / 2 ^ k.

Definition forget (C : carries) (v : string) : carries :=
  filter (fun '(c, (x, _, _)) => negb (String.eqb v c) && negb (String.eqb v x)) C.

Definition new_carry (A : list (string * interval)) (v : string) (e : expr) : option (string * Z * Z) :=
  match e with
  | Shr (Add _ (Var x) d) k =>
      match ival A d with
      | Some (lo, hi) => if (lo =? hi) && (0 <=? k) && negb (String.eqb v x) then Some (x, lo, k) else None
      | None => None
      end
  | Shr (Var x) k => if (0 <=? k) && negb (String.eqb v x) then Some (x, 0, k) else None
  | _ => None
  end.

Definition settled (C : carries) (v : string) (e : expr) (i : interval) : interval :=
  match e with
  | Sub _ (Var x) (Shl _ (Var c) n) =>
      match find c C with
      | Some (x', d, k) =>
          if String.eqb x x' && (n =? k)
          then (Z.max (fst i) (- d), Z.min (snd i) (2 ^ k - 1 - d)) else i
      | None => i
      end
  | _ => i
  end.

Definition step (st : list (string * interval) * carries) (s : stmt) : option (list (string * interval) * carries) :=
  let (A, C) := st in
  match ival_top A (rhs s) with
  | None => None
  | Some i =>
      let j := settled C (lhs s) (rhs s) i in
      let C' := forget C (lhs s) in
      Some ((lhs s, j) :: A,
            match new_carry A (lhs s) (rhs s) with Some d => (lhs s, d) :: C' | None => C' end)
  end.

Fixpoint steps (st : list (string * interval) * carries) (p : list stmt) : option (list (string * interval) * carries) :=
  match p with
  | [] => Some st
  | s :: p => match step st s with Some st => steps st p | None => None end
  end.

Lemma settled_sound C r v e i : kept C r -> inside (ideal r e) i -> inside (ideal r e) (settled C v e i).
Proof.
  intros K H. unfold settled.
  destruct e as [| | |t a b| | | | | |]; try exact H. destruct a; try exact H. destruct b as [| | | | |t' a' n| | | |]; try exact H.
  destruct a' as [c| | | | | | | | |]; try exact H.
  destruct (find c C) as [[[x' d] k]|] eqn:F; [|exact H]. destruct (_ && _) eqn:E; [|exact H].
  apply andb_true_iff in E. destruct E as [E1 E2]. apply String.eqb_eq in E1. subst x'.
  assert (n = k) by lia. subst n. destruct (K _ _ _ _ F) as [K0 KE]. cbn [ideal] in *.
  unfold inside in *. cbn [fst snd]. rewrite KE in *.
  pose proof (Z.div_mod (r x + d) (2 ^ k) ltac:(lia)) as DM.
  pose proof (Z.mod_pos_bound (r x + d) (2 ^ k) ltac:(lia)) as MB.
  set (m := 2 ^ k) in *. set (q := (r x + d) / m) in *. set (u := (r x + d) mod m) in *. clearbody m q u.
  assert (r x - q * m = u - d) by lia. lia.
Qed.

Lemma set_same r x v : set r x v x = v.
Proof. unfold set. rewrite String.eqb_refl. reflexivity. Qed.

Lemma set_other r x v y : x <> y -> set r x v y = r y.
Proof. unfold set. intro H. rewrite (proj2 (String.eqb_neq x y) H). reflexivity. Qed.

Lemma find_in {A} x (l : list (string * A)) a : find x l = Some a -> In (x, a) l.
Proof.
  induction l as [|[y b] l IH]; cbn; [discriminate|]. destruct (String.eqb x y) eqn:E.
  - intros [= ->]. apply String.eqb_eq in E. subst y. left. reflexivity.
  - intro H. right. exact (IH H).
Qed.

(** entries for the same carry: the newest counts, so older ones must be dropped *)
Lemma step_sound st s st' r : step st s = Some st' -> holds (fst st) r ->
  (forall c x d k, In (c, (x, d, k)) (snd st) -> 0 <= k /\ r c = (r x + d) / 2 ^ k) ->
  let r' := set r (lhs s) (ideal r (rhs s)) in
  eval r (rhs s) = ideal r (rhs s) /\ holds (fst st') r' /\
  (forall c x d k, In (c, (x, d, k)) (snd st') -> 0 <= k /\ r' c = (r' x + d) / 2 ^ k).
Proof.
  destruct st as [A C], s as [v e]. unfold step. cbn [fst snd lhs rhs]. intros E H K.
  destruct (ival_top A e) as [i|] eqn:I; [|discriminate]. injection E as <-. cbn [fst snd].
  destruct (ival_top_sound A r e i H I) as [V In]. split; [exact V|]. split.
  - intros y j. cbn [find]. destruct (String.eqb y v) eqn:Ey.
    + apply String.eqb_eq in Ey. subst y. intros [= <-]. rewrite set_same. apply settled_sound; [|exact In].
      intros c x d k F. apply K. apply find_in. exact F.
    + intro F. apply String.eqb_neq in Ey. rewrite set_other by congruence. exact (H _ _ F).
  - assert (KF : forall c x d k, List.In (c, (x, d, k)) (forget C v) ->
              0 <= k /\ set r v (ideal r e) c = (set r v (ideal r e) x + d) / 2 ^ k).
    { intros c x d k F. unfold forget in F. apply filter_In in F. destruct F as [F N].
      apply andb_true_iff in N. destruct N as [N1 N2]. apply negb_true_iff in N1, N2.
      apply String.eqb_neq in N1, N2. rewrite !set_other by assumption. exact (K _ _ _ _ F). }
    intros c x d k. destruct (new_carry A v e) as [[[y d'] k']|] eqn:N; [|apply KF].
    intros [Eq|F]; [|exact (KF _ _ _ _ F)]. injection Eq as <- -> -> ->.
    unfold new_carry in N. destruct e as [| | | | | |a n| | |]; try discriminate.
    destruct a as [y| |t a1 a2| | | | | | |]; try discriminate.
    + destruct (_ && _) eqn:B; [|discriminate]. injection N as -> <- ->.
      apply andb_true_iff in B. destruct B as [B1 B2]. apply negb_true_iff, String.eqb_neq in B2.
      rewrite set_same, set_other by exact B2. cbn [ideal]. rewrite Z.add_0_r. lia.
    + destruct a1 as [y| | | | | | | | |]; try discriminate.
      destruct (ival A a2) as [[lo hi]|] eqn:I2; [|discriminate]. destruct (_ && _) eqn:B; [|discriminate].
      injection N as -> <- ->.
      apply andb_true_iff in B. destruct B as [B1 B2]. apply negb_true_iff, String.eqb_neq in B2.
      apply andb_true_iff in B1. destruct B1 as [B0 B1].
      rewrite set_same, set_other by exact B2. cbn [ideal].
      destruct (ival_sound A r H a2 _ I2) as [_ In2]. unfold inside in In2. cbn [fst snd] in In2.
      replace (ideal r a2) with lo by lia. lia.
Qed.

Lemma steps_sound p : forall st st' r, steps st p = Some st' -> holds (fst st) r ->
  (forall c x d k, In (c, (x, d, k)) (snd st) -> 0 <= k /\ r c = (r x + d) / 2 ^ k) ->
  exec p r = iexec p r /\ holds (fst st') (iexec p r).
Proof.
  induction p as [|s p IH]; intros st st' r E H K; cbn [steps exec iexec] in *.
  - injection E as <-. split; [reflexivity|exact H].
  - destruct (step st s) as [st1|] eqn:S; [|discriminate].
    destruct (step_sound st s st1 r S H K) as (V & H1 & K1). rewrite V. exact (IH _ _ _ E H1 K1).
Qed.

Lemma steps_never_wraps p : forall st st' r, steps st p = Some st' -> holds (fst st) r ->
  (forall c x d k, In (c, (x, d, k)) (snd st) -> 0 <= k /\ r c = (r x + d) / 2 ^ k) ->
  never_wraps p r.
Proof.
  induction p as [|s p IH]; intros st st' r E H K; cbn [steps never_wraps] in *; [exact I|].
  destruct (step st s) as [st1|] eqn:S; [|discriminate].
  destruct (step_sound st s st1 r S H K) as (V & H1 & K1). split; [|rewrite V; exact (IH _ _ _ E H1 K1)].
  unfold step in S. destruct st as [A C]. destruct (ival_top A (rhs s)) as [i|] eqn:I; [|discriminate].
  exact (ival_top_stays A r _ i H I).
Qed.

(** the intervals of the variables [xs] after the program *)
Definition after (A : list (string * interval)) (p : list stmt) (xs : list string) : option (list (option interval)) :=
  match steps (A, []) p with
  | Some (A', _) => Some (map (fun x => find x A') xs)
  | None => None
  end.

Theorem after_sound A p xs is r : after A p xs = Some is -> holds A r ->
  exec p r = iexec p r /\
  Forall2 (fun x o => match o with Some i => inside (iexec p r x) i | None => True end) xs is.
Proof.
  unfold after. destruct (steps (A, []) p) as [[A' C']|] eqn:S; [|discriminate]. intros [= <-] H.
  destruct (steps_sound p _ _ r S H) as [E H']; [intros c x d k []|].
  split; [exact E|]. clear S E. cbn [fst] in H'. induction xs as [|x xs IH]; cbn [map]; constructor; [|exact IH].
  destruct (find x A') as [i|] eqn:F; [exact (H' _ _ F)|exact I].
Qed.

Theorem after_never_wraps A p xs is r : after A p xs = Some is -> holds A r -> never_wraps p r.
Proof.
  unfold after. destruct (steps (A, []) p) as [[A' C']|] eqn:S; [|discriminate]. intros _ H.
  apply (steps_never_wraps p _ _ r S H). intros c x d k [].
Qed.

(** ** Arrays in the place of others *)

Lemma eval_rename f r e : eval r (rename f e) = eval (fun x => r (f x)) e.
Proof. induction e; cbn [rename eval]; congruence. Qed.

Fixpoint names (e : expr) : list string :=
  match e with
  | Var x => [x]
  | Lit _ => []
  | Add _ a b | Sub _ a b | Mul _ a b | Or a b | And a b => names a ++ names b
  | Shl _ a _ | Shr a _ | Conv _ a => names a
  end.

Definition mem (x : string) (l : list string) : bool := existsb (String.eqb x) l.

Lemma mem_in x l : mem x l = true <-> In x l.
Proof.
  unfold mem. rewrite existsb_exists. split.
  - intros (y & I & E). apply String.eqb_eq in E. subst y. exact I.
  - intro I. exists x. split; [exact I|apply String.eqb_refl].
Qed.

Lemma eval_names r r' e : (forall x, In x (names e) -> r x = r' x) -> eval r e = eval r' e.
Proof.
  induction e; cbn [names eval]; intro H;
    try (rewrite IHe1, IHe2 by (intros; apply H; apply in_or_app; tauto); reflexivity).
  all: try (rewrite IHe by exact H; reflexivity).
  - apply H. left. reflexivity.
  - reflexivity.
Qed.

Lemma stays_names r r' e : forall cut, (forall x, In x (names e) -> r x = r' x) -> stays cut r e -> stays cut r' e.
Proof.
  assert (G : forall a b, (forall x, In x (names a ++ names b) -> r x = r' x) ->
                (forall x, In x (names a) -> r x = r' x) /\ (forall x, In x (names b) -> r x = r' x)).
  { intros a b H. split; intros x X; apply H; apply in_or_app; tauto. }
  induction e; intros cut H S; cbn [names stays] in *; try exact I.
  1-3: destruct (G _ _ H) as [H1 H2]; destruct S as (S1 & S2 & S3);
       rewrite (eval_names r r' e1 H1), (eval_names r r' e2 H2) in S3; auto.
  - destruct S as [S1 S2]. rewrite (eval_names r r' e H) in S2. auto.
  - auto.
  - destruct (G _ _ H) as [H1 H2]; destruct S as (S1 & S2). auto.
  - destruct (G _ _ H) as [H1 H2]; destruct S as (S1 & S2). auto.
  - destruct t; [| |auto]; destruct S as [S1 S2]; rewrite (eval_names r r' e H) in S2; auto.
Qed.

Lemma stays_rename f r e : forall cut, stays cut r (rename f e) <-> stays cut (fun x => r (f x)) e.
Proof.
  induction e; intro cut; cbn [rename stays]; rewrite ?eval_rename, ?IHe1, ?IHe2, ?IHe; try tauto.
  destruct t; rewrite ?eval_rename, ?IHe; tauto.
Qed.

(** Running with [f] of the names: [D] are the names whose value may be lost,
    because another one at the same place was written. *)
Section Aliases.
Variable xs ys : list string.
Let f := onto xs ys.

Definition lost (v : string) (D : list string) : list string :=
  filter (fun y => negb (String.eqb y v)) D ++
  (if mem v xs || mem v ys then filter (fun y => negb (String.eqb y v) && String.eqb (f y) (f v)) (xs ++ ys) else []).

Fixpoint unharmed (D : list string) (p : list stmt) (out : list string) : bool :=
  match p with
  | [] => forallb (fun x => negb (mem x D)) out
  | s :: p => forallb (fun x => negb (mem x D)) (names (rhs s)) && unharmed (lost (lhs s) D) p out
  end.

Lemma onto_off : forall a b x, mem x a = false -> onto a b x = x.
Proof.
  induction a as [|x' a IH]; intros [|y b] x M; try reflexivity. cbn [onto].
  unfold mem in M. cbn [existsb] in M. apply orb_false_iff in M. destruct M as [M1 M2]. rewrite M1. exact (IH b x M2).
Qed.

Lemma onto_in : forall a b x, onto a b x = x \/ In (onto a b x) b.
Proof.
  induction a as [|x' a IH]; intros [|y b] x; try (left; reflexivity). cbn [onto].
  destruct (String.eqb x x'); [right; left; reflexivity|]. destruct (IH b x) as [H|H]; [left; exact H|right; right; exact H].
Qed.

Lemma lost_all v D y : mem y (lost v D) = false -> y <> v -> mem y D = false /\ f y <> f v.
Proof.
  intros M N. assert (M' : ~ In y (lost v D)) by (intro X; apply mem_in in X; congruence). unfold lost in M'. split.
  - destruct (mem y D) eqn:E; [|reflexivity]. exfalso. apply M'. apply in_or_app. left. apply filter_In.
    split; [apply mem_in; exact E|]. apply negb_true_iff. apply String.eqb_neq. exact N.
  - intro F. apply M'. apply in_or_app. right.
    assert (YV : (mem v xs || mem v ys = true) /\ In y (xs ++ ys)).
    { destruct (mem v xs) eqn:V; destruct (mem y xs) eqn:Y.
      - split; [reflexivity|]. apply in_or_app. left. apply mem_in. exact Y.
      - split; [reflexivity|]. apply in_or_app. right. unfold f in F. rewrite (onto_off xs ys y Y) in F.
        destruct (onto_in xs ys v) as [O|O]; [congruence|]. rewrite F. exact O.
      - assert (X : In v ys); [|split; [cbn [orb]; apply mem_in; exact X|apply in_or_app; left; apply mem_in; exact Y]].
        unfold f in F. rewrite (onto_off xs ys v V) in F.
        destruct (onto_in xs ys y) as [O|O]; [congruence|]. rewrite <- F. exact O.
      - exfalso. unfold f in F. rewrite (onto_off xs ys y Y), (onto_off xs ys v V) in F. exact (N F). }
    destruct YV as [V Y]. rewrite V. apply filter_In. split; [exact Y|].
    apply andb_true_iff. split; [apply negb_true_iff; apply String.eqb_neq; exact N|]. apply String.eqb_eq. exact F.
Qed.

Lemma free_of l D : forallb (fun x => negb (mem x D)) l = true -> forall x, In x l -> mem x D = false.
Proof. intros H x X. rewrite forallb_forall in H. apply negb_true_iff. apply H. exact X. Qed.

Theorem unharmed_sound p out : forall D r r', unharmed D p out = true ->
  (forall y, mem y D = false -> r y = r' (f y)) ->
  (forall x, In x out -> exec (renames f p) r' (f x) = exec p r x) /\
  (never_wraps p r -> never_wraps (renames f p) r').
Proof.
  induction p as [|s p IH]; intros D r r' U H; cbn [unharmed exec renames map never_wraps] in *.
  - split; [|auto]. intros x X. symmetry. apply H. exact (free_of _ _ U x X).
  - apply andb_true_iff in U. destruct U as [U1 U2]. cbn [lhs rhs].
    assert (N : forall x, In x (names (rhs s)) -> r x = r' (f x)) by (intros x X; apply H; exact (free_of _ _ U1 x X)).
    assert (E : eval r' (rename f (rhs s)) = eval r (rhs s)).
    { rewrite eval_rename. symmetry. apply eval_names. exact N. }
    destruct (IH (lost (lhs s) D) (set r (lhs s) (eval r (rhs s))) (set r' (f (lhs s)) (eval r' (rename f (rhs s)))) U2) as [I1 I2].
    { intros y Y. rewrite E. destruct (String.eqb y (lhs s)) eqn:B.
      - apply String.eqb_eq in B. subst y. rewrite !set_same. reflexivity.
      - apply String.eqb_neq in B. destruct (lost_all _ _ _ Y B) as [Y1 Y2].
        rewrite !set_other by congruence. apply H. exact Y1. }
    split; [exact I1|]. intros [S W]. split; [|exact (I2 W)].
    apply stays_rename. revert S. apply stays_names. exact N.
Qed.
End Aliases.

(** ** Polynomials *)

(** a product of unknowns (sorted), and a sum of such products *)
Definition mono := list positive.
Definition poly := list (mono * Z).

Section Values.
Variable v : positive -> Z.
Fixpoint mval (m : mono) : Z := match m with [] => 1 | x :: m => v x * mval m end.
Fixpoint pval (p : poly) : Z := match p with [] => 0 | (m, a) :: p => a * mval m + pval p end.
End Values.

Fixpoint mcmp (m n : mono) : comparison :=
  match m, n with
  | [], [] => Eq
  | [], _ => Lt
  | _, [] => Gt
  | x :: m, y :: n => match Pos.compare x y with Eq => mcmp m n | c => c end
  end.

Lemma mcmp_eq m n : mcmp m n = Eq -> m = n.
Proof.
  revert n. induction m as [|x m IH]; intros [|y n]; cbn; try discriminate; [reflexivity|].
  destruct (Pos.compare_spec x y) as [->| |]; try discriminate. intro H. f_equal. exact (IH _ H).
Qed.

Fixpoint padd (p : poly) : poly -> poly :=
  fix go (q : poly) : poly :=
    match p, q with
    | [], _ => q
    | _, [] => p
    | (m, a) :: p', (n, b) :: q' =>
        match mcmp m n with
        | Eq => if a + b =? 0 then padd p' q' else (m, a + b) :: padd p' q'
        | Lt => (m, a) :: padd p' q
        | Gt => (n, b) :: go q'
        end
    end.

Lemma padd_val v p : forall q, pval v (padd p q) = pval v p + pval v q.
Proof.
  induction p as [|[m a] p IH]; intro q.
  - destruct q; reflexivity.
  - induction q as [|[n b] q IHq].
    + cbn [padd pval]. lia.
    + change (padd ((m, a) :: p) ((n, b) :: q)) with
        (match mcmp m n with
         | Eq => if a + b =? 0 then padd p q else (m, a + b) :: padd p q
         | Lt => (m, a) :: padd p ((n, b) :: q)
         | Gt => (n, b) :: padd ((m, a) :: p) q
         end).
      destruct (mcmp m n) eqn:C.
      * apply mcmp_eq in C. subst n. destruct (a + b =? 0) eqn:Z.
        -- rewrite IH. cbn [pval]. replace b with (- a) by lia. ring.
        -- cbn [pval]. rewrite IH. ring.
      * cbn [pval]. rewrite IH. cbn [pval]. ring.
      * cbn [pval]. rewrite IHq. cbn [pval]. ring.
Qed.

Fixpoint mmul (m : mono) : mono -> mono :=
  fix go (n : mono) : mono :=
    match m, n with
    | [], _ => n
    | _, [] => m
    | x :: m', y :: n' => if (x <=? y)%positive then x :: mmul m' n else y :: go n'
    end.

Lemma mmul_val v m : forall n, mval v (mmul m n) = mval v m * mval v n.
Proof.
  induction m as [|x m IH]; intro n.
  - destruct n; cbn [mmul mval]; ring.
  - induction n as [|y n IHn].
    + cbn [mmul mval]. ring.
    + change (mmul (x :: m) (y :: n)) with
        (if (x <=? y)%positive then x :: mmul m (y :: n) else y :: mmul (x :: m) n).
      destruct (x <=? y)%positive; cbn [mval].
      * rewrite IH. cbn [mval]. ring.
      * rewrite IHn. cbn [mval]. ring.
Qed.

(** one product times a polynomial; the order of the products may be lost, so they are put in one by one *)
Fixpoint pscale (c : mono) (k : Z) (p : poly) : poly :=
  match p with [] => [] | (m, a) :: p => padd [(mmul c m, k * a)] (pscale c k p) end.

Lemma pscale_val v c k p : pval v (pscale c k p) = k * mval v c * pval v p.
Proof.
  induction p as [|[m a] p IH]; cbn [pscale pval]; [ring|].
  rewrite padd_val, IH. cbn [pval]. rewrite mmul_val. ring.
Qed.

Definition pconst (k : Z) (p : poly) : poly :=
  if k =? 0 then [] else map (fun '(m, a) => (m, k * a)) p.

Lemma pconst_val v k p : pval v (pconst k p) = k * pval v p.
Proof.
  unfold pconst. destruct (k =? 0) eqn:K; [assert (k = 0) by lia; subst k; cbn [pval]; ring|].
  induction p as [|[m a] p IH]; cbn [map pval]; [ring|]. rewrite IH. ring.
Qed.

Fixpoint pmul (p q : poly) : poly :=
  match p with
  | [] => []
  | ([], a) :: p => padd (pconst a q) (pmul p q)
  | (m, a) :: p => padd (pscale m a q) (pmul p q)
  end.

Lemma pmul_val v p q : pval v (pmul p q) = pval v p * pval v q.
Proof.
  induction p as [|[m a] p IH]; [reflexivity|].
  destruct m as [|x m].
  - change (pmul (([], a) :: p) q) with (padd (pconst a q) (pmul p q)).
    rewrite padd_val, pconst_val, IH. cbn [pval mval]. ring.
  - change (pmul ((x :: m, a) :: p) q) with (padd (pscale (x :: m) a q) (pmul p q)).
    rewrite padd_val, pscale_val, IH. cbn [pval]. ring.
Qed.

(** Symbolic execution: the result of a [>>] is a new unknown. *)
Fixpoint sym (P : list (string * poly)) (n : positive) (e : expr) : option (poly * positive) :=
  match e with
  | Var x => match find x P with Some p => Some (p, n) | None => None end
  | Lit z => Some ([([], z)], n)
  | Add _ a b => match sym P n a with
                 | Some (p, n) => match sym P n b with Some (q, n) => Some (padd p q, n) | None => None end
                 | None => None end
  | Sub _ a b => match sym P n a with
                 | Some (p, n) => match sym P n b with Some (q, n) => Some (padd p (pconst (-1) q), n) | None => None end
                 | None => None end
  | Mul _ a b => match sym P n a with
                 | Some (p, n) => match sym P n b with Some (q, n) => Some (pmul p q, n) | None => None end
                 | None => None end
  | Shl _ a k => match sym P n a with Some (p, n) => Some (pconst (2 ^ k) p, n) | None => None end
  | Shr a k => match sym P n a with Some (_, n) => Some ([([n], 1)], Pos.succ n) | None => None end
  | Conv U8 _ => None
  | Conv _ a => sym P n a
  | Or _ _ | And _ _ => None
  end.

(** what these unknowns are, in their order *)
Fixpoint found (r : env) (e : expr) : list Z :=
  match e with
  | Var _ | Lit _ => []
  | Add _ a b | Sub _ a b | Mul _ a b | Or a b | And a b => found r a ++ found r b
  | Shl _ a _ | Conv _ a => found r a
  | Shr a k => found r a ++ [ideal r a / 2 ^ k]
  end.

Definition valued (v : positive -> Z) (P : list (string * poly)) (r : env) : Prop :=
  forall x p, find x P = Some p -> r x = pval v p.

(** the unknowns from [n] on are the numbers [l] *)
Definition named (v : positive -> Z) (n : positive) (l : list Z) : Prop :=
  forall i, (i < length l)%nat -> v (Pos.of_nat (Pos.to_nat n + i)) = nth i l 0.

Lemma named_app v n l1 l2 : named v n (l1 ++ l2) ->
  named v n l1 /\ named v (Pos.of_nat (Pos.to_nat n + length l1)) l2.
Proof.
  intro H. split.
  - intros i I. rewrite H by (rewrite app_length; lia). apply app_nth1. exact I.
  - intros i I. rewrite Nat2Pos.id by lia. rewrite <- Nat.add_assoc.
    rewrite H by (rewrite app_length; lia). rewrite app_nth2 by lia. f_equal. lia.
Qed.

Lemma pos_of_add0 n : Pos.of_nat (Pos.to_nat n + 0) = n.
Proof. rewrite Nat.add_0_r. apply Pos2Nat.id. Qed.

Lemma sym_sound v P r : valued v P r -> forall e n p n', sym P n e = Some (p, n') -> named v n (found r e) ->
  ideal r e = pval v p /\ n' = Pos.of_nat (Pos.to_nat n + length (found r e)).
Proof.
  intro V.
  assert (TWO : forall a b n pa na pb nb,
    (forall n p n', sym P n a = Some (p, n') -> named v n (found r a) ->
      ideal r a = pval v p /\ n' = Pos.of_nat (Pos.to_nat n + length (found r a))) ->
    (forall n p n', sym P n b = Some (p, n') -> named v n (found r b) ->
      ideal r b = pval v p /\ n' = Pos.of_nat (Pos.to_nat n + length (found r b))) ->
    sym P n a = Some (pa, na) -> sym P na b = Some (pb, nb) -> named v n (found r a ++ found r b) ->
    ideal r a = pval v pa /\ ideal r b = pval v pb /\
    nb = Pos.of_nat (Pos.to_nat n + length (found r a ++ found r b))).
  { intros a b n pa na pb nb IHa IHb Sa Sb N. apply named_app in N. destruct N as [Na Nb].
    destruct (IHa _ _ _ Sa Na) as [Ea ->]. destruct (IHb _ _ _ Sb Nb) as [Eb ->].
    split; [exact Ea|]. split; [exact Eb|]. rewrite app_length, Nat2Pos.id by lia. f_equal. lia. }
  induction e; intros k p n' E N; cbn [sym found ideal] in *.
  - destruct (find x P) as [q|] eqn:F; [|discriminate]. injection E as <- <-.
    rewrite pos_of_add0. split; [exact (V _ _ F)|reflexivity].
  - injection E as <- <-. rewrite pos_of_add0. cbn [pval mval]. split; [ring|reflexivity].
  - destruct (sym P k e1) as [[p1 n1]|] eqn:S1; [|discriminate]. destruct (sym P n1 e2) as [[p2 n2]|] eqn:S2; [|discriminate].
    injection E as <- <-. destruct (TWO _ _ _ _ _ _ _ IHe1 IHe2 S1 S2 N) as (-> & -> & ->).
    rewrite padd_val. split; reflexivity.
  - destruct (sym P k e1) as [[p1 n1]|] eqn:S1; [|discriminate]. destruct (sym P n1 e2) as [[p2 n2]|] eqn:S2; [|discriminate].
    injection E as <- <-. destruct (TWO _ _ _ _ _ _ _ IHe1 IHe2 S1 S2 N) as (-> & -> & ->).
    rewrite padd_val, pconst_val. split; [ring|reflexivity].
  - destruct (sym P k e1) as [[p1 n1]|] eqn:S1; [|discriminate]. destruct (sym P n1 e2) as [[p2 n2]|] eqn:S2; [|discriminate].
    injection E as <- <-. destruct (TWO _ _ _ _ _ _ _ IHe1 IHe2 S1 S2 N) as (-> & -> & ->).
    rewrite pmul_val. split; reflexivity.
  - destruct (sym P k e) as [[p1 n1]|] eqn:S1; [|discriminate]. injection E as <- <-.
    destruct (IHe _ _ _ S1 N) as [-> ->]. rewrite pconst_val. split; [ring|reflexivity].
  - destruct (sym P k e) as [[p1 n1]|] eqn:S1; [|discriminate]. injection E as <- <-.
    apply named_app in N. destruct N as [N1 N2]. destruct (IHe _ _ _ S1 N1) as [_ ->].
    specialize (N2 O ltac:(cbn; lia)). rewrite pos_of_add0 in N2. cbn [pval mval]. rewrite N2. cbn [nth].
    split; [ring|]. rewrite app_length. cbn [length].
    apply Pos2Nat.inj. rewrite Pos2Nat.inj_succ, !Nat2Pos.id by lia. lia.
  - discriminate.
  - discriminate.
  - destruct t; [| |discriminate]; exact (IHe _ _ _ E N).
Qed.

Fixpoint syms (P : list (string * poly)) (n : positive) (p : list stmt) : option (list (string * poly)) :=
  match p with
  | [] => Some P
  | s :: p => match sym P n (rhs s) with
              | Some (q, n) => syms ((lhs s, q) :: P) n p
              | None => None
              end
  end.

Fixpoint founds (p : list stmt) (r : env) : list Z :=
  match p with
  | [] => []
  | s :: p => found r (rhs s) ++ founds p (set r (lhs s) (ideal r (rhs s)))
  end.

Lemma syms_sound v p : forall P n P' r, syms P n p = Some P' -> valued v P r -> named v n (founds p r) ->
  valued v P' (iexec p r).
Proof.
  induction p as [|s p IH]; intros P n P' r E V N; cbn [syms founds iexec] in *.
  - injection E as <-. exact V.
  - destruct (sym P n (rhs s)) as [[q n1]|] eqn:S; [|discriminate].
    apply named_app in N. destruct N as [N1 N2]. destruct (sym_sound v P r V _ _ _ _ S N1) as [Eq ->].
    apply (IH _ _ _ _ E); [|exact N2]. intros x p'. cbn [find]. destruct (String.eqb x (lhs s)) eqn:X.
    + apply String.eqb_eq in X. subst x. intros [= <-]. rewrite set_same. exact Eq.
    + apply String.eqb_neq in X. rewrite set_other by congruence. apply V.
Qed.

(** the unknowns 1, 2, ... stand for the variables [ins] at the start *)
Fixpoint starts (n : positive) (ins : list string) : list (string * poly) * positive :=
  match ins with
  | [] => ([], n)
  | x :: ins => let (P, m) := starts (Pos.succ n) ins in ((x, [([n], 1)]) :: P, m)
  end.

(** the number a list of weighted variables stands for *)
Fixpoint weigh (r : env) (l : list (Z * string)) : Z :=
  match l with [] => 0 | (w, x) :: l => w * r x + weigh r l end.

Fixpoint pweigh (P : list (string * poly)) (l : list (Z * string)) : option poly :=
  match l with
  | [] => Some []
  | (w, x) :: l => match find x P, pweigh P l with
                   | Some p, Some q => Some (padd (pconst w p) q)
                   | _, _ => None
                   end
  end.

Lemma pweigh_val v P r l p : valued v P r -> pweigh P l = Some p -> weigh r l = pval v p.
Proof.
  intro V. revert p. induction l as [|[w x] l IH]; intros p E; cbn [pweigh weigh] in *.
  - injection E as <-. reflexivity.
  - destruct (find x P) as [q|] eqn:F; [|discriminate]. destruct (pweigh P l) as [q'|]; [|discriminate].
    injection E as <-. rewrite padd_val, pconst_val, (IH _ eq_refl), (V _ _ F). reflexivity.
Qed.

(** [out] after the program is [goal] of the start, up to multiples of [m] (exactly if [m] is 0);
    [goal] is given by the polynomials of the variables at the start *)
Definition agrees (m : Z) (ins : list string) (p : list stmt) (out : list (Z * string))
    (goal : list (string * poly) -> option poly) : bool :=
  let (P, n) := starts 1 ins in
  match syms P n p with
  | Some P' => match pweigh P' out, goal P with
               | Some a, Some b => forallb (fun '(_, c) => c mod m =? 0) (padd a (pconst (-1) b))
               | _, _ => false
               end
  | None => false
  end.

Lemma pval_divided v m p : forallb (fun '(_, c) => c mod m =? 0) p = true -> (m | pval v p).
Proof.
  induction p as [|[n a] p IH]; cbn [forallb pval]; [intros _; apply Z.divide_0_r|].
  intro H. apply andb_true_iff in H. destruct H as [H1 H2].
  apply Z.divide_add_r; [|exact (IH H2)]. apply Z.divide_mul_l.
  destruct (Z.eq_dec m 0) as [->|M].
  - rewrite Zmod_0_r in H1. replace a with 0 by lia. apply Z.divide_0_r.
  - apply Z.mod_divide; [exact M|lia].
Qed.

Lemma find_starts n ins x P m : starts n ins = (P, m) ->
  m = Pos.of_nat (Pos.to_nat n + length ins) /\
  (forall v r, (forall i, (i < length ins)%nat -> v (Pos.of_nat (Pos.to_nat n + i)) = r (nth i ins x)) ->
   valued v P r).
Proof.
  revert n P m. induction ins as [|y ins IH]; intros n P m E; cbn [starts] in E.
  - injection E as <- <-. cbn [length]. rewrite pos_of_add0. split; [reflexivity|]. intros v r _ z p. discriminate.
  - destruct (starts (Pos.succ n) ins) as [Q k] eqn:S. injection E as <- <-.
    destruct (IH _ _ _ S) as [-> IH2]. rewrite Pos2Nat.inj_succ. cbn [length]. split; [f_equal; lia|].
    intros v r H z p. cbn [find]. destruct (String.eqb z y) eqn:Z.
    + apply String.eqb_eq in Z. subst z. intros [= <-]. cbn [pval mval].
      specialize (H O ltac:(lia)). rewrite pos_of_add0 in H. rewrite H. cbn [nth]. ring.
    + apply IH2. intros i I. specialize (H (Datatypes.S i) ltac:(lia)). cbn [nth] in H. rewrite <- H.
      f_equal. rewrite Pos2Nat.inj_succ. f_equal. lia.
Qed.

Theorem agrees_sound m ins p out goal r : agrees m ins p out goal = true ->
  exists v P b, valued v P r /\ goal P = Some b /\ (m | weigh (iexec p r) out - pval v b).
Proof.
  intros H. unfold agrees in H. destruct (starts 1 ins) as [P n] eqn:S.
  destruct (syms P n p) as [P'|] eqn:Y; [|discriminate]. destruct (pweigh P' out) as [a|] eqn:W; [|discriminate].
  destruct (goal P) as [b|] eqn:G; [|discriminate].
  set (l := map r ins ++ founds p r).
  set (v := fun i : positive => nth (Pos.to_nat i - 1) l 0).
  destruct (find_starts 1 ins EmptyString P n S) as [-> F].
  assert (V : valued v P r).
  { apply F. intros i I. unfold v, l. rewrite Nat2Pos.id by lia.
    replace (Pos.to_nat 1 + i - 1)%nat with i by lia. rewrite app_nth1 by (rewrite map_length; exact I).
    rewrite (nth_indep _ 0 (r EmptyString)) by (rewrite map_length; exact I). apply map_nth. }
  exists v, P, b. split; [exact V|]. split; [exact G|].
  assert (V' : valued v P' (iexec p r)).
  { apply (syms_sound v p P (Pos.of_nat (Pos.to_nat 1 + length ins)) P' r Y V).
    intros i I. unfold v, l. rewrite !Nat2Pos.id by lia.
    rewrite app_nth2 by (rewrite map_length; lia). rewrite map_length. f_equal. lia. }
  rewrite (pweigh_val v P' _ out a V' W).
  pose proof (pval_divided v m _ H) as D. rewrite padd_val, pconst_val in D.
  replace (pval v a - pval v b) with (pval v a + -1 * pval v b) by ring. exact D.
Qed.

(** ** Bits *)

(** a bit of a variable at the start, or zero *)
Definition bit := option (string * Z).

Definition bitval (r : env) (b : bit) : Z :=
  match b with None => 0 | Some (x, i) => Z.b2z (Z.testbit (r x) i) end.
Fixpoint bitsval (r : env) (l : list bit) : Z :=
  match l with [] => 0 | b :: l => bitval r b + 2 * bitsval r l end.

Lemma bitval_range r b : 0 <= bitval r b <= 1.
Proof. destruct b as [[x i]|]; cbn; [|lia]. destruct (Z.testbit _ _); cbn; lia. Qed.

Lemma bitsval_range r l : 0 <= bitsval r l < 2 ^ Z.of_nat (length l).
Proof.
  induction l as [|b l IH]; cbn [bitsval length]; [lia|].
  pose proof (bitval_range r b). rewrite Nat2Z.inj_succ, Z.pow_succ_r by lia. lia.
Qed.

Lemma bitsval_app r a b : bitsval r (a ++ b) = bitsval r a + 2 ^ Z.of_nat (length a) * bitsval r b.
Proof.
  induction a as [|x a IH]; cbn [app bitsval length]; [lia|].
  rewrite IH, Nat2Z.inj_succ, Z.pow_succ_r by lia. ring.
Qed.

Lemma bitsval_split r k l : bitsval r (firstn k l) = bitsval r l mod 2 ^ Z.of_nat k /\
                            bitsval r (skipn k l) = bitsval r l / 2 ^ Z.of_nat k.
Proof.
  destruct (Nat.le_gt_cases (length l) k) as [L|L].
  - rewrite firstn_all2, skipn_all2 by exact L. pose proof (bitsval_range r l) as R.
    assert (2 ^ Z.of_nat (length l) <= 2 ^ Z.of_nat k) by (apply Z.pow_le_mono_r; lia).
    rewrite Z.mod_small, Z.div_small by lia. split; reflexivity.
  - pose proof (bitsval_app r (firstn k l) (skipn k l)) as E. rewrite firstn_skipn, firstn_length_le in E by lia.
    pose proof (bitsval_range r (firstn k l)) as R. rewrite firstn_length_le in R by lia.
    rewrite E. rewrite (Z.add_comm (bitsval r (firstn k l))), (Z.mul_comm (2 ^ _)).
    split.
    + rewrite Z.add_comm, Z.mod_add by lia. symmetry. apply Z.mod_small. exact R.
    + rewrite Z.div_add_l, Z.div_small by lia. lia.
Qed.

Lemma bitsval_zeros r k : bitsval r (repeat None k) = 0.
Proof. induction k; cbn [repeat bitsval bitval]; lia. Qed.

(** the sum of numbers without a common bit *)
Fixpoint bits_or (a b : list bit) : option (list bit) :=
  match a, b with
  | [], _ => Some b
  | _, [] => Some a
  | x :: a, y :: b =>
      match bits_or a b with
      | Some l => match x, y with
                  | None, _ => Some (y :: l)
                  | _, None => Some (x :: l)
                  | _, _ => None
                  end
      | None => None
      end
  end.

Lemma bits_or_val r a : forall b l, bits_or a b = Some l -> bitsval r l = bitsval r a + bitsval r b.
Proof.
  induction a as [|x a IH]; intros b l E.
  - cbn in E. destruct b; injection E as <-; cbn [bitsval]; lia.
  - destruct b as [|y b].
    + injection E as <-. cbn [bitsval]. lia.
    + cbn [bits_or] in E. destruct (bits_or a b) as [l'|] eqn:O; [|discriminate]. specialize (IH _ _ O).
      destruct x as [x|]; [destruct y as [y|]; [discriminate|]|]; injection E as <-; cbn [bitsval]; rewrite IH; cbn [bitval]; lia.
Qed.

Fixpoint bits (B : list (string * list bit)) (e : expr) : option (list bit) :=
  match e with
  | Var x => find x B
  | Shl _ a n => match bits B a with Some l => if 0 <=? n then Some (repeat None (Z.to_nat n) ++ l) else None | None => None end
  | Shr a n => match bits B a with Some l => if 0 <=? n then Some (skipn (Z.to_nat n) l) else None | None => None end
  | Or a b => match bits B a, bits B b with Some k, Some l => bits_or k l | _, _ => None end
  | And (Lit m) a => match bits B a, ones m with Some l, Some k => Some (firstn (Z.to_nat k) l) | _, _ => None end
  | And a (Lit m) => match bits B a, ones m with Some l, Some k => Some (firstn (Z.to_nat k) l) | _, _ => None end
  | Conv U8 a => match bits B a with Some l => Some (firstn 8 l) | None => None end
  | Conv _ a => bits B a
  | _ => None
  end.

(** the variables [B] of [r], by bits of [r0] *)
Definition bitwise (r0 : env) (B : list (string * list bit)) (r : env) : Prop :=
  forall x l, find x B = Some l -> r x = bitsval r0 l.

Lemma bits_sound r0 B r : bitwise r0 B r -> forall e l, bits B e = Some l -> ideal r e = bitsval r0 l.
Proof.
  intro H. induction e; intros l E; cbn [bits ideal] in *; try discriminate.
  - exact (H _ _ E).
  - destruct (bits B e) as [l1|]; [|discriminate]. destruct (0 <=? n) eqn:N; [|discriminate]. injection E as <-.
    rewrite bitsval_app, bitsval_zeros, repeat_length, Z2Nat.id, (IHe _ eq_refl) by lia. ring.
  - destruct (bits B e) as [l1|]; [|discriminate]. destruct (0 <=? n) eqn:N; [|discriminate]. injection E as <-.
    rewrite (proj2 (bitsval_split r0 _ l1)), Z2Nat.id, (IHe _ eq_refl) by lia. reflexivity.
  - destruct (bits B e1) as [l1|]; [|discriminate]. destruct (bits B e2) as [l2|]; [|discriminate].
    rewrite (bits_or_val r0 _ _ _ E), (IHe1 _ eq_refl), (IHe2 _ eq_refl). reflexivity.
  - assert (M : forall a m l, (match bits B a, ones m with Some l, Some k => Some (firstn (Z.to_nat k) l) | _, _ => None end) = Some l ->
                (forall l, bits B a = Some l -> ideal r a = bitsval r0 l) -> Z.land m (ideal r a) = bitsval r0 l).
    { intros a m l' E' IH. destruct (bits B a) as [la|]; [|discriminate]. destruct (ones m) as [k|] eqn:K; [|discriminate].
      injection E' as <-. rewrite (proj1 (land_ones_l m k _ K)), (proj1 (bitsval_split r0 _ la)), (IH _ eq_refl).
      apply ones_some in K. rewrite Z2Nat.id by lia. reflexivity. }
    destruct e1 as [x|m| | | | | | | |]; [|exact (M e2 m l E IHe2)|..].
    all: destruct e2 as [|m| | | | | | | |]; try discriminate.
    all: match type of IHe1 with context [bits _ ?a] => exact (eq_trans (Z.land_comm _ _) (M a m l E IHe1)) end.
  - destruct t; [exact (IHe _ E)|exact (IHe _ E)|]. destruct (bits B e) as [l1|]; [|discriminate]. injection E as <-.
    rewrite (IHe _ eq_refl). symmetry. apply (bitsval_split r0 8 l1).
Qed.

Fixpoint bitss (B : list (string * list bit)) (p : list stmt) : option (list (string * list bit)) :=
  match p with
  | [] => Some B
  | s :: p => match bits B (rhs s) with Some l => bitss ((lhs s, l) :: B) p | None => None end
  end.

Lemma bitss_sound r0 p : forall B B' r, bitss B p = Some B' -> bitwise r0 B r -> bitwise r0 B' (iexec p r).
Proof.
  induction p as [|s p IH]; intros B B' r E H; cbn [bitss iexec] in *.
  - injection E as <-. exact H.
  - destruct (bits B (rhs s)) as [l|] eqn:S; [|discriminate]. apply (IH _ _ _ E).
    intros x l'. cbn [find]. destruct (String.eqb x (lhs s)) eqn:X.
    + apply String.eqb_eq in X. subst x. intros [= <-]. rewrite set_same. apply (bits_sound r0 B r H). exact S.
    + apply String.eqb_neq in X. rewrite set_other by congruence. apply H.
Qed.

(** all bits of a variable below [2 ^ n] *)
Definition bits_of (x : string) (n : nat) : list bit := map (fun i => Some (x, Z.of_nat i)) (seq 0 n).

Lemma bits_of_val r x n : 0 <= r x < 2 ^ Z.of_nat n -> bitsval r (bits_of x n) = r x.
Proof.
  intro R.
  assert (G : forall k, bitsval r (map (fun i => Some (x, Z.of_nat i)) (seq 0 k)) = r x mod 2 ^ Z.of_nat k).
  { induction k.
    - cbn. rewrite Z.mod_1_r. reflexivity.
    - rewrite seq_S, map_app, bitsval_app, map_length, seq_length, IHk. cbn [map bitsval bitval Nat.add].
      rewrite Z.testbit_spec' by lia. rewrite Nat2Z.inj_succ, Z.pow_succ_r by lia.
      rewrite (Z.mul_comm 2 (2 ^ Z.of_nat k)), Z.rem_mul_r by lia. ring. }
  unfold bits_of. rewrite G. apply Z.mod_small. exact R.
Qed.

(** numbers laid down at their weights: the bits of their sum *)
Fixpoint lay (B : list (string * list bit)) (l : list (nat * string)) : option (list bit) :=
  match l with
  | [] => Some []
  | (w, x) :: l => match find x B, lay B l with
                   | Some b, Some t => bits_or (repeat None w ++ b) t
                   | _, _ => None
                   end
  end.

Lemma lay_val r0 B r l t : bitwise r0 B r -> lay B l = Some t ->
  weigh r (map (fun '(w, x) => (2 ^ Z.of_nat w, x)) l) = bitsval r0 t.
Proof.
  intro H. revert t. induction l as [|[w x] l IH]; intros t E; cbn [lay map weigh] in *.
  - injection E as <-. reflexivity.
  - destruct (find x B) as [b|] eqn:F; [|discriminate]. destruct (lay B l) as [t'|]; [|discriminate].
    rewrite (bits_or_val r0 _ _ _ E), bitsval_app, bitsval_zeros, repeat_length, (IH _ eq_refl), (H _ _ F). ring.
Qed.

Definition bit_eqb (a b : bit) : bool :=
  match a, b with
  | None, None => true
  | Some (x, i), Some (y, j) => String.eqb x y && (i =? j)
  | _, _ => false
  end.

Lemma bit_eqb_val r a b : bit_eqb a b = true -> bitval r a = bitval r b.
Proof.
  destruct a as [[x i]|], b as [[y j]|]; cbn; try discriminate; [|reflexivity].
  intro H. apply andb_true_iff in H. destruct H as [H1 H2]. apply String.eqb_eq in H1. subst y.
  replace j with i by lia. reflexivity.
Qed.

(** equal up to zeros at the end *)
Fixpoint bits_same (a b : list bit) : bool :=
  match a, b with
  | [], _ => forallb (bit_eqb None) b
  | _, [] => forallb (bit_eqb None) a
  | x :: a, y :: b => bit_eqb x y && bits_same a b
  end.

Lemma zeros_val r l : forallb (bit_eqb None) l = true -> bitsval r l = 0.
Proof.
  induction l as [|b l IH]; cbn [forallb bitsval]; [reflexivity|]. intro H. apply andb_true_iff in H.
  destruct H as [H1 H2]. rewrite (IH H2), <- (bit_eqb_val r _ _ H1). reflexivity.
Qed.

Lemma bits_same_val r a : forall b, bits_same a b = true -> bitsval r a = bitsval r b.
Proof.
  induction a as [|x a IH]; intros b H.
  - cbn [bits_same] in H. rewrite (zeros_val r b); [reflexivity|]. destruct b; exact H.
  - destruct b as [|y b].
    + rewrite (zeros_val r (x :: a)) by exact H. reflexivity.
    + cbn [bits_same] in H. apply andb_true_iff in H. destruct H as [H1 H2]. cbn [bitsval].
      rewrite (IH _ H2), (bit_eqb_val r _ _ H1). reflexivity.
Qed.

Definition entry_bits (ins : list (nat * string * nat)) : list (string * list bit) :=
  map (fun '(_, x, n) => (x, bits_of x n)) ins.

(** [ins]: weight, variable, number of bits.  After [p], the variables [out] stand for
    the same number as [ins] before, cut off at [cut] bits. *)
Definition repacks (ins : list (nat * string * nat)) (p : list stmt) (out : list (nat * string)) (cut : nat) : bool :=
  let B := entry_bits ins in
  match bitss B p with
  | Some B' => match lay B' out, lay B (map fst ins) with
               | Some a, Some b => bits_same a (firstn cut b)
               | _, _ => false
               end
  | None => false
  end.

Definition weights (l : list (nat * string)) : list (Z * string) := map (fun '(w, x) => (2 ^ Z.of_nat w, x)) l.

Lemma entry_bitwise ins r : (forall w x n, In (w, x, n) ins -> 0 <= r x < 2 ^ Z.of_nat n) ->
  bitwise r (entry_bits ins) r.
Proof.
  induction ins as [|[[w x] n] ins IH]; intros H y l E; cbn [entry_bits map find] in E; [discriminate|].
  destruct (String.eqb y x) eqn:X.
  - apply String.eqb_eq in X. subst y. injection E as <-. symmetry. apply bits_of_val. apply (H w x n). left. reflexivity.
  - apply (IH (fun w x n I => H w x n (or_intror I)) y l). exact E.
Qed.

Theorem repacks_sound ins p out cut r : repacks ins p out cut = true ->
  (forall w x n, In (w, x, n) ins -> 0 <= r x < 2 ^ Z.of_nat n) ->
  weigh (iexec p r) (weights out) = weigh r (weights (map fst ins)) mod 2 ^ Z.of_nat cut.
Proof.
  unfold repacks. intros H R. destruct (bitss (entry_bits ins) p) as [B'|] eqn:P; [|discriminate].
  destruct (lay B' out) as [a|] eqn:La; [|discriminate]. destruct (lay (entry_bits ins) (map fst ins)) as [b|] eqn:Lb; [|discriminate].
  pose proof (entry_bitwise ins r R) as E. pose proof (bitss_sound r p _ _ r P E) as E'.
  unfold weights. rewrite (lay_val r _ _ _ _ E' La), (lay_val r _ _ _ _ E Lb), (bits_same_val r _ _ H).
  apply bitsval_split.
Qed.
