(** The curve library at the level of its machine integers:
    vendor/go.dedis.ch/kyber/v3/group/edwards25519 (fe.go, ge.go, point.go,
    scalar.go, const.go; file names below are relative to it).  A field element
    is its ten limbs, a point the four coordinates that are stored, and every
    operation wraps around as in Go.  The functions without loops and branches are
    the programs of LimbCode.v.

    The counterpart with exact numbers is Edwards25519Model.v; LimbProofs.v and
    LimbPoints.v show that the two give the same bytes. *)
From Coq Require Import String Ascii.
From Verif Require Import Base GoIntModel LimbCode Edwards25519Model.
Local Open Scope Z_scope.

(** ** Calling the programs *)

Definition digit (i : nat) : string := String (ascii_of_nat (48 + i)) EmptyString.
Definition numeral (i : nat) : string :=
  if Nat.ltb i 10 then digit i else String.append (digit (Nat.div i 10)) (digit (Nat.modulo i 10)).
(** [x[0]], ..., [x[n-1]] and [x0], ..., [x(n-1)] *)
Definition elems (x : string) (n : nat) : list string :=
  map (fun i => String.append x (String.append "[" (String.append (numeral i) "]"))) (seq 0 n).

(** Variables before the first statement: the arguments; everything else is zero. *)
Fixpoint start (args : list (string * Z)) : env :=
  match args with
  | [] => fun _ => 0
  | (x, v) :: args => set (start args) x v
  end.

Definition outs (r : env) (xs : list string) : list Z := map r xs.

(** ** Field elements (fe.go) *)

(** fe.go:18: ten int32 *)
Definition fe := list Z.

(** fe.go:20-24 *)
Definition l_zero : fe := [0; 0; 0; 0; 0; 0; 0; 0; 0; 0].
(** fe.go:26-29 *)
Definition l_one : fe := [1; 0; 0; 0; 0; 0; 0; 0; 0; 0].

Fixpoint zip (op : Z -> Z -> Z) (a b : list Z) : list Z :=
  match a, b with
  | x :: a, y :: b => op x y :: zip op a b
  | _, _ => []
  end.

(** fe.go:31-35 *)
Definition l_add (a b : fe) : fe := zip (fun x y => wrap I32 (x + y)) a b.
(** fe.go:37-41 *)
Definition l_sub (a b : fe) : fe := zip (fun x y => wrap I32 (x - y)) a b.
(** fe.go:277-281 *)
Definition l_neg (a : fe) : fe := map (fun x => wrap I32 (- x)) a.

(** fe.go:53-62; the operations on bits do not leave int32 *)
Definition l_cmove (f g : fe) (b : Z) : fe :=
  let b := wrap I32 (- b) in zip (fun x y => Z.lxor x (Z.land b (Z.lxor x y))) f g.

(** fe.go:307-538, 547-691, 703-858.  [h] may be [f] or [g] in the code: all
    elements are read before the first one is written. *)
Definition l_mul (f g : fe) : fe :=
  outs (exec feMul (start (combine (elems "f" 10) f ++ combine (elems "g" 10) g))) (elems "h" 10).
Definition l_square (f : fe) : fe :=
  outs (exec feSquare (start (combine (elems "f" 10) f))) (elems "h" 10).
Definition l_square2 (f : fe) : fe :=
  outs (exec feSquare2 (start (combine (elems "f" 10) f))) (elems "h" 10).

(** fe.go:79-134 *)
Definition l_from (s : bytes) : fe :=
  outs (exec feFromBytes (start (combine (elems "src" 32) (map b2z s)))) (elems "dst" 10).

(** fe.go:159-246: the bytes, and what is left in [h] *)
Definition l_bytes (h : fe) : bytes * fe :=
  let r := exec feToBytes (start (combine (elems "h" 10) h)) in
  (map z2b (outs r (elems "s" 32)), outs r (elems "h" 10)).

(** fe.go:248-252: [s[0] & 1], and what is left in [f] *)
Definition l_negative (f : fe) : Z * fe :=
  let (s, f) := l_bytes f in (Z.land (b2z (nth 0 s x00)) 1, f).

(** fe.go:254-265; [f] is a local variable that is not read again in both calls *)
Definition l_nonzero (f : fe) : Z :=
  let x := fold_left (fun x b => Z.lor x (b2z b)) (fst (l_bytes f)) 0 in
  let x := Z.lor x (Z.shiftr x 4) in
  let x := Z.lor x (Z.shiftr x 2) in
  let x := Z.lor x (Z.shiftr x 1) in
  Z.land x 1.

(** [n] squarings *)
Fixpoint l_squares (n : nat) (a : fe) : fe :=
  match n with O => a | S n => l_squares n (l_square a) end.

(** fe.go:860-913 *)
Definition l_invert (z : fe) : fe :=
  let t0 := l_square z in
  let t1 := l_squares 2 t0 in
  let t1 := l_mul z t1 in
  let t0 := l_mul t0 t1 in
  let t2 := l_square t0 in
  let t1 := l_mul t1 t2 in
  let t2 := l_squares 5 t1 in
  let t1 := l_mul t2 t1 in
  let t2 := l_squares 10 t1 in
  let t2 := l_mul t2 t1 in
  let t3 := l_squares 20 t2 in
  let t2 := l_mul t3 t2 in
  let t2 := l_squares 10 t2 in
  let t1 := l_mul t2 t1 in
  let t2 := l_squares 50 t1 in
  let t2 := l_mul t2 t1 in
  let t3 := l_squares 100 t2 in
  let t2 := l_mul t3 t2 in
  let t2 := l_squares 50 t2 in
  let t1 := l_mul t2 t1 in
  let t1 := l_squares 5 t1 in
  l_mul t1 t0.

(** fe.go:915-974 *)
Definition l_pow22523 (z : fe) : fe :=
  let t0 := l_square z in
  let t1 := l_squares 2 t0 in
  let t1 := l_mul z t1 in
  let t0 := l_mul t0 t1 in
  let t0 := l_square t0 in
  let t0 := l_mul t1 t0 in
  let t1 := l_squares 5 t0 in
  let t0 := l_mul t1 t0 in
  let t1 := l_squares 10 t0 in
  let t1 := l_mul t1 t0 in
  let t2 := l_squares 20 t1 in
  let t1 := l_mul t2 t1 in
  let t1 := l_squares 10 t1 in
  let t0 := l_mul t1 t0 in
  let t1 := l_squares 50 t0 in
  let t1 := l_mul t1 t0 in
  let t2 := l_squares 100 t1 in
  let t1 := l_mul t2 t1 in
  let t1 := l_squares 50 t1 in
  let t0 := l_mul t1 t0 in
  let t0 := l_squares 2 t0 in
  l_mul t0 z.

(** ** Constants (const.go:35-45) *)

Definition l_d : fe :=
  [-10913610; 13857413; -15372611; 6949391; 114729; -8787816; -6275908; -3247719; -18696448; -12055116].
Definition l_d2 : fe :=
  [-21827239; -5839606; -30745221; 13898782; 229458; 15978800; -12551817; -6495438; 29715968; 9444199].
Definition l_sqrt_m1 : fe :=
  [-32595792; -7943725; 9377950; 3500415; 12389472; -272473; -25146209; -2005654; 326686; 11406482].

(** ** Group elements (ge.go:17-34) *)

Record lprojective := LProj { lpX : fe; lpY : fe; lpZ : fe }.
Record lextended := LExt { leX : fe; leY : fe; leZ : fe; leT : fe }.
Record lcompleted := LComp { lcX : fe; lcY : fe; lcZ : fe; lcT : fe }.
Record lcached := LCached { lyPlusX : fe; lyMinusX : fe; lhZ : fe; lhT2d : fe }.

(** ge.go:42-54 *)
Definition l_double (p : lprojective) : lcompleted :=
  let rX := l_square (lpX p) in
  let rZ := l_square (lpY p) in
  let rT := l_square2 (lpZ p) in
  let rY := l_add (lpX p) (lpY p) in
  let t0 := l_square rY in
  let rY := l_add rZ rX in
  let rZ := l_sub rZ rX in
  let rX := l_sub t0 rY in
  let rT := l_sub rT rZ in
  LComp rX rY rZ rT.

(** ge.go:66-71 *)
Definition l_ext_zero : lextended := LExt l_zero l_one l_one l_zero.

(** ge.go:86-91 *)
Definition l_to_cached (p : lextended) : lcached :=
  LCached (l_add (leY p) (leX p)) (l_sub (leY p) (leX p)) (leZ p) (l_mul (leT p) l_d2).

(** ge.go:161-165 *)
Definition l_comp_projective (c : lcompleted) : lprojective :=
  LProj (l_mul (lcX c) (lcT c)) (l_mul (lcY c) (lcZ c)) (l_mul (lcZ c) (lcT c)).

(** ge.go:167-172 *)
Definition l_comp_extended (c : lcompleted) : lextended :=
  LExt (l_mul (lcX c) (lcT c)) (l_mul (lcY c) (lcZ c)) (l_mul (lcZ c) (lcT c)) (l_mul (lcX c) (lcY c)).

(** ge.go:180-194 *)
Definition l_ge_add (p : lextended) (q : lcached) : lcompleted :=
  let c_X := l_add (leY p) (leX p) in
  let c_Y := l_sub (leY p) (leX p) in
  let c_Z := l_mul c_X (lyPlusX q) in
  let c_Y := l_mul c_Y (lyMinusX q) in
  let c_T := l_mul (lhT2d q) (leT p) in
  let c_X := l_mul (leZ p) (lhZ q) in
  let t0 := l_add c_X c_X in
  let c_X := l_sub c_Z c_Y in
  let c_Y := l_add c_Z c_Y in
  let c_Z := l_add t0 c_T in
  let c_T := l_sub t0 c_T in
  LComp c_X c_Y c_Z c_T.

(** ge.go:196-210 *)
Definition l_ge_sub (p : lextended) (q : lcached) : lcompleted :=
  let c_X := l_add (leY p) (leX p) in
  let c_Y := l_sub (leY p) (leX p) in
  let c_Z := l_mul c_X (lyMinusX q) in
  let c_Y := l_mul c_Y (lyPlusX q) in
  let c_T := l_mul (lhT2d q) (leT p) in
  let c_X := l_mul (leZ p) (lhZ q) in
  let t0 := l_add c_X c_X in
  let c_X := l_sub c_Z c_Y in
  let c_Y := l_add c_Z c_Y in
  let c_Z := l_sub t0 c_T in
  let c_T := l_add t0 c_T in
  LComp c_X c_Y c_Z c_T.

(** ge.go:260-265 *)
Definition l_cached_zero : lcached := LCached l_one l_one l_one l_zero.

(** ge.go:268-273 *)
Definition l_cached_cmove (r u : lcached) (b : Z) : lcached :=
  LCached (l_cmove (lyPlusX r) (lyPlusX u) b) (l_cmove (lyMinusX r) (lyMinusX u) b)
          (l_cmove (lhZ r) (lhZ u) b) (l_cmove (lhT2d r) (lhT2d u) b).

(** ge.go:276-281 *)
Definition l_cached_neg (t : lcached) : lcached :=
  LCached (lyMinusX t) (lyPlusX t) (lhZ t) (l_neg (lhT2d t)).

(** ge.go:330-335: [x--] on a uint32 *)
Definition l_equal (b c : Z) : Z :=
  let x := Z.lxor b c mod 2 ^ 32 in
  let x := (x - 1) mod 2 ^ 32 in
  wrap I32 (Z.shiftr x 31).

(** ge.go:338-340 *)
Definition l_is_negative (b : Z) : Z := Z.land (Z.shiftr b 31) 1.

(** ge.go:408-423 *)
Definition l_select (Ai : list lcached) (b : Z) : lcached :=
  let neg := l_is_negative b in
  let babs := wrap I32 (b - wrap I32 (Z.shiftl (Z.land (wrap I32 (- neg)) b) 1)) in
  let c := fold_left (fun c '(i, a) => l_cached_cmove c a (l_equal babs (i + 1)))
                     (combine [0; 1; 2; 3; 4; 5; 6; 7] Ai) l_cached_zero in
  l_cached_cmove c (l_cached_neg c) neg.

(** an int8 *)
Definition wrap8 (z : Z) : Z := (z + 2 ^ 7) mod 2 ^ 8 - 2 ^ 7.

(** ge.go:441-446 *)
Fixpoint l_nybbles (a : bytes) : list Z :=
  match a with
  | [] => []
  | v :: a => wrap8 (Z.land (b2z v) 15) :: wrap8 (Z.land (Z.shiftr (b2z v) 4) 15) :: l_nybbles a
  end.

(** ge.go:449-455 *)
Fixpoint l_recode (e : list Z) (carry : Z) : list Z :=
  match e with
  | [] => []
  | x :: e =>
      match e with
      | [] => [wrap8 (x + carry)]
      | _ :: _ =>
          let x := wrap8 (x + carry) in
          let carry := Z.shiftr (wrap8 (x + 8)) 4 in
          wrap8 (x - wrap8 (Z.shiftl carry 4)) :: l_recode e carry
      end
  end.

(** ge.go:459-465 *)
Fixpoint l_multiples (n : nat) (A : lextended) (last : lcached) : list lcached :=
  match n with
  | O => []
  | S n => let next := l_to_cached (l_comp_extended (l_ge_add A last)) in
           next :: l_multiples n A next
  end.

Definition l_table (A : lextended) : list lcached :=
  let first := l_to_cached A in first :: l_multiples 7 A first.

(** ge.go:475-484 *)
Definition l_double4 (t : lcompleted) : lcompleted :=
  let t := l_double (l_comp_projective t) in
  let t := l_double (l_comp_projective t) in
  let t := l_double (l_comp_projective t) in
  l_double (l_comp_projective t).

(** ge.go:430-489; [int32] of an int8 digit is the same number *)
Definition l_digits (Ai : list lcached) (e : list Z) : lcompleted :=
  match e with
  | [] => l_ge_add l_ext_zero l_cached_zero
  | top :: e =>
      fold_left (fun t d => l_ge_add (l_comp_extended (l_double4 t)) (l_select Ai d))
                e (l_ge_add l_ext_zero (l_select Ai top))
  end.

Definition l_scalar_mult (a : bytes) (A : lextended) : lextended :=
  l_comp_extended (l_digits (l_table A) (rev (l_recode (l_nybbles a) 0))).

(** ** Points (point.go) *)

(** const.go:51-56 *)
Definition l_base : lextended := LExt
  [25485296; 5318399; 8791791; -8299916; -14349720; 6939349; -3324311; -7717049; 7287234; -6577708]
  [-758052; -1832720; 13046421; -4857925; 6576754; 14371947; -13139572; 6845540; -2198883; -4003719]
  [-947565; 6097708; -469190; 10704810; -8556274; -15589498; -16424464; -16608899; 14028613; -5004649]
  [6966464; -2456167; 7033433; 6781840; 28785542; 12262365; -2659449; 13959020; -21013759; -5262166].

(** ge.go:99-107, point.go:44-48.  The coordinates are read only. *)
Definition l_point_bytes (p : lextended) : bytes :=
  let recip := l_invert (leZ p) in
  let x := l_mul (leX p) recip in
  let y := l_mul (leY p) recip in
  let (s, _) := l_bytes y in
  let (neg, _) := l_negative x in
  firstn 31 s ++ map (fun b => z2b (Z.lxor (b2z b) ((neg * 2 ^ 7) mod 2 ^ 8))) (skipn 31 s).

(** ge.go:109-149, point.go:55-60 *)
Definition l_point_from (s : bytes) : option lextended :=
  if negb (Nat.eqb (length s) 32) then None else
  let Y := l_from s in
  let Z := l_one in
  let u := l_square Y in
  let v := l_mul u l_d in
  let u := l_sub u Z in
  let v := l_add v Z in
  let v3 := l_square v in
  let v3 := l_mul v3 v in
  let X := l_square v3 in
  let X := l_mul X v in
  let X := l_mul X u in
  let X := l_pow22523 X in
  let X := l_mul X v3 in
  let X := l_mul X u in
  let vxx := l_square X in
  let vxx := l_mul vxx v in
  let finish := fun X =>
    let (neg, X) := l_negative X in
    let X := if negb (neg =? Z.shiftr (b2z (nth 31 s x00)) 7) then l_neg X else X in
    Some (LExt X Y Z (l_mul X Y)) in
  if l_nonzero (l_sub vxx u) =? 1 then
    if l_nonzero (l_add vxx u) =? 1 then None
    else finish (l_mul X l_sqrt_m1)
  else finish X.

(** point.go:71-82 *)
Definition l_point_eqb (p q : lextended) : bool := bseq (l_point_bytes p) (l_point_bytes q).

(** point.go:180-192 *)
Definition l_point_add (p q : lextended) : lextended :=
  l_comp_extended (l_ge_add p (l_to_cached q)).

(** point.go:194-206 *)
Definition l_point_sub (p q : lextended) : lextended :=
  l_comp_extended (l_ge_sub p (l_to_cached q)).

(** point.go:216-233 with a point given and [varTime] unset (curve.go:43-46) *)
Definition l_point_mul (a : bytes) (p : lextended) : lextended := l_scalar_mult a p.

(** ** Scalars (scalar.go:640-1051, 1063-1474, 1485-1908) *)

Definition l_scalar_add (a b : bytes) : bytes :=
  map z2b (outs (exec scAdd (start (combine (elems "a" 32) (map b2z a) ++ combine (elems "c" 32) (map b2z b)))) (elems "s" 32)).
Definition l_scalar_sub (a b : bytes) : bytes :=
  map z2b (outs (exec scSub (start (combine (elems "a" 32) (map b2z a) ++ combine (elems "c" 32) (map b2z b)))) (elems "s" 32)).
Definition l_scalar_mul (a b : bytes) : bytes :=
  map z2b (outs (exec scMul (start (combine (elems "a" 32) (map b2z a) ++ combine (elems "b" 32) (map b2z b)))) (elems "s" 32)).

(** scalar.go:113-133 *)
Definition l_scalar_inv (a : bytes) : bytes :=
  fold_left (fun r i =>
               let r := l_scalar_mul r r in
               if Z.testbit l_minus_2 (Z.of_nat i) then l_scalar_mul r a else r)
            (rev (seq 0 256)) scalar_one.

(** scalar.go:105-110 with [One] in front: signature.go:37 *)
Definition l_scalar_inverse (a : bytes) : bytes := l_scalar_mul scalar_one (l_scalar_inv a).
