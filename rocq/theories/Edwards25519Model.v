(** The curve library the signatures are computed with:
    vendor/go.dedis.ch/kyber/v3/group/edwards25519 (ge.go, point.go, scalar.go,
    const.go) and group/mod/int.go.  File names below are relative to
    edwards25519.

    Simplifications.  A field element is the number its ten limbs stand for
    (Field25519.v), a scalar operation is the exact operation modulo the order
    of the base point.  A point is kept by its affine coordinates: every method
    starts from the representative (x : y : 1 : xy), runs the formulas of ge.go
    and divides by Z at the end; [Edwards25519Proofs] shows that the choice of
    the representative does not matter.  LimbModel.v has the limbs and the stored
    coordinates, and LimbTexts.v shows that both give the same texts. *)
From Verif Require Import Base Primes25519 NumberTheory Field25519.
Local Open Scope Z_scope.

(** ** Little endian numbers *)

Definition b2z (b : byte) : Z := Z.of_N (b2n b).
Definition z2b (z : Z) : byte := n2b (Z.to_N (z mod 256)).

Fixpoint le_val (b : bytes) : Z :=
  match b with [] => 0 | x :: b => b2z x + 256 * le_val b end.

Fixpoint le_bytes (n : nat) (z : Z) : bytes :=
  match n with O => [] | S n => z2b z :: le_bytes n (z / 256) end.

(** ** Constants (const.go) *)

(** the number ten limbs stand for: limb [i] has weight [2 ^ ceil (25.5 i)]
    (fe.go:9-16) *)
Definition limbs (l : list Z) : gf :=
  gof (fold_right Z.add 0
         (map (fun '(e, v) => v * 2 ^ e)
              (combine [0; 26; 51; 77; 102; 128; 153; 179; 204; 230] l))).

(** const.go:35-37 *)
Definition ge_d : gf := limbs
  [-10913610; 13857413; -15372611; 6949391; 114729; -8787816; -6275908; -3247719; -18696448; -12055116].

(** const.go:39-41 *)
Definition ge_d2 : gf := limbs
  [-21827239; -5839606; -30745221; 13898782; 229458; 15978800; -12551817; -6495438; 29715968; 9444199].

(** const.go:43-45 *)
Definition sqrt_m1 : gf := limbs
  [-32595792; -7943725; 9377950; 3500415; 12389472; -272473; -25146209; -2005654; 326686; 11406482].

(** ** Group elements (ge.go:17-34) *)

Record projective := Proj { pX : gf; pY : gf; pZ : gf }.
Record extended := Ext { eX : gf; eY : gf; eZ : gf; eT : gf }.
Record completed := Comp { cX : gf; cY : gf; cZ : gf; cT : gf }.
Record cached := Cached { yPlusX : gf; yMinusX : gf; hZ : gf; hT2d : gf }.

(** fe.go:547-701 and 703-858 *)
Definition gsquare (a : gf) : gf := gmul a a.
Definition gsquare2 (a : gf) : gf := gadd (gmul a a) (gmul a a).

(** ge.go:42-54 *)
Definition proj_double (p : projective) : completed :=
  let rX := gsquare (pX p) in
  let rZ := gsquare (pY p) in
  let rT := gsquare2 (pZ p) in
  let rY := gadd (pX p) (pY p) in
  let t0 := gsquare rY in
  let rY := gadd rZ rX in
  let rZ := gsub rZ rX in
  let rX := gsub t0 rY in
  let rT := gsub rT rZ in
  Comp rX rY rZ rT.

(** ge.go:66-71 *)
Definition ext_zero : extended := Ext gzero gone gone gzero.

(** ge.go:86-91 *)
Definition to_cached (p : extended) : cached :=
  Cached (gadd (eY p) (eX p)) (gsub (eY p) (eX p)) (eZ p) (gmul (eT p) ge_d2).

(** ge.go:161-165 *)
Definition comp_projective (c : completed) : projective :=
  Proj (gmul (cX c) (cT c)) (gmul (cY c) (cZ c)) (gmul (cZ c) (cT c)).

(** ge.go:167-172 *)
Definition comp_extended (c : completed) : extended :=
  Ext (gmul (cX c) (cT c)) (gmul (cY c) (cZ c)) (gmul (cZ c) (cT c)) (gmul (cX c) (cY c)).

(** ge.go:180-194 *)
Definition ge_add (p : extended) (q : cached) : completed :=
  let c_X := gadd (eY p) (eX p) in
  let c_Y := gsub (eY p) (eX p) in
  let c_Z := gmul c_X (yPlusX q) in
  let c_Y := gmul c_Y (yMinusX q) in
  let c_T := gmul (hT2d q) (eT p) in
  let c_X := gmul (eZ p) (hZ q) in
  let t0 := gadd c_X c_X in
  let c_X := gsub c_Z c_Y in
  let c_Y := gadd c_Z c_Y in
  let c_Z := gadd t0 c_T in
  let c_T := gsub t0 c_T in
  Comp c_X c_Y c_Z c_T.

(** ge.go:196-210 *)
Definition ge_sub (p : extended) (q : cached) : completed :=
  let c_X := gadd (eY p) (eX p) in
  let c_Y := gsub (eY p) (eX p) in
  let c_Z := gmul c_X (yMinusX q) in
  let c_Y := gmul c_Y (yPlusX q) in
  let c_T := gmul (hT2d q) (eT p) in
  let c_X := gmul (eZ p) (hZ q) in
  let t0 := gadd c_X c_X in
  let c_X := gsub c_Z c_Y in
  let c_Y := gadd c_Z c_Y in
  let c_Z := gsub t0 c_T in
  let c_T := gadd t0 c_T in
  Comp c_X c_Y c_Z c_T.

(** ge.go:260-265 *)
Definition cached_zero : cached := Cached gone gone gone gzero.

(** ge.go:276-281 *)
Definition cached_neg (t : cached) : cached :=
  Cached (yMinusX t) (yPlusX t) (hZ t) (gopp (hT2d t)).

(** ** Multiplication by a scalar *)

(** ge.go:441-446: the nybbles of the scalar, least significant first *)
Fixpoint nybbles (a : bytes) : list Z :=
  match a with
  | [] => []
  | v :: a => b2z v mod 16 :: (b2z v / 16) mod 16 :: nybbles a
  end.

(** ge.go:449-455: digits between -8 and 8.  The last nybble only takes the
    carry.  The numbers stay within int8. *)
Fixpoint recode (e : list Z) (carry : Z) : list Z :=
  match e with
  | [] => []
  | x :: e =>
      match e with
      | [] => [x + carry]
      | _ :: _ =>
          let x := x + carry in
          let carry := (x + 8) / 16 in
          (x - carry * 16) :: recode e carry
      end
  end.

(** ge.go:408-423 *)
Definition select_cached (Ai : list cached) (b : Z) : cached :=
  let babs := if b <? 0 then - b else b in
  let c := fold_left (fun c '(i, a) => if babs =? i + 1 then a else c)
                     (combine [0; 1; 2; 3; 4; 5; 6; 7] Ai) cached_zero in
  if b <? 0 then cached_neg c else c.

(** ge.go:459-465: [n] further multiples of [A], behind the cached [last] *)
Fixpoint multiples (n : nat) (A : extended) (last : cached) : list cached :=
  match n with
  | O => []
  | S n => let next := to_cached (comp_extended (ge_add A last)) in
           next :: multiples n A next
  end.

Definition table (A : extended) : list cached :=
  let first := to_cached A in first :: multiples 7 A first.

(** ge.go:475-484: four doublings *)
Definition double4 (t : completed) : completed :=
  let t := proj_double (comp_projective t) in
  let t := proj_double (comp_projective t) in
  let t := proj_double (comp_projective t) in
  proj_double (comp_projective t).

(** ge.go:430-489: the digits [e] most significant first *)
Definition ge_digits (Ai : list cached) (e : list Z) : completed :=
  match e with
  | [] => ge_add ext_zero cached_zero
  | top :: e =>
      fold_left (fun t d => ge_add (comp_extended (double4 t)) (select_cached Ai d))
                e (ge_add ext_zero (select_cached Ai top))
  end.

Definition ge_scalar_mult (a : bytes) (A : extended) : extended :=
  comp_extended (ge_digits (table A) (rev (recode (nybbles a) 0))).

(** ** Powers (fe.go) *)

(** [n] squarings *)
Fixpoint squares (n : nat) (a : gf) : gf :=
  match n with O => a | S n => squares n (gsquare a) end.

(** fe.go:860-913 *)
Definition fe_invert (z : gf) : gf :=
  let t0 := gsquare z in
  let t1 := squares 2 t0 in
  let t1 := gmul z t1 in
  let t0 := gmul t0 t1 in
  let t2 := gsquare t0 in
  let t1 := gmul t1 t2 in
  let t2 := squares 5 t1 in
  let t1 := gmul t2 t1 in
  let t2 := squares 10 t1 in
  let t2 := gmul t2 t1 in
  let t3 := squares 20 t2 in
  let t2 := gmul t3 t2 in
  let t2 := squares 10 t2 in
  let t1 := gmul t2 t1 in
  let t2 := squares 50 t1 in
  let t2 := gmul t2 t1 in
  let t3 := squares 100 t2 in
  let t2 := gmul t3 t2 in
  let t2 := squares 50 t2 in
  let t1 := gmul t2 t1 in
  let t1 := squares 5 t1 in
  gmul t1 t0.

(** fe.go:915-974 *)
Definition fe_pow22523 (z : gf) : gf :=
  let t0 := gsquare z in
  let t1 := squares 2 t0 in
  let t1 := gmul z t1 in
  let t0 := gmul t0 t1 in
  let t0 := gsquare t0 in
  let t0 := gmul t1 t0 in
  let t1 := squares 5 t0 in
  let t0 := gmul t1 t0 in
  let t1 := squares 10 t0 in
  let t1 := gmul t1 t0 in
  let t2 := squares 20 t1 in
  let t1 := gmul t2 t1 in
  let t1 := squares 10 t1 in
  let t0 := gmul t1 t0 in
  let t1 := squares 50 t0 in
  let t1 := gmul t1 t0 in
  let t2 := squares 100 t1 in
  let t1 := gmul t2 t1 in
  let t1 := squares 50 t1 in
  let t0 := gmul t1 t0 in
  let t0 := squares 2 t0 in
  gmul t0 z.

(** ** Encodings *)

(** fe.go:159-246 *)
Definition fe_bytes (a : gf) : bytes := le_bytes 32 (gfv a).

(** fe.go:79-135: the highest bit of the last byte is masked away, the number
    is not compared with the modulus *)
Definition fe_from (s : bytes) : gf := gof (le_val s mod 2 ^ 255).

(** fe.go:248-252 *)
Definition fe_negative (a : gf) : bool := Z.odd (gfv a).

(** ge.go:99-107 from affine coordinates: [s[31] ^= feIsNegative(&x) << 7] *)
Definition ge_bytes (x y : gf) : bytes :=
  let s := fe_bytes y in
  firstn 31 s ++
  map (fun b => if fe_negative x then n2b (N.lxor (b2n b) 128) else b) (skipn 31 s).

(** ge.go:109-149: [None] is [false]; the affine coordinates (Z is one) *)
Definition ge_from (s : bytes) : option (gf * gf) :=
  if negb (Nat.eqb (length s) 32) then None else
  let y := fe_from s in
  let z := gone in
  let u := gsquare y in
  let v := gmul u ge_d in
  let u := gsub u z in
  let v := gadd v z in
  let v3 := gmul (gsquare v) v in
  let x := gmul (gmul (gsquare v3) v) u in
  let x := fe_pow22523 x in
  let x := gmul (gmul x v3) u in
  let vxx := gmul (gsquare x) v in
  let sign := 128 <=? b2z (nth 31 s x00) in
  let finish := fun x =>
    let x := if negb (Bool.eqb (fe_negative x) sign) then gopp x else x in
    Some (x, y) in
  if negb (geqb (gsub vxx u) gzero) then
    if negb (geqb (gadd vxx u) gzero) then None
    else finish (gmul x sqrt_m1)
  else finish x.

(** ** Points (point.go) *)

Definition on_curveb (x y : gf) : bool :=
  geqb (gadd (gopp (gmul x x)) (gmul y y))
       (gadd gone (gmul (gmul ge_d (gmul x x)) (gmul y y))).

(** point.go:29-32: the curve points, by their affine coordinates *)
Record point := mkpoint { px : gf; py : gf; pon : on_curveb px py = true }.

(** point.go:96-100 *)
Definition point_null : point.
Proof. refine (mkpoint gzero gone _). vm_compute. reflexivity. Defined.

(** The point with the given coordinates.  Every call below is on coordinates
    of the curve ([Edwards25519Proofs]); the other branch is never taken. *)
Definition point_at (x y : gf) : point :=
  match bool_dec (on_curveb x y) true with
  | left H => mkpoint x y H
  | right _ => point_null
  end.

Definition lift (p : point) : extended := Ext (px p) (py p) gone (gmul (px p) (py p)).
Definition lower (e : extended) : point :=
  let r := fe_invert (eZ e) in point_at (gmul (eX e) r) (gmul (eY e) r).

(** const.go:51-56 *)
Definition baseext : extended := Ext
  (limbs [25485296; 5318399; 8791791; -8299916; -14349720; 6939349; -3324311; -7717049; 7287234; -6577708])
  (limbs [-758052; -1832720; 13046421; -4857925; 6576754; 14371947; -13139572; 6845540; -2198883; -4003719])
  (limbs [-947565; 6097708; -469190; 10704810; -8556274; -15589498; -16424464; -16608899; 14028613; -5004649])
  (limbs [6966464; -2456167; 7033433; 6781840; 28785542; 12262365; -2659449; 13959020; -21013759; -5262166]).

(** point.go:102-105 *)
Definition point_base : point := lower baseext.

(** point.go:180-192 *)
Definition point_add (p q : point) : point :=
  lower (comp_extended (ge_add (lift p) (to_cached (lift q)))).

(** point.go:194-206 *)
Definition point_sub (p q : point) : point :=
  lower (comp_extended (ge_sub (lift p) (to_cached (lift q)))).

(** point.go:216-233 with a point given and [varTime] unset (curve.go:43-46) *)
Definition point_mul (a : bytes) (p : point) : point :=
  lower (ge_scalar_mult a (lift p)).

(** point.go:44-48 *)
Definition point_bytes (p : point) : bytes := ge_bytes (px p) (py p).

(** point.go:55-60 *)
Definition point_from (s : bytes) : option point :=
  match ge_from s with
  | Some (x, y) => Some (point_at x y)
  | None => None
  end.

(** point.go:71-82: the encodings are compared *)
Definition point_eqb (p q : point) : bool := bseq (point_bytes p) (point_bytes q).

(** ** Scalars (scalar.go)

    A scalar is 32 bytes; they need not stand for a number below the order. *)

(** scalar.go:51-55, group/mod/int.go:397-414 *)
Definition scalar_of (z : Z) : bytes := le_bytes 32 (z mod l25519).

(** scalar.go:33-37 *)
Definition scalar_eqb (a b : bytes) : bool := bseq a b.

(** scalar.go:79-83: scAdd (640-1061) as the exact operation *)
Definition scalar_add (a b : bytes) : bytes := scalar_of (le_val a + le_val b).

(** scalar.go:85-89: scSub (1063-1483) as the exact operation *)
Definition scalar_sub (a b : bytes) : bytes := scalar_of (le_val a - le_val b).

(** scalar.go:99-103: scMul (1485-1909) as the exact operation *)
Definition scalar_mul (a b : bytes) : bytes := scalar_of (le_val a * le_val b).

(** scalar.go:73-76 *)
Definition scalar_one : bytes := le_bytes 32 1.

(** scalar.go:67-70 *)
Definition scalar_zero : bytes := le_bytes 32 0.

(** const.go:20 *)
Definition l_minus_2 : Z := 7237005577332262213973186563042994240857116359379907606001950938285454250987.

(** scalar.go:113-133: the bits of [lMinus2] from 255 to 0 *)
Definition scalar_inv (a : bytes) : bytes :=
  fold_left (fun r i =>
               let r := scalar_mul r r in
               if Z.testbit l_minus_2 (Z.of_nat i) then scalar_mul r a else r)
            (rev (seq 0 256)) scalar_one.

(** scalar.go:105-110 with [One] in front: signature.go:37 *)
Definition scalar_inverse (a : bytes) : bytes := scalar_mul scalar_one (scalar_inv a).

(** scalar.go:142-144, group/mod/int.go:385-392 *)
Definition scalar_set_bytes (b : bytes) : bytes := scalar_of (le_val b).

(** scalar.go:161-163, 62-64 and group/mod/int.go:315-330: reduced *)
Definition scalar_bytes (a : bytes) : bytes := scalar_of (le_val a).

(** scalar.go:187-189, group/internal/marshalling/marshal.go:53-64 and
    scalar.go:171-177: the first 32 bytes, whatever number they stand for *)
Definition scalar_from (b : bytes) : option bytes :=
  if Nat.ltb (length b) 32 then None else Some (firstn 32 b).
