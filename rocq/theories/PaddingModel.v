(** The length to which a block of a hash tree is padded, as computed in float64. *)
From Coq Require Import SpecFloat.
From Verif Require Import Base FloatModel HashModel HashTreeModel.
Local Open Scope Z_scope.

(** math.Ceil: a float64 without fractional part is itself *)
Definition f_ceil (x : float64) : float64 :=
  match x with
  | S754_finite s m e =>
      if 0 <=? e then x
      else let t := - ((if s then Z.pos m else Z.neg m) / 2 ^ (- e)) in
           if t =? 0 then S754_zero s else f_of_Z t
  | _ => x
  end.
(** libs/hashtree/block.go:53-55: [next]; [log] and [pow] are math.Log and math.Pow, [wild]
    gives the result of [uint(x)] where it depends on the implementation *)
Definition next_float (log : float64 -> float64) (pow : float64 -> float64 -> float64) (wild : float64 -> N) (length : N) : N :=
  let x := pow (f_of_Z 2) (f_ceil (f_div (log (f_of_Z (Z.of_N length))) (log (f_of_Z 2)))) in
  match f_to_uint x with Some n => n | None => wild x end.
(** libs/hashtree/block.go:37-66: resize, resizeToNextPowerOfTwo.  Simplification:
    [int(lengthAsFloat)] is the length; that is so for lengths up to 2^53. *)
Definition resize_float (log : float64 -> float64) (pow : float64 -> float64 -> float64) (wild : float64 -> N) (l : list hash) : list hash :=
  if is_pow2 (length l) then l
  else l ++ repeat (from_bytes []) (Z.to_nat (int_of_u64 (next_float log pow wild (N.of_nat (length l))) - Z.of_nat (length l))).
(** libs/hashtree/hashtree.go:50-58 createHashTreeFromBlocks and block.go:14-35 createBlockFromData *)
Definition hashtree_float (log : float64 -> float64) (pow : float64 -> float64 -> float64) (wild : float64 -> N) (data : list bytes) : res hashtree :=
  let data := if Nat.leb (length data) 1 then data ++ [[]] else data in
  leaves_hashtree (block_leaves (resize_float log pow wild (map from_bytes data))).
