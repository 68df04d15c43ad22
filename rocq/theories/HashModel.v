(** Model of libs/hash (adapter.go, hash.go, sdk.go). *)
From Verif Require Import Base Sha512.

(** libs/hash/sdk.go:11  [type Hash [64]byte].  A hash is a byte list; that all
    hashes produced by the adapter have 64 bytes is theorem C01, not part of the
    type. *)
Notation hash := (list byte).

(** libs/hash/adapter.go:17-34 FromBytes.  [h.Write] of crypto/sha512 never
    returns an error.  Lines 28-31 copy the input into a [64]byte array, which
    panics on a longer input and leaves zero bytes on a shorter one. *)
Definition FromBytes (input : bytes) : res hash :=
  let input := if Nat.eqb (length input) 64 then input else sha512 input in
  if Nat.leb (length input) 64
  then Ok (input ++ repeat x00 (64 - length input))
  else Panic.

(** The value of [FromBytes] (theorem C01: [FromBytes x = Ok (from_bytes x)]); the
    other models use this total form. *)
Definition from_bytes (input : bytes) : hash :=
  if Nat.eqb (length input) 64 then input else sha512 input.

(** libs/hash/adapter.go:37-44 FromMultiBytes *)
Definition FromMultiBytes (input : list bytes) : res hash := FromBytes (concat input).
Definition from_multi (input : list bytes) : hash := from_bytes (concat input).

(** libs/hash/adapter.go:47-59 FromString *)
Definition FromString (input : bytes) : res hash :=
  let! b := hex_decode input in FromBytes b.
Definition from_string (input : bytes) : res hash :=
  let! b := hex_decode input in Ok (from_bytes b).

(** libs/hash/hash.go:10-22 Compare *)
Definition compare (a b : hash) : bool := bseq a b.

(** libs/hash/hash.go:35-38 String ([%x] prints two lower case digits per byte) *)
Definition hash_string (h : hash) : bytes := hex_encode h.

(** [filepath.Join] of a possibly empty directory and a non-empty element made
    of hexadecimal digits.  Simplification: [filepath.Clean] is the identity on
    such paths and is left out. *)
Definition join (dir elem : bytes) : bytes :=
  match dir with [] => elem | _ => dir ++ x2f :: elem end.

(** libs/hash/hash.go:45-54, the loop of Path: [index], [out], [currentFolder];
    sdk.go:3 amountLettersPerFolder = 16 *)
Fixpoint path_loop (str : bytes) (index : nat) (out cur : bytes) : bytes * bytes :=
  match str with
  | [] => (out, cur)
  | c :: str =>
      let '(out, cur) :=
        match cur with
        | [] => (out, cur)
        | _ => if Nat.eqb (Nat.modulo index 16) 0 then (join out cur, []) else (out, cur)
        end in
      path_loop str (S index) out (cur ++ [c])
  end.

(** libs/hash/hash.go:41-61 Path *)
Definition hash_path (h : hash) : bytes :=
  let '(out, cur) := path_loop (hash_string h) 0 [] [] in
  match cur with
  | [] => join out (hash_string h)
  | _ => join (join out cur) (hash_string h)
  end.
