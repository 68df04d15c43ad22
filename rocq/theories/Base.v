(** Bytes, Go outcomes, and the text encodings of the Go standard library that
    the code relies on (strconv.Itoa, encoding/hex, encoding/base64,
    strings.Split). *)
From Coq Require Export Strings.String Strings.Byte NArith ZArith Bool List.
From Coq Require Import DecimalNat DecimalN DecimalZ.
Export ListNotations.
Local Open Scope N_scope.

Notation bytes := (list byte).

(** A Go [string] literal as the bytes of its (ASCII) text. *)
Definition s2b (s : string) : bytes := list_byte_of_string s.
Arguments s2b s%string_scope.

(** ** Outcomes of a Go call

    [Ok a] is [(a, nil)], [Err] is [(nil, err)] for some error (error texts are
    not modelled), [Panic] is a run-time panic (nil dereference, index out of
    range), which terminates the program. *)
Inductive res (A : Type) : Type :=
| Ok (a : A)
| Err
| Panic.
Arguments Ok {A} a.
Arguments Err {A}.
Arguments Panic {A}.

Definition rbind {A B} (x : res A) (f : A -> res B) : res B :=
  match x with Ok a => f a | Err => Err | Panic => Panic end.
Definition rmap {A B} (f : A -> B) (x : res A) : res B :=
  match x with Ok a => Ok (f a) | Err => Err | Panic => Panic end.

Declare Scope res_scope.
Delimit Scope res_scope with res.
Notation "'let!' x := a 'in' b" := (rbind a (fun x => b))
  (at level 200, x pattern, a at level 100, b at level 200) : res_scope.
Notation "'guard' c 'in' b" := (if c then b else Err)
  (at level 200, c at level 100, b at level 200) : res_scope.
Open Scope res_scope.

(** Go loop [for _, x := range l { y, err := f(x); if err != nil {return nil, err}; out = append(out, y)}] *)
Fixpoint rmapM {A B} (f : A -> res B) (l : list A) : res (list B) :=
  match l with
  | [] => Ok []
  | x :: l => let! y := f x in let! ys := rmapM f l in Ok (y :: ys)
  end.

(** ** Byte / number conversions *)
Definition b2n (b : byte) : N := Byte.to_N b.
Definition n2b (n : N) : byte :=
  match Byte.of_N (n mod 256) with Some b => b | None => x00 end.

Definition beq (a b : byte) : bool := Byte.eqb a b.

Fixpoint bseq (a b : bytes) : bool :=
  match a, b with
  | [], [] => true
  | x :: a, y :: b => beq x y && bseq a b
  | _, _ => false
  end.

(** ** strconv.Itoa / decimal text *)
Fixpoint uint_bytes (d : Decimal.uint) : bytes :=
  match d with
  | Decimal.Nil => []
  | Decimal.D0 d => x30 :: uint_bytes d
  | Decimal.D1 d => x31 :: uint_bytes d
  | Decimal.D2 d => x32 :: uint_bytes d
  | Decimal.D3 d => x33 :: uint_bytes d
  | Decimal.D4 d => x34 :: uint_bytes d
  | Decimal.D5 d => x35 :: uint_bytes d
  | Decimal.D6 d => x36 :: uint_bytes d
  | Decimal.D7 d => x37 :: uint_bytes d
  | Decimal.D8 d => x38 :: uint_bytes d
  | Decimal.D9 d => x39 :: uint_bytes d
  end.

(** decimal text of a natural number *)
Definition ntoa (n : N) : bytes := uint_bytes (N.to_uint n).

(** [strconv.Itoa] of a Go [int] *)
Definition itoa (z : Z) : bytes :=
  match Z.to_int z with
  | Decimal.Pos d => uint_bytes d
  | Decimal.Neg d => x2d :: uint_bytes d
  end.

(** Go conversion [int(x)] of a [uint64] (64-bit platform) *)
Definition int_of_u64 (n : N) : Z :=
  if n <? 2 ^ 63 then Z.of_N n else (Z.of_N n - 2 ^ 64)%Z.

(** [strconv.Itoa(int(x))] for [x uint64] *)
Definition itoa_u64 (n : N) : bytes := itoa (int_of_u64 n).

(** ** encoding/hex *)
Definition hexdigit (n : N) : byte :=
  if n <? 10 then n2b (48 + n) else n2b (87 + n).

Definition hex_byte (b : byte) : bytes := [hexdigit (b2n b / 16); hexdigit (b2n b mod 16)].
Definition hex_encode (l : bytes) : bytes := flat_map hex_byte l.

(** [fromHexChar] of encoding/hex: digits, lower and upper case letters *)
Definition unhexdigit (b : byte) : option N :=
  let n := b2n b in
  if (48 <=? n) && (n <=? 57) then Some (n - 48)
  else if (97 <=? n) && (n <=? 102) then Some (n - 87)
  else if (65 <=? n) && (n <=? 70) then Some (n - 55)
  else None.

(** [hex.DecodeString]: an error on a bad character or on odd length *)
Fixpoint hex_decode (l : bytes) : res bytes :=
  match l with
  | [] => Ok []
  | a :: b :: l =>
      match unhexdigit a, unhexdigit b with
      | Some x, Some y => let! r := hex_decode l in Ok (n2b (16 * x + y) :: r)
      | _, _ => Err
      end
  | _ => Err
  end.

(** ** encoding/base64, StdEncoding *)
Definition b64char (n : N) : byte :=
  if n <? 26 then n2b (65 + n)
  else if n <? 52 then n2b (71 + n)
  else if n <? 62 then n2b (n - 4)
  else if n =? 62 then x2b else x2f.

Definition unb64char (b : byte) : option N :=
  let n := b2n b in
  if (65 <=? n) && (n <=? 90) then Some (n - 65)
  else if (97 <=? n) && (n <=? 122) then Some (n - 71)
  else if (48 <=? n) && (n <=? 57) then Some (n + 4)
  else if n =? 43 then Some 62
  else if n =? 47 then Some 63
  else None.

Fixpoint b64_encode (l : bytes) : bytes :=
  match l with
  | [] => []
  | [a] =>
      let n := b2n a * 65536 in
      [b64char (n / 262144); b64char (n / 4096 mod 64); x3d; x3d]
  | [a; b] =>
      let n := b2n a * 65536 + b2n b * 256 in
      [b64char (n / 262144); b64char (n / 4096 mod 64); b64char (n / 64 mod 64); x3d]
  | a :: b :: c :: l =>
      let n := b2n a * 65536 + b2n b * 256 + b2n c in
      b64char (n / 262144) :: b64char (n / 4096 mod 64) ::
      b64char (n / 64 mod 64) :: b64char (n mod 64) :: b64_encode l
  end.

(** Quads of a text without line breaks.  Padding is accepted only in the last
    quad; the unused low bits of a padded quad are not checked (Go's non-strict
    mode). *)
Fixpoint b64_quads (l : bytes) : res bytes :=
  match l with
  | [] => Ok []
  | a :: b :: c :: d :: l =>
      match unb64char a, unb64char b, unb64char c, unb64char d with
      | Some x, Some y, Some z, Some w =>
          let n := x * 262144 + y * 4096 + z * 64 + w in
          let! r := b64_quads l in
          Ok (n2b (n / 65536) :: n2b (n / 256) :: n2b n :: r)
      | Some x, Some y, Some z, None =>
          if beq d x3d then
            match l with
            | [] => let n := x * 262144 + y * 4096 + z * 64 in
                    Ok [n2b (n / 65536); n2b (n / 256)]
            | _ => Err
            end
          else Err
      | Some x, Some y, None, None =>
          if beq c x3d && beq d x3d then
            match l with
            | [] => let n := x * 262144 + y * 4096 in Ok [n2b (n / 65536)]
            | _ => Err
            end
          else Err
      | _, _, _, _ => Err
      end
  | _ => Err
  end.

(** [base64.StdEncoding.DecodeString]: CR and LF are skipped anywhere *)
Definition b64_decode (l : bytes) : res bytes :=
  b64_quads (filter (fun b => negb (beq b x0a || beq b x0d)) l).

(** ** strings.Split by a one-byte separator *)
Fixpoint split (sep : byte) (l : bytes) : list bytes :=
  match l with
  | [] => [[]]
  | x :: l =>
      if beq x sep then [] :: split sep l
      else match split sep l with
           | w :: ws => (x :: w) :: ws
           | [] => [[x]]
           end
  end.

(** ** Association lists *)
Section Assoc.
  Context {K V : Type} (keq : K -> K -> bool).
  Fixpoint aget (k : K) (m : list (K * V)) : option V :=
    match m with
    | [] => None
    | (k', v) :: m => if keq k k' then Some v else aget k m
    end.
  Definition aput (k : K) (v : V) (m : list (K * V)) : list (K * V) := (k, v) :: m.
  Definition adel (k : K) (m : list (K * V)) : list (K * V) :=
    filter (fun p => negb (keq k (fst p))) m.
End Assoc.
