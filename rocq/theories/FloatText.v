(** float64 values as JSON numbers: encoding/json's floatEncoder and
    strconv.ParseFloat(text, 64) of a number literal. *)
From Coq Require Import SpecFloat.
From Verif Require Import Base FloatModel JsonModel TimeModel.
Local Open Scope Z_scope.

(** the float64 nearest to [n * 10^e] (ties to even) *)
Definition float_of_dec (neg : bool) (n e : Z) : float64 :=
  match n with
  | Z.pos p =>
      if 0 <=? e then binary_normalize 53 1024 ((if neg then -1 else 1) * (n * 10 ^ e)) 0 neg
      else SFdiv 53 1024 (S754_finite neg p 0) (S754_finite false (Z.to_pos (10 ^ (- e))) 0)
  | _ => S754_zero neg
  end.

(** sign, digits before and behind the point, exponent *)
Definition parse_dec (t : bytes) : option (bool * Z * Z) :=
  let neg := match t with c :: _ => beq c x2d | [] => false end in
  let t := if neg then tl t else t in
  let '(a, t) := span_digits t in
  let '(b, t) := match t with c :: t' => if beq c x2e then span_digits t' else ([], t) | [] => ([], []) end in
  let? e := match t with
            | [] => Some 0
            | c :: t =>
                let '(s, t) := match t with
                               | d :: t' => if beq d x2d then (-1, t') else if beq d x2b then (1, t') else (1, t)
                               | [] => (1, [])
                               end in
                let? e := dvals 0 t in Some (s * e)
            end in
  let? n := dvals 0 (a ++ b) in
  Some (neg, n, e - Z.of_nat (length b)).

(** strconv.ParseFloat: a value that overflows is an error.  Simplification: Go stops
    counting at an exponent of 10000, so that a text with thousands of digits and such an
    exponent is another number for Go. *)
Definition parse_float (t : bytes) : res float64 :=
  match parse_dec t with
  | None => Err
  | Some (neg, n, e) =>
      match float_of_dec neg n e with S754_infinity _ => Err | x => Ok x end
  end.

Definition same_float (x y : float64) : bool :=
  match x, y with
  | S754_zero s, S754_zero s' => Bool.eqb s s'
  | S754_finite s m e, S754_finite s' m' e' => Bool.eqb s s' && Pos.eqb m m' && (e =? e')
  | _, _ => false
  end.

(** ** The shortest text that reads back as the value *)

(** the largest [p] with 10^p <= m * 2^e *)
Definition dec_exponent (m : positive) (e : Z) : Z :=
  let est := (Z.log2 (Z.pos m) + e) * 30103 / 100000 in
  let le p := if 0 <=? p then (10 ^ p * 2 ^ Z.max 0 (- e) <=? Z.pos m * 2 ^ Z.max 0 e)
              else (2 ^ Z.max 0 (- e) <=? Z.pos m * 2 ^ Z.max 0 e * 10 ^ (- p)) in
  if le (est + 1) then est + 1 else if le est then est else est - 1.

(** m * 2^e * 10^k as a fraction *)
Definition scaled (m : positive) (e k : Z) : Z * Z :=
  (Z.pos m * 2 ^ Z.max 0 e * 10 ^ Z.max 0 k, 2 ^ Z.max 0 (- e) * 10 ^ Z.max 0 (- k)).

(** formats of [n * 10^e] with the digits of [n]: without and with exponent *)
Definition text_f (n e : Z) : bytes :=
  if 0 <=? e then itoa (n * 10 ^ e)
  else let k := Z.to_nat (- e) in
       let s := pad_left (S k) (itoa n) in
       firstn (length s - k) s ++ [x2e] ++ skipn (length s - k) s.
Definition text_e (n e : Z) : bytes :=
  let s := itoa n in
  let x := e + Z.of_nat (length s) - 1 in
  firstn 1 s ++ (match tl s with [] => [] | f => x2e :: f end) ++ [x65] ++
  (if x <? 0 then [x2d] else [x2b]) ++ pad_left (if x <? 0 then 1%nat else 2%nat) (itoa (Z.abs x)).

(** encode.go floatEncoder: exponent format below 1e-6 and from 1e21 on *)
Definition use_exponent (x : float64) : bool :=
  SFltb (SFabs x) (float_of_dec false 1 (-6)) || SFleb (float_of_dec false 1 21) (SFabs x).
Fixpoint strip_zeros (fuel : nat) (n e : Z) : Z * Z :=
  match fuel with
  | S fuel => if n mod 10 =? 0 then strip_zeros fuel (n / 10) (e + 1) else (n, e)
  | O => (n, e)
  end.
Definition text_of (ex neg : bool) (n e : Z) : bytes :=
  let '(n, e) := strip_zeros 18 n e in
  (if neg then [x2d] else []) ++ (if ex then text_e n e else text_f n e).

(** candidates with [d] digits, the nearest first *)
Definition candidates_at (ex neg : bool) (m : positive) (e p d : Z) : list bytes :=
  let k := d - 1 - p in
  let '(a, b) := scaled m e k in
  let n := round_half_even a b in
  let other := if n * b <=? a then n + 1 else n - 1 in
  [text_of ex neg n (- k); text_of ex neg other (- k)].
Definition candidates (neg : bool) (m : positive) (e : Z) : list bytes :=
  let p := dec_exponent m e in
  flat_map (candidates_at (use_exponent (S754_finite neg m e)) neg m e p) [1; 2; 3; 4; 5; 6; 7; 8; 9; 10; 11; 12; 13; 14; 15; 16; 17].

Definition reads_as (x : float64) (t : bytes) : bool :=
  valid_number t && forallb is_num_char t &&
  match parse_float t with Ok y => same_float x y | _ => false end.

(** json.Marshal of a float64: an error for NaN and the infinities, else the shortest
    text that reads back as the value.  The search is over at most 17 digits, which
    suffice for every float64 number (C100). *)
Definition float_text (x : float64) : res bytes :=
  match x with
  | S754_nan | S754_infinity _ => Err
  | S754_zero s => Ok (if s then s2b "-0" else s2b "0")
  | S754_finite s m e =>
      match find (reads_as x) (candidates s m e) with Some t => Ok t | None => Err end
  end.
Definition jfloat (x : float64) : res json := let! t := float_text x in Ok (JNum t).
Definition float_value (j : json) : res float64 := match j with JNum t => parse_float t | _ => Err end.
Definition dfloat : list json -> res float64 := dlast float_value (S754_zero false).

Definition ftext_of (t : string) : res bytes := let! x := parse_float (s2b t) in float_text x.
Example float_case :
  map ftext_of ["0.1"; "1.5"; "1e21"; "123456789012345678"; "2.50e-7"; "0.000001"; "100"]%string =
  map (fun s => Ok (s2b s))
    ["0.1"; "1.5"; "1e+21"; "123456789012345680"; "2.5e-7"; "0.000001"; "100"]%string /\
  ftext_of "1e309" = Err /\ float_text S754_nan = Err /\
  parse_float (s2b "0.1") = Ok (S754_finite false 7205759403792794 (-56)).
Proof. vm_compute. auto. Qed.
