(** Model of encoding/json as used by the repository: the text of a value, parsing
    of a text, and the decoding of struct fields.

    Simplification: the limit of 10000 for the nesting, which Go has since 1.15, is not modelled. *)
From Verif Require Import Base.
Local Open Scope N_scope.

Inductive json :=
| JNull
| JBool (b : bool)
| JNum (text : bytes)      (* the literal *)
| JStr (s : bytes)
| JEsc (s : bytes)         (* a string of characters that stand for themselves, written with escapes *)
| JArr (l : list json)
| JObj (m : list (bytes * json)).

(** ** UTF-8 *)

(** unicode/utf8 DecodeRune: the valid sequences of two, three and four bytes *)
Definition within (lo hi : N) (c : byte) : bool := (lo <=? b2n c) && (b2n c <=? hi).
Definition rune2 (c d : byte) : bool := within 0xC2 0xDF c && within 0x80 0xBF d.
Definition rune3 (c d e : byte) : bool :=
  (beq c xe0 && within 0xA0 0xBF d || (within 0xE1 0xEC c || within 0xEE 0xEF c) && within 0x80 0xBF d || beq c xed && within 0x80 0x9F d) &&
  within 0x80 0xBF e.
Definition rune4 (c d e f : byte) : bool :=
  (beq c xf0 && within 0x90 0xBF d || within 0xF1 0xF3 c && within 0x80 0xBF d || beq c xf4 && within 0x80 0x8F d) &&
  within 0x80 0xBF e && within 0x80 0xBF f.
(** EncodeRune of a code point below 0x10000; surrogates are U+FFFD *)
Definition utf8 (n : N) : bytes :=
  let n := if (0xD800 <=? n) && (n <=? 0xDFFF) then 0xFFFD else n in
  if n <? 0x80 then [n2b n]
  else if n <? 0x800 then [n2b (0xC0 + n / 64); n2b (0x80 + n mod 64)]
  else [n2b (0xE0 + n / 4096); n2b (0x80 + (n / 64) mod 64); n2b (0x80 + n mod 64)].
(** and of one from 0x10000 on *)
Definition utf8_high (n : N) : bytes :=
  [n2b (0xF0 + n / 262144); n2b (0x80 + (n / 4096) mod 64); n2b (0x80 + (n / 64) mod 64); n2b (0x80 + n mod 64)].
Definition replacement : bytes := [xef; xbf; xbd].

(** ** Printing (json.Marshal) *)

Definition quote_char (c : byte) : bytes :=
  let n := b2n c in
  if (n =? 34) || (n =? 92) then [x5c; c]
  else if n =? 10 then [x5c; x6e]
  else if n =? 13 then [x5c; x72]
  else if n =? 9 then [x5c; x74]
  else if (n <? 32) || (n =? 60) || (n =? 62) || (n =? 38) then [x5c; x75; x30; x30] ++ hex_byte c
  else [c].
(** U+2028 and U+2029 are escaped *)
Definition quote3 (c d e : byte) : bytes :=
  if beq c xe2 && beq d x80 && beq e xa8 then [x5c; x75; x32; x30; x32; x38]
  else if beq c xe2 && beq d x80 && beq e xa9 then [x5c; x75; x32; x30; x32; x39]
  else [c; d; e].
(** a byte that is not part of a valid sequence becomes the escape of U+FFFD *)
Definition escaped_replacement : bytes := [x5c; x75; x66; x66; x66; x64].
Fixpoint quote_body (s : bytes) : bytes :=
  match s with
  | [] => []
  | c :: s1 =>
      if b2n c <? 128 then quote_char c ++ quote_body s1
      else
        match s1 with
        | [] => escaped_replacement ++ quote_body s1
        | d :: s2 =>
            if rune2 c d then [c; d] ++ quote_body s2
            else
              match s2 with
              | [] => escaped_replacement ++ quote_body s1
              | e :: s3 =>
                  if rune3 c d e then quote3 c d e ++ quote_body s3
                  else
                    match s3 with
                    | [] => escaped_replacement ++ quote_body s1
                    | f :: s4 => if rune4 c d e f then [c; d; e; f] ++ quote_body s4 else escaped_replacement ++ quote_body s1
                    end
              end
        end
  end.
Definition quote (s : bytes) : bytes := x22 :: quote_body s ++ [x22].

Fixpoint jprint (j : json) : bytes :=
  match j with
  | JNull => s2b "null"
  | JBool true => s2b "true"
  | JBool false => s2b "false"
  | JNum t => t
  | JStr s | JEsc s => quote s
  | JArr l =>
      x5b :: (fix go (first : bool) (l : list json) : bytes :=
                match l with
                | [] => [x5d]
                | j :: l => (if first then [] else [x2c]) ++ jprint j ++ go false l
                end) true l
  | JObj m =>
      x7b :: (fix go (first : bool) (m : list (bytes * json)) : bytes :=
                match m with
                | [] => [x7d]
                | (k, j) :: m => (if first then [] else [x2c]) ++ quote k ++ [x3a] ++ jprint j ++ go false m
                end) true m
  end.

(** ** Parsing (json.Unmarshal) *)

Definition is_ws (c : byte) : bool := beq c x20 || beq c x09 || beq c x0a || beq c x0d.
Fixpoint skip_ws (s : bytes) : bytes :=
  match s with
  | c :: s' => if is_ws c then skip_ws s' else s
  | [] => []
  end.

Definition is_digit_b (c : byte) : bool := (48 <=? b2n c) && (b2n c <=? 57).
(** characters that can occur in a number literal *)
Definition is_num_char (c : byte) : bool :=
  is_digit_b c || beq c x2d || beq c x2b || beq c x2e || beq c x65 || beq c x45.
Fixpoint span_num (s : bytes) : bytes * bytes :=
  match s with
  | c :: s' => if is_num_char c then let '(a, b) := span_num s' in (c :: a, b) else ([], s)
  | [] => ([], [])
  end.

Fixpoint skip_digits (s : bytes) : bytes :=
  match s with
  | c :: s' => if is_digit_b c then skip_digits s' else s
  | [] => []
  end.
Definition digits1 (s : bytes) : option bytes :=
  match s with
  | c :: s' => if is_digit_b c then Some (skip_digits s') else None
  | [] => None
  end.
(** the number grammar: -?(0|[1-9][0-9]* )(\.[0-9]+)?([eE][+-]?[0-9]+)? *)
Definition opt_char (c : byte) (s : bytes) : bytes :=
  match s with c' :: s' => if beq c' c then s' else s | [] => s end.
Definition int_part (s : bytes) : option bytes :=
  match s with c :: s' => if beq c x30 then Some s' else digits1 s | [] => None end.
Definition frac_part (s : bytes) : option bytes :=
  match s with c :: s' => if beq c x2e then digits1 s' else Some s | [] => Some s end.
Definition exp_part (s : bytes) : bool :=
  match s with
  | [] => true
  | c :: s' =>
      if beq c x65 || beq c x45
      then match digits1 (match s' with
                          | d :: r => if beq d x2b || beq d x2d then r else s'
                          | [] => s'
                          end) with
           | Some [] => true
           | _ => false
           end
      else false
  end.
Definition valid_number (s : bytes) : bool :=
  match int_part (opt_char x2d s) with
  | None => false
  | Some s => match frac_part s with None => false | Some s => exp_part s end
  end.

Fixpoint prefix_of (p s : bytes) : option bytes :=
  match p, s with
  | [], _ => Some s
  | a :: p, b :: s => if beq a b then prefix_of p s else None
  | _ :: _, [] => None
  end.

Definition unhex4 (a b c d : byte) : option N :=
  match unhexdigit a, unhexdigit b, unhexdigit c, unhexdigit d with
  | Some a, Some b, Some c, Some d => Some (((a * 16 + b) * 16 + c) * 16 + d)
  | _, _, _, _ => None
  end.

Definition unescape (e : byte) : option byte :=
  if beq e x22 then Some x22 else if beq e x5c then Some x5c else if beq e x2f then Some x2f
  else if beq e x62 then Some x08 else if beq e x66 then Some x0c else if beq e x6e then Some x0a
  else if beq e x72 then Some x0d else if beq e x74 then Some x09 else None.

(** a \u escape: two that are a surrogate pair are one code point, other surrogates are
    U+FFFD *)
Definition high_surrogate (n : N) : bool := (0xD800 <=? n) && (n <=? 0xDBFF).
Definition low_surrogate (n : N) : bool := (0xDC00 <=? n) && (n <=? 0xDFFF).
Definition pair_rune (n m : N) : N := (n - 0xD800) * 0x400 + (m - 0xDC00) + 0x10000.
Definition second_half (n : N) (s : bytes) : option N :=
  if high_surrogate n then
    match s with
    | p :: q :: a :: b :: c :: d :: _ =>
        if beq p x5c && beq q x75 then
          match unhex4 a b c d with
          | Some m => if low_surrogate m then Some m else None
          | None => None
          end
        else None
    | _ => None
    end
  else None.
Definition emit (t : bytes) (x : option (bytes * bytes)) : option (bytes * bytes) :=
  match x with Some (u, r) => Some (t ++ u, r) | None => None end.

(** the rest of a string literal behind its opening quote; a byte that is not part of a
    valid sequence becomes U+FFFD *)
Fixpoint pstring (s : bytes) : option (bytes * bytes) :=
  match s with
  | [] => None
  | c :: s1 =>
      if beq c x22 then Some ([], s1)
      else if beq c x5c then
        match s1 with
        | [] => None
        | e :: s2 =>
            if beq e x75 then
              match s2 with
              | a :: b :: c :: d :: s3 =>
                  match unhex4 a b c d with
                  | Some n =>
                      match second_half n s3 with
                      | Some m =>
                          match s3 with
                          | _ :: _ :: _ :: _ :: _ :: _ :: s4 => emit (utf8_high (pair_rune n m)) (pstring s4)
                          | _ => None
                          end
                      | None => emit (utf8 n) (pstring s3)
                      end
                  | None => None
                  end
              | _ => None
              end
            else
              match unescape e with
              | Some c => emit [c] (pstring s2)
              | None => None
              end
        end
      else if b2n c <? 32 then None
      else if b2n c <? 128 then emit [c] (pstring s1)
      else
        match s1 with
        | [] => emit replacement (pstring s1)
        | d :: s2 =>
            if rune2 c d then emit [c; d] (pstring s2)
            else
              match s2 with
              | [] => emit replacement (pstring s1)
              | e :: s3 =>
                  if rune3 c d e then emit [c; d; e] (pstring s3)
                  else
                    match s3 with
                    | [] => emit replacement (pstring s1)
                    | f :: s4 => if rune4 c d e f then emit [c; d; e; f] (pstring s4) else emit replacement (pstring s1)
                    end
              end
        end
  end.

Definition pnum (s : bytes) : option (json * bytes) :=
  let '(t, r) := span_num s in if valid_number t then Some (JNum t, r) else None.
Definition lit (p : bytes) (j : json) (s : bytes) : option (json * bytes) :=
  match prefix_of p s with Some r => Some (j, r) | None => None end.

(** characters that json.Marshal leaves as they are; a string of them can be written with
    escapes all the same.  Only time.Time, whose UnmarshalJSON gets the text of the literal,
    tells such a string from the one without escapes. *)
Definition bare (t : bytes) : bool := forallb (fun c => (b2n c <? 128) && bseq (quote_char c) [c]) t.
(** the string [t] that was read from the front of [s], with [r] behind its closing quote *)
Definition string_read (s t r : bytes) : json := if bare t && negb (bseq s (t ++ x22 :: r)) then JEsc t else JStr t.

(** values, elements of an array and members of an object (the latter two behind the
    opening bracket; [first] tells whether no element has been read yet; a comma before
    the closing bracket is rejected since a value must follow it); out of fuel is
    [None], which does not happen in [jparse] *)
Fixpoint pval (fuel : nat) (s : bytes) {struct fuel} : option (json * bytes) :=
  match fuel with
  | O => None
  | S fuel =>
      match skip_ws s with
      | [] => None
      | c :: s =>
          if beq c x6e then lit (s2b "ull") JNull s
          else if beq c x74 then lit (s2b "rue") (JBool true) s
          else if beq c x66 then lit (s2b "alse") (JBool false) s
          else if beq c x22 then match pstring s with Some (t, r) => Some (string_read s t r, r) | None => None end
          else if beq c x5b then match parr fuel true s with Some (l, r) => Some (JArr l, r) | None => None end
          else if beq c x7b then match pobj fuel true s with Some (m, r) => Some (JObj m, r) | None => None end
          else pnum (c :: s)
      end
  end
with parr (fuel : nat) (first : bool) (s : bytes) {struct fuel} : option (list json * bytes) :=
  match fuel with
  | O => None
  | S fuel =>
      match skip_ws s with
      | [] => None
      | c :: r =>
          if beq c x5d then Some ([], r)
          else
            match (if first then Some (c :: r) else prefix_of [x2c] (c :: r)) with
            | None => None
            | Some s =>
                match pval fuel s with
                | None => None
                | Some (j, r) => match parr fuel false r with Some (l, r) => Some (j :: l, r) | None => None end
                end
            end
      end
  end
with pobj (fuel : nat) (first : bool) (s : bytes) {struct fuel} : option (list (bytes * json) * bytes) :=
  match fuel with
  | O => None
  | S fuel =>
      match skip_ws s with
      | [] => None
      | c :: r =>
          if beq c x7d then Some ([], r)
          else
            match (if first then Some (c :: r) else prefix_of [x2c] (c :: r)) with
            | None => None
            | Some s =>
                match prefix_of [x22] (skip_ws s) with
                | None => None
                | Some s =>
                    match pstring s with
                    | None => None
                    | Some (k, r) =>
                        match prefix_of [x3a] (skip_ws r) with
                        | None => None
                        | Some s =>
                            match pval fuel s with
                            | None => None
                            | Some (j, r) =>
                                match pobj fuel false r with Some (m, r) => Some ((k, j) :: m, r) | None => None end
                            end
                        end
                    end
                end
            end
      end
  end.

Definition jparse (s : bytes) : option json :=
  match pval (S (length s)) s with
  | Some (j, r) => match skip_ws r with [] => Some j | _ => None end
  | None => None
  end.

(** ** Struct fields *)

Definition lower (c : byte) : byte :=
  if (65 <=? b2n c) && (b2n c <=? 90) then n2b (b2n c + 32) else c.
(** the Kelvin sign counts as a k and the long s as an s *)
Fixpoint fold_name (s : bytes) : bytes :=
  match s with
  | [] => []
  | c :: s1 =>
      match s1 with
      | d :: s2 =>
          if beq c xc5 && beq d xbf then x73 :: fold_name s2
          else
            match s2 with
            | e :: s3 => if beq c xe2 && beq d x84 && beq e xaa then x6b :: fold_name s3 else lower c :: fold_name s1
            | [] => lower c :: fold_name s1
            end
      | [] => lower c :: fold_name s1
      end
  end.
(** the values for a field, in the order of the text: a member belongs to the field whose name
    agrees with its own up to case, and each of them is decoded into the same place *)
Definition jfield (name : bytes) (m : list (bytes * json)) : list json :=
  map snd (filter (fun kj => bseq (fold_name (fst kj)) (map lower name)) m).

(** A decoder takes the values that are decoded into one place one after the other; none
    at all leaves the zero value. *)
(** a number, string or time: the last value; [null] leaves it as it is, and a value of another
    kind is an error even if others follow *)
Fixpoint dlast {A} (d : json -> res A) (old : A) (js : list json) : res A :=
  match js with
  | [] => Ok old
  | JNull :: js => dlast d old js
  | j :: js => let! a := d j in dlast d a js
  end.
(** a struct: the members of all values *)
Fixpoint dstruct (js : list json) : res (list (bytes * json)) :=
  match js with
  | [] => Ok []
  | JNull :: js => dstruct js
  | JObj m :: js => let! m' := dstruct js in Ok (m ++ m')
  | _ => Err
  end.
(** a string *)
Definition str_value (j : json) : res bytes := match j with JStr s | JEsc s => Ok s | _ => Err end.
Definition dstr : list json -> res bytes := dlast str_value [].

Definition digit_val (c : byte) : option N := if is_digit_b c then Some (b2n c - 48) else None.
Fixpoint digits_val (acc : N) (s : bytes) : option N :=
  match s with
  | [] => Some acc
  | c :: s => match digit_val c with Some d => digits_val (acc * 10 + d) s | None => None end
  end.
(** uint or uint64: strconv.ParseUint of the literal *)
Definition uint_value (j : json) : res N :=
  match j with
  | JNum [] => Err
  | JNum t => match digits_val 0 t with
              | Some n => if n <? 2 ^ 64 then Ok n else Err
              | None => Err
              end
  | _ => Err
  end.
Definition duint : list json -> res N := dlast uint_value 0.
(** a slice: each array is decoded over the elements that are there, and what lies behind a
    shorter array is still there for a longer one after it; [null] and an empty array drop all
    elements.  [cells] are the values that were decoded into each element, [n] is the length. *)
Fixpoint over (cells : list (list json)) (l : list json) : list (list json) :=
  match cells, l with
  | c :: cells, j :: l => (c ++ [j]) :: over cells l
  | [], l => map (fun j => [j]) l
  | cells, [] => cells
  end.
Fixpoint delems {A} (d : list json -> res A) (cells : list (list json)) (n : nat) (js : list json) : res (list A) :=
  match js with
  | [] => let! l := rmapM d cells in Ok (firstn n l)
  | JNull :: js | JArr [] :: js => let! _ := rmapM d cells in delems d [] 0 js
  | JArr l :: js => delems d (over cells l) (length l) js
  | _ => Err
  end.
Definition dlist {A} (d : list json -> res A) : list json -> res (list A) := delems d [] 0.
(** a pointer: [null] makes it nil, any other value is decoded into what it points to; [seg] are
    the values since it was nil *)
Fixpoint dpoints {A} (d : list json -> res A) (seg js : list json) : res (option A) :=
  match js with
  | [] => match seg with [] => Ok None | _ => let! a := d seg in Ok (Some a) end
  | JNull :: js => let! _ := match seg with [] => Ok tt | _ => let! _ := d seg in Ok tt end in dpoints d [] js
  | j :: js => dpoints d (seg ++ [j]) js
  end.
Definition dptr {A} (d : list json -> res A) : list json -> res (option A) := dpoints d [].
