(** JSON texts (RFC 8259) and the values that Go reads in them. *)
From Verif Require Import Base JsonModel UnicodeSpec FormatSpec.
Local Open Scope N_scope.

(** white space *)
Definition blank (w : bytes) : Prop := Forall (fun c => In c [x20; x09; x0a; x0d]) w.
Definition digit (c : byte) : Prop := 48 <= b2n c <= 57.
Definition digits (ds : bytes) : Prop := ds <> [] /\ Forall digit ds.

(** ** Numbers: kept as they are *)
Definition whole (t : bytes) : Prop := t = [x30] \/ exists c ds, 49 <= b2n c <= 57 /\ Forall digit ds /\ t = c :: ds.
Definition fraction (t : bytes) : Prop := t = [] \/ exists ds, digits ds /\ t = x2e :: ds.
Definition exponent (t : bytes) : Prop :=
  t = [] \/ exists e sign ds, In e [x65; x45] /\ In sign [[]; [x2b]; [x2d]] /\ digits ds /\ t = e :: sign ++ ds.
Definition number (t : bytes) : Prop :=
  exists sign i f e, In sign [[]; [x2d]] /\ whole i /\ fraction f /\ exponent e /\ t = sign ++ i ++ f ++ e.

(** ** Strings: the text between the quotes and the bytes it stands for *)
(** four hexadecimal digits *)
Definition hexval (c : byte) (v : N) : Prop :=
  48 <= b2n c <= 57 /\ v = b2n c - 48 \/ 97 <= b2n c <= 102 /\ v = b2n c - 87 \/ 65 <= b2n c <= 70 /\ v = b2n c - 55.
Definition hex4 (t : bytes) (n : N) : Prop :=
  exists a b c d va vb vc vd, t = [a; b; c; d] /\ hexval a va /\ hexval b vb /\ hexval c vc /\ hexval d vd /\
    n = va * 4096 + vb * 256 + vc * 16 + vd.
Definition unicode_escape (t : bytes) : bytes := x5c :: x75 :: t.
Definition high (n : N) : Prop := 0xD800 <= n < 0xDC00.
Definition low (n : N) : Prop := 0xDC00 <= n < 0xE000.
(** the letter behind a backslash and its meaning *)
Definition escapes : list (byte * byte) :=
  [(x22, x22); (x5c, x5c); (x2f, x2f); (x62, x08); (x66, x0c); (x6e, x0a); (x72, x0d); (x74, x09)].
(** the replacement character *)
Definition unknown : bytes := rune_bytes 0xFFFD.

Inductive chars : bytes -> bytes -> Prop :=
| chars_end : chars [] []
(** a code point in UTF-8 *)
| chars_plain : forall n r m, scalar n -> 32 <= n -> n <> 34 -> n <> 92 -> chars r m -> chars (rune_bytes n ++ r) (rune_bytes n ++ m)
| chars_escape : forall e c r m, In (e, c) escapes -> chars r m -> chars (x5c :: e :: r) (c :: m)
| chars_code : forall u n r m, hex4 u n -> scalar n -> chars r m -> chars (unicode_escape u ++ r) (rune_bytes n ++ m)
(** a surrogate pair *)
| chars_pair : forall u v h l r m, hex4 u h -> hex4 v l -> high h -> low l -> chars r m ->
    chars (unicode_escape u ++ unicode_escape v ++ r) (rune_bytes (0x10000 + (h - 0xD800) * 0x400 + (l - 0xDC00)) ++ m)
(** a surrogate without its partner *)
| chars_lone : forall u n r m, hex4 u n -> high n \/ low n ->
    (high n -> forall v l t, hex4 v l -> low l -> r <> unicode_escape v ++ t) -> chars r m -> chars (unicode_escape u ++ r) (unknown ++ m)
(** a byte that begins no code point *)
| chars_invalid : forall c r m, 128 <= b2n c -> (forall n t, scalar n -> c :: r <> rune_bytes n ++ t) -> chars r m ->
    chars (c :: r) (unknown ++ m).

(** ** Values *)
(** Strings of ASCII characters that nobody has to escape are apart if they are written with
    escapes (only times tell the difference). *)
Definition as_is (s : bytes) : Prop := Forall (fun c => 32 <= b2n c < 128 /\ ~ In c (s2b "<>&\") /\ c <> x22) s.
Inductive value : bytes -> json -> Prop :=
| value_null : value (s2b "null") JNull
| value_true : value (s2b "true") (JBool true)
| value_false : value (s2b "false") (JBool false)
| value_num : forall t, number t -> value t (JNum t)
| value_str : forall raw s, chars raw s -> (as_is s -> raw = s) -> value (quoted raw) (JStr s)
| value_esc : forall raw s, chars raw s -> as_is s -> raw <> s -> value (quoted raw) (JEsc s)
| value_nil : forall w, blank w -> value (x5b :: w ++ [x5d]) (JArr [])
| value_arr : forall t l, elements t l -> value (x5b :: t ++ [x5d]) (JArr l)
| value_none : forall w, blank w -> value (x7b :: w ++ [x7d]) (JObj [])
| value_obj : forall t m, members t m -> value (x7b :: t ++ [x7d]) (JObj m)
with elements : bytes -> list json -> Prop :=
| elements_one : forall a t b j, blank a -> value t j -> blank b -> elements (a ++ t ++ b) [j]
| elements_more : forall a t b j ts l, blank a -> value t j -> blank b -> elements ts l -> elements (a ++ t ++ b ++ x2c :: ts) (j :: l)
with members : bytes -> list (bytes * json) -> Prop :=
| members_one : forall a raw k b c t d j, blank a -> chars raw k -> blank b -> blank c -> value t j -> blank d ->
    members (a ++ quoted raw ++ b ++ x3a :: c ++ t ++ d) [(k, j)]
| members_more : forall a raw k b c t d j ts m, blank a -> chars raw k -> blank b -> blank c -> value t j -> blank d -> members ts m ->
    members (a ++ quoted raw ++ b ++ x3a :: c ++ t ++ d ++ x2c :: ts) ((k, j) :: m).
Definition document (s : bytes) (j : json) : Prop := exists a t b, blank a /\ value t j /\ blank b /\ s = a ++ t ++ b.

(** ** How Go writes a string *)
(** the escape of a code point below 0x10000, in lower case *)
Definition code_escape (n : N) : bytes :=
  unicode_escape [hexdigit (n / 4096); hexdigit (n / 256 mod 16); hexdigit (n / 16 mod 16); hexdigit (n mod 16)].
Definition spelling (n : N) : bytes :=
  if (n =? 34) || (n =? 92) then [x5c; n2b n]
  else if n =? 10 then s2b "\n"
  else if n =? 13 then s2b "\r"
  else if n =? 9 then s2b "\t"
  else if (n <? 32) || existsb (N.eqb n) [60; 62; 38; 0x2028; 0x2029] then code_escape n
  else rune_bytes n.
Inductive spelt : bytes -> bytes -> Prop :=
| spelt_end : spelt [] []
| spelt_rune : forall n s t, scalar n -> spelt s t -> spelt (rune_bytes n ++ s) (spelling n ++ t)
| spelt_invalid : forall c s t, 128 <= b2n c -> (forall n r, scalar n -> c :: s <> rune_bytes n ++ r) -> spelt s t ->
    spelt (c :: s) (code_escape 0xFFFD ++ t).
