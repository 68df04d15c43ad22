(** Texts in UTF-8 (RFC 3629). *)
From Verif Require Import Base.
Local Open Scope N_scope.

(** a code point that is no surrogate *)
Definition scalar (n : N) : Prop := n < 0xD800 \/ 0xE000 <= n < 0x110000.
Definition rune_bytes (n : N) : bytes :=
  if n <? 0x80 then [n2b n]
  else if n <? 0x800 then [n2b (0xC0 + n / 64); n2b (0x80 + n mod 64)]
  else if n <? 0x10000 then [n2b (0xE0 + n / 4096); n2b (0x80 + n / 64 mod 64); n2b (0x80 + n mod 64)]
  else [n2b (0xF0 + n / 262144); n2b (0x80 + n / 4096 mod 64); n2b (0x80 + n / 64 mod 64); n2b (0x80 + n mod 64)].
Definition unicode (s : bytes) : Prop := exists rs, Forall scalar rs /\ s = flat_map rune_bytes rs.
