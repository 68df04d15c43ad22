(** What the documents of the piastres objects say, member by member, stated without the
    decoders: names up to case, repeated members, null and absent members. *)
From Coq Require Import SpecFloat.
From Verif Require Import Base JsonModel FloatModel FloatText MemJsonModel MemberSpec GrammarSpec CalendarSpec.

(** the values of the members with a name, in order *)
Inductive values_of (name : bytes) : list (bytes * json) -> list json -> Prop :=
| values_none : values_of name [] []
| values_hit : forall k j m vs, same_name k name -> values_of name m vs -> values_of name ((k, j) :: m) (j :: vs)
| values_miss : forall k j m vs, ~ same_name k name -> values_of name m vs -> values_of name ((k, j) :: m) vs.
Definition member {A} (R : list json -> A -> Prop) (name : string) (m : list (bytes * json)) (a : A) : Prop :=
  exists vs, values_of (s2b name) m vs /\ R vs a.

(** strings; decimal numbers of 64 bits; times; floats (parse_float: C100_read) *)
Definition text_of : list json -> bytes -> Prop := finally (fun j s => j = JStr s \/ j = JEsc s) [].
Definition number_of : list json -> N -> Prop :=
  finally (fun j n => exists ds, j = JNum ds /\ digits ds /\ Z.of_N n = decimal_value 0 ds /\ (n < 2 ^ 64)%N) 0%N.
Definition time_of (vs : list json) (t : Z) : Prop :=
  exists n, on_day n (1, 1, 1)%Z /\ finally (fun j t => exists s, j = JStr s /\ timestamp s t) (instant n 0 0 0 0 0) vs t.
Definition float_of : list json -> float64 -> Prop := finally (fun j x => exists t, j = JNum t /\ parse_float t = Ok x) (S754_zero false).

Definition says_lock (js : list json) (x : jlock) : Prop := exists m, members_of js m /\
  member (elements_of text_of) "pubkeys" m (jl_keys x) /\ member time_of "created_on" m (jl_created x).
Definition says_bill (js : list json) (x : jbill) : Prop := exists m, members_of js m /\
  member (points_to says_lock) "lock" m (jb_lock x) /\ member number_of "amount" m (jb_amount x) /\
  member time_of "created_on" m (jb_created x).
Definition says_content (js : list json) (x : jcontent) : Prop := exists m, members_of js m /\
  member (elements_of (points_to says_bill)) "from" m (jct_from x) /\ member (points_to says_bill) "to" m (jct_to x) /\
  member (points_to says_bill) "remaining" m (jct_remaining x) /\ member time_of "created_on" m (jct_created x).
Definition says_expense (js : list json) (x : jexpense) : Prop := exists m, members_of js m /\
  member (points_to says_content) "content" m (jex_content x) /\ member (elements_of text_of) "signatures" m (jex_sigs x).
Definition says_address (js : list json) (x : jaddress) : Prop := exists m, members_of js m /\
  member text_of "sender" m (ja_sender x) /\ member (elements_of text_of) "recipients" m (ja_recipients x) /\
  member text_of "subject" m (ja_subject x) /\ member time_of "created_on" m (ja_created x).
Definition says_transaction (js : list json) (x : jtrx) : Prop := exists m, members_of js m /\
  member (points_to says_address) "address" m (jtx_address x) /\ member (elements_of (points_to says_expense)) "fees" m (jtx_fees x) /\
  member text_of "bucket" m (jtx_bucket x) /\ member time_of "created_on" m (jtx_created x).
Definition says_genesis (js : list json) (x : jgenesis) : Prop := exists m, members_of js m /\
  member (points_to says_bill) "bill" m (jg_bill x) /\ member number_of "link_difficulty" m (jg_link x) /\
  member number_of "block_difficulty_base" m (jg_base x) /\
  member float_of "block_difficulty_increase_per_transaction" m (jg_increase x) /\ member time_of "created_on" m (jg_created x).
Definition says_block (js : list json) (x : jblock) : Prop := exists m, members_of js m /\
  member (points_to says_genesis) "genesis" m (jbk_genesis x) /\
  member (elements_of (points_to says_transaction)) "transactions" m (jbk_trx x) /\
  member number_of "additional" m (jbk_additional x) /\ member time_of "created_on" m (jbk_created x).
Definition says_link (js : list json) (x : jlink) : Prop := exists m, members_of js m /\
  member text_of "previous_link" m (jln_prev x) /\ member (points_to says_block) "next" m (jln_next x) /\
  member number_of "index" m (jln_index x) /\ member time_of "created_on" m (jln_created x).
Definition says_mined_link (js : list json) (x : jmlink) : Prop := exists m, members_of js m /\
  member (points_to says_link) "link" m (jml_link x) /\ member text_of "mining" m (jml_mining x) /\
  member time_of "created_on" m (jml_created x).
