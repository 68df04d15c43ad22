(** What the members of a JSON document give for a field when a name occurs several times,
    stated without the decoder.  encoding/json decodes each of the values into the same place. *)
From Verif Require Import Base JsonModel.

(** a number, string or time: the last value; null changes nothing *)
Inductive finally {A} (reads : json -> A -> Prop) (zero : A) : list json -> A -> Prop :=
| finally_none : finally reads zero [] zero
| finally_null : forall js a, finally reads zero js a -> finally reads zero (js ++ [JNull]) a
| finally_value : forall js j a b, finally reads zero js b -> j <> JNull -> reads j a -> finally reads zero (js ++ [j]) a.

(** a pointer: the values since the last null, all read as one; those before have to be
    readable too *)
Inductive points_to {A} (reads : list json -> A -> Prop) : list json -> option A -> Prop :=
| points_nil : points_to reads [] None
| points_some : forall js a, ~ In JNull js -> js <> [] -> reads js a -> points_to reads js (Some a)
| points_reset : forall seg js o, ~ In JNull seg -> seg = [] \/ (exists a, reads seg a) -> points_to reads js o ->
    points_to reads (seg ++ JNull :: js) o.

(** a slice: the values in the same position of all arrays are read as one, and as many are kept
    as the last array has; null or an empty array starts anew *)
Definition column (i : nat) (ls : list (list json)) : list json :=
  flat_map (fun l => match nth_error l i with Some j => [j] | None => [] end) ls.
Definition readable_columns {A} (reads : list json -> A -> Prop) (ls : list (list json)) : Prop :=
  forall i, column i ls <> [] -> exists a, reads (column i ls) a.
Inductive elements_of {A} (reads : list json -> A -> Prop) : list json -> list A -> Prop :=
| elements_end : forall ls l, Forall (fun x => x <> []) ls -> readable_columns reads ls -> length l = length (last ls []) ->
    (forall i a, nth_error l i = Some a -> reads (column i ls) a) -> elements_of reads (map JArr ls) l
| elements_reset : forall ls r js l, Forall (fun x => x <> []) ls -> readable_columns reads ls -> r = JNull \/ r = JArr [] ->
    elements_of reads js l -> elements_of reads (map JArr ls ++ r :: js) l.

(** a struct: all members of all objects *)
Inductive members_of : list json -> list (bytes * json) -> Prop :=
| members_none : members_of [] []
| members_null : forall js m, members_of js m -> members_of (JNull :: js) m
| members_object : forall o js m, members_of js m -> members_of (JObj o :: js) (o ++ m).

(** Names agree up to ASCII case; the Kelvin sign is a k and the long s an s. *)
Definition letter (c d : byte) : Prop := exists n, (n < 26)%N /\ (c = n2b (65 + n) \/ c = n2b (97 + n)) /\ (d = n2b (65 + n) \/ d = n2b (97 + n)).
Inductive same_name : bytes -> bytes -> Prop :=
| same_nil : same_name [] []
| same_char : forall c s t, same_name s t -> same_name (c :: s) (c :: t)
| same_letter : forall c d s t, letter c d -> same_name s t -> same_name (c :: s) (d :: t)
| same_kelvin : forall c s t, c = x6b \/ c = x4b -> same_name s t -> same_name (xe2 :: x84 :: xaa :: s) (c :: t)
| same_long_s : forall c s t, c = x73 \/ c = x53 -> same_name s t -> same_name (xc5 :: xbf :: s) (c :: t).
