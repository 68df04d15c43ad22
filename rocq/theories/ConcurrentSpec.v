(** What calls that run at the same time are meant to do. *)
From Verif Require Import Base HashModel HashSpec SignModel EntitiesModel FloatModel PiastresModel PiastresSpec JsonModel JsonProofs
  TimeModel FloatText MemJsonModel CodecProofs MemSpec MemJsonProofs TransferModel StoreModel StoreSpec ConcurrentModel.

(** the text of the file of a lock *)
Definition lock_file (l : lock) : res bytes := let! t := lock_to_transfer l in marshal e_tlock t.

Section WithCurve.
Context {C : Curve}.
Implicit Types o p : obj C.
(** The objects the calls are about: with an object come its parts, and there is one object
    for each file, creation times included. *)
Record exact (U : obj C -> Prop) : Prop := {
  x_parts : forall o p, U o -> In p (parts o) -> U p;
  x_proper : forall o, U o -> proper o;
  x_exact : forall o p, U o -> U p -> kind_of o = kind_of p -> file_name (kind_of o) (hash_of o) = file_name (kind_of p) (hash_of p) ->
    o = p
}.
Definition about (U : obj C -> Prop) (c : call C) : Prop :=
  match c with Saves o => U o | Retrieves _ _ => True end.
Definition returned (p : thread C) : Prop := exists r, p = PRet r.
(** Disks left behind when calls about [U] run at the same time, meet any faults, and are
    all stopped at some moment; and so on. *)
Inductive left_behind (U : obj C -> Prop) : disk -> Prop :=
| left_empty : left_behind U empty
| left_run : forall d cs d' ps, left_behind U d -> (forall c, In c cs -> about U c) ->
    csteps true (d, map start cs) (d', ps) -> left_behind U d'.
(** the store has, or is given, the genesis a block needs *)
Definition genesis_there (d : disk) (cs : list (call C)) (o : obj C) : Prop :=
  forall g, genesis_of o = Some g -> (exists g', genesis_retrieve d = Ok g') \/ In (Saves (OGenesis g)) cs.
End WithCurve.
