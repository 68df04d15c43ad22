(** Objects of different kinds. *)
From Verif Require Import Base HashModel SignModel EntitiesModel PiastresModel FileModel StoreModel.
(** Whatever the disk holds and does, [a] leaves the files of all other kinds as they are. *)
Definition writes_only (kinds : list kind) (a : act) : Prop :=
  forall s k n, ~ In k kinds -> fs_disk (snd (a s)) k n = fs_disk s k n.
