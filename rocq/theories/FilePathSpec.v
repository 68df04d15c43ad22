(** Where a path leads, step by step. *)
From Verif Require Import Base FileModel FileSpec.

(** From directory [p] along the components [cs] one gets to [q]. *)
Inductive walk : path -> list bytes -> path -> Prop :=
| W_end : forall p, walk p [] p
| W_stay : forall p c cs q, c = [] \/ c = s2b "." -> walk p cs q -> walk p (c :: cs) q
| W_root : forall cs q, walk [] cs q -> walk [] (s2b ".." :: cs) q
| W_up : forall p a cs q, walk p cs q -> walk (p ++ [a]) (s2b ".." :: cs) q
| W_down : forall p c cs q, flat_name c -> walk (p ++ [c]) cs q -> walk p (c :: cs) q.

(** the text of components *)
Fixpoint slashed (cs : list bytes) : bytes :=
  match cs with
  | [] => []
  | [c] => c
  | c :: cs => c ++ x2f :: slashed cs
  end.

Definition within (dir p : path) : Prop := exists rest, p = dir ++ rest.
