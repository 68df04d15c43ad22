(** What it means to find a part, stated without maps. *)
From Verif Require Import Base.
(** [x] is the last one in [l] with the key [k] *)
Definition last_with {A K} (key : A -> K) (k : K) (x : A) (l : list A) : Prop :=
  exists before after, l = before ++ x :: after /\ key x = k /\ ~ In k (map key after).
