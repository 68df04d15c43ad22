(** Pointers of the objects of PointerModel.v, and which acts concern them. *)
From Verif Require Import Base HashModel EntitiesModel SignModel PiastresModel PointerModel.

(** the pointers of an object *)
Definition opt_nats (o : option nat) : list nat := match o with Some p => [p] | None => [] end.
Definition pa_pointers (a : paddress) : list nat := opt_nats (pa_sender a) ++ opt_nats (pa_subject a).
Section WithCurve.
Context {C : Curve}.
Definition px_pointers (t : ptransaction) : list nat := match px_address t with Some a => pa_pointers a | None => [] end ++ opt_nats (px_bucket t).
(** nothing is written to the pointers [l] *)
Definition not_to (l : list nat) (x : act C) : Prop := match x with Write p _ => ~ In p l | _ => True end.
(** the builder of addresses keeps its sender *)
Definition sender_kept (x : act C) : Prop := match x with CreateA | WithSender _ => False | _ => True end.
End WithCurve.
