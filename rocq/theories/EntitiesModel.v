(** Model of libs/entities.  Times are nanoseconds ([Z]); every call of
    [time.Now().UTC()] is an argument. *)
From Verif Require Import Base HashModel.
Local Open Scope Z_scope.

(** libs/entities/immutable.go:9-12 *)
Record immutable := Immutable { im_hash : hash; im_created : Z }.
(** libs/entities/mutable.go:9-13 *)
Record mutable := Mutable { mu_hash : hash; mu_created : Z; mu_updated : Z }.

(** libs/entities/immutable_builder.go:42-53 Now *)
Definition immutable_now (now : Z) (h : option hash) (created : option Z) : res immutable :=
  match h with
  | None => Err
  | Some h =>
      let created := match created with Some c => c | None => now end in
      Ok (Immutable h created)
  end.

(** libs/entities/mutable_builder.go:51-72 Now; [now1] and [now2] are the clock
    readings of lines 57 and 62, [createdOn.After(lastUpdatedOn)] is [>]. *)
Definition mutable_now (now1 now2 : Z) (h : option hash) (created updated : option Z) : res mutable :=
  match h with
  | None => Err
  | Some h =>
      let created := match created with Some c => c | None => now1 end in
      let updated := match updated with Some u => u | None => now2 end in
      if created >? updated then Err else Ok (Mutable h created updated)
  end.
