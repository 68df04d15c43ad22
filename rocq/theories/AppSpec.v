(** What the applications of identities are supposed to do. *)
From Coq Require Import Permutation.
From Verif Require Import Base HashModel EntitiesModel SignModel SignSpec PiastresModel PiastresSpec BucketModel IdentityModel IdentitySpec AppModel.

Section WithCurve.
Context {C : Curve}.
(** A store that finds an identity exactly under its name and seed and the password it was
    last given, and in which an update replaces the identity with the original hash. *)
Record istore_laws (st : istore (C := C)) : Prop := {
  la_found : forall s n p d i, is_retrieve st s n p d = Ok i -> id_name i = n /\ id_seed i = d;
  la_insert : forall i p s s', is_insert st i p s = Ok s' -> is_retrieve st s' (id_name i) p (id_seed i) = Ok i;
  la_insert_other : forall i p s s', is_insert st i p s = Ok s' ->
    forall n q d, (n, q, d) <> (id_name i, p, id_seed i) -> is_retrieve st s' n q d = is_retrieve st s n q d;
  la_update : forall h i p q s s', is_update st h i p q s = Ok s' -> is_retrieve st s' (id_name i) q (id_seed i) = Ok i;
  la_update_gone : forall h i p q s s', is_update st h i p q s = Ok s' ->
    forall n d o, is_retrieve st s n p d = Ok o -> id_hash o = h -> (n, p, d) <> (id_name i, q, id_seed i) ->
    is_retrieve st s' n p d = Err;
  la_update_other : forall h i p q s s', is_update st h i p q s = Ok s' ->
    forall n r d, (n, r, d) <> (id_name i, q, id_seed i) -> (forall o, is_retrieve st s n r d = Ok o -> r = p -> id_hash o <> h) ->
    is_retrieve st s' n r d = is_retrieve st s n r d;
  la_delete : forall i p s s', is_delete st i p s = Ok s' -> is_retrieve st s' (id_name i) p (id_seed i) = Err;
  la_delete_other : forall i p s s', is_delete st i p s = Ok s' ->
    forall n q d, (n, q, d) <> (id_name i, p, id_seed i) -> is_retrieve st s' n q d = is_retrieve st s n q d }.

(** ** a store that has these laws: a list of identities with their passwords *)
Definition entry_key (e : bytes * identity) : bytes * bytes * bytes := (id_name (snd e), fst e, id_seed (snd e)).
Definition key_eqb (a b : bytes * bytes * bytes) : bool :=
  let '(a1, a2, a3) := a in let '(b1, b2, b3) := b in bseq a1 b1 && bseq a2 b2 && bseq a3 b3.
Definition list_find (s : list (bytes * identity)) (n p d : bytes) : res identity :=
  match find (fun e => key_eqb (entry_key e) (n, p, d)) s with Some e => Ok (snd e) | None => Err end.
(** is the original identity with hash [h] and password [p] found under this key? *)
Definition list_original (s : list (bytes * identity)) (h : hash) (p : bytes) (k : bytes * bytes * bytes) : bool :=
  let '(n, r, d) := k in
  bseq r p && match list_find s n r d with Ok o => bseq (id_hash o) h | _ => false end.
Definition list_store : istore (C := C) := IStore (list (bytes * identity)) list_find
  (fun i p s => match list_find s (id_name i) p (id_seed i) with Ok _ => Err | _ => Ok ((p, i) :: s) end)
  (fun h i p q s => Ok ((q, i) :: filter (fun e => negb (list_original s h p (entry_key e))) s))
  (fun i p s => Ok (filter (fun e => negb (key_eqb (entry_key e) (id_name i, p, id_seed i))) s)).

(** ** Spending *)
(** a bill of a wallet: its key is a private key, its bill and the lock of it are built *)
Definition good_wbill (red : Sc C -> Prop) (wb : wbill) : Prop :=
  red (wb_pk wb) /\ built_bill (wb_bill wb) /\ built_lock (bl_lock (wb_bill wb)).
Definition good_fee (f : fee) : Prop := is_u64 (fe_amount f) /\ hash64 (lk_hash (fe_lock f)).
(** the messages a signature was made for and is verified with *)
Definition signed_text (e : expense) : bytes := hash_string (ct_hash (ex_content e)).
Definition verified_text (wb : wbill) : bytes := hash_string (lk_hash (bl_lock (wb_bill wb))).
End WithCurve.
