(** C105: the store of addresses. *)
From Coq Require Import Lia ZifyBool ZifyNat ZifyN.
From Verif Require Import Base BaseFacts HashModel HashSpec SignModel ToyCurve EntitiesModel FloatModel PiastresModel PiastresSpec PiastresProofs
  JsonModel TimeModel FloatText MemJsonModel MemSpec MemJsonProofs Properties_Piastres JsonFixtures TransferModel StoreModel StoreSpec StoreProofs AddressStore.

(** After any sequence of operations of any of the stores, with any faults, a hash gives what
    the last write of an address with this hash left. *)
Theorem C105_history : forall (C : Curve) (xs : list (op C * list fault)) h,
  (forall a fl, In (OpAddress a, fl) xs -> good_address a /\ dated_address a) ->
  address_retrieve h (after_ops xs empty) = fold_left (address_after h) xs Err.
Proof. intros C xs h G. exact (address_history xs empty h G). Qed.
Print Assumptions C105_history.
(** So an address that was saved stays, until an address with its hash is saved. *)
Theorem C105_stays : forall (C : Curve) (xs : list (op C * list fault)) a d, good_address a -> dated_address a ->
  (forall b fl, In (OpAddress b, fl) xs -> good_address b /\ dated_address b /\ ad_hash b <> ad_hash a) ->
  address_retrieve (ad_hash a) (after_ops ((OpAddress a, []) :: xs) d) = Ok a.
Proof. exact address_stays. Qed.
Print Assumptions C105_stays.
(** A hash gives no address with another hash, and none that was not saved. *)
Theorem C105_found : forall (C : Curve) (xs : list (op C * list fault)) h a,
  (forall b fl, In (OpAddress b, fl) xs -> good_address b /\ dated_address b) ->
  address_retrieve h (after_ops xs empty) = Ok a -> ad_hash a = h /\ exists fl, In (OpAddress a, fl) xs.
Proof. exact address_was_saved. Qed.
Print Assumptions C105_found.
(** It is written again when it is saved again, although it is there, and a write that is cut
    off then loses it. *)
Theorem C105_again_loses : forall (C : Curve) a d s i, good_address a -> dated_address a -> address_to_text a = Ok s -> i < length s ->
  address_retrieve (ad_hash a) (after_ops (C := C) [(OpAddress a, [])] d) = Ok a /\
  address_retrieve (ad_hash a) (after_ops (C := C) [(OpAddress a, []); (OpAddress a, [Torn i])] d) = Err.
Proof. exact address_again_loses. Qed.
Print Assumptions C105_again_loses.
(** Whatever is on the disk, reading does not panic and what it gives could have been built. *)
Theorem C105_sound : forall h d, address_retrieve h d <> Panic /\ forall a, address_retrieve h d = Ok a -> good_address a.
Proof. intros h d. split; [apply address_retrieve_no_panic|]. intro a. apply address_found. Qed.
Print Assumptions C105_sound.

(** A document that is there, two that are cut off, one whose write fails, and another hash. *)
Example C105_case : exists a s, address_now 0 (Some (rhash 1)) [rhash 2; rhash 3] None None = Ok a /\ good_address a /\ dated_address a /\
  address_to_text a = Ok s /\ 100 < length s /\
  address_retrieve (ad_hash a) (after_ops (C := toy) [(OpAddress a, [Torn 5])] empty) = Err /\
  address_retrieve (ad_hash a) (after_ops (C := toy) [(OpAddress a, [Fine]); (OpAddress a, [Denied])] empty) = Ok a /\
  address_retrieve (rhash 9) (after_ops (C := toy) [(OpAddress a, [])] empty) = Err.
Proof.
  destruct (address_now 0 (Some (rhash 1)) [rhash 2; rhash 3] None None) as [a| |] eqn:E; [|exfalso; revert E; vm_compute; discriminate|exfalso; revert E; vm_compute; discriminate].
  assert (G : good_address a).
  { do 5 eexists. split; [|split; [|split; [|exact E]]].
    - intros h H. injection H as <-. apply rhash_64.
    - repeat constructor; apply rhash_64.
    - discriminate. }
  assert (D : dated_address a). { apply address_now_iff in E as (_ & ->). in_years. }
  vm_compute in E. injection E as <-.
  do 2 eexists. split; [reflexivity|]. split; [exact G|]. split; [exact D|]. split; [vm_compute; reflexivity|].
  repeat match goal with |- _ /\ _ => split end; vm_compute; (reflexivity || lia).
Qed.
