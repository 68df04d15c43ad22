(** The properties of Saves and Retrieves that run at the same time, C81 to C84.

    [csteps faulty (d, map start cs) (d', ps)]: the calls [cs] run in any interleaving of their
    reads, truncations and writes, from the disk [d] to the disk [d'], where they have come to
    [ps]. [PRet r]: a call that returned [r]. [left_behind]: disks left by earlier calls, with
    any faults and crashes. [exact U]: one object for each file. *)
From Verif Require Import Base HashModel HashSpec SignModel ToyCurve EntitiesModel FloatModel PiastresModel PiastresSpec PiastresProofs
  Properties_Piastres JsonModel JsonProofs TimeModel FloatText MemJsonModel MemSpec MemJsonProofs JsonFixtures TransferModel StoreModel StoreSpec
  StoreProofs StoreInvariant StoreHistory StoreFixtures ConcurrentModel ConcurrentSpec ConcurrentProofs ConcurrentInvariant ConcurrentTheorems
  ConcurrentRefuted ConcurrentMore ConcurrentGenesis.

(** ** C81 *)
(** a bill that was saved and is retrieved is broken by a step of another Save *)
Theorem C81_refuted_window : forall (C : Curve) b, good_bill b -> dated_bill b ->
  exists d p d' p',
    csteps false (empty, [start (Saves (OBill b)); start (Saves (OLock (bl_lock b)))]) (d, [PRet (Ok None); p] : list (thread C)) /\
    (exists b', bill_retrieve (bl_hash b) d = Ok b' /\ bill_eq b' b) /\
    cstep false (d, [PRet (Ok None); p]) (d', [PRet (Ok None); p']) /\ forall x, bill_retrieve (bl_hash b) d' <> Ok x.
Proof. exact @bill_broken. Qed.
Print Assumptions C81_refuted_window.
(** a lock is lost for good when it is saved with two creation times *)
Theorem C81_refuted_times : forall (C : Curve) l l' s s', good_lock l -> dated_lock l -> lk_hash l' = lk_hash l ->
  lock_file l = Ok s -> lock_file l' = Ok s' -> length s < length s' ->
  exists d, csteps false (empty, [start (Saves (OLock l)); start (Saves (OLock l'))]) (d, [PRet (Ok None); PRet (Ok None)] : list (thread C)) /\
    lock_retrieve (lk_hash l) d = Err.
Proof. exact @two_locks. Qed.
Print Assumptions C81_refuted_times.
(** once all calls are back everything saved is there *)
Theorem C81_saved_partial : forall (C : Curve) (U : obj C -> Prop) d cs d' ps, exact U -> left_behind U d ->
  (forall c, In c cs -> about U c) -> csteps false (d, map start cs) (d', ps) -> Forall returned ps ->
  forall o, In (Saves o) cs -> genesis_there d cs o ->
  exists o', retrieve_obj (kind_of o) (hash_of o) d' = Ok o' /\ same o' o.
Proof. exact @end_saved. Qed.
Print Assumptions C81_saved_partial.
(** and what was there before *)
Theorem C81_kept_partial : forall (C : Curve) (U : obj C -> Prop) d cs d' ps, exact U -> left_behind U d ->
  (forall c, In c cs -> about U c) -> csteps false (d, map start cs) (d', ps) -> Forall returned ps ->
  forall o x, U o -> retrieve_obj (kind_of o) (hash_of o) d = Ok x ->
  exists o', retrieve_obj (kind_of o) (hash_of o) d' = Ok o' /\ same o' o.
Proof. exact @end_kept. Qed.
Print Assumptions C81_kept_partial.
Example C81_case : exists b, toy_bill 5 100 = Ok b /\ good_bill b /\ dated_bill b.
Proof.
  assert (H : is_ok (toy_bill 5 100) = true) by (vm_compute; reflexivity). apply is_ok_ex in H as [b E]. exists b. split; [exact E|].
  apply (toy_bill_good 5 100); [reflexivity|exact E].
Qed.
Example C81_case_times :
  rget (toy_lock 5) (fun l => rget (lock_now 0 (lk_keys l) (Some 500000000%Z)) (fun l' => rget (lock_file l) (fun s => rget (lock_file l') (fun s' =>
    Ok (bseq (lk_hash l') (lk_hash l) && Nat.ltb (length s) (length s')))))) = Ok true.
Proof. vm_compute. reflexivity. Qed.
Example C81_case_calls : exists l mb, plain_mlink = Ok l /\ plain_mblock = Ok mb /\ let U := fun o => In o (subobjects l mb) in
  exact U /\ left_behind U empty /\ let cs := map Saves (subobjects l mb) ++ [Saves (OMLink l); Retrieves KMLink (ml_hash l)] in
  (forall c, In c cs -> about U c) /\ (forall o, In (Saves o) cs -> genesis_there empty cs o).
Proof.
  destruct plain_ok as (l & mb & E1 & E2). exists l, mb. split; [exact E1|]. split; [exact E2|]. cbn zeta.
  split; [exact (plain_exact l mb E1 E2)|]. split; [constructor|]. apply plain_calls; assumption.
Qed.

(** ** C82 *)
Theorem C82_refuted : forall (C : Curve) (U : obj C -> Prop) g g', universe Base U -> U (OGenesis g) -> U (OGenesis g') ->
  exists d,
    csteps false (empty, [start (Saves (OGenesis g)); start (Saves (OGenesis g'))]) (d, [PRet (Ok None); PRet (Ok None)] : list (thread C)) /\
    exists g1, genesis_retrieve d = Ok g1 /\ genesis_eq g1 g.
Proof. exact @two_geneses. Qed.
Print Assumptions C82_refuted.
Example C82_case : exists g g' (U : obj toy -> Prop), toy_genesis = Ok g /\ other_genesis = Ok g' /\ gn_hash g <> gn_hash g' /\
  universe Base U /\ U (OGenesis g) /\ U (OGenesis g').
Proof. exact genesis_pair. Qed.

(** even a genesis that was saved and is retrieved is replaced, by a Save that starts later, while its lock is
    being saved: the lock is empty for a moment, and the genesis cannot be read *)
Theorem C82_refuted_later : forall (C : Curve) (U : obj C -> Prop) g g', universe Base U -> U (OGenesis g) -> U (OGenesis g') ->
  exists d p d', let l := bl_lock (gn_bill g) in
    csteps false (empty, [start (Saves (OGenesis g)); start (Saves (OLock l))]) (d, [PRet (Ok None); p] : list (thread C)) /\
    (exists g1, genesis_retrieve d = Ok g1 /\ genesis_eq g1 g) /\
    csteps false (d, [PRet (Ok None); p; start (Saves (OGenesis g'))]) (d', [PRet (Ok None); PRet (Ok None); PRet (Ok None)]) /\
    exists g1, genesis_retrieve d' = Ok g1 /\ genesis_eq g1 g'.
Proof. exact @genesis_replaced. Qed.
Print Assumptions C82_refuted_later.
(** Where a genesis can be read and only geneses are saved, in any interleaving and with any faults, all Saves
    fail and nothing is written. *)
Theorem C82_present_partial : forall (C : Curve) b d g0 (cs : list (call C)) d' ps, genesis_retrieve d = Ok g0 ->
  (forall o, In (Saves o) cs -> exists g, o = OGenesis g) -> csteps b (d, map start cs) (d', ps) ->
  d' = d /\ forall i g r, nth_error cs i = Some (Saves (OGenesis g)) -> nth_error ps i = Some (PRet r) -> r = Err.
Proof. exact @genesis_stays. Qed.
Print Assumptions C82_present_partial.
Example C82_case_present : rget toy_genesis (fun g => let x := alone (start (Saves (OGenesis g : obj toy))) (Fs empty []) in
  Ok (is_ok (genesis_retrieve (fs_disk (snd x))))) = Ok true.
Proof. vm_compute. reflexivity. Qed.

(** ** C83 *)
Theorem C83_retrieve : forall (C : Curve) (U : obj C -> Prop) d cs b d' l r k h ps, exact U -> left_behind U d ->
  (forall c, In c cs -> about U c) -> csteps b (d, map start cs) (d', l ++ PRet r :: ps) -> nth_error cs (length l) = Some (Retrieves k h) ->
  r = Err \/ exists x o, r = Ok (Some x) /\ U o /\ kind_of o = k /\ file_name k (hash_of o) = file_name k h /\ same x o.
Proof. exact @seen_retrieve. Qed.
Print Assumptions C83_retrieve.
(** without a fault no Save fails, but that of a genesis that is there *)
Theorem C83_save : forall (C : Curve) (U : obj C -> Prop) d cs b d' l r o ps, exact U -> left_behind U d ->
  (forall c, In c cs -> about U c) -> csteps b (d, map start cs) (d', l ++ PRet r :: ps) -> nth_error cs (length l) = Some (Saves o) ->
  r = Ok None \/ r = Err /\ (b = true \/ kind_of o = KGenesis).
Proof. exact @seen_save. Qed.
Print Assumptions C83_save.
Example C83_case : exists l mb, plain_mlink = Ok l /\ plain_mblock = Ok mb /\ let U := fun o => In o (subobjects l mb) in
  exact U /\ U (OMLink l) /\ U (OMBlock mb) /\ length (subobjects l mb) = 8.
Proof.
  destruct plain_ok as (l & mb & E1 & E2). exists l, mb. split; [exact E1|]. split; [exact E2|]. cbn zeta.
  split; [exact (plain_exact l mb E1 E2)|]. destruct (plain_list l mb E1 E2) as (b & t & _ & L). rewrite L. cbn. tauto.
Qed.

(** ** C84 *)
Theorem C84_ends : forall (C : Curve) b (st : nat -> disk * list (thread C)), ~ (forall i, cstep b (st i) (st (S i))).
Proof. exact @schedules_end. Qed.
Print Assumptions C84_ends.
Theorem C84_no_deadlock : forall (C : Curve) b d (ps : list (thread C)), Forall returned ps \/ exists y, cstep b (d, ps) y.
Proof. exact @can_go_on. Qed.
Print Assumptions C84_no_deadlock.
(** a call that runs alone is the Save and the Retrieve of the properties C30 to C38 *)
Theorem C84_alone_save : forall (C : Curve) (o : obj C) s, alone (start (Saves o)) s = let (r, s') := save_obj o s in (rmap (fun _ => None) r, s').
Proof. exact @start_save. Qed.
Print Assumptions C84_alone_save.
Theorem C84_alone_retrieve : forall (C : Curve) k h s, alone (@start C (Retrieves k h)) s = (rmap Some (retrieve_obj k h (fs_disk s)), s).
Proof. exact @start_retrieve. Qed.
Print Assumptions C84_alone_retrieve.
Example C84_case : rget toy_genesis (fun g => let x := alone (start (Saves (OGenesis g : obj toy))) (Fs empty []) in
  let y := alone (start (Saves (OGenesis g : obj toy))) (snd x) in
  Ok (is_ok (fst x), is_ok (fst y), is_ok (fst (alone (@start toy (Retrieves KGenesis (gn_hash g))) (snd y))))) = Ok (true, false, true).
Proof. vm_compute. reflexivity. Qed.
