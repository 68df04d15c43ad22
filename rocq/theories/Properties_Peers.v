(** Properties of peers and daemons (C47, C51, C52, C65, C66, C67, C68). *)
From Coq Require Import Lia ZifyBool ZifyNat ZifyN Permutation.
From Verif Require Import Base BaseFacts HashModel EntitiesModel SignModel PiastresModel ToyCurve BucketModel IdentityModel PeersModel PeersSpec PeersProofs TrimProofs.

Definition peer_a : peer := Peer (s2b "10.0.0.1") 80 true false.
Definition peer_b : peer := Peer (s2b "abc.example") 443 false true.
Definition peer_c : peer := Peer (s2b "node-3") 9000 true false.
Lemma peer_a_built : built_peer peer_a.
Proof. exists (s2b "10.0.0.1"), 80%N, true, false. split; reflexivity. Qed.
Lemma peer_b_built : built_peer peer_b.
Proof. exists (s2b "abc.example"), 443%N, false, true. split; reflexivity. Qed.
Lemma peer_c_built : built_peer peer_c.
Proof. exists (s2b "node-3"), 9000%N, true, false. split; reflexivity. Qed.
Lemma rev_order : any_order (@rev peer).
Proof. intro l. symmetry. apply Permutation_rev. Qed.

(** ** C47: saved peers are returned by the next Retrieve *)
(** Whatever was saved, Retrieve returns no peers object (nil, without error) ... *)
Theorem C47_refuted : forall file ps d, tpeers_retrieve file (tpeers_save file ps d) = Ok None /\
  (let! r := tpeers_retrieve file (tpeers_save file ps d) in all_peers r) = Panic.
Proof. intros. rewrite retrieve_nil. split; reflexivity. Qed.
Print Assumptions C47_refuted.
Example C47_case : tpeers_retrieve (s2b "peers.txt") (tpeers_save (s2b "peers.txt") [peer_a; peer_b] (fun _ => None)) = Ok None.
Proof. vm_compute. reflexivity. Qed.
(** ... although what is needed is on the disk: the lines of the file are the URLs of the
    saved peers, in order, ... *)
Theorem C47_lines_partial : forall ps, Forall (fun p => built_peer p /\ ~ In x0a (pe_host p)) ps ->
  peer_lines (join_lines (map to_url ps)) = map to_url ps.
Proof. exact lines_back. Qed.
Print Assumptions C47_lines_partial.
Example C47_lines_case : Forall (fun p => built_peer p /\ ~ In x0a (pe_host p)) [peer_a; peer_b].
Proof. repeat constructor; try apply peer_a_built; try apply peer_b_built; cbn; intuition discriminate. Qed.
(** whatever the file holds: its lines without the white space of Unicode at their ends, without
    the empty ones *)
Theorem C47_read_lines : forall data, exists ls ts, lines_of data ls /\ Forall2 trimmed_to ls ts /\
  peer_lines data = filter (fun t => negb (bseq t [])) ts.
Proof. exact peer_lines_spec. Qed.
Print Assumptions C47_read_lines.
Example C47_read_lines_case :
  peer_lines ([xe3; x80; x80; x20; xc2; xa0] ++ to_url peer_a ++ [x0d; xe2; x80; xa8; x0a; xc2; x85; x0a] ++ to_url peer_b ++ [xc2; x20]) =
  [to_url peer_a; to_url peer_b ++ [xc2]].
Proof. vm_compute. reflexivity. Qed.
(** Retrieve hands an adapter just these lines, ... *)
Theorem C47_handed_partial : forall adapter file d, retrieve_with adapter file d = match d file with Some data => adapter (peer_lines data) | None => Err end.
Proof. exact lines_handed. Qed.
Print Assumptions C47_handed_partial.
Theorem C47_handed_back_partial : forall adapter file ps d, Forall (fun p => built_peer p /\ ~ In x0a (pe_host p)) ps ->
  retrieve_with adapter file (tpeers_save file ps d) = adapter (map to_url ps).
Proof. exact urls_handed. Qed.
Print Assumptions C47_handed_back_partial.
Example C47_handed_case : Forall (fun p => built_peer p /\ ~ In x0a (pe_host p)) [peer_a; peer_b] /\
  retrieve_with (fun l => if (length l =? 2)%nat then Ok (Some []) else Err) (s2b "peers.txt") (tpeers_save (s2b "peers.txt") [peer_a; peer_b] (fun _ => None)) = Ok (Some []).
Proof. split; [exact C47_lines_case|vm_compute; reflexivity]. Qed.
(** ... and the URL of a peer on a plain host gives the peer back, ... *)
Theorem C47_url_partial : forall parse p, url_contract parse -> built_peer p -> plain_host (pe_host p) -> (pe_port p < 2 ^ 63)%N ->
  to_peer parse (to_url p) = Ok p.
Proof. intros parse p K B P L. rewrite (url_back parse p K B P). apply N.ltb_lt in L. rewrite L. reflexivity. Qed.
Print Assumptions C47_url_partial.
(** ... except that a peer with a port from 2^63 on is accepted and cannot be read again. *)
Theorem C47_refuted_port : forall parse p, url_contract parse -> built_peer p -> plain_host (pe_host p) -> (2 ^ 63 <= pe_port p)%N ->
  to_peer parse (to_url p) = Err.
Proof. intros parse p K B P L. rewrite (url_back parse p K B P). apply N.ltb_ge in L. rewrite L. reflexivity. Qed.
Print Assumptions C47_refuted_port.
(** The contract can be met. *)
Definition parse_plain (raw : bytes) : res (bytes * bytes * bytes) :=
  let onion := match raw with c :: _ => beq c x6f | [] => false end in
  match split x3a (skipn 8 raw) with
  | [host; port] => Ok (if onion then s2b "onion" else s2b "https", host, port)
  | _ => Err
  end.
Lemma no_colon : forall (f : byte -> bool) l, f x3a = false -> forallb f l = true -> ~ In x3a l.
Proof. intros f l N F H. rewrite forallb_forall in F. specialize (F _ H). congruence. Qed.
Example C47_url_case : url_contract parse_plain /\ plain_host (pe_host peer_b) /\ (pe_port peer_b < 2 ^ 63)%N /\
  to_url peer_b = s2b "onion://abc.example:443".
Proof.
  split; [|repeat split; discriminate]. intros scheme host port S [Hn H] Np D.
  assert (E : split x3a (host ++ x3a :: port) = [host; port]).
  { rewrite split_app by (eapply no_colon; [|exact H]; reflexivity). rewrite split_none; [reflexivity|].
    eapply no_colon; [|exact D]; reflexivity. }
  destruct S as [-> | ->]; unfold parse_plain; cbn [app s2b]; cbn; rewrite E; reflexivity.
Qed.
(** The string of a peer determines it, ... *)
Theorem C47_string : forall p q, built_peer p -> built_peer q -> peer_string p = peer_string q -> p = q.
Proof. exact peer_string_inj. Qed.
Print Assumptions C47_string.
(** ... a collection, whatever the iteration order of the map it is built with, has exactly
    the given peers, each once, ... *)
Theorem C47_collection : forall order ps, any_order order -> Forall built_peer ps ->
  NoDup (peers_now order ps) /\ (forall p, In p (peers_now order ps) <-> In p ps).
Proof. exact peers_now_built. Qed.
Print Assumptions C47_collection.
Example C47_collection_case : peers_now (@rev peer) [peer_a; peer_b; peer_a] = [peer_b; peer_a] /\ any_order (@rev peer).
Proof. split; [vm_compute; reflexivity|exact rev_order]. Qed.
(** ... adding a peer keeps every peer and adds that one, ... *)
Theorem C47_add : forall order onion host port l, any_order order -> Forall built_peer l -> (port < 2 ^ 64)%N -> host <> [] -> port <> 0%N ->
  exists l', peers_save order onion host port (Some l) = Ok (Some l') /\ NoDup l' /\ Forall built_peer l' /\
    (forall q, In q l' <-> In q l \/ q = Peer host port (negb onion) onion).
Proof. exact save_adds. Qed.
Print Assumptions C47_add.
(** ... and after any sequence of additions the store has exactly the peers it had and those
    asked for. *)
Theorem C47_history : forall order os l, any_order order -> NoDup l -> Forall built_peer l -> Forall (fun o => (snd o < 2 ^ 64)%N) os ->
  exists l', save_seq order os (Some l) = Some l' /\ NoDup l' /\ Forall built_peer l' /\
    (forall q, In q l' <-> In q l \/ exists o, In o os /\ asked o q).
Proof. exact save_history. Qed.
Print Assumptions C47_history.
Example C47_history_case : NoDup [peer_a] /\ Forall built_peer [peer_a] /\
  save_seq (@rev peer) [(true, s2b "abc.example", 443%N); (false, [], 7%N); (false, s2b "10.0.0.1", 80%N)] (Some [peer_a]) = Some [peer_a; peer_b].
Proof. split; [repeat constructor; cbn; intuition|]. split; [repeat constructor; apply peer_a_built|]. vm_compute. reflexivity. Qed.
(** But the first peer can never be added: with nothing saved yet every call fails. *)
Theorem C47_refuted_first : forall order os, save_seq order os None = None /\
  forall onion host port, peers_save order onion host port None = Err.
Proof.
  intros. split; [apply save_first|]. intros. rewrite peers_save_is. destruct (bseq host []), (port =? 0)%N; reflexivity.
Qed.
Print Assumptions C47_refuted_first.

(** ** C65: peers added at the same time are all kept *)
(** Two additions that overlap can lose one of them, whatever was stored and whatever the
    two peers are, ... *)
Theorem C65_refuted : forall order onion1 host1 port1 onion2 host2 port2 l p q, any_order order ->
  peer_now host1 port1 (negb onion1) onion1 = Ok p -> peer_now host2 port2 (negb onion2) onion2 = Ok q ->
  p <> q -> ~ In p l ->
  exists s, csteps (Some l, []) [p; q] (s, []) /\ exists l', s = Some l' /\ ~ In p l'.
Proof. exact lost_update. Qed.
Print Assumptions C65_refuted.
(** ... and so can a round of the peers daemon during an addition. *)
Theorem C65_refuted_round : forall order remote onion host port l all p, any_order order ->
  peer_now host port (negb onion) onion = Ok p -> ask_peers remote l = Ok all -> ~ In p all ->
  exists s, csteps (Some l, []) (all ++ [p]) (s, []) /\ exists l', s = Some l' /\ ~ In p l'.
Proof. exact lost_to_round. Qed.
Print Assumptions C65_refuted_round.
Example C65_case : peer_now (pe_host peer_b) 443 (negb true) true = Ok peer_b /\ peer_now (pe_host peer_c) 9000 (negb false) false = Ok peer_c /\
  peer_b <> peer_c /\ ~ In peer_b [peer_a] /\ ask_peers (fun _ => Ok [peer_c]) [peer_a] = Ok [peer_a; peer_c] /\ ~ In peer_b [peer_a; peer_c].
Proof. repeat split; try discriminate; cbn; intuition discriminate. Qed.
(** A peer that is stored while nothing is under way is never lost, however later additions
    and rounds overlap; *)
Theorem C65_kept_partial : forall l p added s pending, In p l -> Forall built_peer (p :: l ++ added) ->
  csteps (Some l, []) added (s, pending) -> exists l', s = Some l' /\ In p l'.
Proof.
  intros l p added s pending H F S. inversion F as [|? ? Bp F']; subst.
  destruct (quiet_keeps l p added s pending) as (l' & -> & q & Hq & E); [exists p; auto|exact S|]. exists l'. split; [reflexivity|].
  assert (X : incl l' (l ++ added)).
  { assert (A : all_from (l ++ added) (Some l', pending)).
    { eapply csteps_from; [exact S|]. split; [intros m Em; injection Em as <-; apply incl_refl|constructor]. }
    apply A. reflexivity. }
  rewrite Forall_forall in F'. apply peer_string_inj in E; [subst q; exact Hq|apply F'; apply X; exact Hq|exact Bp].
Qed.
Print Assumptions C65_kept_partial.
(** and whatever overlaps, nothing is invented or stored twice. *)
Theorem C65_none_invented_partial : forall l added s pending, NoDup (map peer_string l) -> csteps (Some l, []) added (s, pending) ->
  exists l', s = Some l' /\ incl l' (l ++ added) /\ NoDup (map peer_string l').
Proof. exact any_schedule. Qed.
Print Assumptions C65_none_invented_partial.
Example C65_partial_case : exists s pending, csteps (Some [peer_a], []) [peer_b; peer_c] (s, pending) /\
  NoDup (map peer_string [peer_a]) /\ Forall built_peer (peer_a :: [peer_a] ++ [peer_b; peer_c]).
Proof.
  assert (M : ~ In peer_b [peer_a]) by (cbn; intuition discriminate). assert (N : peer_b <> peer_c) by discriminate.
  destruct (lost_update (@rev peer) true (pe_host peer_b) 443 false (pe_host peer_c) 9000 [peer_a] peer_b peer_c rev_order
    eq_refl eq_refl N M) as (s & S & _). exists s, []. split; [exact S|].
  split; [repeat constructor; cbn; intuition|]. repeat constructor; try apply peer_a_built; try apply peer_b_built; apply peer_c_built.
Qed.

(** ** C66: a round of the peers daemon collects the peers of all known peers *)
Theorem C66_round : forall order remote l, any_order order -> (forall p, In p l -> exists r, remote p = Ok r) ->
  Forall built_peer l -> (forall p r, In p l -> remote p = Ok r -> Forall built_peer r) ->
  exists l', peers_round order remote (Some l) = GoOn (Some l') /\ NoDup l' /\
    (forall q, In q l' <-> exists p, In p l /\ (q = p \/ exists r, remote p = Ok r /\ In q r)).
Proof.
  intros order remote l O H Fl Fr. destruct (round_collects order remote l O H) as (l' & E & N & I1 & I2). exists l'. split; [exact E|].
  split; [eapply NoDup_map_inv; exact N|]. rewrite Forall_forall in Fl.
  assert (B : forall q p, In p l -> (q = p \/ exists r, remote p = Ok r /\ In q r) -> built_peer q).
  { intros q p Hp [->|(r & Er & Hq)]; [apply Fl; exact Hp|]. specialize (Fr p r Hp Er). rewrite Forall_forall in Fr. apply Fr. exact Hq. }
  intro q. split; [apply I1|]. intros (p & Hp & Hq). destruct (I2 p q Hp Hq) as (q' & Hq' & Es).
  destruct (I1 q' Hq') as (p' & Hp' & Hq''). apply peer_string_inj in Es; [subst q'; exact Hq'|exact (B q' p' Hp' Hq'')|exact (B q p Hp Hq)].
Qed.
Print Assumptions C66_round.
Definition remote_case (p : peer) : res (list peer) := Ok [peer_c; p].
Example C66_case : peers_round (@rev peer) remote_case (Some [peer_a; peer_b]) = GoOn (Some [peer_b; peer_c; peer_a]) /\
  Forall built_peer [peer_a; peer_b] /\ (forall p r, In p [peer_a; peer_b] -> remote_case p = Ok r -> Forall built_peer r).
Proof.
  split; [vm_compute; reflexivity|]. split; [repeat constructor; try apply peer_a_built; apply peer_b_built|].
  intros p r [<-|[<-|[]]] E; injection E as <-; repeat constructor; try apply peer_a_built; try apply peer_b_built; apply peer_c_built.
Qed.

(** ** C67: the peers daemon survives a peer that does not answer *)
(** One such peer ends the daemon, which learnt nothing and does nothing any more. *)
Theorem C67_refuted : forall order remote l p es, In p l -> (forall r, remote p <> Ok r) ->
  exists e, e <> Ok tt /\ let d := dm_run (peers_round order remote) (dm_start (Some l)) (Wake :: es) in
    dm_result d = Some e /\ dm_state d = Some l /\ dm_rounds d = 1.
Proof.
  intros order remote l p es Hp N. destruct (round_fails order remote l p Hp N) as (e & E & Ne). exists e. split; [exact Ne|].
  change (dm_run (peers_round order remote) (dm_start (Some l)) (Wake :: es)) with
    (dm_run (peers_round order remote) (dm_step (peers_round order remote) (dm_start (Some l)) Wake) es).
  cbn [dm_step dm_start dm_started dm_state dm_rounds dm_result]. rewrite E.
  destruct (run_ended (peers_round order remote) es (Daemon true (Some l) 1 (Some e)) e eq_refl) as (R1 & R2 & R3). auto.
Qed.
Print Assumptions C67_refuted.
(** If all of them always answer, it runs for ever. *)
Theorem C67_answering_partial : forall order remote es l, any_order order -> (forall p, exists r, remote p = Ok r) ->
  dm_result (dm_run (peers_round order remote) (dm_start (Some l)) es) = None /\
  dm_rounds (dm_run (peers_round order remote) (dm_start (Some l)) es) = length (filter is_wake es).
Proof.
  intros order remote es l O H.
  assert (R : dm_result (dm_run (peers_round order remote) (dm_start (Some l)) es) = None).
  { unfold dm_start. generalize 0. revert l. induction es as [|e es IH]; intros l n; [reflexivity|].
    change (dm_run (peers_round order remote) (Daemon true (Some l) n None) (e :: es)) with
      (dm_run (peers_round order remote) (dm_step (peers_round order remote) (Daemon true (Some l) n None) e) es).
    destruct e; cbn [dm_step dm_started dm_state dm_rounds dm_result]; [|apply IH].
    destruct (round_collects order remote l O) as (l' & E & _); [auto|]. rewrite E. apply IH. }
  split; [exact R|]. apply run_counts in R; [exact R|reflexivity].
Qed.
Print Assumptions C67_answering_partial.
Example C67_case : In peer_b [peer_a; peer_b] /\
  (let d := dm_run (peers_round (@rev peer) (fun p => if bseq (pe_host p) (pe_host peer_b) then Err else Ok [peer_c]))
      (dm_start (Some [peer_a; peer_b])) [Wake; Wake] in dm_result d = Some Err /\ dm_rounds d = 1) /\
  dm_rounds (dm_run (peers_round (@rev peer) remote_case) (dm_start (Some [peer_a; peer_b])) [Wake; Stop; Wake; Wake]) = 3.
Proof. split; [cbn; auto|]. vm_compute. repeat split; reflexivity. Qed.

(** ** C51: Stop stops a daemon *)
(** A call of Stop never changes what a started daemon does, whatever the daemon, ... *)
Theorem C51_refuted : forall (S : Type) (round : S -> pass S) s es,
  dm_run round (dm_start s) es = dm_run round (dm_start s) (filter is_wake es).
Proof. intros. apply stop_ignored. reflexivity. Qed.
Print Assumptions C51_refuted.
(** ... and one that has not ended by itself does a round at each wake after it. *)
Theorem C51_refuted_rounds : forall (S : Type) (round : S -> pass S) s before after,
  let d := dm_run round (dm_start s) (before ++ Stop :: after) in
  dm_result d = None -> dm_rounds d = length (filter is_wake before) + length (filter is_wake after).
Proof.
  intros S round s before after d R. unfold d in *. apply run_counts in R; [|reflexivity]. rewrite R. cbn [dm_start dm_rounds].
  rewrite filter_app, app_length. reflexivity.
Qed.
Print Assumptions C51_refuted_rounds.
(** Only a daemon that ended by itself does no more. *)
Theorem C51_ended_partial : forall (S : Type) (round : S -> pass S) d es r, dm_result d = Some r ->
  dm_result (dm_run round d es) = Some r /\ dm_rounds (dm_run round d es) = dm_rounds d /\ dm_state (dm_run round d es) = dm_state d.
Proof. intros. apply run_ended. assumption. Qed.
Print Assumptions C51_ended_partial.
Example C51_case : let d := dm_run (fun n => GoOn (n + 1)) (dm_start 0) [Wake; Stop; Wake; Wake] in
  dm_rounds d = 3 /\ dm_state d = 3 /\ dm_result d = None /\
  dm_result (dm_run (fun n => Return Err n) (dm_start 0) [Wake]) = Some Err.
Proof. vm_compute. repeat split. Qed.

(** ** C52: chain synchronisation downloads exactly the missing links *)
(** The newest link of the remote chain has no influence at all: it is never asked for, ... *)
Theorem C52_refuted_newest : forall (C : Curve) S (retrieve : S -> res chain) upgrade peers ask ask' s,
  (forall c, retrieve s = Ok c -> ch_height c < 2 ^ 63)%N ->
  (forall p, same_but_newest (ask p) (ask' p)) ->
  chains_round retrieve upgrade peers ask s = chains_round retrieve upgrade peers ask' s.
Proof. exact @newest_never. Qed.
Print Assumptions C52_refuted_newest.
(** ... while the link at the local height is: with an Upgrade that takes only the next link
    the local chain never grows, ... *)
Theorem C52_refuted_stuck : forall (C : Curve) S (retrieve : S -> res chain) upgrade peers ask s local ps r,
  retrieve s = Ok local -> peers = Ok ps -> biggest (ch_total local) ask ps 0 None = Ok (Some r) ->
  (ch_height local < ch_height (rc_chain r))%N -> (ch_height (rc_chain r) < 2 ^ 63)%N ->
  (forall i c, rc_at r i = Ok c -> ch_height c = i) ->
  (forall m s0 c, retrieve s0 = Ok c -> ln_index (ml_link m) <> (ch_height c + 1)%N -> upgrade m s0 = Err) ->
  exists e, chains_round retrieve upgrade peers ask s = Return e s /\ e <> Ok tt.
Proof. exact @refetch_stuck. Qed.
Print Assumptions C52_refuted_stuck.
(** ... and as soon as one chain was ahead the daemon ends, successful or not. *)
Theorem C52_refuted_once : forall (C : Curve) S (retrieve : S -> res chain) upgrade peers ask s local ps r,
  retrieve s = Ok local -> peers = Ok ps -> biggest (ch_total local) ask ps 0 None = Ok (Some r) ->
  exists o s', chains_round retrieve upgrade peers ask s = Return o s'.
Proof. exact @round_ends. Qed.
Print Assumptions C52_refuted_once.
(** What it does: it takes the first of the chains with the most transactions, if one has
    more than the local chain, ... *)
Theorem C52_chosen_partial : forall (C : Curve) local ask ps r,
  (local < 2 ^ 63)%N -> (forall p r, In p ps -> ask p = Ok r -> (ch_total (rc_chain r) < 2 ^ 63)%N) ->
  biggest local ask ps 0 None = Ok r ->
  match r with
  | None => forall p r', In p ps -> ask p = Ok r' -> (ch_total (rc_chain r') <= local)%N
  | Some x => (local < ch_total (rc_chain x))%N /\ (exists p, In p ps /\ ask p = Ok x) /\
      forall p r', In p ps -> ask p = Ok r' -> (ch_total (rc_chain r') <= ch_total (rc_chain x))%N
  end.
Proof.
  intros C local ask ps r L T E. apply biggest_spec in E as [(-> & M)|(p & x & -> & Hp & Ex & B & M)]; [| |exact L|exact T].
  - intros p r' Hp Er. specialize (M p r' Hp Er). lia.
  - repeat split; [lia|exists p; auto|exact M].
Qed.
Print Assumptions C52_chosen_partial.
(** ... and upgrades with its links from the local height to one before its height, in
    order, up to the first failure. *)
Theorem C52_fetched_partial : forall (C : Curve) S (retrieve : S -> res chain) upgrade peers ask s local ps r,
  retrieve s = Ok local -> peers = Ok ps -> biggest (ch_total local) ask ps 0 None = Ok (Some r) ->
  (ch_height local < 2 ^ 63)%N -> (ch_height (rc_chain r) < 2 ^ 63)%N ->
  chains_round retrieve upgrade peers ask s =
  let '(o, s') := upgrades upgrade (map (rc_at r) (indices (ch_height local) (ch_height (rc_chain r)))) s in Return o s'.
Proof. exact @round_upgrades. Qed.
Print Assumptions C52_fetched_partial.
(** A case: local height 2, remote height 5; the links 2, 3 and 4 are taken. *)
Definition case_genesis : genesis := Genesis (Immutable [] 0) (Bill (Immutable [] 0) (Lock (Immutable [] 0) []) 1) 1 (SpecFloat.S754_zero false) 1.
Definition case_block : @block toy := Block (Immutable [] 0) case_genesis 0 [].
Definition case_chain (height total : N) : @chain toy :=
  Chain (Immutable [] 0) case_genesis (MinedBlock (Immutable [] 0) case_block [])
    (MinedLink (Immutable [] 0) (ChainLink (Immutable [] 0) [] case_block height) []) total.
Definition case_remote (height total : N) : @remote_chain toy :=
  Remote (case_chain height total) (fun i => if (height <? i)%N then Err else Ok (case_chain i i)).
Definition case_ask (p : peer) : res (@remote_chain toy) := Ok (if pe_onion p then case_remote 5 9 else case_remote 3 4).
Example C52_case :
  (biggest 3 case_ask [peer_a; peer_b; peer_c] 0 None = Ok (Some (case_remote 5 9))) /\
  (chains_round (C := toy) (S := list N) (fun _ => Ok (case_chain 2 3)) (fun m s => Ok (s ++ [ln_index (ml_link m)])) (Ok [peer_a; peer_b; peer_c])
    case_ask [] = Return (Ok tt) [2; 3; 4]%N) /\
  (forall i c, rc_at (case_remote 5 9) i = Ok c -> ch_height c = i) /\ indices 2 5 = [2; 3; 4]%N.
Proof.
  split; [reflexivity|]. split; [vm_compute; reflexivity|]. split; [|reflexivity]. intros i c. cbn [rc_at case_remote].
  destruct (5 <? i)%N; [discriminate|]. intro E. injection E as <-. reflexivity.
Qed.

(** ** C68: a round of the buckets daemon follows every followed bucket *)
(** It goes on exactly if every followed bucket was obtained, and then saved the identity
    with all of them followed, in order; *)
Theorem C68_all : forall (I S : Type) (retrieve : S -> res I) update peers follows fetch follow s s',
  buckets_round retrieve update peers follows fetch follow s = GoOn s' <->
  exists i ps bs i', retrieve s = Ok i /\ peers = Ok ps /\ Forall2 (fun h b => fetch ps h = Ok b) (follows i) bs /\
    fold_left (fun r b => rbind r (follow b)) bs (Ok i) = Ok i' /\ update i' s = Ok s'.
Proof. exact @buckets_round_ok. Qed.
Print Assumptions C68_all.
(** otherwise it ends with a failure and the store is as before. *)
Theorem C68_or_nothing : forall (I S : Type) (retrieve : S -> res I) update peers follows fetch follow s r s',
  buckets_round retrieve update peers follows fetch follow s = Return r s' -> s' = s /\ r <> Ok tt.
Proof. exact @buckets_round_fails. Qed.
Print Assumptions C68_or_nothing.
Definition case_bucket (h : hash) : bucket := Bucket (Immutable h 0) [].
Definition bucket_case (fetch : list peer -> hash -> res bucket) : pass (list hash * list hash) :=
  buckets_round (I := list hash * list hash) (S := list hash * list hash) (fun s => Ok s) (fun i _ => Ok i) (Ok [peer_a]) fst fetch
    (fun b i => Ok (fst i, snd i ++ [im_hash (bu_im b)])) ([[x01]; [x02]], []).
Example C68_case : bucket_case (fun _ h => Ok (case_bucket h)) = GoOn ([[x01]; [x02]], [[x01]; [x02]]) /\
  bucket_case (fun _ h => if bseq h [x02] then Err else Ok (case_bucket h)) = Return Err ([[x01]; [x02]], []).
Proof. vm_compute. split; reflexivity. Qed.
