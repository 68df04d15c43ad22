(** More about how calls end (C47, C64, C68). *)
From Coq Require Import Lia ZifyBool ZifyNat ZifyN.
From Verif Require Import Base BaseFacts HashModel EntitiesModel SignModel JsonModel BucketModel IdentityModel IdentitySpec IdentityProofs PeersModel PeersSpec PeersProofs
  GrammarSpec GrammarProofs CalendarSpec CalendarProofs.

(** ** C47: the peer of a URL *)
(** an optional sign and decimal digits *)
Definition integer (s : bytes) (z : Z) : Prop :=
  exists ds, digits ds /\ ((s = ds \/ s = x2b :: ds) /\ z = decimal_value 0 ds \/ s = x2d :: ds /\ z = (- decimal_value 0 ds)%Z).
Lemma digits_val_iff : forall ds acc v, digits_val acc ds = Some v <-> Forall digit ds /\ Z.of_N v = decimal_value (Z.of_N acc) ds.
Proof.
  induction ds as [|c ds IH]; intros acc v; cbn [digits_val decimal_value].
  - split; [intro H; injection H as <-; auto|]. intros [_ H]. f_equal. lia.
  - unfold digit_val. destruct (is_digit_b c) eqn:D.
    + rewrite IH. apply digit_b in D. unfold digit in D. replace (Z.of_N (acc * 10 + (b2n c - 48))) with (10 * Z.of_N acc + (Z.of_N (b2n c) - 48))%Z by lia.
      split; [intros [F E]; split; [constructor; assumption|exact E]|]. intros [F E]. inversion F; auto.
    + split; [discriminate|]. intros [F _]. inversion F as [|? ? X _]; subst. apply digit_b in X. congruence.
Qed.
Lemma decimal_nonneg : forall ds, Forall digit ds -> (0 <= decimal_value 0 ds)%Z.
Proof. intros ds F. pose proof (value_bound ds 0 F ltac:(lia)). lia. Qed.
Lemma atoi_iff : forall s z, atoi s = Ok z <-> integer s z /\ (- 2 ^ 63 <= z < 2 ^ 63)%Z.
Proof.
  intros s z. unfold integer, digits. split.
  - intro H. unfold atoi in H.
    assert (X : exists neg d, (match s with c :: r => if beq c x2d then (true, r) else if beq c x2b then (false, r) else (false, s) | [] => (false, []) end) = (neg, d)
      /\ (neg = true /\ s = x2d :: d \/ neg = false /\ (s = d \/ s = x2b :: d))).
    { destruct s as [|c r]; [do 2 eexists; split; [reflexivity|auto]|]. destruct (beq c x2d) eqn:M; [|destruct (beq c x2b) eqn:P]; do 2 eexists; (split; [reflexivity|]).
      - apply beq_eq in M. subst. auto.
      - apply beq_eq in P. subst. auto.
      - auto. }
    destruct X as (neg & d & E & X). rewrite E in H. destruct d as [|c d]; [discriminate|].
    destruct (digits_val 0 (c :: d)) as [n|] eqn:V; [|discriminate]. apply digits_val_iff in V as [F V]. change (Z.of_N 0) with 0%Z in V.
    destruct (_ && _)%bool eqn:R; [|discriminate]. injection H as <-. split; [|lia].
    exists (c :: d). split; [split; [discriminate|exact F]|]. destruct X as [(-> & ->)|(-> & X)]; [right|left]; (split; [assumption || reflexivity|lia]).
  - intros [(ds & (N & F) & H) B].
    pose proof (decimal_nonneg ds F) as P. set (n := Z.to_N (decimal_value 0 ds)).
    assert (V : digits_val 0 ds = Some n) by (apply digits_val_iff; split; [exact F|change (Z.of_N 0) with 0%Z; subst n; lia]).
    unfold atoi. destruct H as [([->| ->] & ->)|(-> & ->)].
    + destruct ds as [|c ds]; [congruence|]. inversion F as [|? ? D _]; subst. unfold digit in D.
      assert (Q : forall k, (b2n k < 48)%N -> beq c k = false) by (intros k K; destruct (beq c k) eqn:E; [apply beq_eq in E; subst; lia|reflexivity]).
      rewrite (Q x2d), (Q x2b) by reflexivity. rewrite V. replace (Z.of_N n) with (decimal_value 0 (c :: ds)) by (subst n; lia).
      replace (_ && _)%bool with true by lia. reflexivity.
    + change (beq x2b x2d) with false. change (beq x2b x2b) with true. cbv iota. destruct ds as [|c ds]; [congruence|]. rewrite V.
      replace (Z.of_N n) with (decimal_value 0 (c :: ds)) by (subst n; lia). replace (_ && _)%bool with true by lia. reflexivity.
    + change (beq x2d x2d) with true. cbv iota. destruct ds as [|c ds]; [congruence|]. rewrite V.
      replace (Z.of_N n) with (decimal_value 0 (c :: ds)) by (subst n; lia). replace (_ && _)%bool with true by lia. reflexivity.
Qed.
(** The port of the URL is an integer of 64 bits taken modulo 2^64, and the scheme is https or onion. *)
Theorem C47_from_url : forall parse raw p, to_peer parse raw = Ok p <->
  exists scheme host port z, parse raw = Ok (scheme, host, port) /\ integer port z /\ (- 2 ^ 63 <= z < 2 ^ 63)%Z /\ z <> 0%Z /\ host <> [] /\
    pe_host p = host /\ Z.of_N (pe_port p) = (if (z <? 0)%Z then z + 18446744073709551616 else z)%Z /\
    (scheme = s2b "https" /\ pe_clear p = true /\ pe_onion p = false \/ scheme = s2b "onion" /\ pe_clear p = false /\ pe_onion p = true).
Proof.
  intros parse raw p. unfold to_peer. split.
  - intro H. apply rbind_Ok in H as ([[scheme host] port] & E & H). apply rbind_Ok in H as (z & A & H). apply atoi_iff in A as [A B].
    unfold peer_now in H. destruct (bseq host []) eqn:Hh; [discriminate|]. cbn [negb] in H. apply bseq_neq in Hh.
    destruct (N.eqb_spec (u64_of_int z) 0) as [|Np]; [discriminate|]. cbn [negb] in H.
    assert (U : Z.of_N (u64_of_int z) = if (z <? 0)%Z then (z + 18446744073709551616)%Z else z).
    { unfold u64_of_int. rewrite Z2N.id by (apply Z.mod_pos_bound; reflexivity). change (2 ^ 64)%Z with 18446744073709551616%Z. clear - B.
      change (2 ^ 63)%Z with 9223372036854775808%Z in B. destruct (Z.ltb_spec z 0).
      - symmetry. apply Z.mod_unique with (q := (-1)%Z); lia.
      - apply Z.mod_small. lia. }
    exists scheme, host, port, z. split; [exact E|]. split; [exact A|]. split; [exact B|].
    split; [intros ->; apply Np; reflexivity|]. split; [exact Hh|].
    destruct (bseq scheme (s2b "https")) eqn:S1; [|destruct (bseq scheme (s2b "onion")) eqn:S2; [|discriminate]]; injection H as <-; cbn [pe_host pe_port pe_clear pe_onion].
    + apply bseq_eq in S1. auto 6.
    + apply bseq_eq in S2. auto 6.
  - intros (scheme & host & port & z & E & A & B & Nz & Hh & P1 & P2 & P3). rewrite E. cbn [rbind]. rewrite (proj2 (atoi_iff port z) (conj A B)). cbn [rbind].
    assert (U : u64_of_int z = pe_port p).
    { apply N2Z.inj. rewrite P2. unfold u64_of_int. rewrite Z2N.id by (apply Z.mod_pos_bound; reflexivity). change (2 ^ 64)%Z with 18446744073709551616%Z. clear - B.
      change (2 ^ 63)%Z with 9223372036854775808%Z in B. destruct (Z.ltb_spec z 0).
      - symmetry. apply Z.mod_unique with (q := (-1)%Z); lia.
      - apply Z.mod_small. lia. }
    rewrite U. unfold peer_now. apply bseq_neq in Hh as Eh. rewrite Eh. cbn [negb].
    destruct (N.eqb_spec (pe_port p) 0) as [Z0|_]; [exfalso; rewrite Z0 in P2; change (2 ^ 63)%Z with 9223372036854775808%Z in B; destruct (Z.ltb_spec z 0); lia|].
    cbn [negb]. destruct p as [ph pp pc po]. cbn [pe_host pe_port pe_clear pe_onion] in *. subst ph.
    destruct P3 as [(-> & -> & ->)|(-> & -> & ->)]; reflexivity.
Qed.
Print Assumptions C47_from_url.
Example C47_from_url_case :
  to_peer (fun _ => Ok (s2b "onion", s2b "abc", s2b "-1")) [] = Ok (Peer (s2b "abc") 18446744073709551615 false true) /\
  to_peer (fun _ => Ok (s2b "https", s2b "abc", s2b "+80")) [] = Ok (Peer (s2b "abc") 80 true false) /\
  to_peer (fun _ => Ok (s2b "http", s2b "abc", s2b "80")) [] = Err.
Proof. vm_compute. auto. Qed.

(** ** C64: deleting *)
Theorem C64_delete : forall T (hash_of : T -> hash) t d, let n := hash_string (hash_of t) in
  (d n = None -> part_delete hash_of t d = Err) /\
  (d n <> None -> exists d', part_delete hash_of t d = Ok d' /\ d' n = None /\ forall n', n' <> n -> d' n' = d n').
Proof.
  intros T hash_of t d n. unfold part_delete. fold n. split; intro H.
  - rewrite H. reflexivity.
  - destruct (d n) as [c|]; [|congruence]. eexists. split; [reflexivity|]. unfold irem. split.
    + rewrite bseq_refl. reflexivity.
    + intros n' N. destruct (bseq_spec n n') as [->|_]; [congruence|reflexivity].
Qed.
Print Assumptions C64_delete.
Theorem C64_delete_identity : forall t d, let n := identity_file (mu_hash (td_mu t)) (td_seed t) in
  (d n = None -> tidentity_delete t d = Err) /\
  (d n <> None -> exists d', tidentity_delete t d = Ok d' /\ d' n = None /\ forall n', n' <> n -> d' n' = d n').
Proof.
  intros t d n. unfold tidentity_delete. fold n. split; intro H.
  - rewrite H. reflexivity.
  - destruct (d n) as [c|]; [|congruence]. eexists. split; [reflexivity|]. unfold irem. split.
    + rewrite bseq_refl. reflexivity.
    + intros n' N. destruct (bseq_spec n n') as [->|_]; [congruence|reflexivity].
Qed.
Print Assumptions C64_delete_identity.
(** a deleted object cannot be retrieved, and deleting it again is an error *)
Theorem C64_deleted : forall T (hash_of : T -> hash) (dec : list json -> res T) t d d', part_delete hash_of t d = Ok d' ->
  part_retrieve dec (hash_of t) d' = Err /\ part_delete hash_of t d' = Err.
Proof.
  intros T hash_of dec t d d' H. destruct (d (hash_string (hash_of t))) as [c|] eqn:E; [|unfold part_delete in H; rewrite E in H; discriminate].
  destruct (proj2 (C64_delete T hash_of t d)) as (d2 & H2 & G & _); [congruence|]. rewrite H in H2. injection H2 as <-.
  unfold part_retrieve, part_delete, iget. rewrite G. split; reflexivity.
Qed.
Print Assumptions C64_deleted.
Example C64_delete_case : let d := iput (fun _ => None) (hash_string (repeat x01 64)) [] in
  d (hash_string (repeat x01 64)) <> None /\ d (hash_string (repeat x02 64)) = None.
Proof. vm_compute. split; [discriminate|reflexivity]. Qed.

(** ** C68: a round whose parts do not panic does not panic *)
Theorem C68_error : forall (I S : Type) (retrieve : S -> res I) update peers follows fetch follow s r s',
  retrieve s <> Panic -> peers <> Panic -> (forall ps h, fetch ps h <> Panic) -> (forall b i, follow b i <> Panic) -> (forall i, update i s <> Panic) ->
  buckets_round retrieve update peers follows fetch follow s = Return r s' -> r = Err /\ s' = s.
Proof.
  intros I S retrieve update peers follows fetch follow s r s' H1 H2 H3 H4 H5 H. unfold buckets_round in H.
  assert (X : forall ps hs i, follow_all (fetch ps) follow hs i <> Panic).
  { intros ps. induction hs as [|h hs IH]; intro i; cbn [follow_all]; [discriminate|]. destruct (fetch ps h) as [b| |] eqn:E; cbn [rbind]; [|discriminate|destruct (H3 ps h E)].
    destruct (follow b i) as [i'| |] eqn:E'; cbn [rbind]; [apply IH|discriminate|destruct (H4 b i E')]. }
  destruct (retrieve s) as [i| |]; cbn [rbind] in H; [|injection H as <- <-; auto|congruence].
  destruct peers as [ps| |]; cbn [rbind] in H; [|injection H as <- <-; auto|congruence].
  destruct (follow_all (fetch ps) follow (follows i) i) as [i'| |] eqn:F; cbn [rbind] in H; [|injection H as <- <-; auto|destruct (X _ _ _ F)].
  destruct (update i' s) as [s1| |] eqn:U; [discriminate|injection H as <- <-; auto|destruct (H5 i' U)].
Qed.
Print Assumptions C68_error.
Example C68_error_case : buckets_round (I := list hash) (S := list hash) (fun s => Ok s) (fun i _ => Ok i) (Ok []) (fun i => i) (fun _ _ => Err) (fun _ i => Ok i)
  [[x01]] = Return Err [[x01]].
Proof. reflexivity. Qed.
