From Coq Require Import Lia ZifyBool ZifyNat ZifyN Permutation.
From Verif Require Import Base BaseFacts HashModel SignModel PiastresModel JsonModel CodecProofs BucketModel BucketProofs IdentityModel
  IdentityProofs PeersModel PeersSpec.

(** ** strings *)
Lemma built_peer_spec : forall p, built_peer p ->
  pe_host p <> [] /\ (0 < pe_port p < 2 ^ 64)%N /\ pe_clear p = negb (pe_onion p).
Proof.
  intros p (host & port & clear & onion & L & E). unfold peer_now in E. destruct (bseq_spec host []); [discriminate|].
  cbn [negb] in E. destruct (N.eqb_spec port 0); [discriminate|]. cbn [negb] in E.
  destruct clear; [|destruct onion; [|discriminate]]; injection E as <-; cbn [pe_host pe_port pe_clear pe_onion]; repeat split; auto; lia.
Qed.
Lemma peer_now_ok : forall host port onion, peer_now host port (negb onion) onion =
  if bseq host [] then Err else if (port =? 0)%N then Err else Ok (Peer host port (negb onion) onion).
Proof. intros host port onion. unfold peer_now. destruct (bseq host []), (port =? 0)%N, onion; reflexivity. Qed.
Lemma peer_now_built : forall host port onion p, (port < 2 ^ 64)%N -> peer_now host port (negb onion) onion = Ok p -> built_peer p.
Proof. intros host port onion p L E. exists host, port, (negb onion), onion. auto. Qed.
Lemma colon_not_digit : forall n, ~ In x3a (ntoa n).
Proof. intros n H. pose proof (ntoa_digits n) as D. rewrite Forall_forall in D. specialize (D _ H). unfold is_digit in D. vm_compute in D. destruct D as [_ D]. apply D. reflexivity. Qed.
Lemma last_sep : forall a b c d : bytes, ~ In x3a b -> ~ In x3a d -> a ++ x3a :: b = c ++ x3a :: d -> a = c /\ b = d.
Proof.
  induction a as [|x a IH]; intros b [|y c] d B D E; cbn [app] in E.
  - injection E as ->. auto.
  - injection E as <- E. exfalso. apply B. rewrite E. apply in_or_app. right. left. reflexivity.
  - injection E as -> E. exfalso. apply D. rewrite <- E. apply in_or_app. right. left. reflexivity.
  - injection E as -> E. destruct (IH b c d B D E) as [-> ->]. auto.
Qed.
Lemma peer_string_inj : forall p q, built_peer p -> built_peer q -> peer_string p = peer_string q -> p = q.
Proof.
  intros p q Bp Bq E. destruct (built_peer_spec p Bp) as (_ & _ & Cp). destruct (built_peer_spec q Bq) as (_ & _ & Cq).
  destruct p as [h1 n1 c1 o1], q as [h2 n2 c2 o2]. unfold peer_string in E. cbn [pe_host pe_port pe_clear pe_onion] in *. subst c1 c2.
  assert (o1 = o2 /\ h1 ++ x3a :: ntoa n1 = h2 ++ x3a :: ntoa n2) as [-> E'].
  { destruct o1, o2; cbn in E; try discriminate; injection E as E; auto. }
  apply last_sep in E' as [-> E']; try apply colon_not_digit. apply ntoa_inj in E' as ->. reflexivity.
Qed.

(** ** the collection *)
Lemma pset_keys : forall k p m x, In x (map fst (pset k p m)) <-> x = k \/ In x (map fst m).
Proof.
  intros k p. induction m as [|[k' p'] m IH]; intro x; cbn [pset map fst In]; [intuition congruence|].
  destruct (bseq_spec k k') as [<-|N]; cbn [map fst In]; [intuition congruence|]. rewrite IH. intuition.
Qed.
Lemma pset_nodup : forall k p m, NoDup (map fst m) -> NoDup (map fst (pset k p m)).
Proof.
  intros k p. induction m as [|[k' p'] m IH]; intro H; cbn [pset map fst]; [constructor; [easy|constructor]|].
  inversion H as [|? ? H1 H2]; subst. destruct (bseq_spec k k') as [<-|N]; cbn [map fst]; [constructor; assumption|].
  constructor; [|apply IH; exact H2]. rewrite pset_keys. intros [->|X]; congruence.
Qed.
Lemma pset_in : forall k p m x, In x (pset k p m) -> x = (k, p) \/ In x m.
Proof.
  intros k p. induction m as [|[k' p'] m IH]; intros x H; cbn [pset In] in H; [intuition|].
  destruct (bseq k k'); cbn [In] in H; [destruct H as [<-|H]; [left; reflexivity|right; right; exact H]|].
  destruct H as [<-|H]; [right; left; reflexivity|]. destruct (IH x H) as [->|I]; [left; reflexivity|right; right; exact I].
Qed.
Definition pmap (ps : list peer) : list (bytes * peer) := fold_left (fun m p => pset (peer_string p) p m) ps [].
Lemma pmap_inv : forall ps,
  (forall x, In x (pmap ps) -> fst x = peer_string (snd x) /\ In (snd x) ps) /\ NoDup (map fst (pmap ps)) /\
  (forall p, In p ps -> In (peer_string p) (map fst (pmap ps))).
Proof.
  intro ps. unfold pmap.
  assert (G : forall todo done m,
    ((forall x, In x m -> fst x = peer_string (snd x) /\ In (snd x) done) /\ NoDup (map fst m) /\
     (forall p, In p done -> In (peer_string p) (map fst m))) ->
    let m' := fold_left (fun m p => pset (peer_string p) p m) todo m in
    (forall x, In x m' -> fst x = peer_string (snd x) /\ In (snd x) (done ++ todo)) /\ NoDup (map fst m') /\
    (forall p, In p (done ++ todo) -> In (peer_string p) (map fst m'))).
  { induction todo as [|p todo IH]; intros done m (H1 & H2 & H3).
    - cbn [fold_left]. rewrite app_nil_r. auto.
    - cbn [fold_left]. replace (done ++ p :: todo) with ((done ++ [p]) ++ todo) by (rewrite <- app_assoc; reflexivity).
      apply IH. split; [|split].
      + intros x Hx. apply pset_in in Hx as [->|Hx].
        * split; [reflexivity|]. apply in_or_app. right. left. reflexivity.
        * destruct (H1 x Hx) as [E I]. split; [exact E|]. apply in_or_app. left. exact I.
      + apply pset_nodup. exact H2.
      + intros q Hq. rewrite pset_keys. apply in_app_or in Hq as [Hq|[<-|[]]]; [right; auto|left; reflexivity]. }
  specialize (G ps [] []). cbn [app] in G. apply G. split; [intros x []|]. split; [constructor|intros p []].
Qed.
Lemma pmap_strings : forall ps, map peer_string (map snd (pmap ps)) = map fst (pmap ps).
Proof.
  intro ps. destruct (pmap_inv ps) as (H & _). rewrite map_map. apply map_ext_in. intros x Hx. symmetry. apply H. exact Hx.
Qed.
Lemma peers_now_spec : forall order ps, any_order order ->
  NoDup (map peer_string (peers_now order ps)) /\
  (forall p, In p (peers_now order ps) -> In p ps) /\
  (forall p, In p ps -> exists q, In q (peers_now order ps) /\ peer_string q = peer_string p).
Proof.
  intros order ps O. unfold peers_now. fold (pmap ps). specialize (O (map snd (pmap ps))). destruct (pmap_inv ps) as (H1 & H2 & H3).
  split; [|split].
  - eapply Permutation_NoDup; [apply Permutation_map; symmetry; exact O|]. rewrite pmap_strings. exact H2.
  - intros p Hp. eapply Permutation_in in Hp; [|exact O]. apply in_map_iff in Hp as (x & <- & Hx). apply H1. exact Hx.
  - intros p Hp. apply H3 in Hp. rewrite <- pmap_strings in Hp. apply in_map_iff in Hp as (q & E & Hq). exists q. split; [|exact E].
    eapply Permutation_in; [symmetry; exact O|exact Hq].
Qed.
Lemma peers_now_built : forall order ps, any_order order -> Forall built_peer ps ->
  NoDup (peers_now order ps) /\ (forall p, In p (peers_now order ps) <-> In p ps).
Proof.
  intros order ps O F. destruct (peers_now_spec order ps O) as (N & I1 & I2). split.
  - eapply NoDup_map_inv. exact N.
  - intro p. split; [apply I1|]. intro Hp. destruct (I2 p Hp) as (q & Hq & E). rewrite Forall_forall in F.
    apply peer_string_inj in E; [subst q; exact Hq|apply F; apply I1; exact Hq|apply F; exact Hp].
Qed.

(** ** stored text *)
Lemma to_url_string : forall p, built_peer p -> to_url p = peer_string p.
Proof.
  intros p B. destruct (built_peer_spec p B) as (_ & _ & E). unfold to_url, peer_string. rewrite E. destruct (pe_onion p); reflexivity.
Qed.
Lemma retrieve_nil : forall file ps d, tpeers_retrieve file (tpeers_save file ps d) = Ok None.
Proof. intros. unfold tpeers_retrieve, retrieve_with, tpeers_save, iget, iput. destruct (bseq_spec file file); [reflexivity|congruence]. Qed.
Lemma split_join : forall ws, (forall w, In w ws -> ~ In x0a w) -> ws <> [] -> split x0a (join_lines ws) = ws.
Proof.
  induction ws as [|w ws IH]; intros H N; [congruence|]. destruct ws as [|w' ws].
  - cbn [join_lines]. apply split_none. apply H. left. reflexivity.
  - change (join_lines (w :: w' :: ws)) with (w ++ x0a :: join_lines (w' :: ws)).
    rewrite split_app by (apply H; left; reflexivity). rewrite IH; [reflexivity| |discriminate]. intros v Hv. apply H. right. exact Hv.
Qed.
Lemma digit_not_space : forall c, is_digit c -> ascii_space c = false /\ (b2n c < 128)%N.
Proof.
  intros c D. unfold is_digit in D. split; [|lia]. unfold ascii_space. rewrite !orb_false_iff.
  repeat split; apply beq_neq; intros ->; vm_compute in D; destruct D as [D1 D2]; try (apply D1; reflexivity); apply D2; reflexivity.
Qed.
Lemma ends_digit : forall n s, exists r c, s ++ ntoa n = r ++ [c] /\ is_digit c.
Proof.
  intros n s. pose proof (ntoa_digits n) as D. destruct (exists_last (ntoa_nonnil n)) as (r & c & E). exists (s ++ r), c. rewrite E in *.
  split; [apply app_assoc|]. rewrite Forall_forall in D. apply D. apply in_or_app. right. left. reflexivity.
Qed.
Lemma trim_url : forall p, built_peer p -> trim_space (to_url p) = to_url p /\ to_url p <> [].
Proof.
  intros p B. rewrite (to_url_string p B). unfold peer_string.
  assert (A : exists c s, (if pe_onion p then s2b "onion" else s2b "https") ++ sep ++ pe_host p ++ x3a :: ntoa (pe_port p) = c :: s /\
    ascii_space c = false /\ (b2n c < 128)%N).
  { destruct (pe_onion p); eexists; eexists; (split; [cbn; reflexivity|split; reflexivity]). }
  destruct A as (c & s & E & Sc & Lc). rewrite E.
  assert (Z : exists r z, c :: s = r ++ [z] /\ is_digit z).
  { rewrite <- E. replace ((if pe_onion p then s2b "onion" else s2b "https") ++ sep ++ pe_host p ++ x3a :: ntoa (pe_port p))
      with (((if pe_onion p then s2b "onion" else s2b "https") ++ sep ++ pe_host p ++ [x3a]) ++ ntoa (pe_port p)).
    - apply ends_digit.
    - rewrite <- !app_assoc. reflexivity. }
  destruct Z as (r & z & Ez & Dz). destruct (digit_not_space z Dz) as [Sz Lz].
  split; [|discriminate]. unfold trim_space. cbn [trim_left]. rewrite Sc. rewrite Ez, rev_app_distr. cbn [rev app trim_left]. rewrite Sz.
  cbn [rev]. rewrite rev_involutive. rewrite <- Ez at 1. rewrite last_last.
  destruct (N.leb_spec 128 (b2n c)); [lia|]. destruct (N.leb_spec 128 (b2n z)); [lia|]. reflexivity.
Qed.
Lemma url_no_newline : forall p, built_peer p -> ~ In x0a (pe_host p) -> ~ In x0a (to_url p).
Proof.
  intros p B N H. rewrite (to_url_string p B) in H. unfold peer_string in H. apply in_app_or in H as [H|H].
  - destruct (pe_onion p); cbn in H; intuition discriminate.
  - apply in_app_or in H as [H|H]; [cbn in H; intuition discriminate|]. apply in_app_or in H as [H|[H|H]]; [congruence|discriminate|].
    pose proof (ntoa_digits (pe_port p)) as D. rewrite Forall_forall in D. specialize (D _ H). vm_compute in D. destruct D as [D _]. apply D. reflexivity.
Qed.
Lemma lines_back : forall ps, Forall (fun p => built_peer p /\ ~ In x0a (pe_host p)) ps ->
  peer_lines (join_lines (map to_url ps)) = map to_url ps.
Proof.
  intros ps F. destruct ps as [|p ps]; [reflexivity|]. unfold peer_lines. rewrite split_join; [| |discriminate].
  - assert (M : map trim_space (map to_url (p :: ps)) = map to_url (p :: ps)).
    { rewrite map_map. apply map_ext_in. intros q Hq. rewrite Forall_forall in F. apply trim_url. apply F. exact Hq. }
    rewrite M. rewrite Forall_forall in F.
    assert (G : forall l, (forall q, In q l -> In q (p :: ps)) -> filter (fun l => negb (bseq l [])) (map to_url l) = map to_url l).
    { induction l as [|q l IH]; intro I; [reflexivity|]. cbn [map filter].
      destruct (trim_url q) as [_ N]; [apply F; apply I; left; reflexivity|]. apply bseq_neq in N. rewrite N. cbn [negb].
      rewrite IH; [reflexivity|]. intros v Hv. apply I. right. exact Hv. }
    apply G. auto.
  - intros w Hw. apply in_map_iff in Hw as (q & <- & Hq). rewrite Forall_forall in F. destruct (F q Hq) as [B N]. apply url_no_newline; assumption.
Qed.
(** the adapter gets the URLs of what was saved *)
Lemma urls_handed : forall adapter file ps d, Forall (fun p => built_peer p /\ ~ In x0a (pe_host p)) ps ->
  retrieve_with adapter file (tpeers_save file ps d) = adapter (map to_url ps).
Proof.
  intros adapter file ps d F. unfold retrieve_with, tpeers_save, iget, iput. rewrite bseq_refl. cbn [rbind]. rewrite (lines_back ps F). reflexivity.
Qed.
Lemma lines_handed : forall adapter file d, retrieve_with adapter file d = match d file with Some data => adapter (peer_lines data) | None => Err end.
Proof. intros adapter file d. unfold retrieve_with, iget. destruct (d file); reflexivity. Qed.
Lemma atoi_ntoa : forall n, atoi (ntoa n) = if (n <? 2 ^ 63)%N then Ok (Z.of_N n) else Err.
Proof.
  intro n. unfold atoi. pose proof (ntoa_digits n) as D. destruct (ntoa n) as [|c s] eqn:E; [exfalso; exact (ntoa_nonnil n E)|].
  assert (Dc : is_digit c) by (inversion D; assumption).
  destruct (beq c x2d) eqn:E1; [apply beq_eq in E1 as ->; exfalso; vm_compute in Dc; destruct Dc as [Dc _]; apply Dc; reflexivity|].
  destruct (beq c x2b) eqn:E2; [apply beq_eq in E2 as ->; exfalso; vm_compute in Dc; destruct Dc as [Dc _]; apply Dc; reflexivity|].
  rewrite <- E, digits_val_ntoa. destruct (N.ltb_spec n (2 ^ 63)).
  - replace ((- 2 ^ 63 <=? Z.of_N n) && (Z.of_N n <? 2 ^ 63))%Z with true by lia. reflexivity.
  - replace ((- 2 ^ 63 <=? Z.of_N n) && (Z.of_N n <? 2 ^ 63))%Z with false by lia. reflexivity.
Qed.
Lemma url_back : forall parse p, url_contract parse -> built_peer p -> plain_host (pe_host p) ->
  to_peer parse (to_url p) = if (pe_port p <? 2 ^ 63)%N then Ok p else Err.
Proof.
  intros parse p K B P. destruct (built_peer_spec p B) as (Hh & Hp & Hc). rewrite (to_url_string p B). unfold to_peer, peer_string.
  change (x3a :: ntoa (pe_port p)) with (s2b ":" ++ ntoa (pe_port p)). change sep with (s2b "://").
  rewrite K; [| |exact P|apply ntoa_nonnil|].
  - cbn [rbind]. rewrite atoi_ntoa. destruct (N.ltb_spec (pe_port p) (2 ^ 63)); [|reflexivity]. cbn [rbind].
    assert (U : u64_of_int (Z.of_N (pe_port p)) = pe_port p).
    { unfold u64_of_int. rewrite Z.mod_small by lia. apply N2Z.id. }
    rewrite U. unfold peer_now. destruct (bseq_spec (pe_host p) []); [congruence|]. destruct (N.eqb_spec (pe_port p) 0); [lia|]. cbn [negb].
    destruct p as [hh nn cc oo]. cbn [pe_host pe_port pe_clear pe_onion] in *. subst cc. destruct oo; reflexivity.
  - destruct (pe_onion p); auto.
  - apply forallb_forall. intros c Hcn. pose proof (ntoa_digits (pe_port p)) as D. rewrite Forall_forall in D. specialize (D _ Hcn).
    unfold is_digit in D. lia.
Qed.

(** ** saving *)
Lemma peers_save_is : forall order onion host port s, peers_save order onion host port s =
  if bseq host [] then Err else if (port =? 0)%N then Err
  else match s with Some l => Ok (Some (peers_now order (l ++ [Peer host port (negb onion) onion]))) | None => Err end.
Proof.
  intros. unfold peers_save, save_begin. rewrite peer_now_ok. destruct (bseq host []); [reflexivity|]. destruct (port =? 0)%N; [reflexivity|].
  cbn [rbind]. destruct s; reflexivity.
Qed.
Lemma save_adds : forall order onion host port l, any_order order -> Forall built_peer l -> (port < 2 ^ 64)%N -> host <> [] -> port <> 0%N ->
  exists l', peers_save order onion host port (Some l) = Ok (Some l') /\ NoDup l' /\ Forall built_peer l' /\
    (forall q, In q l' <-> In q l \/ q = Peer host port (negb onion) onion).
Proof.
  intros order onion host port l O F L Nh Np. rewrite peers_save_is. apply bseq_neq in Nh as Eh. rewrite Eh.
  destruct (N.eqb_spec port 0); [congruence|]. eexists. split; [reflexivity|].
  assert (B : built_peer (Peer host port (negb onion) onion)).
  { apply (peer_now_built host port onion); [exact L|]. rewrite peer_now_ok, Eh. destruct (N.eqb_spec port 0); [congruence|reflexivity]. }
  assert (F' : Forall built_peer (l ++ [Peer host port (negb onion) onion])) by (apply Forall_app; auto).
  destruct (peers_now_built order _ O F') as (N & I). split; [exact N|]. split.
  - rewrite Forall_forall in *. intros q Hq. apply F'. apply I. exact Hq.
  - intro q. rewrite I, in_app_iff. cbn [In]. intuition.
Qed.
Lemma save_history : forall order os l, any_order order -> NoDup l -> Forall built_peer l -> Forall (fun o => (snd o < 2 ^ 64)%N) os ->
  exists l', save_seq order os (Some l) = Some l' /\ NoDup l' /\ Forall built_peer l' /\
    (forall q, In q l' <-> In q l \/ exists o, In o os /\ asked o q).
Proof.
  intros order os l O. revert l. induction os as [|[[onion host] port] os IH]; intros l N F P.
  - exists l. split; [reflexivity|]. split; [exact N|]. split; [exact F|]. intro q. split; [auto|]. intros [H|(o & [] & _)]. exact H.
  - inversion P; subst. cbn [snd] in *. change (save_seq order ((onion, host, port) :: os) (Some l)) with
      (save_seq order os (save_one order (Some l) (onion, host, port))).
    destruct (bseq_spec host []) as [Eh|Eh]; [|destruct (N.eqb_spec port 0) as [Ep|Ep]].
    + assert (X : save_one order (Some l) (onion, host, port) = Some l) by (unfold save_one; rewrite peers_save_is; subst host; reflexivity).
      rewrite X. destruct (IH l N F) as (l' & E & N' & F' & I); [assumption|]. exists l'. repeat split; try assumption; intro H.
      * apply I in H as [H|(o & Ho & A)]; [left; exact H|right; exists o; split; [right; exact Ho|exact A]].
      * apply I. destruct H as [H|(o & [<-|Ho] & A)]; [left; exact H| |right; exists o; auto]. destruct A as (A & _). congruence.
    + assert (X : save_one order (Some l) (onion, host, port) = Some l).
      { unfold save_one; rewrite peers_save_is; subst port. destruct (bseq host []); reflexivity. }
      rewrite X. destruct (IH l N F) as (l' & E & N' & F' & I); [assumption|]. exists l'. repeat split; try assumption; intro H.
      * apply I in H as [H|(o & Ho & A)]; [left; exact H|right; exists o; split; [right; exact Ho|exact A]].
      * apply I. destruct H as [H|(o & [<-|Ho] & A)]; [left; exact H| |right; exists o; auto]. destruct A as (_ & A & _). congruence.
    + destruct (save_adds order onion host port l O F) as (l1 & E1 & N1 & F1 & I1); try assumption.
      assert (X : save_one order (Some l) (onion, host, port) = Some l1) by (unfold save_one; rewrite E1; reflexivity).
      rewrite X. destruct (IH l1 N1 F1) as (l' & E & N' & F' & I); [assumption|]. exists l'. repeat split; try assumption; intro H.
      * apply I in H as [H|(o & Ho & A)]; [apply I1 in H as [H| ->]|].
        -- left. exact H.
        -- right. exists (onion, host, port). split; [left; reflexivity|]. repeat split; assumption.
        -- right. exists o. split; [right; exact Ho|exact A].
      * apply I. destruct H as [H|(o & [<-|Ho] & A)]; [left; apply I1; left; exact H| |right; exists o; auto].
        left. apply I1. right. destruct A as (_ & _ & A). exact A.
Qed.
Lemma save_first : forall order os, save_seq order os None = None.
Proof.
  intros order. induction os as [|[[onion host] port] os IH]; [reflexivity|]. unfold save_seq in *. cbn [fold_left].
  assert (X : save_one order None (onion, host, port) = None).
  { unfold save_one. rewrite peers_save_is. destruct (bseq host []), (port =? 0)%N; reflexivity. }
  rewrite X. exact IH.
Qed.

(** ** at the same time *)
Lemma lost_update : forall order onion1 host1 port1 onion2 host2 port2 l p q, any_order order ->
  peer_now host1 port1 (negb onion1) onion1 = Ok p -> peer_now host2 port2 (negb onion2) onion2 = Ok q ->
  p <> q -> ~ In p l ->
  exists s, csteps (Some l, []) [p; q] (s, []) /\ exists l', s = Some l' /\ ~ In p l'.
Proof.
  intros order onion1 host1 port1 onion2 host2 port2 l p q O Ep Eq N M.
  exists (Some (peers_now order (l ++ [q]))). split.
  - apply (CS_more _ [p] (Some l, [l ++ [p]]) [q]).
    { apply (CS_save _ _ onion1 host1 port1). unfold save_begin. rewrite Ep. reflexivity. }
    apply (CS_more _ [q] (Some l, [l ++ [q]; l ++ [p]]) []).
    { apply (CS_save _ _ onion2 host2 port2). unfold save_begin. rewrite Eq. reflexivity. }
    apply (CS_more _ [] (Some (peers_now order (l ++ [p])), [l ++ [q]]) []).
    { apply (CS_end (Some l) [l ++ [q]] (l ++ [p]) [] order O). }
    apply (CS_more _ [] (Some (peers_now order (l ++ [q])), []) []).
    { apply (CS_end _ [] (l ++ [q]) [] order O). }
    constructor.
  - eexists. split; [reflexivity|]. destruct (peers_now_spec order (l ++ [q]) O) as (_ & I & _). intro H. apply I in H.
    apply in_app_or in H as [H|[H|[]]]; congruence.
Qed.
Lemma lost_to_round : forall order remote onion host port l all p, any_order order ->
  peer_now host port (negb onion) onion = Ok p -> ask_peers remote l = Ok all -> ~ In p all ->
  exists s, csteps (Some l, []) (all ++ [p]) (s, []) /\ exists l', s = Some l' /\ ~ In p l'.
Proof.
  intros order remote onion host port l all p O Ep A M. exists (Some (peers_now order all)). split.
  - apply (CS_more _ all (Some l, [all]) [p]).
    { apply (CS_round _ _ remote l); [reflexivity|exact A]. }
    apply (CS_more _ [p] (Some l, [l ++ [p]; all]) []).
    { apply (CS_save _ _ onion host port). unfold save_begin. rewrite Ep. reflexivity. }
    apply (CS_more _ [] (Some (peers_now order (l ++ [p])), [all]) []).
    { apply (CS_end (Some l) [] (l ++ [p]) [all] order O). }
    apply (CS_more _ [] (Some (peers_now order all), []) []).
    { apply (CS_end _ [] all [] order O). }
    constructor.
  - eexists. split; [reflexivity|]. destruct (peers_now_spec order all O) as (_ & I & _). intro H. apply I in H. congruence.
Qed.
Lemma ask_local : forall remote l all, ask_peers remote l = Ok all -> forall p, In p l -> In p all.
Proof.
  intros remote. induction l as [|q l IH]; intros all E p Hp; [destruct Hp|]. cbn [ask_peers] in E.
  apply rbind_Ok in E as (r & Er & E). apply rbind_Ok in E as (rest & Erest & E). injection E as <-.
  destruct Hp as [<-|Hp]; [left; reflexivity|right; apply in_or_app; right]. exact (IH rest Erest p Hp).
Qed.
Lemma ask_all : forall remote l all, ask_peers remote l = Ok all ->
  forall q, In q all <-> exists p, In p l /\ (q = p \/ exists r, remote p = Ok r /\ In q r).
Proof.
  intros remote. induction l as [|p l IH]; intros all E q.
  - injection E as <-. split; [intros []|intros (p & [] & _)].
  - cbn [ask_peers] in E. apply rbind_Ok in E as (r & Er & E). apply rbind_Ok in E as (rest & Erest & E). injection E as <-.
    cbn [In]. rewrite in_app_iff, (IH rest Erest). split.
    + intros [<-|[H|(p' & Hp' & H)]].
      * exists p. split; [left; reflexivity|left; reflexivity].
      * exists p. split; [left; reflexivity|right; exists r; auto].
      * exists p'. split; [right; exact Hp'|exact H].
    + intros (p' & [<-|Hp'] & H).
      * destruct H as [->|(r' & Er' & H)]; [left; reflexivity|right; left]. congruence.
      * right. right. exists p'. auto.
Qed.
Definition has (p : peer) (l : list peer) : Prop := exists q, In q l /\ peer_string q = peer_string p.
Lemma has_now : forall order p l, any_order order -> has p l -> has p (peers_now order l).
Proof.
  intros order p l O (q & Hq & E). destruct (peers_now_spec order l O) as (_ & _ & I). destruct (I q Hq) as (q' & Hq' & E').
  exists q'. split; [exact Hq'|congruence].
Qed.
Definition all_have (p : peer) (x : pstore * list (list peer)) : Prop :=
  (exists l, fst x = Some l /\ has p l) /\ Forall (has p) (snd x).
Lemma cstep_keeps : forall x l y p, cstep x l y -> all_have p x -> all_have p y.
Proof.
  intros x l y p H ((l0 & E0 & H0) & F). destruct H as [s pending onion host port l1 p1 Eb|s pending remote l1 all1 E1 E2|s a x1 b order O]; cbn [fst snd] in *.
  - split; [exists l0; auto|]. constructor; [|exact F]. subst s. unfold save_begin in Eb. apply rbind_Ok in Eb as (p' & _ & Eb). cbn [pretrieve rbind] in Eb.
    injection Eb as <- <-. destruct H0 as (q & Hq & E). exists q. split; [apply in_or_app; left; exact Hq|exact E].
  - split; [exists l0; auto|]. constructor; [|exact F]. subst s. injection E1 as <-. destruct H0 as (q & Hq & E).
    exists q. split; [exact (ask_local remote l0 all1 E2 q Hq)|exact E].
  - apply Forall_app in F as [Fa Fb]. inversion Fb as [|? ? Fx Fb']; subst. split; [|apply Forall_app; auto].
    eexists. split; [reflexivity|]. apply has_now; assumption.
Qed.
Lemma csteps_keep : forall x l y p, csteps x l y -> all_have p x -> all_have p y.
Proof. intros x l y p H. induction H; intro A; [exact A|]. apply IHcsteps. eapply cstep_keeps; eassumption. Qed.
Lemma quiet_keeps : forall l p added s pending, has p l -> csteps (Some l, []) added (s, pending) ->
  exists l', s = Some l' /\ has p l'.
Proof.
  intros l p added s pending H S. apply (csteps_keep _ _ _ p) in S as ((l' & E & H') & _); [exists l'; auto|].
  split; [exists l; auto|constructor].
Qed.
(** nothing is invented and nothing is written twice *)
Definition all_from (K : list peer) (x : pstore * list (list peer)) : Prop :=
  (forall l, fst x = Some l -> incl l K) /\ Forall (fun l => incl l K) (snd x).
Lemma cstep_from : forall x l y K, cstep x l y -> all_from K x -> all_from (K ++ l) y.
Proof.
  intros x l y K H (A & F). 
  assert (W : forall m, incl m K -> incl m (K ++ l)) by (intros m Hm q Hq; apply in_or_app; left; apply Hm; exact Hq).
  destruct H as [s pending onion host port l1 p1 Eb|s pending remote l1 all1 E1 E2|s a x1 b order O]; cbn [fst snd] in *.
  - split; [intros m Em; apply W; auto|]. constructor; [|eapply Forall_impl; [|exact F]; auto].
    unfold save_begin in Eb. apply rbind_Ok in Eb as (p' & _ & Eb). apply rbind_Ok in Eb as (l' & El & Eb). injection Eb as -> ->.
    destruct s as [l0|]; [|discriminate]. injection El as ->. apply incl_app; [apply W; auto|]. intros q Hq. apply in_or_app. right. exact Hq.
  - split; [intros m Em; apply W; auto|]. constructor; [|eapply Forall_impl; [|exact F]; auto]. intros q Hq. apply in_or_app. right. exact Hq.
  - apply Forall_app in F as [Fa Fb]. inversion Fb as [|? ? Fx Fb']; subst. rewrite app_nil_r in *. split.
    + intros m Em. injection Em as <-. destruct (peers_now_spec order x1 O) as (_ & I & _). intros q Hq. apply Fx. apply I. exact Hq.
    + apply Forall_app. auto.
Qed.
Lemma csteps_from : forall x l y K, csteps x l y -> all_from K x -> all_from (K ++ l) y.
Proof.
  intros x l y K H. revert K. induction H as [x|x l y l' z S H IH]; intros K A; [rewrite app_nil_r; exact A|].
  rewrite app_assoc. apply IH. eapply cstep_from; eassumption.
Qed.
Lemma cstep_distinct : forall x l y, cstep x l y -> (forall m, fst x = Some m -> NoDup (map peer_string m)) ->
  forall m, fst y = Some m -> NoDup (map peer_string m).
Proof.
  intros x l y H A. destruct H as [s pending onion host port l1 p1 Eb|s pending remote l1 all1 E1 E2|s a x1 b order O]; cbn [fst] in *; intros m Em; auto.
  injection Em as <-. apply peers_now_spec. exact O.
Qed.
Lemma csteps_distinct : forall x l y, csteps x l y -> (forall m, fst x = Some m -> NoDup (map peer_string m)) ->
  forall m, fst y = Some m -> NoDup (map peer_string m).
Proof. intros x l y H. induction H; intros A m Em; [auto|]. eapply IHcsteps; [|exact Em]. eapply cstep_distinct; eassumption. Qed.
Lemma any_schedule : forall l added s pending, NoDup (map peer_string l) -> csteps (Some l, []) added (s, pending) ->
  exists l', s = Some l' /\ incl l' (l ++ added) /\ NoDup (map peer_string l').
Proof.
  intros l added s pending N S.
  assert (A : all_from (l ++ added) (s, pending)).
  { eapply csteps_from; [exact S|]. split; [intros m Em; injection Em as <-; apply incl_refl|constructor]. }
  assert (E : exists l', s = Some l').
  { clear A N. remember (Some l, []) as x eqn:Ex. remember (s, pending) as y eqn:Ey. assert (G : exists l', fst x = Some l') by (subst x; exists l; reflexivity).
    clear Ex. revert s pending Ey. induction S as [x|x l1 y l2 z S H IH]; intros s pending Ey.
    - subst x. exact G.
    - apply (IH) with (pending := pending); [|exact Ey]. destruct G as [l' G]. destruct S; cbn [fst] in *; eauto. }
  destruct E as [l' ->]. exists l'. split; [reflexivity|]. split.
  - apply A. reflexivity.
  - eapply csteps_distinct; [exact S| |reflexivity]. intros m Em. injection Em as <-. exact N.
Qed.

(** ** daemons *)
Section Daemon.
Context {S : Type} (round : S -> pass S).
Definition is_wake (e : devent) : bool := match e with Wake => true | Stop => false end.
Lemma stop_ignored : forall es d, dm_started d = true -> dm_run round d es = dm_run round d (filter is_wake es).
Proof.
  induction es as [|e es IH]; intros d H; [reflexivity|]. destruct e; cbn [filter is_wake dm_run fold_left].
  - apply IH. cbn [dm_step]. destruct (dm_result d); [exact H|]. rewrite H. destruct (round (dm_state d)); reflexivity.
  - destruct d as [st s n r]. cbn [dm_started] in H. subst st. cbn [dm_step dm_state dm_rounds dm_result]. apply IH. reflexivity.
Qed.
Lemma run_started : forall es d, dm_started d = true -> dm_started (dm_run round d es) = true.
Proof.
  induction es as [|e es IH]; intros d H; [exact H|]. cbn [dm_run fold_left]. apply IH. destruct e; cbn [dm_step]; [|reflexivity].
  destruct (dm_result d); [exact H|]. rewrite H. destruct (round (dm_state d)); reflexivity.
Qed.
Lemma run_ended : forall es d r, dm_result d = Some r ->
  dm_result (dm_run round d es) = Some r /\ dm_rounds (dm_run round d es) = dm_rounds d /\ dm_state (dm_run round d es) = dm_state d.
Proof.
  induction es as [|e es IH]; intros d r H; [auto|]. cbn [dm_run fold_left]. destruct e; cbn [dm_step].
  - rewrite H. apply IH. exact H.
  - apply (IH (Daemon true (dm_state d) (dm_rounds d) (dm_result d)) r). exact H.
Qed.
Lemma run_counts : forall es d, dm_started d = true -> dm_result (dm_run round d es) = None ->
  dm_rounds (dm_run round d es) = dm_rounds d + length (filter is_wake es).
Proof.
  induction es as [|e es IH]; intros d H R; [cbn; lia|].
  change (dm_run round d (e :: es)) with (dm_run round (dm_step round d e) es) in *. cbn [filter]. destruct e; cbn [is_wake length].
  - cbn [dm_step] in *. destruct (dm_result d) eqn:E.
    + destruct (run_ended es d r E) as (X & _). congruence.
    + rewrite H in *. destruct (round (dm_state d)) as [s|r s] eqn:Er.
      * rewrite (IH (Daemon true s (Datatypes.S (dm_rounds d)) None)); [cbn [dm_rounds]; lia|reflexivity|exact R].
      * destruct (run_ended es (Daemon true s (Datatypes.S (dm_rounds d)) (Some r)) r eq_refl) as (X & _). congruence.
  - cbn [dm_step] in *. rewrite (IH (Daemon true (dm_state d) (dm_rounds d) (dm_result d))); [reflexivity|reflexivity|exact R].
Qed.
End Daemon.

(** *** peers *)
Lemma peers_round_is : forall order remote s, peers_round order remote s =
  match (let! l := pretrieve s in ask_peers remote l) with
  | Ok all => GoOn (Some (peers_now order all))
  | Err => Return Err s
  | Panic => Return Panic s
  end.
Proof. intros. unfold peers_round. destruct (pretrieve s); reflexivity. Qed.
Lemma ask_ok : forall remote l, (forall p, In p l -> exists r, remote p = Ok r) -> exists all, ask_peers remote l = Ok all.
Proof.
  intros remote. induction l as [|p l IH]; intro H; [exists []; reflexivity|]. destruct (H p (or_introl eq_refl)) as [r Er].
  destruct IH as [all Ea]; [intros q Hq; apply H; right; exact Hq|]. exists (p :: r ++ all). cbn [ask_peers]. rewrite Er. cbn [rbind]. rewrite Ea. reflexivity.
Qed.
Lemma ask_fails : forall remote l p, In p l -> (forall r, remote p <> Ok r) -> forall all, ask_peers remote l <> Ok all.
Proof.
  intros remote. induction l as [|q l IH]; intros p Hp N all E; [destruct Hp|]. cbn [ask_peers] in E.
  apply rbind_Ok in E as (r & Er & E). apply rbind_Ok in E as (rest & Erest & E). destruct Hp as [<-|Hp]; [exact (N r Er)|].
  exact (IH p Hp N rest Erest).
Qed.
Lemma round_collects : forall order remote l, any_order order -> (forall p, In p l -> exists r, remote p = Ok r) ->
  exists l', peers_round order remote (Some l) = GoOn (Some l') /\ NoDup (map peer_string l') /\
    (forall q, In q l' -> exists p, In p l /\ (q = p \/ exists r, remote p = Ok r /\ In q r)) /\
    (forall p q, In p l -> (q = p \/ exists r, remote p = Ok r /\ In q r) -> has q l').
Proof.
  intros order remote l O H. destruct (ask_ok remote l H) as [all A]. rewrite peers_round_is. cbn [pretrieve rbind]. rewrite A.
  eexists. split; [reflexivity|]. destruct (peers_now_spec order all O) as (N & I1 & I2). split; [exact N|]. split.
  - intros q Hq. apply I1 in Hq. apply (ask_all remote l all A). exact Hq.
  - intros p q Hp Hq. apply I2. apply (ask_all remote l all A). exists p. auto.
Qed.
Lemma round_fails : forall order remote l p, In p l -> (forall r, remote p <> Ok r) ->
  exists e, peers_round order remote (Some l) = Return e (Some l) /\ e <> Ok tt.
Proof.
  intros order remote l p Hp N. rewrite peers_round_is. cbn [pretrieve rbind]. destruct (ask_peers remote l) as [all| |] eqn:E.
  - exfalso. exact (ask_fails remote l p Hp N all E).
  - exists Err. split; [reflexivity|discriminate].
  - exists Panic. split; [reflexivity|discriminate].
Qed.

(** *** buckets *)
Section Buckets.
Context {I S : Type} (retrieve : S -> res I) (update : I -> S -> res S) (peers : res (list peer)) (follows : I -> list hash)
  (fetch : list peer -> hash -> res bucket) (follow : bucket -> I -> res I).
Lemma follow_all_ok : forall f hs i i', follow_all f follow hs i = Ok i' <->
  exists bs, Forall2 (fun h b => f h = Ok b) hs bs /\ fold_left (fun r b => rbind r (follow b)) bs (Ok i) = Ok i'.
Proof.
  intro f.
  assert (X : forall bs r, (forall i, r <> Ok i) -> forall i, fold_left (fun r b => rbind r (follow b)) bs r <> Ok i).
  { induction bs as [|b bs IH]; intros r N i E; [exact (N i E)|]. cbn [fold_left] in E. refine (IH _ _ i E).
    intros i0 E0. destruct r; [exact (N a eq_refl)|discriminate|discriminate]. }
  induction hs as [|h hs IH]; intros i i'; cbn [follow_all].
  - split; [intro E; exists []; split; [constructor|exact E]|]. intros (bs & F & E). inversion F; subst. exact E.
  - split.
    + intro E. apply rbind_Ok in E as (b & Eb & E). apply rbind_Ok in E as (i1 & Ei & E). apply IH in E as (bs & F & E).
      exists (b :: bs). split; [constructor; assumption|]. cbn [fold_left rbind]. rewrite Ei. exact E.
    + intros (bs & F & E). inversion F as [|? b ? bs' Eb F']; subst. rewrite Eb. cbn [rbind]. cbn [fold_left rbind] in E.
      destruct (follow b i) as [i1| |] eqn:Ei.
      * cbn [rbind]. apply IH. exists bs'. auto.
      * exfalso. refine (X bs' Err _ i' E). intros i0. discriminate.
      * exfalso. refine (X bs' Panic _ i' E). intros i0. discriminate.
Qed.
Lemma buckets_round_ok : forall s s', buckets_round retrieve update peers follows fetch follow s = GoOn s' <->
  exists i ps bs i', retrieve s = Ok i /\ peers = Ok ps /\ Forall2 (fun h b => fetch ps h = Ok b) (follows i) bs /\
    fold_left (fun r b => rbind r (follow b)) bs (Ok i) = Ok i' /\ update i' s = Ok s'.
Proof.
  intros s s'. unfold buckets_round. split.
  - match goal with |- match ?x with _ => _ end = _ -> _ => destruct x as [s1| |] eqn:E; try discriminate end.
    intro H. injection H as ->. apply rbind_Ok in E as (i & Ei & E). apply rbind_Ok in E as (ps & Ep & E). apply rbind_Ok in E as (i' & Ef & E).
    apply follow_all_ok in Ef as (bs & F & Ef). exists i, ps, bs, i'. auto.
  - intros (i & ps & bs & i' & E1 & E2 & F & E3 & E4). rewrite E1, E2. cbn [rbind].
    rewrite (proj2 (follow_all_ok (fetch ps) (follows i) i i')) by (exists bs; auto). cbn [rbind]. rewrite E4. reflexivity.
Qed.
Lemma buckets_round_fails : forall s r s', buckets_round retrieve update peers follows fetch follow s = Return r s' ->
  s' = s /\ r <> Ok tt.
Proof.
  intros s r s'. unfold buckets_round. match goal with |- match ?x with _ => _ end = _ -> _ => destruct x as [s1| |]; try discriminate end;
    intro H; injection H as <- <-; split; try reflexivity; discriminate.
Qed.
End Buckets.

(** *** chains *)
Section WithCurve.
Context {C : Curve}.
Lemma int_small' : forall n, (n < 2 ^ 63)%N -> int_of_u64 n = Z.of_N n.
Proof. exact int_small. Qed.
Lemma diff_small : forall a b, (a < 2 ^ 63)%N -> (b < 2 ^ 63)%N -> int_of_u64 (u64 (a + 2 ^ 64 - b)) = (Z.of_N a - Z.of_N b)%Z.
Proof.
  intros a b A B. unfold u64. destruct (N.leb_spec b a) as [L|L].
  - replace (a + 2 ^ 64 - b)%N with (a - b + 1 * 2 ^ 64)%N by lia. rewrite N.mod_add by discriminate. rewrite N.mod_small by lia.
    rewrite int_small by lia. lia.
  - rewrite N.mod_small by lia. unfold int_of_u64. 
    destruct (N.ltb_spec (a + 2 ^ 64 - b) (2 ^ 63)); [lia|]. lia.
Qed.
Lemma biggest_spec : forall local ask ps diff best r,
  (local < 2 ^ 63)%N -> (forall p r, In p ps -> ask p = Ok r -> (ch_total (rc_chain r) < 2 ^ 63)%N) ->
  biggest (C := C) local ask ps diff best = Ok r ->
  (r = best /\ forall p r', In p ps -> ask p = Ok r' -> (Z.of_N (ch_total (rc_chain r')) - Z.of_N local <= diff)%Z) \/
  (exists p x, r = Some x /\ In p ps /\ ask p = Ok x /\ (diff < Z.of_N (ch_total (rc_chain x)) - Z.of_N local)%Z /\
     forall p' r', In p' ps -> ask p' = Ok r' -> (ch_total (rc_chain r') <= ch_total (rc_chain x))%N).
Proof.
  intros local ask ps. induction ps as [|p ps IH]; intros diff best r L T E; cbn [biggest] in E.
  - injection E as <-. left. split; [reflexivity|]. intros p r' [].
  - apply rbind_Ok in E as (x & Ex & E). pose proof (T p x (or_introl eq_refl) Ex) as Tx. rewrite diff_small in E by assumption.
    assert (T' : forall p r, In p ps -> ask p = Ok r -> (ch_total (rc_chain r) < 2 ^ 63)%N) by (intros q r' Hq; apply T; right; exact Hq).
    destruct (Z.ltb_spec diff (Z.of_N (ch_total (rc_chain x)) - Z.of_N local)) as [B|B].
    + apply IH in E as [(-> & M)|(q & y & -> & Hq & Ey & By & M)]; [| |exact L|exact T'].
      * right. exists p, x. repeat split; [left; reflexivity|exact Ex|exact B|]. intros p' r' [<-|Hp'] Er.
        -- assert (r' = x) by congruence. subst r'. apply N.le_refl.
        -- specialize (M p' r' Hp' Er). lia.
      * right. exists q, y. repeat split; [right; exact Hq|exact Ey|lia|]. intros p' r' [<-|Hp'] Er.
        -- assert (r' = x) by congruence. subst r'. lia.
        -- exact (M p' r' Hp' Er).
    + apply IH in E as [(-> & M)|(q & y & -> & Hq & Ey & By & M)]; [| |exact L|exact T'].
      * left. split; [reflexivity|]. intros p' r' [<-|Hp'] Er.
        -- assert (r' = x) by congruence. subst r'. exact B.
        -- exact (M p' r' Hp' Er).
      * right. exists q, y. repeat split; [right; exact Hq|exact Ey|exact By|]. intros p' r' [<-|Hp'] Er.
        -- assert (r' = x) by congruence. subst r'. lia.
        -- exact (M p' r' Hp' Er).
Qed.
Lemma fetch_upgrades : forall S at_index (upgrade : mined_link -> S -> res S) local n i s,
  (0 <= local)%Z -> (0 <= i)%Z -> (local + i + Z.of_nat n < 2 ^ 63)%Z ->
  fetch_links at_index upgrade local n i s =
  upgrades upgrade (map (fun k => at_index (Z.to_N (local + i) + N.of_nat k)%N) (seq 0 n)) s.
Proof.
  intros S at_index upgrade local n. induction n as [|n IH]; intros i s Hl Hi Hn; [reflexivity|].
  cbn [fetch_links seq map upgrades]. rewrite int64_small by lia.
  replace (u64_of_int (local + i)) with (Z.to_N (local + i) + N.of_nat 0)%N
    by (unfold u64_of_int; rewrite Z.mod_small by lia; lia).
  destruct (at_index (Z.to_N (local + i) + N.of_nat 0)%N) as [c| |]; [|reflexivity|reflexivity].
  destruct (upgrade (ch_head c) s) as [s1| |]; [|reflexivity|reflexivity]. rewrite IH by lia. f_equal.
  rewrite <- seq_shift, map_map. apply map_ext. intro k. f_equal. lia.
Qed.
Lemma round_upgrades : forall S (retrieve : S -> res chain) upgrade peers ask s local ps r,
  retrieve s = Ok local -> peers = Ok ps -> biggest (ch_total local) ask ps 0 None = Ok (Some r) ->
  (ch_height local < 2 ^ 63)%N -> (ch_height (rc_chain r) < 2 ^ 63)%N ->
  chains_round retrieve upgrade peers ask s =
  let '(o, s') := upgrades upgrade (map (rc_at r) (indices (ch_height local) (ch_height (rc_chain r)))) s in Return o s'.
Proof.
  intros S retrieve upgrade peers ask s local ps r E1 E2 E3 H1 H2. unfold chains_round. rewrite E1. cbn [rbind]. rewrite E2. cbn [rbind]. rewrite E3. cbn [rbind].
  rewrite !int_small by assumption. unfold indices. rewrite map_map.
  assert (D : Z.to_nat (int64 (Z.of_N (ch_height (rc_chain r)) - Z.of_N (ch_height local))) = N.to_nat (ch_height (rc_chain r) - ch_height local)).
  { generalize dependent (ch_height (rc_chain r)). generalize dependent (ch_height local). clear. intros a A b B.
    destruct (N.leb_spec a b); [rewrite int64_small by lia; lia|].
    unfold int64. rewrite <- (Z_mod_plus_full _ 1), Z.mod_small by lia. unfold int_of_u64.
    destruct (N.ltb_spec (Z.to_N (Z.of_N b - Z.of_N a + 1 * 2 ^ 64)) (2 ^ 63)); lia. }
  rewrite D. rewrite fetch_upgrades by lia. rewrite Z.add_0_r, N2Z.id. reflexivity.
Qed.

Lemma biggest_same : forall local ask ask' ps diff best best', (forall p, In p ps -> same_but_newest (ask p) (ask' p)) ->
  match best, best' with Some a, Some b => same_but_newest (Ok a) (Ok b) | None, None => True | _, _ => False end ->
  match biggest local ask ps diff best, biggest local ask' ps diff best' with
  | Ok (Some a), Ok (Some b) => same_but_newest (Ok a) (Ok b)
  | a, b => a = b
  end.
Proof.
  intros local ask ask' ps. induction ps as [|p ps IH]; intros diff best best' H B; cbn [biggest].
  - destruct best, best'; try contradiction; [exact B|reflexivity].
  - pose proof (H p (or_introl eq_refl)) as Hp. assert (H' : forall p, In p ps -> same_but_newest (ask p) (ask' p)) by (intros q Hq; apply H; right; exact Hq).
    destruct (ask p) as [a| |] eqn:E1, (ask' p) as [b| |] eqn:E2; try discriminate; try reflexivity; cbn [rbind].
    pose proof Hp as Hp'. destruct Hp as (Ec & _). rewrite <- Ec.
    destruct (diff <? int_of_u64 (u64 (ch_total (rc_chain a) + 2 ^ 64 - local)))%Z; apply IH; assumption.
Qed.
Lemma indices_below : forall a b i, In i (indices a b) -> (i < b)%N.
Proof. intros a b i H. unfold indices in H. apply in_map_iff in H as (k & <- & H). apply in_seq in H. lia. Qed.
Lemma indices_spec : forall a b i, In i (indices a b) <-> (a <= i < b)%N.
Proof.
  intros a b i. unfold indices. rewrite in_map_iff. split.
  - intros (k & <- & H). apply in_seq in H. lia.
  - intro H. exists (N.to_nat (i - a)). split; [lia|]. apply in_seq. lia.
Qed.
Lemma newest_never : forall S (retrieve : S -> res chain) upgrade peers ask ask' s,
  (forall c, retrieve s = Ok c -> ch_height c < 2 ^ 63)%N ->
  (forall p, same_but_newest (ask p) (ask' p)) ->
  chains_round retrieve upgrade peers ask s = chains_round retrieve upgrade peers ask' s.
Proof.
  intros S retrieve upgrade peers ask ask' s L H.
  destruct (retrieve s) as [local| |] eqn:E1; [|unfold chains_round; rewrite E1; reflexivity|unfold chains_round; rewrite E1; reflexivity].
  destruct peers as [ps| |]; [|unfold chains_round; rewrite E1; reflexivity|unfold chains_round; rewrite E1; reflexivity].
  pose proof (biggest_same (ch_total local) ask ask' ps 0 None None (fun p _ => H p) Logic.I) as B.
  destruct (biggest (ch_total local) ask ps 0 None) as [[a|]| |] eqn:Ea, (biggest (ch_total local) ask' ps 0 None) as [[b|]| |] eqn:Eb;
    try discriminate; try (unfold chains_round; rewrite E1; cbn [rbind]; rewrite Ea, Eb; reflexivity).
  destruct B as (Ec & Hc & At).
  rewrite (round_upgrades S retrieve upgrade (Ok ps) ask s local ps a E1 eq_refl Ea (L local eq_refl) Hc).
  rewrite (round_upgrades S retrieve upgrade (Ok ps) ask' s local ps b E1 eq_refl Eb (L local eq_refl)) by (rewrite <- Ec; exact Hc).
  rewrite <- Ec. rewrite (map_ext_in (rc_at a) (rc_at b)); [reflexivity|]. intros i Hi. apply indices_below in Hi. apply At. lia.
Qed.
Lemma indices_cons : forall a b, (a < b)%N -> indices a b = a :: indices (a + 1) b.
Proof.
  intros a b H. unfold indices. replace (N.to_nat (b - a)) with (Datatypes.S (N.to_nat (b - (a + 1)))) by lia. cbn [seq map]. f_equal; [lia|].
  rewrite <- seq_shift, map_map. apply map_ext. intro k. lia.
Qed.
Lemma refetch_stuck : forall S (retrieve : S -> res chain) upgrade peers ask s local ps r,
  retrieve s = Ok local -> peers = Ok ps -> biggest (ch_total local) ask ps 0 None = Ok (Some r) ->
  (ch_height local < ch_height (rc_chain r))%N -> (ch_height (rc_chain r) < 2 ^ 63)%N ->
  (forall i c, rc_at r i = Ok c -> ch_height c = i) ->
  (forall m s0 c, retrieve s0 = Ok c -> ln_index (ml_link m) <> (ch_height c + 1)%N -> upgrade m s0 = Err) ->
  exists e, chains_round retrieve upgrade peers ask s = Return e s /\ e <> Ok tt.
Proof.
  intros S retrieve upgrade peers ask s local ps r E1 E2 E3 L H A U.
  rewrite (round_upgrades S retrieve upgrade peers ask s local ps r E1 E2 E3) by lia.
  rewrite indices_cons by exact L. cbn [map upgrades]. destruct (rc_at r (ch_height local)) as [c| |] eqn:Ec.
  - rewrite (U (ch_head c) s local E1). { exists Err. split; [reflexivity|discriminate]. }
    pose proof (A _ _ Ec) as X. unfold ch_height in X at 1. rewrite X. lia.
  - exists Err. split; [reflexivity|discriminate].
  - exists Panic. split; [reflexivity|discriminate].
Qed.
Lemma round_ends : forall S (retrieve : S -> res chain) upgrade peers ask s local ps r,
  retrieve s = Ok local -> peers = Ok ps -> biggest (ch_total local) ask ps 0 None = Ok (Some r) ->
  exists o s', chains_round retrieve upgrade peers ask s = Return o s'.
Proof.
  intros S retrieve upgrade peers ask s local ps r E1 E2 E3. unfold chains_round. rewrite E1, E2. cbn [rbind]. rewrite E3. cbn [rbind].
  destruct (fetch_links _ _ _ _ _ _) as [o s']. eauto.
Qed.
Lemma upgrades_ok : forall S (upgrade : mined_link -> S -> res S) answers s s', upgrades upgrade answers s = (Ok tt, s') <->
  exists cs, Forall2 (fun a c => a = Ok c) answers cs /\ fold_left (fun r c => rbind r (upgrade (ch_head c))) cs (Ok s) = Ok s'.
Proof.
  intros S upgrade.
  assert (X : forall cs r, (forall i, r <> Ok i) -> forall i, fold_left (fun r c => rbind r (upgrade (ch_head c))) cs r <> Ok i).
  { induction cs as [|b bs IH]; intros r N i E; [exact (N i E)|]. cbn [fold_left] in E. refine (IH _ _ i E).
    intros i0 E0. destruct r; [exact (N a eq_refl)|discriminate|discriminate]. }
  induction answers as [|a answers IH]; intros s s'; cbn [upgrades].
  - split; [intro E; injection E as <-; exists []; split; [constructor|reflexivity]|]. intros (cs & F & E). inversion F; subst. injection E as <-. reflexivity.
  - split.
    + destruct a as [c| |]; try discriminate. destruct (upgrade (ch_head c) s) as [s1| |] eqn:Eu; try discriminate. intro E. apply IH in E as (cs & F & E).
      exists (c :: cs). split; [constructor; [reflexivity|exact F]|]. cbn [fold_left rbind]. rewrite Eu. exact E.
    + intros (cs & F & E). inversion F as [|? c ? cs' Ec F']; subst. cbn [fold_left rbind] in E.
      destruct (upgrade (ch_head c) s) as [s1| |] eqn:Eu.
      * apply IH. exists cs'. auto.
      * exfalso. refine (X cs' Err _ s' E). intros i0. discriminate.
      * exfalso. refine (X cs' Panic _ s' E). intros i0. discriminate.
Qed.
End WithCurve.
