From Coq Require Import Lia ZifyBool ZifyNat ZifyN.
From Verif Require Import Base BaseFacts HashModel HashSpec HashProofs EntitiesModel SignModel SignSpec PiastresModel PiastresSpec PiastresProofs
  JsonModel JsonProofs TimeModel MemJsonModel CodecProofs MemSpec MemJsonProofs TransferModel TransferProofs IdentityModel IdentitySpec IdentityProofs
  CancelModel CancelSpec.

Section WithCurve.
Context {C : Curve}.
Lemma tcancel_now_iff : forall now h e l sigs created (t : tcancel C), tcancel_now now h e l sigs created = Ok t <->
  exists h' e' l' s ss, h = Some h' /\ e = Some e' /\ l = Some l' /\ sigs = Some (s :: ss) /\
    t = TCancel (Immutable h' (time_of now created)) e' l' (s :: ss).
Proof.
  intros now h e l sigs created t. split.
  - intro E. destruct h as [h|], e as [e|], l as [l|], sigs as [[|s ss]|]; cbn [tcancel_now] in E; try discriminate.
    rewrite immutable_now_some in E. injection E as <-. exists h, e, l, s, ss. repeat split.
  - intros (h' & e' & l' & s & ss & -> & -> & -> & -> & ->). cbn [tcancel_now]. rewrite immutable_now_some. reflexivity.
Qed.
Lemma tcancel_codec : codec good_tcancel (e_tcancel (C := C)) d_tcancel.
Proof.
  intros [[h c] e l sigs] j (H1 & H2 & H3 & H4 & H5 & H6) E. unfold e_tcancel in E. unfold tn_hash in H1.
  cbn [tn_im im_hash tn_expense tn_lock tn_sigs im_created] in *. clear H6.
  change (hash64 h) in H1. change (hash64 e) in H2. change (hash64 l) in H3. change (Forall readable sigs) in H5.
  pose proof (fc_sigs (C := C)) as KP. tcodec E. unfold d_tcancel. tdecode.
  destruct sigs; [congruence|reflexivity].
Qed.
Lemma e_tcancel_yes : forall t : tcancel C, good_tcancel t -> yes (marshal e_tcancel t).
Proof. intros t (_ & _ & _ & _ & _ & D). apply marshal_yes. unfold e_tcancel. apply jstruct_yes; repeat (constructor; [cbn [snd]|]); try apply Forall_nil;
  try first [apply jhash_yes | (apply jtime_yes; assumption)]. apply jlist_yes. intros x _. apply jstr_yes. Qed.
(** without deletions *)
Lemma cancel_history : forall (ts : list (tcancel C)) h, Forall good_tcancel ts ->
  cancel_retrieve h (part_runs e_tcancel tn_hash (map SavePart ts) (fun _ => None)) =
  part_answer (part_last tn_hash h (map SavePart ts)).
Proof.
  intros ts h F. apply (part_history good_tcancel e_tcancel d_tcancel tn_hash tcancel_codec e_tcancel_yes).
  apply Forall_map. exact F.
Qed.
Lemma part_last_saved : forall (ts : list (tcancel C)) h,
  part_last tn_hash h (map SavePart ts) = find (fun t => bseq (tn_hash t) h) (rev ts).
Proof.
  intros ts h. unfold part_last. rewrite <- fold_left_rev_right. rewrite <- map_rev. induction (rev ts) as [|t l IH]; [reflexivity|].
  cbn [map fold_right find]. rewrite IH. cbn [part_step]. reflexivity.
Qed.
Lemma cancel_saved : forall (ts : list (tcancel C)) h, Forall good_tcancel ts ->
  cancel_retrieve h (part_runs e_tcancel tn_hash (map SavePart ts) (fun _ => None)) =
  match find (fun t => bseq (tn_hash t) h) (rev ts) with Some t => Ok t | None => Err end.
Proof. intros ts h F. rewrite cancel_history by exact F. rewrite part_last_saved. reflexivity. Qed.
Lemma cancel_save_one : forall (t : tcancel C) d, good_tcancel t ->
  exists d', cancel_save t d = Ok d' /\ forall h, cancel_retrieve h d' = if bseq (tn_hash t) h then Ok t else cancel_retrieve h d.
Proof.
  intros t d G. destruct (e_tcancel_yes t G) as [s E]. unfold cancel_save, part_save. rewrite E. cbn [rbind]. eexists. split; [reflexivity|].
  intro h. unfold cancel_retrieve, part_retrieve, iput, iget. destruct (bseq (tn_hash t) h) eqn:B.
  - apply bseq_eq in B. subst h. rewrite bseq_refl. cbn [rbind]. exact (unmarshal_marshal _ _ _ _ _ _ tcancel_codec G E).
  - destruct (bseq (hash_string (tn_hash t)) (hash_string h)) eqn:B'; [|reflexivity].
    apply bseq_eq, hash_string_inj in B'. subst h. rewrite bseq_refl in B. discriminate B.
Qed.
Lemma cancel_decoded : forall j (t : tcancel C), d_tcancel j = Ok t -> tn_sigs t <> [] /\ length (tn_hash t) = 64 /\ length (tn_expense t) = 64 /\ length (tn_lock t) = 64.
Proof.
  intros j t E. unfold d_tcancel in E. apply rbind_Ok in E as (m & _ & E). apply rbind_Ok in E as (h & Eh & E). apply rbind_Ok in E as (e & Ee & E).
  apply rbind_Ok in E as (l & El & E). apply rbind_Ok in E as (sigs & _ & E). apply rbind_Ok in E as (c & _ & E).
  apply tcancel_now_iff in E as (h' & e' & l' & s & ss & X1 & X2 & X3 & _ & ->). injection X1 as <-. injection X2 as <-. injection X3 as <-.
  unfold tn_hash. cbn [tn_sigs tn_im im_hash tn_expense tn_lock].
  assert (D : forall k x, field k dhash m = Ok x -> length x = 64).
  { intros k x H. unfold field, dhash in H. apply rbind_Ok in H as (str & _ & H). eapply FromString_hash64. exact H. }
  split; [discriminate|]. split; [exact (D _ _ Eh)|]. split; [exact (D _ _ Ee)|exact (D _ _ El)].
Qed.
Lemma cancel_retrieved : forall h d (t : tcancel C), cancel_retrieve h d = Ok t ->
  tn_sigs t <> [] /\ length (tn_hash t) = 64 /\ length (tn_expense t) = 64 /\ length (tn_lock t) = 64.
Proof.
  intros h d t E. unfold cancel_retrieve, part_retrieve in E. apply rbind_Ok in E as (js & _ & E). unfold unmarshal in E.
  destruct (jparse js) as [j|]; [|discriminate]. exact (cancel_decoded [j] t E).
Qed.
Lemma cancel_retrieve_no_panic : forall h d, cancel_retrieve (C := C) h d <> Panic.
Proof.
  intros h d. unfold cancel_retrieve, part_retrieve. apply rbind_no_panic; [unfold iget; destruct (d _); discriminate|]. intros js _.
  unfold unmarshal. destruct (jparse js) as [j|]; [|discriminate].
  assert (H : forall j, dhash j <> Panic) by (intro; apply rbind_no_panic; [apply dstr_no_panic|intros; apply FromString_no_panic]).
  assert (S : forall j, dsigs (C := C) j <> Panic) by (intro; apply rbind_no_panic; [apply dlist_no_panic, dstr_no_panic|intros; apply rmapM_no_panic; intros; apply ring_of_string_no_panic]).
  unfold d_tcancel, field. apply rbind_no_panic; [apply dstruct_no_panic|]. intros m _. apply rbind_no_panic; [apply H|]. intros x1 _.
  apply rbind_no_panic; [apply H|]. intros x2 _. apply rbind_no_panic; [apply H|]. intros x3 _.
  apply rbind_no_panic; [apply S|]. intros x4 _. apply rbind_no_panic; [apply dtime_no_panic|]. intros x5 _.
  destruct x4; [discriminate|]. cbn [tcancel_now]. rewrite immutable_now_some. discriminate.
Qed.
End WithCurve.

Section WithRsa.
Variables (R : rsa) (good : rsa_sk R -> Prop) (fits : rsa_sk R -> bytes -> Prop).
Hypothesis L : rsa_laws R good fits.
Lemma private_text : forall k, good (pv_key R k) -> pv_public R k = rsa_public R (pv_key R k) ->
  below_2GB (private_to_bytes R k) -> below_2GB (public_to_bytes R (pv_public R k)) ->
  private_from_encoded R (private_to_encoded R k) = Ok k /\ private_from_bytes R (private_to_bytes R k) = Ok k /\
  public_from_encoded R (public_to_encoded R (pv_public R k)) = Ok (pv_public R k) /\
  public_from_bytes R (public_to_bytes R (pv_public R k)) = Ok (pv_public R k).
Proof.
  intros [k p] G E Sk Sp. cbn [pv_key pv_public] in *. subst p.
  assert (B : private_from_bytes R (private_to_bytes R (PrivateKey R k (rsa_public R k))) = Ok (PrivateKey R k (rsa_public R k))).
  { unfold private_from_bytes, private_to_bytes. cbn [pv_key]. rewrite (rl_private _ _ _ L k G Sk). reflexivity. }
  assert (P : public_from_bytes R (public_to_bytes R (rsa_public R k)) = Ok (rsa_public R k)) by exact (rl_public _ _ _ L k G Sp).
  split; [|split; [exact B|split; [|exact P]]].
  - unfold private_from_encoded, private_to_encoded. rewrite b64_decode_encode. cbn [rbind]. exact B.
  - unfold public_from_encoded, public_to_encoded. rewrite b64_decode_encode. cbn [rbind]. exact P.
Qed.
Lemma key_roundtrip : forall rnd bits k, factory_create R rnd bits = Ok k ->
  pv_public R k = rsa_public R (pv_key R k) /\ good (pv_key R k) /\
  forall r m, fits (pv_key R k) m -> 32 <= length r -> exists c, key_encrypt R r (pv_public R k) m = Ok c /\ key_decrypt R k c = Ok m.
Proof.
  intros rnd bits k E. unfold factory_create in E. apply rbind_Ok in E as (sk & Es & E). injection E as <-. cbn [pv_key pv_public].
  pose proof (rl_generate _ _ _ L _ _ _ Es) as G. split; [reflexivity|]. split; [exact G|]. intros r m F Lr. exact (rl_decrypt _ _ _ L sk r m G F Lr).
Qed.
Lemma public_hash_commits : forall k1 k2, good k1 -> good k2 -> below_2GB (public_to_bytes R (rsa_public R k1)) -> below_2GB (public_to_bytes R (rsa_public R k2)) -> public_to_hash R (rsa_public R k1) = public_to_hash R (rsa_public R k2) ->
  rsa_public R k1 = rsa_public R k2 \/ hash_coincidence (x509_public R (rsa_public R k1)) (x509_public R (rsa_public R k2)).
Proof.
  intros k1 k2 G1 G2 S1 S2 E. unfold public_to_hash, public_to_bytes in E. rewrite !FromBytes_ok in E. injection E as E.
  apply from_bytes_inj in E as [E|E]; [left|right; exact E]. pose proof (rl_public _ _ _ L k1 G1 S1) as P1. pose proof (rl_public _ _ _ L k2 G2 S2) as P2.
  rewrite E in P1. congruence.
Qed.
End WithRsa.

(** ** overlapping calls *)
Section Calls.
Variable R : rsa.
Lemma step_length : forall n pk cs, length (snd (step_at R pk n cs)) = length cs.
Proof.
  induction n as [|n IH]; intros pk [|c cs]; cbn [step_at]; try reflexivity.
  - destruct (call_step R pk c). reflexivity.
  - specialize (IH pk cs). destruct (step_at R pk n cs). cbn [snd length] in *. congruence.
Qed.
Lemma step_nth : forall n pk cs c, nth_error cs n = Some c ->
  fst (step_at R pk n cs) = fst (call_step R pk c) /\ nth_error (snd (step_at R pk n cs)) n = Some (snd (call_step R pk c)).
Proof.
  induction n as [|n IH]; intros pk [|c0 cs] c E; try discriminate; cbn [step_at nth_error] in *.
  - injection E as ->. destruct (call_step R pk c). split; reflexivity.
  - specialize (IH pk cs c E). destruct (step_at R pk n cs). exact IH.
Qed.
Lemma step_other : forall n m pk cs, n <> m -> nth_error (snd (step_at R pk n cs)) m = nth_error cs m.
Proof.
  induction n as [|n IH]; intros [|m] pk [|c0 cs] N; cbn [step_at]; try reflexivity; try congruence.
  - destruct (call_step R pk c0). reflexivity.
  - destruct (step_at R pk n cs). reflexivity.
  - specialize (IH m pk cs ltac:(congruence)). destruct (step_at R pk n cs). exact IH.
Qed.
Lemma calls_run_app : forall a b s, calls_run R (a ++ b) s = calls_run R b (calls_run R a s).
Proof. induction a as [|n a IH]; intros b s; [reflexivity|]. cbn [app calls_run]. apply IH. Qed.
Lemma returned_stays : forall sch s n k r, nth_error (snd s) n = Some (Returned R k r) -> nth_error (snd (calls_run R sch s)) n = Some (Returned R k r).
Proof.
  induction sch as [|m sch IH]; intros s n k r E; [exact E|]. cbn [calls_run]. apply IH. destruct (Nat.eq_dec m n) as [->|N].
  - destruct (step_nth n (fst s) (snd s) _ E) as [_ H]. exact H.
  - rewrite step_other by exact N. exact E.
Qed.
Lemma call_alone : forall before after n s k, nth_error (snd (calls_run R before s)) n = Some (Parsed R k) ->
  nth_error (snd (calls_run R (before ++ [n; n; n] ++ after) s)) n = Some (Returned R k (Ok (PrivateKey R k (rsa_public R k)))).
Proof.
  intros before after n s k E. rewrite !calls_run_app. apply returned_stays. set (s0 := calls_run R before s) in *. clearbody s0. cbn [calls_run].
  destruct (step_nth n (fst s0) (snd s0) _ E) as [F1 E1]. cbn [call_step fst snd] in F1, E1.
  set (s1 := step_at R (fst s0) n (snd s0)) in *. clearbody s1.
  destruct (step_nth n (fst s1) (snd s1) _ E1) as [F2 E2]. rewrite F1 in F2, E2. cbn [call_step fst snd] in F2, E2. rewrite F1.
  set (s2 := step_at R (Some k) n (snd s1)) in *. clearbody s2.
  destruct (step_nth n (fst s2) (snd s2) _ E2) as [F3 E3]. rewrite F2 in E3. cbn [call_step fst snd] in E3. rewrite F2. exact E3.
Qed.
Lemma call_mixed : forall pk k1 k2 cs,
  nth_error (snd (calls_run R [0; 0; 1; 0] (pk, Parsed R k1 :: Parsed R k2 :: cs))) 0 = Some (Returned R k1 (Ok (PrivateKey R k2 (rsa_public R k1)))).
Proof. intros. reflexivity. Qed.
Lemma call_other : forall pk k1 k2 cs,
  nth_error (snd (calls_run R [0; 1; 0; 0] (pk, Parsed R k1 :: Parsed R k2 :: cs))) 0 = Some (Returned R k1 (Ok (PrivateKey R k2 (rsa_public R k2)))).
Proof. intros. reflexivity. Qed.
Lemma private_pair : forall b k, private_from_bytes R b = Ok k \/ private_from_encoded R b = Ok k -> pv_public R k = rsa_public R (pv_key R k).
Proof.
  assert (P : forall b k, private_from_bytes R b = Ok k -> pv_public R k = rsa_public R (pv_key R k)).
  { intros b k E. apply rbind_Ok in E as (sk & _ & E). injection E as <-. reflexivity. }
  intros b k [E|E]; [exact (P b k E)|]. apply rbind_Ok in E as (b' & _ & E). exact (P b' k E).
Qed.
(** every result is made of keys that were parsed *)
Definition call_good (keys : list (rsa_sk R)) (pk : option (rsa_sk R)) (c : call R) : Prop :=
  In (call_key c) keys /\
  match c with
  | Parsed _ _ => True
  | Written _ _ => pk <> None
  | HasPublic _ _ p => pk <> None /\ exists k, In k keys /\ p = rsa_public R k
  | Returned _ _ r => exists k k', In k keys /\ In k' keys /\ r = Ok (PrivateKey R k (rsa_public R k'))
  end.
Lemma step_good : forall keys n pk cs, (forall k, pk = Some k -> In k keys) -> Forall (call_good keys pk) cs ->
  (forall k, fst (step_at R pk n cs) = Some k -> In k keys) /\ (pk <> None -> fst (step_at R pk n cs) <> None) /\
  Forall (call_good keys (fst (step_at R pk n cs))) (snd (step_at R pk n cs)).
Proof.
  intros keys. assert (W : forall pk pk' c, (pk <> None -> pk' <> None) -> call_good keys pk c -> call_good keys pk' c).
  { intros pk pk' c H [K G]. split; [exact K|]. destruct c; auto. destruct G as [G1 G2]. auto. }
  induction n as [|n IH]; intros pk [|c cs] P F; cbn [step_at fst snd]; try (split; [exact P|split; [auto|constructor]]).
  - inversion F as [|? ? [K G] F']; subst. destruct c as [k|k|k p|k r]; cbn [call_step call_key] in *.
    + cbn [fst snd]. split; [intros k' E; injection E as <-; exact K|]. split; [discriminate|]. constructor; [split; [exact K|discriminate]|].
      eapply Forall_impl; [|exact F']. intros c. apply W. discriminate.
    + destruct pk as [k'|]; [|congruence]. cbn [fst snd]. split; [exact P|]. split; [auto|]. constructor; [|exact F'].
      split; [exact K|]. split; [discriminate|]. exists k'. split; [apply P; reflexivity|reflexivity].
    + destruct G as [G1 (k0 & I0 & ->)]. destruct pk as [k'|]; [|congruence]. cbn [fst snd]. split; [exact P|]. split; [auto|]. constructor; [|exact F'].
      split; [exact K|]. exists k', k0. split; [apply P; reflexivity|]. split; [exact I0|reflexivity].
    + cbn [fst snd]. split; [exact P|]. split; [auto|]. exact F.
  - inversion F as [|? ? G F']; subst. specialize (IH pk cs P F'). destruct (step_at R pk n cs) as [pk' cs']. cbn [fst snd] in *.
    destruct IH as (I1 & I2 & I3). split; [exact I1|]. split; [exact I2|]. constructor; [|exact I3]. apply (W pk); assumption.
Qed.
Lemma calls_sound : forall ks sch n k r,
  nth_error (snd (calls_run R sch (None, map (Parsed R) ks))) n = Some (Returned R k r) ->
  exists k1 k2, In k1 ks /\ In k2 ks /\ r = Ok (PrivateKey R k1 (rsa_public R k2)).
Proof.
  intros ks sch n k r E.
  assert (G : forall sch s, (forall k, fst s = Some k -> In k ks) -> Forall (call_good ks (fst s)) (snd s) -> Forall (call_good ks (fst (calls_run R sch s))) (snd (calls_run R sch s))).
  { induction sch0 as [|m sch0 IH]; intros s P F; [exact F|]. cbn [calls_run]. destruct (step_good ks m (fst s) (snd s) P F) as (I1 & _ & I3). apply IH; assumption. }
  specialize (G sch (None, map (Parsed R) ks)). assert (X : Forall (call_good ks (fst (calls_run R sch (None, map (Parsed R) ks)))) (snd (calls_run R sch (None, map (Parsed R) ks)))).
  { apply G; cbn [fst snd]; [discriminate|]. apply Forall_map. apply Forall_forall. intros x H. split; [exact H|exact Logic.I]. }
  rewrite Forall_forall in X. destruct (X _ (nth_error_In _ _ E)) as [_ (k1 & k2 & H1 & H2 & H3)]. exists k1, k2. auto.
Qed.
End Calls.
