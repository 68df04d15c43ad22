From Coq Require Import Lia ZifyBool ZifyNat ZifyN.
From Verif Require Import Base BaseFacts Sha512 HashModel HashSpec HashProofs EntitiesModel SignModel PiastresModel PiastresSpec
  PiastresProofs JsonModel JsonProofs TimeModel MemJsonModel CodecProofs MemSpec MemJsonProofs TransferModel TransferProofs
  BucketModel BucketSpec BucketProofs IdentityModel IdentitySpec.

Lemma bseq_spec : forall a b, reflect (a = b) (bseq a b).
Proof. intros a b. destruct (bseq a b) eqn:E; constructor; [apply bseq_eq|apply bseq_neq]; exact E. Qed.

Section WithCurve.
Context {C : Curve}.

(** ** wallets *)
Lemma wallet_now_is : forall now name st (bills : list wbill) d created,
  wallet_now now name st bills d created =
    if bseq name [] then Err else match st with Some _ => Err | None => Panic end.
Proof. intros. unfold wallet_now. destruct (bseq name []); [reflexivity|]. destruct st; reflexivity. Qed.
Lemma wallet_never : forall now name st (bills : list wbill) d created w, wallet_now now name st bills d created <> Ok w.
Proof. intros. rewrite wallet_now_is. destruct (bseq name []); [discriminate|]. destruct st; discriminate. Qed.
Lemma twallet_never : forall h name st bills d created w, twallet_now h name st bills d created <> Ok w.
Proof. intros [h|] name [s|] bills d created w; unfold twallet_now; destruct (bseq name []); discriminate. Qed.
Lemma d_twallet_never : forall j w, d_twallet j <> Ok w.
Proof.
  intros j w H. unfold d_twallet in H.
  repeat (apply rbind_Ok in H as (? & ? & H); try (exfalso; eapply twallet_never; eassumption)).
Qed.
Lemma retrieve_twallet_never : forall h d w, part_retrieve d_twallet h d <> Ok w.
Proof.
  intros h d w H. unfold part_retrieve in H. apply rbind_Ok in H as (js & _ & H). unfold unmarshal in H.
  destruct (jparse js); [|discriminate]. exact (d_twallet_never _ _ H).
Qed.

(** ** what the hashes are *)
Lemma entry_now_iff : forall now name trx d created (e : mentry), entry_now now name trx d created = Ok e <->
  name <> [] /\ trx <> [] /\
  e = MEntry (Immutable (from_bytes (name ++ concat (map tx_hash trx))) (match created with Some c => c | None => now end)) name trx d.
Proof.
  intros. unfold entry_now. destruct (bseq_spec name []); cbn [negb].
  - split; [discriminate|intros (H & _); congruence].
  - destruct trx as [|t trx]; cbn [length Nat.ltb Nat.leb]; [split; [discriminate|intros (_ & H & _); congruence]|].
    rewrite FromMultiBytes_ok. cbn [rbind]. rewrite immutable_now_some. cbn [rbind]. unfold from_multi. cbn [concat].
    split; [intro H; injection H as <-; repeat split; [assumption|discriminate]|intros (_ & _ & ->); reflexivity].
Qed.
Lemma built_entry_spec : forall e : mentry, built_entry e ->
  en_hash e = from_bytes (entry_text e) /\ en_name e <> [] /\ en_trx e <> [] /\ Forall (fun h : bytes => length h = 64) (map tx_hash (en_trx e)).
Proof.
  intros e (now & name & trx & d & created & F & E). apply entry_now_iff in E as (H1 & H2 & ->).
  repeat split; [exact H1|exact H2|]. cbn [en_trx]. apply Forall_map. exact F.
Qed.
Lemma built_entry_64 : forall e : mentry, built_entry e -> length (en_hash e) = 64.
Proof. intros e B. destruct (built_entry_spec e B) as (-> & _). apply from_bytes_length. Qed.
Lemma entries_64 : forall l : list mentry, Forall built_entry l -> Forall (fun h : bytes => length h = 64) (map en_hash l).
Proof. intros l F. apply Forall_map. eapply Forall_impl; [exact built_entry_64|exact F]. Qed.
Lemma statement_now_is : forall now (i o : list mentry) created, statement_now now i o created =
  Ok (Statement (Immutable (from_bytes (concat (map en_hash i ++ map en_hash o))) (match created with Some c => c | None => now end)) i o).
Proof. intros. unfold statement_now. rewrite FromMultiBytes_ok. cbn [rbind]. rewrite immutable_now_some. reflexivity. Qed.
Lemma built_statement_spec : forall s : statement, built_statement s ->
  sm_hash s = from_bytes (statement_text s) /\ Forall built_entry (sm_incoming s) /\ Forall built_entry (sm_outgoing s).
Proof.
  intros s (now & i & o & created & Fi & Fo & E). rewrite statement_now_is in E. injection E as <-.
  repeat split; [|exact Fi|exact Fo]. unfold sm_hash, statement_text. cbn [sm_im im_hash sm_incoming sm_outgoing].
  rewrite concat_app. reflexivity.
Qed.
Lemma ibucket_spec : forall b, built_ibucket b -> ib_hash b = from_bytes (ib_path b).
Proof.
  intros b (abs & missing & now & bu & path & key & created & E). unfold ibucket_now in E.
  destruct bu as [bu|]; [|discriminate]. destruct (bseq path []); [discriminate|]. cbn [negb] in E.
  destruct key as [key|]; [|discriminate]. apply rbind_Ok in E as (p & _ & E). destruct (missing p); [discriminate|]. cbn [negb] in E.
  rewrite FromBytes_ok in E. cbn [rbind] in E. rewrite immutable_now_some in E. injection E as <-. reflexivity.
Qed.
Lemma built_identity_spec : forall i : identity, built_identity i ->
  id_hash i = from_bytes (identity_text i) /\ id_seed i <> [] /\ id_name i <> [] /\ id_root i <> [] /\
  Forall (fun h : bytes => length h = 64) (map wt_hash (id_wallets i)) /\
  Forall built_ibucket (id_buckets i) /\ Forall (fun h : bytes => length h = 64) (map ib_hash (id_buckets i)) /\
  (mu_created (id_mu i) <= mu_updated (id_mu i))%Z.
Proof.
  intros i (now1 & now2 & seed & name & root & ws & bs & created & updated & Fw & Fb & E). unfold identity_now in E.
  destruct (bseq_spec seed []); [discriminate|]. destruct (bseq_spec name []); [discriminate|].
  destruct (bseq_spec root []); [discriminate|]. cbn [negb] in E. rewrite FromMultiBytes_ok in E. cbn [rbind] in E.
  apply rbind_Ok in E as (mu & M & E). injection E as <-. unfold mutable_now in M.
  match type of M with (if ?b then _ else _) = _ => destruct b eqn:Eb; [discriminate|] end. injection M as <-.
  cbn [id_seed id_name id_root id_wallets id_buckets id_mu mu_created mu_updated]. repeat split; try assumption.
  - unfold id_hash, identity_text, from_multi. cbn [id_mu mu_hash id_seed id_name id_root id_wallets id_buckets app concat].
    rewrite concat_app. reflexivity.
  - apply Forall_map. exact Fw.
  - apply Forall_map. eapply Forall_impl; [|exact Fb]. intros b B. rewrite (ibucket_spec b B). apply from_bytes_length.
  - lia.
Qed.

(** ** what the hashes commit to *)
Lemma app_inj_len : forall (a b c d : bytes), length a = length c -> a ++ b = c ++ d -> a = c /\ b = d.
Proof. induction a as [|x a IH]; intros b [|y c] d L E; try discriminate; [auto|]. cbn in *. injection L as L. injection E as -> E. destruct (IH b c d L E) as [-> ->]. auto. Qed.
Lemma entry_commits : forall e1 e2 : mentry, built_entry e1 -> built_entry e2 ->
  length (en_name e1) = length (en_name e2) -> en_hash e1 = en_hash e2 ->
  (en_name e1 = en_name e2 /\ map tx_hash (en_trx e1) = map tx_hash (en_trx e2)) \/ hash_coincidence (entry_text e1) (entry_text e2).
Proof.
  intros e1 e2 B1 B2 L E. destruct (built_entry_spec e1 B1) as (H1 & _ & _ & F1). destruct (built_entry_spec e2 B2) as (H2 & _ & _ & F2).
  rewrite H1, H2 in E. apply from_bytes_inj in E as [E|E]; [left|right; exact E].
  unfold entry_text in E. apply app_inj_len in E as [-> E]; [|exact L]. split; [reflexivity|]. exact (concat64_inj _ _ F1 F2 E).
Qed.
Lemma entry_ambiguous : forall now name (t t' : transaction) trx d d' created, name <> [] ->
  exists e1 e2, entry_now now name (t :: t' :: trx) d created = Ok e1 /\
    entry_now now (name ++ tx_hash t) (t' :: trx) d' created = Ok e2 /\ en_hash e1 = en_hash e2.
Proof.
  intros now name t t' trx d d' created N. eexists. eexists. split; [apply entry_now_iff; repeat split; [exact N|discriminate]|].
  split; [apply entry_now_iff; repeat split; [destruct name; [congruence|discriminate]|discriminate]|].
  unfold en_hash. cbn [en_im im_hash map concat]. rewrite <- app_assoc. reflexivity.
Qed.
Lemma entry_description : forall now name trx d d' created (e : mentry), entry_now now name trx d created = Ok e ->
  exists e', entry_now now name trx d' created = Ok e' /\ en_hash e' = en_hash e /\ en_description e' = d'.
Proof.
  intros now name trx d d' created e E. apply entry_now_iff in E as (H1 & H2 & ->).
  eexists. split; [apply entry_now_iff; auto|]. split; reflexivity.
Qed.
Lemma statement_commits : forall s1 s2 : statement, built_statement s1 -> built_statement s2 ->
  length (sm_incoming s1) = length (sm_incoming s2) -> sm_hash s1 = sm_hash s2 ->
  (map en_hash (sm_incoming s1) = map en_hash (sm_incoming s2) /\ map en_hash (sm_outgoing s1) = map en_hash (sm_outgoing s2)) \/
  hash_coincidence (statement_text s1) (statement_text s2).
Proof.
  intros s1 s2 B1 B2 L E. destruct (built_statement_spec s1 B1) as (H1 & I1 & O1). destruct (built_statement_spec s2 B2) as (H2 & I2 & O2).
  rewrite H1, H2 in E. apply from_bytes_inj in E as [E|E]; [left|right; exact E].
  unfold statement_text in E. apply entries_64 in I1, I2, O1, O2. apply app_inj_len in E as [Ei Eo].
  - split; apply concat64_inj; assumption.
  - rewrite !concat64_length by assumption. rewrite !map_length. lia.
Qed.
(** without the counts, only the sequence of all the entries is known *)
Lemma statement_all : forall s1 s2 : statement, built_statement s1 -> built_statement s2 -> sm_hash s1 = sm_hash s2 ->
  map en_hash (sm_incoming s1 ++ sm_outgoing s1) = map en_hash (sm_incoming s2 ++ sm_outgoing s2) \/
  hash_coincidence (statement_text s1) (statement_text s2).
Proof.
  intros s1 s2 B1 B2 E. destruct (built_statement_spec s1 B1) as (H1 & I1 & O1). destruct (built_statement_spec s2 B2) as (H2 & I2 & O2).
  rewrite H1, H2 in E. apply from_bytes_inj in E as [E|E]; [left|right; exact E].
  unfold statement_text in E. rewrite <- !concat_app, <- !map_app in E. apply concat64_inj; [| |exact E]; apply entries_64; apply Forall_app; auto.
Qed.
Lemma statement_ambiguous : forall now (l1 l2 : list mentry) created, l2 <> [] ->
  exists s1 s2, statement_now now (l1 ++ l2) [] created = Ok s1 /\ statement_now now l1 l2 created = Ok s2 /\
    sm_hash s1 = sm_hash s2 /\ sm_outgoing s1 = [] /\ sm_outgoing s2 = l2.
Proof.
  intros now l1 l2 created N. rewrite !statement_now_is. eexists. eexists. repeat split.
  unfold sm_hash. cbn [sm_im im_hash map]. rewrite map_app, app_nil_r. reflexivity.
Qed.
Lemma identity_commits : forall i1 i2 : identity, built_identity i1 -> built_identity i2 ->
  length (id_seed i1) = length (id_seed i2) -> length (id_name i1) = length (id_name i2) ->
  length (id_root i1) = length (id_root i2) -> length (id_wallets i1) = length (id_wallets i2) -> id_hash i1 = id_hash i2 ->
  (id_seed i1 = id_seed i2 /\ id_name i1 = id_name i2 /\ id_root i1 = id_root i2 /\
   map wt_hash (id_wallets i1) = map wt_hash (id_wallets i2) /\ map ib_hash (id_buckets i1) = map ib_hash (id_buckets i2)) \/
  hash_coincidence (identity_text i1) (identity_text i2).
Proof.
  intros i1 i2 B1 B2 L1 L2 L3 L4 E.
  destruct (built_identity_spec i1 B1) as (H1 & _ & _ & _ & W1 & _ & K1 & _).
  destruct (built_identity_spec i2 B2) as (H2 & _ & _ & _ & W2 & _ & K2 & _).
  rewrite H1, H2 in E. apply from_bytes_inj in E as [E|E]; [left|right; exact E].
  unfold identity_text in E. apply app_inj_len in E as [Es E]; [|exact L1]. apply app_inj_len in E as [En E]; [|exact L2].
  apply app_inj_len in E as [Er E]; [|exact L3]. apply app_inj_len in E as [Ew Eb].
  - repeat split; try assumption; apply concat64_inj; assumption.
  - rewrite !concat64_length by assumption. rewrite !map_length. lia.
Qed.
(** any text cut into seed, name and root in any two ways *)
Lemma identity_ambiguous : forall now1 now2 s1 n1 r1 s2 n2 r2 created updated (i1 : identity),
  s1 ++ n1 ++ r1 = s2 ++ n2 ++ r2 -> s2 <> [] -> n2 <> [] -> r2 <> [] ->
  identity_now now1 now2 s1 n1 r1 [] [] created updated = Ok i1 ->
  exists i2 : identity, identity_now now1 now2 s2 n2 r2 [] [] created updated = Ok i2 /\ id_hash i2 = id_hash i1 /\
    id_seed i2 = s2 /\ id_name i2 = n2 /\ id_root i2 = r2.
Proof.
  intros now1 now2 s1 n1 r1 s2 n2 r2 created updated i1 E N1 N2 N3 H. unfold identity_now in *.
  destruct (bseq_spec s2 []); [congruence|]. destruct (bseq_spec n2 []); [congruence|]. destruct (bseq_spec r2 []); [congruence|].
  destruct (bseq_spec s1 []); [discriminate|]. destruct (bseq_spec n1 []); [discriminate|]. destruct (bseq_spec r1 []); [discriminate|].
  cbn [negb] in *. rewrite FromMultiBytes_ok in *. cbn [rbind] in *. unfold from_multi in *. cbn [map app concat] in *.
  rewrite !app_nil_r in *. rewrite <- E. apply rbind_Ok in H as (mu & M & H). injection H as <-. rewrite M. cbn [rbind].
  eexists. repeat split.
Qed.
Lemma identity_bucket_hash : forall abs missing now b path key created i abs' missing' now' b' path' key' created' i',
  ibucket_now abs missing now b path key created = Ok i -> ibucket_now abs' missing' now' b' path' key' created' = Ok i' ->
  ib_path i = ib_path i' -> ib_hash i = ib_hash i'.
Proof.
  intros abs missing now b path key created i abs' missing' now' b' path' key' created' i' E E' P.
  rewrite (ibucket_spec i), (ibucket_spec i'), P; [reflexivity| |].
  - exists abs', missing', now', b', path', key', created'. exact E'.
  - exists abs, missing, now, b, path, key, created. exact E.
Qed.

(** ** the stored forms *)
Lemma tentry_codec : codec good_tentry e_tentry d_tentry.
Proof.
  intros [[h c] name trx d] j (H1 & H2 & H3 & H4 & H5 & H6 & H7) E. unfold e_tentry in E.
  cbn [te_im im_hash te_name te_trx te_description im_created] in *. clear H7. change (length h = 64) with (hash64 h) in H1.
  change (Forall hash64 trx) in H4. tcodec E. unfold d_tentry. tdecode. unfold tentry_now.
  destruct (bseq_spec name []); [congruence|]. destruct trx; [congruence|]. reflexivity.
Qed.
Lemma tstatement_codec : codec good_tstatement e_tstatement d_tstatement.
Proof.
  intros [[h c] i o] j (H1 & H2 & H3 & H4) E. unfold e_tstatement in E. cbn [ts_im im_hash ts_incoming ts_outgoing im_created] in *.
  clear H4. change (hash64 h) in H1. change (Forall hash64 i) in H2. change (Forall hash64 o) in H3. tcodec E.
  unfold d_tstatement. tdecode. reflexivity.
Qed.
Lemma fc_pks : fcodec (Forall (fun x => scalar_of_string C (sstr C x) = Ok x /\ unicode (sstr C x))) (jlist jpk) dpks.
Proof. apply converted_codec. auto. Qed.
Lemma twbill_codec : codec good_twbill (e_twbill (C := C)) d_twbill.
Proof.
  intros [[h c] b pks] j (H1 & H2 & H3 & H4 & H5) E. unfold e_twbill in E. cbn [tw_im im_hash tw_bill tw_pks im_created] in *.
  clear H5. change (hash64 h) in H1. change (hash64 b) in H2.
  pose proof fc_pks as KP. tcodec E. unfold d_twbill. tdecode. unfold twbill_now.
  destruct pks; [congruence|]. reflexivity.
Qed.
Definition fresh_identity (now : Z) (t : tidentity) : Prop :=
  good_tidentity t /\ mu_updated (td_mu t) = now /\ (mu_created (td_mu t) <= now)%Z.
Lemma tidentity_codec : forall now, codec (fresh_identity now) e_tidentity (d_tidentity now).
Proof.
  intros now [[h c u] seed name root ws bs] j ((H1 & H2 & H3 & H4 & H5 & H6 & H7 & H8 & H9 & H10) & U & L) E. unfold e_tidentity in E.
  cbn [td_mu mu_hash mu_created mu_updated td_seed td_name td_root td_wallets td_buckets] in *. subst u.
  clear H10. change (hash64 h) in H1. change (Forall hash64 ws) in H8. change (Forall hash64 bs) in H9.
  tcodec E. unfold d_tidentity. tdecode. unfold tidentity_now, mutable_now.
  destruct (bseq_spec seed []); [congruence|]. destruct (bseq_spec name []); [congruence|]. destruct (bseq_spec root []); [congruence|].
  cbn [negb]. destruct (Z.gtb_spec c now); [lia|]. reflexivity.
Qed.
(** whatever the clock, decoding gets as far as the builder *)
Lemma tidentity_decodes : forall now t j, good_tidentity t -> e_tidentity t = Ok j ->
  d_tidentity now [j] = identity_answer now (Some t) /\ plain j.
Proof.
  intros now [[h c u] seed name root ws bs] j (H1 & H2 & H3 & H4 & H5 & H6 & H7 & H8 & H9 & H10) E. unfold e_tidentity in E.
  cbn [td_mu mu_hash mu_created mu_updated td_seed td_name td_root td_wallets td_buckets] in *.
  clear H10. change (hash64 h) in H1. change (Forall hash64 ws) in H8. change (Forall hash64 bs) in H9.
  cut (d_tidentity now [j] = identity_answer now (Some (TIdentity (Mutable h c u) seed name root ws bs)) /\ (plain j /\ j <> JNull));
    [intros (X & Y & _); auto|].
  tcodec E. unfold d_tidentity. tdecode. unfold tidentity_now, mutable_now, identity_answer.
  destruct (bseq_spec seed []); [congruence|]. destruct (bseq_spec name []); [congruence|]. destruct (bseq_spec root []); [congruence|].
  cbn [negb td_mu mu_hash mu_created td_seed td_name td_root td_wallets td_buckets].
  destruct (Z.gtb_spec c now), (Z.ltb_spec now c); try lia; reflexivity.
Qed.
Lemma tidentity_text : forall now t js, good_tidentity t -> marshal e_tidentity t = Ok js ->
  unmarshal (d_tidentity now) js = identity_answer now (Some t).
Proof.
  intros now t js G M. unfold marshal in M. apply rbind_Ok in M as (j & E & M). injection M as <-.
  destruct (tidentity_decodes now t j G E) as (D & P). unfold unmarshal. rewrite jparse_jprint by exact P. exact D.
Qed.

Lemma jhash_yes : forall h, yes (jhash h). Proof. eexists; reflexivity. Qed.
Lemma jhashes_yes : forall l, yes (jlist jhash l). Proof. intro l. apply jlist_yes. intros. apply jhash_yes. Qed.
Ltac members' :=
  apply jstruct_yes; repeat (constructor; [cbn [snd]|]); try apply Forall_nil;
  try first [apply jstr_yes | apply jhash_yes | apply jhashes_yes | (apply jtime_yes; assumption)].
Lemma e_tentry_yes : forall t, good_tentry t -> yes (marshal e_tentry t).
Proof. intros t (_ & _ & _ & _ & _ & _ & D). apply marshal_yes. members'. Qed.
Lemma e_tstatement_yes : forall t, good_tstatement t -> yes (marshal e_tstatement t).
Proof. intros t (_ & _ & _ & D). apply marshal_yes. members'. Qed.
Lemma e_twbill_yes : forall t, good_twbill t -> yes (marshal (e_twbill (C := C)) t).
Proof. intros t (_ & _ & _ & _ & D). apply marshal_yes. members'. apply jlist_yes. intros x _. apply jstr_yes. Qed.
Lemma e_tidentity_yes : forall t, good_tidentity t -> yes (marshal e_tidentity t).
Proof. intros t (_ & _ & _ & _ & _ & _ & _ & _ & _ & D). apply marshal_yes. members'. Qed.
End WithCurve.

(** ** histories *)
Section Parts.
Context {T : Type} (good : T -> Prop) (enc : T -> res json) (dec : list json -> res T) (hash_of : T -> hash).
Hypothesis K : codec good enc dec.
Hypothesis Y : forall t, good t -> yes (marshal enc t).
Definition holds (d : idisk) (h : hash) (last : option T) : Prop :=
  match last with
  | Some t => good t /\ exists js, marshal enc t = Ok js /\ d (hash_string h) = Some js
  | None => d (hash_string h) = None
  end.
Lemma part_run_holds : forall o d h last, good (part_of_op o) -> holds d h last ->
  holds (part_run enc hash_of o d) h (part_step hash_of h last o).
Proof.
  intros o d h last G H. destruct o as [t|t]; cbn [part_of_op] in G; unfold part_run; cbn [part_step].
  - destruct (Y t G) as [js M]. unfold part_save. rewrite M. cbn [rbind].
    destruct (bseq_spec (hash_of t) h) as [<-|N].
    + split; [exact G|]. exists js. split; [exact M|]. unfold iput. destruct (bseq_spec (hash_string (hash_of t)) (hash_string (hash_of t))); congruence.
    + assert (X : iput d (hash_string (hash_of t)) js (hash_string h) = d (hash_string h)).
      { unfold iput. destruct (bseq_spec (hash_string (hash_of t)) (hash_string h)) as [E|]; [apply hash_string_inj in E; congruence|reflexivity]. }
      unfold holds. rewrite X. exact H.
  - unfold part_delete. destruct (bseq_spec (hash_of t) h) as [<-|N].
    + destruct (d (hash_string (hash_of t))) eqn:E; [|exact E]. unfold holds, irem.
      destruct (bseq_spec (hash_string (hash_of t)) (hash_string (hash_of t))); congruence.
    + destruct (d (hash_string (hash_of t))) eqn:E; [|exact H].
      assert (X : irem d (hash_string (hash_of t)) (hash_string h) = d (hash_string h)).
      { unfold irem. destruct (bseq_spec (hash_string (hash_of t)) (hash_string h)) as [E'|]; [apply hash_string_inj in E'; congruence|reflexivity]. }
      unfold holds. rewrite X. exact H.
Qed.
Lemma part_history : forall os h, Forall (fun o => good (part_of_op o)) os ->
  part_retrieve dec h (part_runs enc hash_of os (fun _ => None)) = part_answer (part_last hash_of h os).
Proof.
  intros os h F.
  assert (G : forall os d last, Forall (fun o => good (part_of_op o)) os -> holds d h last ->
    holds (part_runs enc hash_of os d) h (fold_left (part_step hash_of h) os last)).
  { clear os F. induction os as [|o os IH]; intros d last F H; [exact H|]. inversion F; subst. cbn [part_runs fold_left].
    apply IH; [assumption|]. apply part_run_holds; assumption. }
  specialize (G os (fun _ => None) None F eq_refl). unfold part_last.
  destruct (fold_left (part_step hash_of h) os None) as [t|].
  - destruct G as (G1 & js & M & D). unfold part_retrieve, iget. rewrite D. cbn [rbind part_answer].
    exact (unmarshal_marshal _ _ _ _ _ _ K G1 M).
  - unfold part_retrieve, iget. cbn [holds] in G. rewrite G. reflexivity.
Qed.
End Parts.

(** ** the identity store *)
Definition key_text (t : tidentity) : bytes := hash_string (mu_hash (td_mu t)) ++ td_seed t.
Definition collides (h : hash) (seed : bytes) (os : list identity_op) : Prop :=
  exists o, In o os /\ sha_collision (hash_string h ++ seed) (key_text (of_op o)).
Lemma same_key_iff : forall h seed t, length h = 64 -> good_tidentity t ->
  same_key h seed t = true <-> hash_string h ++ seed = key_text t.
Proof.
  intros h seed t L (H1 & _). unfold same_key, key_text. rewrite andb_true_iff.
  destruct (bseq_spec (mu_hash (td_mu t)) h) as [<-|N]; destruct (bseq_spec (td_seed t) seed) as [<-|N']; split; intro H; auto;
    try (destruct H; discriminate); exfalso.
  - apply app_inj_len in H as [_ H]; [congruence|reflexivity].
  - apply app_inj_len in H as [H _]; [apply hash_string_inj in H; congruence|]. rewrite !hash_string_length by assumption. reflexivity.
  - apply app_inj_len in H as [H _]; [apply hash_string_inj in H; congruence|]. rewrite !hash_string_length by assumption. reflexivity.
Qed.
Definition iholds (d : idisk) (h : hash) (seed : bytes) (last : option tidentity) : Prop :=
  match last with
  | Some t => good_tidentity t /\ exists js, marshal e_tidentity t = Ok js /\ d (identity_file h seed) = Some js
  | None => d (identity_file h seed) = None
  end.
Lemma file_same : forall h seed t, length h = 64 -> good_tidentity t -> same_key h seed t = true ->
  identity_file (mu_hash (td_mu t)) (td_seed t) = identity_file h seed.
Proof. intros h seed t L G S. apply (same_key_iff h seed t L G) in S. unfold identity_file. rewrite S. reflexivity. Qed.
Lemma file_other : forall h seed t, length h = 64 -> good_tidentity t -> same_key h seed t = false ->
  ~ sha_collision (hash_string h ++ seed) (key_text t) -> identity_file (mu_hash (td_mu t)) (td_seed t) <> identity_file h seed.
Proof.
  intros h seed t L G S N E. apply N. split.
  - intro X. apply (same_key_iff h seed t L G) in X. congruence.
  - unfold identity_file in E. apply hex_encode_inj in E. symmetry. exact E.
Qed.
Lemma identity_run_holds : forall o d h seed last, length h = 64 -> good_tidentity (of_op o) ->
  ~ sha_collision (hash_string h ++ seed) (key_text (of_op o)) -> iholds d h seed last ->
  iholds (identity_run o d) h seed (identity_step h seed last o).
Proof.
  intros o d h seed last L G N H. destruct o as [t|t]; cbn [of_op] in G, N; unfold identity_run; cbn [identity_step].
  - destruct (e_tidentity_yes t G) as [js M]. unfold tidentity_save. rewrite M. cbn [rbind].
    destruct (same_key h seed t) eqn:S.
    + split; [exact G|]. exists js. split; [exact M|]. rewrite (file_same h seed t L G S). unfold iput.
      destruct (bseq_spec (identity_file h seed) (identity_file h seed)); congruence.
    + pose proof (file_other h seed t L G S N) as X. unfold iholds, iput.
      destruct (bseq_spec (identity_file (mu_hash (td_mu t)) (td_seed t)) (identity_file h seed)); [congruence|exact H].
  - unfold tidentity_delete. destruct (same_key h seed t) eqn:S.
    + rewrite (file_same h seed t L G S). cbv zeta. destruct (d (identity_file h seed)) eqn:E; [|exact E]. unfold iholds, irem.
      destruct (bseq_spec (identity_file h seed) (identity_file h seed)); congruence.
    + pose proof (file_other h seed t L G S N) as X. cbv zeta.
      destruct (d (identity_file (mu_hash (td_mu t)) (td_seed t))) eqn:E; [|exact H]. unfold iholds, irem.
      destruct (bseq_spec (identity_file (mu_hash (td_mu t)) (td_seed t)) (identity_file h seed)); [congruence|exact H].
Qed.
Lemma identity_history : forall os h seed now, length h = 64 -> Forall (fun o => good_tidentity (of_op o)) os ->
  (tidentity_retrieve now h seed (identity_runs os (fun _ => None)) = identity_answer now (identity_last h seed os)) \/
  collides h seed os.
Proof.
  intros os h seed now L F.
  assert (Dec : forall os, collides h seed os \/ Forall (fun o => ~ sha_collision (hash_string h ++ seed) (key_text (of_op o))) os).
  { clear. intro os. induction os as [|o os IH]; [right; constructor|]. destruct IH as [(o' & I' & S)|IH]; [left; exists o'; split; [right|]; assumption|].
    destruct (bseq_spec (hash_string h ++ seed) (key_text (of_op o))) as [E|E].
    - right. constructor; [intros [X _]; congruence|exact IH].
    - destruct (bseq_spec (sha512 (hash_string h ++ seed)) (sha512 (key_text (of_op o)))) as [E'|E'].
      + left. exists o. split; [left; reflexivity|split; assumption].
      + right. constructor; [intros [_ X]; congruence|exact IH]. }
  destruct (Dec os) as [|D]; [right; assumption|left].
  assert (G : forall os d last, Forall (fun o => good_tidentity (of_op o)) os ->
    Forall (fun o => ~ sha_collision (hash_string h ++ seed) (key_text (of_op o))) os -> iholds d h seed last ->
    iholds (identity_runs os d) h seed (fold_left (identity_step h seed) os last)).
  { clear os F D Dec. induction os as [|o os IH]; intros d last F D H; [exact H|]. inversion F; subst. inversion D; subst.
    cbn [identity_runs fold_left]. apply IH; [assumption|assumption|]. apply identity_run_holds; assumption. }
  specialize (G os (fun _ => None) None F D eq_refl). unfold identity_last.
  destruct (fold_left (identity_step h seed) os None) as [t|].
  - destruct G as (G1 & js & M & Dd). unfold tidentity_retrieve, iget. rewrite Dd. cbn [rbind]. exact (tidentity_text now t js G1 M).
  - unfold tidentity_retrieve, iget. cbn [iholds] in G. rewrite G. reflexivity.
Qed.
Lemma retrieve_after_save : forall now t d, good_tidentity t -> exists d', tidentity_save t d = Ok d' /\
  tidentity_retrieve now (mu_hash (td_mu t)) (td_seed t) d' = identity_answer now (Some t).
Proof.
  intros now t d G. destruct (e_tidentity_yes t G) as [js M]. unfold tidentity_save. rewrite M. cbn [rbind]. eexists. split; [reflexivity|].
  unfold tidentity_retrieve, iget, iput.
  destruct (bseq_spec (identity_file (mu_hash (td_mu t)) (td_seed t)) (identity_file (mu_hash (td_mu t)) (td_seed t))); [|congruence].
  cbn [rbind]. exact (tidentity_text now t js G M).
Qed.
Lemma update_time_lost : forall now t d, good_tidentity t -> mu_updated (td_mu t) <> now ->
  exists d', tidentity_save t d = Ok d' /\ tidentity_retrieve now (mu_hash (td_mu t)) (td_seed t) d' <> Ok t.
Proof.
  intros now t d G N. destruct (retrieve_after_save now t d G) as (d' & S & R). exists d'. split; [exact S|].
  rewrite R. unfold identity_answer. destruct (now <? mu_created (td_mu t))%Z; [discriminate|].
  intro X. apply N. injection X as X. rewrite <- X at 1. reflexivity.
Qed.
