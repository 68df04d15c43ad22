(** Keys and signatures as texts: what the machine integers give, and that it works. *)
From Coq Require Import Lia ZifyBool ZifyNat ZifyN.
From Verif Require Import Base BaseFacts HashModel LittleEndian Edwards25519Model Edwards25519Proofs Edwards25519More
  SignModel SignSpec SignProofs Ed25519Curve CurveSpec CurveProofs PiastresModel LimbModel LimbSpec LimbScalars LimbPoints LimbCurve TextSpec.

(** ** The same texts *)

Section Simulated.
  Variables C D : Curve.
  Variable RS : Sc C -> Sc D -> Prop.
  Variable RP : Pt C -> Pt D -> Prop.
  Hypothesis SIM : simulates C D RS RP.

  Lemma rmap_rel {A B X} (R : A -> B -> Prop) (f : A -> X) g a b :
    rrel R a b -> (forall x y, R x y -> f x = g y) -> rmap f a = rmap g b.
  Proof. intros H F. destruct a, b; cbn in *; try contradiction; [f_equal; auto|reflexivity|reflexivity]. Qed.

  Lemma rbind_rel {A B X} (R : A -> B -> Prop) (f : A -> res X) g a b :
    rrel R a b -> (forall x y, R x y -> f x = g y) -> rbind a f = rbind b g.
  Proof. intros H F. destruct a, b; cbn in *; try contradiction; [auto|reflexivity|reflexivity]. Qed.

  Theorem sim_public_text t : public_text C t = public_text D t.
  Proof.
    apply (rmap_rel RS); [apply (sim_scalar_of_string _ _ _ _ SIM)|]. intros x y H.
    apply (sim_pstr _ _ _ _ SIM). apply (sim_public _ _ _ _ SIM). exact H.
  Qed.

  Theorem sim_sign_text rnd t m : sign_text C rnd t m = sign_text D rnd t m.
  Proof.
    apply (rbind_rel RS); [apply (sim_scalar_of_string _ _ _ _ SIM)|]. intros x y H.
    apply (rmap_rel (sigs _ _ RS RP)); [apply (sim_sign _ _ _ _ SIM); exact H|]. intros a b AB.
    exact (sim_sig_string _ _ _ _ SIM a b AB).
  Qed.

  Theorem sim_read_text rnd s m : read_text C rnd s m = read_text D rnd s m.
  Proof.
    apply (rmap_rel (sigs _ _ RS RP)); [apply (sim_sig_of_string _ _ _ _ SIM)|]. intros a b AB.
    rewrite (sim_sig_string _ _ _ _ SIM a b AB).
    rewrite (sim_pstr _ _ _ _ SIM _ _ (sim_sig_public _ _ _ _ SIM a b m AB)). reflexivity.
  Qed.

  Lemma sim_ring_texts l : rrel (Forall2 RP) (rmapM (point_of_string C) l) (rmapM (point_of_string D) l).
  Proof.
    induction l as [|t l IH]; cbn [rmapM]; [constructor|].
    apply (rrel_bind RP); [apply (sim_point_of_string _ _ _ _ SIM)|]. intros p q PQ.
    apply (rrel_bind (Forall2 RP)); [exact IH|]. intros u v UV. cbn [rrel]. constructor; assumption.
  Qed.

  Theorem sim_ring_sign_text t m l : ring_sign_text C t m l = ring_sign_text D t m l.
  Proof.
    apply (rbind_rel RS); [apply (sim_scalar_of_string _ _ _ _ SIM)|]. intros x y XY.
    apply (rbind_rel (Forall2 RP)); [apply sim_ring_texts|]. intros u v UV.
    apply (rmap_rel (rings _ _ RS RP)); [apply (sim_ring_sign _ _ _ _ SIM); assumption|]. intros a b AB.
    exact (sim_ring_string _ _ _ _ SIM a b AB).
  Qed.

  Theorem sim_ring_read_text s m : ring_read_text C s m = ring_read_text D s m.
  Proof.
    apply (rbind_rel (rings _ _ RS RP)); [apply (sim_ring_of_string _ _ _ _ SIM)|]. intros a b AB.
    rewrite (sim_ring_verify _ _ _ _ SIM a b m AB), (sim_ring_string _ _ _ _ SIM a b AB). reflexivity.
  Qed.

  Theorem sim_ring_keys_text s m hs : ring_keys_text C s m hs = ring_keys_text D s m hs.
  Proof.
    apply (rbind_rel (rings _ _ RS RP)); [apply (sim_ring_of_string _ _ _ _ SIM)|]. intros a b AB.
    exact (sim_to_verification _ _ _ _ SIM a b m hs AB).
  Qed.

  Lemma sim_unlock_ring mp ring ring' : Forall2 RP ring ring' -> forall seen,
    unlock_ring (C := C) mp ring seen = unlock_ring (C := D) mp ring' seen.
  Proof.
    intro F. induction F as [|p q ring ring' PQ F IH]; intro seen; cbn [unlock_ring]; [reflexivity|].
    rewrite (sim_pstr _ _ _ _ SIM _ _ PQ). destruct (FromBytes (pstr D q)); cbn [rbind]; try reflexivity.
    destruct (existsb _ mp); [apply IH|reflexivity].
  Qed.

  Theorem sim_unlock_text l s : unlock_text C l s = unlock_text D l s.
  Proof.
    apply (rbind_rel (rings _ _ RS RP)); [apply (sim_ring_of_string _ _ _ _ SIM)|]. intros a b AB.
    unfold unlock. rewrite (sim_ring_verify _ _ _ _ SIM a b _ AB).
    destruct AB as (R & _ & _). rewrite (sim_unlock_ring _ _ _ R). reflexivity.
  Qed.

  Theorem sim_run f g e : (forall s, length s = 32 -> RS (f s) (g s)) -> scalars32 e ->
    orel RP (run C f e) (run D g e).
  Proof.
    intros F. induction e; cbn [scalars32 run]; intro S.
    - apply (sim_base _ _ _ _ SIM).
    - destruct S as [L S]. specialize (IHe S). destruct (run C f e), (run D g e); cbn [orel] in *; try contradiction; [|exact I].
      apply (sim_mul _ _ _ _ SIM); [apply F; exact L|exact IHe].
    - destruct S as [S1 S2]. specialize (IHe1 S1). specialize (IHe2 S2).
      destruct (run C f e1), (run D g e1); cbn [orel] in *; try contradiction; [|exact I].
      destruct (run C f e2), (run D g e2); cbn [orel] in *; try contradiction; [|exact I].
      apply (sim_add _ _ _ _ SIM); assumption.
    - destruct S as [S1 S2]. specialize (IHe1 S1). specialize (IHe2 S2).
      destruct (run C f e1), (run D g e1); cbn [orel] in *; try contradiction; [|exact I].
      destruct (run C f e2), (run D g e2); cbn [orel] in *; try contradiction; [|exact I].
      apply (sim_sub _ _ _ _ SIM); assumption.
    - apply (sim_dec _ _ _ _ SIM).
  Qed.
End Simulated.

Theorem limb_texts :
  (forall t, public_text limb25519 t = public_text ed25519 t) /\
  (forall rnd t m, sign_text limb25519 rnd t m = sign_text ed25519 rnd t m) /\
  (forall rnd s m, read_text limb25519 rnd s m = read_text ed25519 rnd s m) /\
  (forall t m ring, ring_sign_text limb25519 t m ring = ring_sign_text ed25519 t m ring) /\
  (forall s m, ring_read_text limb25519 s m = ring_read_text ed25519 s m) /\
  (forall s m hs, ring_keys_text limb25519 s m hs = ring_keys_text ed25519 s m hs) /\
  (forall l s, unlock_text limb25519 l s = unlock_text ed25519 l s).
Proof.
  repeat match goal with |- _ /\ _ => split end; intros.
  - apply (sim_public_text _ _ _ _ limb_simulates).
  - apply (sim_sign_text _ _ _ _ limb_simulates).
  - apply (sim_read_text _ _ _ _ limb_simulates).
  - apply (sim_ring_sign_text _ _ _ _ limb_simulates).
  - apply (sim_ring_read_text _ _ _ _ limb_simulates).
  - apply (sim_ring_keys_text _ _ _ _ limb_simulates).
  - apply (sim_unlock_text _ _ _ _ limb_simulates).
Qed.

Theorem limb_points e : scalars32 e ->
  match run limb25519 (fun s => s) e, run ed25519 (fun s => s) e with
  | Some p, Some q => l_point_bytes p = point_bytes q
  | None, None => True
  | _, _ => False
  end.
Proof.
  intro S. pose proof (sim_run _ _ _ _ limb_simulates (fun s => s) (fun s => s) e (fun s L => conj eq_refl L) S) as H.
  destruct (run limb25519 _ e), (run ed25519 _ e); cbn [orel] in H; try exact H. apply l_point_bytes_eq. exact H.
Qed.

Theorem limb_equal e f : scalars32 e -> scalars32 f ->
  match run limb25519 (fun s => s) e, run limb25519 (fun s => s) f, run ed25519 (fun s => s) e, run ed25519 (fun s => s) f with
  | Some p, Some p', Some q, Some q' => l_point_eqb p p' = point_eqb q q'
  | _, _, _, _ => True
  end.
Proof.
  intros S T. pose proof (sim_run _ _ _ _ limb_simulates (fun s => s) (fun s => s) e (fun s L => conj eq_refl L) S) as H.
  pose proof (sim_run _ _ _ _ limb_simulates (fun s => s) (fun s => s) f (fun s L => conj eq_refl L) T) as K.
  destruct (run limb25519 _ e), (run ed25519 _ e); cbn [orel] in H; try exact I; try contradiction;
  destruct (run limb25519 _ f), (run ed25519 _ f); cbn [orel] in K; try exact I; try contradiction.
  apply l_point_eqb_eq; assumption.
Qed.

(** ** Signing by texts *)

Local Opaque point_mul point_add point_sub point_base scalar_sub scalar_mul scalar_of ring_sign ring_verify.

Lemma ring_texts_in ks : forall ring, rmapM (point_of_string ed25519) ks = Ok ring -> forall p, In (pstr ed25519 p) ks -> In p ring.
Proof.
  induction ks as [|k ks IH]; intros ring E p I; [destruct I|]. cbn [rmapM] in E.
  apply rbind_Ok in E. destruct E as (q & Q & E). apply rbind_Ok in E. destruct E as (ring' & R & E). injection E as <-.
  destruct I as [->|I]; [|right; exact (IH _ R p I)]. left. rewrite point_text in Q. congruence.
Qed.

Theorem ring_text_works t x m ks ring : scalar_of_string ed25519 t = Ok x -> (le_val x <= last_multiplier)%Z ->
  rmapM (point_of_string ed25519) ks = Ok ring -> In (pstr ed25519 (public_key ed25519 x)) ks ->
  exists s, ring_sign_text ed25519 t m ks = Ok s /\ ring_read_text ed25519 s m = Ok (s, true).
Proof.
  intros T B R I. pose proof (ring_texts_in ks ring R _ I) as RI.
  pose proof (near_ring_sign x m ring (scalar_string_length t x T) B) as N.
  unfold ring_sign_text. rewrite T, R. cbn [rbind].
  destruct (ring_sign ed25519 x m ring) as [g| |] eqn:G; [|tauto|destruct N]. destruct N as (_ & _ & _ & V).
  exists (ring_string ed25519 g). split; [reflexivity|].
  destruct (ring_sign_reduced ed25519 scalar_reduced scalar_zero scalar_add ed25519_laws x m ring g G) as [GE GS].
  unfold ring_read_text.
  rewrite (ring_of_ring_string ed25519 scalar_reduced scalar_zero scalar_add ed25519_laws g GE GS).
  cbn [rbind]. rewrite V. reflexivity.
Qed.

Theorem sign_text_works t x m rnd rnd' : scalar_of_string ed25519 t = Ok x -> (le_val x <= last_multiplier)%Z ->
  let r := pstr ed25519 (pmul ed25519 (gen_k ed25519 x m) (base ed25519)) in
  create_hash ed25519 (itoa rnd ++ r) <> scalar_zero -> create_hash ed25519 (itoa rnd' ++ r) <> scalar_zero ->
  create_hash ed25519 (m ++ r) <> scalar_zero ->
  exists s, sign_text ed25519 rnd t m = Ok s /\ read_text ed25519 rnd' s m = Ok (s, pstr ed25519 (public_key ed25519 x)).
Proof.
  intros T B r E1 E2 E3. unfold r in *.
  destruct (near_sign rnd x m (scalar_string_length t x T) B E1 E3) as (g & G & R & S & P).
  exists (sig_string ed25519 g). unfold sign_text. rewrite T. cbn [rbind]. rewrite G. split; [reflexivity|].
  unfold read_text. destruct g as [gr gs]. cbn [sg_r sg_s] in R, S. subst gr.
  assert (K : scalar_reduced (gen_k ed25519 x m)) by apply scalar_of_reduced.
  rewrite (sig_of_sig_string ed25519 scalar_reduced scalar_zero scalar_add ed25519_laws rnd' _ gs K S E2).
  cbn [rmap]. rewrite P. reflexivity.
Qed.

(** ** The same on the machine integers *)

Lemma limb_scalar_text t : (scalar_of_string limb25519 t : res bytes) = scalar_of_string ed25519 t.
Proof. unfold scalar_of_string. cbn [limb25519 ed25519 Sc sdec]. reflexivity. Qed.

Lemma limb_public_text (x : bytes) : length x = 32 -> pstr limb25519 (public_key limb25519 x) = pstr ed25519 (public_key ed25519 x).
Proof.
  intro L. apply (sim_pstr _ _ _ _ limb_simulates). apply (sim_public _ _ _ _ limb_simulates). split; [reflexivity|exact L].
Qed.

Lemma limb_readable ks : (forall k, In k ks -> exists p, point_of_string limb25519 k = Ok p) ->
  exists ring, rmapM (point_of_string ed25519) ks = Ok ring.
Proof.
  induction ks as [|k ks IH]; intro H; [eexists; reflexivity|].
  destruct (IH (fun k I => H k (or_intror I))) as [ring R]. destruct (H k (or_introl eq_refl)) as [p P].
  pose proof (sim_point_of_string _ _ _ _ limb_simulates k) as S.
  destruct (rrel_Ok _ _ _ _ S P) as (q & Q & _). exists (q :: ring). cbn [rmapM]. rewrite Q, R. reflexivity.
Qed.

Lemma public_of_text t x u : scalar_of_string ed25519 t = Ok x -> public_text ed25519 t = Ok u ->
  u = pstr ed25519 (public_key ed25519 x).
Proof.
  intros T U. unfold public_text in U. rewrite T in U. cbn [rmap] in U.
  generalize dependent (pstr ed25519 (public_key ed25519 x)). intros v U. congruence.
Qed.

Lemma ring_text_ed t (x u m : bytes) ks ring : scalar_of_string ed25519 t = Ok x -> (le_val x <= last_multiplier)%Z ->
  public_text ed25519 t = Ok u -> In u ks -> rmapM (point_of_string ed25519) ks = Ok ring ->
  exists s, ring_sign_text ed25519 t m ks = Ok s /\ ring_read_text ed25519 s m = Ok (s, true).
Proof.
  intros T B U I R. apply (ring_text_works t x m ks ring T B R). rewrite <- (public_of_text t x u T U). exact I.
Qed.

Theorem limb_ring_text t (x u m : bytes) ks : (scalar_of_string limb25519 t : res bytes) = Ok x ->
  (le_val x <= last_multiplier)%Z ->
  public_text limb25519 t = Ok u -> In u ks -> (forall k, In k ks -> exists p, point_of_string limb25519 k = Ok p) ->
  exists s, ring_sign_text limb25519 t m ks = Ok s /\ ring_read_text limb25519 s m = Ok (s, true).
Proof.
  intros T B U I R. destruct limb_texts as (E1 & _ & _ & E4 & E5 & _). destruct (limb_readable ks R) as [ring RR].
  rewrite E1 in U. rewrite limb_scalar_text in T.
  destruct (ring_text_ed t x u m ks ring T B U I RR) as (s & S1 & S2).
  exists s. rewrite E4, E5. split; [exact S1|exact S2].
Qed.

Lemma limb_gen_k (x m : bytes) : same32 (gen_k limb25519 x m) (gen_k ed25519 x m).
Proof.
  unfold gen_k, create_hash, sstr. cbn [limb25519 ed25519 Sc senc sofb sha256]. split; [reflexivity|apply scalar_of_length].
Qed.

Lemma limb_hash m : (create_hash limb25519 m : bytes) = create_hash ed25519 m.
Proof. unfold create_hash. cbn [limb25519 ed25519 Sc sofb sha256]. reflexivity. Qed.

Lemma limb_nonce (x m : bytes) : nonce_text limb25519 x m = nonce_text ed25519 x m.
Proof.
  apply (sim_pstr _ _ _ _ limb_simulates). apply (sim_mul _ _ _ _ limb_simulates).
  - apply limb_gen_k.
  - apply (sim_base _ _ _ _ limb_simulates).
Qed.

Theorem limb_sign_text t (x u m : bytes) rnd rnd' : (scalar_of_string limb25519 t : res bytes) = Ok x ->
  (le_val x <= last_multiplier)%Z -> public_text limb25519 t = Ok u ->
  let r := nonce_text limb25519 x m in
  let zero := fun m : bytes => (create_hash limb25519 m : bytes) = scalar_zero in
  ~ zero (itoa rnd ++ r) -> ~ zero (itoa rnd' ++ r) -> ~ zero (m ++ r) ->
  exists s, sign_text limb25519 rnd t m = Ok s /\ read_text limb25519 rnd' s m = Ok (s, u).
Proof.
  intros T B U r zero. destruct limb_texts as (E1 & E2 & E3 & _). unfold zero, r. clear zero r.
  rewrite E1 in U. rewrite limb_scalar_text in T. rewrite limb_nonce. intros N1 N2 N3.
  assert (H : forall m, ~ (create_hash limb25519 m : bytes) = scalar_zero -> (create_hash ed25519 m : bytes) <> scalar_zero).
  { intros m' N X. apply N. exact (eq_trans (limb_hash m') X). }
  apply H in N1, N2, N3. clear H. rename N1 into H1, N2 into H2, N3 into H3.
  rewrite (public_of_text t x u T U).
  destruct (sign_text_works t x m rnd rnd' T B H1 H2 H3) as (s & S1 & S2).
  exists s. rewrite E2, E3. split; [exact S1|exact S2].
Qed.

Lemma limb_key_text (x : bytes) : generated x -> (scalar_of_string limb25519 (sstr limb25519 x) : res bytes) = Ok x.
Proof.
  intro G. pose proof (proj1 (key_strings ed25519 scalar_reduced scalar_zero scalar_add ed25519_laws x point_null G)) as H.
  rewrite limb_scalar_text. rewrite (sim_sstr _ _ _ _ limb_simulates x x) by (split; [reflexivity|apply G]).
  exact H.
Qed.
