(** The signature package over the machine integers: with the limbs of fe.go and
    scalar.go it gives the same answers and texts as with the exact numbers of
    Ed25519Curve.v. *)
From Coq Require Import Lia ZifyBool ZifyNat ZifyN.
From Verif Require Import Base BaseFacts HashModel LittleEndian Edwards25519Model Edwards25519Proofs
  Edwards25519More Sha256 SignModel Ed25519Curve LimbModel LimbScalars LimbPoints.

(** libs/cryptography/pk/signature/sdk.go:30, with the operations of LimbModel.v *)
Definition limb25519 : Curve := mkCurve
  bytes lextended l_base l_point_mul l_point_add l_point_sub l_point_eqb l_point_bytes l_point_from
  l_scalar_sub l_scalar_mul l_scalar_inverse scalar_eqb scalar_bytes scalar_from scalar_set_bytes
  sha_256.

(** ** Results that correspond *)

Definition rrel {A B} (R : A -> B -> Prop) (a : res A) (b : res B) : Prop :=
  match a, b with
  | Ok a, Ok b => R a b
  | Err, Err => True
  | Panic, Panic => True
  | _, _ => False
  end.

Definition orel {A B} (R : A -> B -> Prop) (a : option A) (b : option B) : Prop :=
  match a, b with
  | Some a, Some b => R a b
  | None, None => True
  | _, _ => False
  end.

Lemma rrel_bind {A B A' B'} (R : A -> B -> Prop) (R' : A' -> B' -> Prop) a b f g :
  rrel R a b -> (forall x y, R x y -> rrel R' (f x) (g y)) -> rrel R' (rbind a f) (rbind b g).
Proof.
  intros H F. destruct a as [x| |], b as [y| |]; cbn [rrel rbind] in *; try contradiction; auto.
Qed.

Lemma rrel_eq {A} (a b : res A) : rrel eq a b <-> a = b.
Proof.
  split.
  - destruct a, b; cbn; intro H; try contradiction; congruence.
  - intros ->. destruct b; cbn; reflexivity.
Qed.

Lemma rrel_Ok {A B} (R : A -> B -> Prop) a b x : rrel R a b -> a = Ok x -> exists y, b = Ok y /\ R x y.
Proof. intros H ->. destruct b; cbn in H; try contradiction. eauto. Qed.

(** ** Curves that correspond *)

Section Simulation.
  Variables C D : Curve.
  Variable RS : Sc C -> Sc D -> Prop.
  Variable RP : Pt C -> Pt D -> Prop.

  Record simulates : Prop := Simulates {
    sim_base : RP (base C) (base D);
    sim_mul : forall s t p q, RS s t -> RP p q -> RP (pmul C s p) (pmul D t q);
    sim_add : forall p q p' q', RP p q -> RP p' q' -> RP (padd C p p') (padd D q q');
    sim_sub : forall p q p' q', RP p q -> RP p' q' -> RP (psub C p p') (psub D q q');
    sim_eqb : forall p q p' q', RP p q -> RP p' q' -> peqb C p p' = peqb D q q';
    sim_enc : forall p q, RP p q -> penc C p = penc D q;
    sim_dec : forall b, orel RP (pdec C b) (pdec D b);
    sim_ssub : forall s t s' t', RS s t -> RS s' t' -> RS (ssub C s s') (ssub D t t');
    sim_smul : forall s t s' t', RS s t -> RS s' t' -> RS (smul C s s') (smul D t t');
    sim_sinv : forall s t, RS s t -> RS (sinv C s) (sinv D t);
    sim_seqb : forall s t s' t', RS s t -> RS s' t' -> seqb C s s' = seqb D t t';
    sim_senc : forall s t, RS s t -> senc C s = senc D t;
    sim_sdec : forall b, orel RS (sdec C b) (sdec D b);
    sim_sofb : forall b, RS (sofb C b) (sofb D b);
    sim_sha : forall b, sha256 C b = sha256 D b }.

  Hypothesis SIM : simulates.

  Lemma sim_pstr p q : RP p q -> pstr C p = pstr D q.
  Proof. intro H. unfold pstr. rewrite (sim_enc SIM _ _ H). reflexivity. Qed.
  Lemma sim_sstr s t : RS s t -> sstr C s = sstr D t.
  Proof. intro H. unfold sstr. rewrite (sim_senc SIM _ _ H). reflexivity. Qed.
  Lemma sim_hash m : RS (create_hash C m) (create_hash D m).
  Proof. unfold create_hash. rewrite (sim_sha SIM). apply (sim_sofb SIM). Qed.
  Lemma sim_gen_k x y m : RS x y -> RS (gen_k C x m) (gen_k D y m).
  Proof. intro H. unfold gen_k. rewrite (sim_sstr _ _ H). apply sim_hash. Qed.
  Lemma sim_public x y : RS x y -> RP (public_key C x) (public_key D y).
  Proof. intro H. unfold public_key. apply (sim_mul SIM); [exact H|apply (sim_base SIM)]. Qed.

  Lemma sim_of_opt {A B} (R : A -> B -> Prop) a b : orel R a b -> rrel R (of_opt a) (of_opt b).
  Proof. destruct a, b; cbn; auto. Qed.
  Lemma rrel_refl_bind {A A' B'} (R' : A' -> B' -> Prop) (a : res A) f g :
    (forall x, rrel R' (f x) (g x)) -> rrel R' (rbind a f) (rbind a g).
  Proof. intro H. destruct a; cbn; auto. Qed.

  Lemma sim_scalar_of_string s : rrel RS (scalar_of_string C s) (scalar_of_string D s).
  Proof. apply rrel_refl_bind. intro b. apply sim_of_opt. apply (sim_sdec SIM). Qed.
  Lemma sim_point_of_string s : rrel RP (point_of_string C s) (point_of_string D s).
  Proof. apply rrel_refl_bind. intro b. apply sim_of_opt. apply (sim_dec SIM). Qed.

  Lemma sim_link m s t e f p q : RS s t -> RS e f -> RP p q -> RS (link C m s e p) (link D m t f q).
  Proof.
    intros S E P. unfold link. rewrite (sim_pstr _ (padd D (pmul D t (base D)) (pmul D f q))); [apply sim_hash|].
    apply (sim_add SIM); apply (sim_mul SIM); try assumption. apply (sim_base SIM).
  Qed.

  Lemma sim_index ring ring' p q : Forall2 RP ring ring' -> RP p q -> signer_index C ring p = signer_index D ring' q.
  Proof.
    intros F P. induction F as [|a b ring ring' AB F IH]; cbn [signer_index]; [reflexivity|].
    rewrite (sim_eqb SIM _ _ _ _ AB P), IH. reflexivity.
  Qed.

  Lemma sim_upd {A B} (R : A -> B -> Prop) i a b l m : R a b -> Forall2 R l m -> Forall2 R (upd i a l) (upd i b m).
  Proof.
    intros H F. revert i. induction F as [|x y l m XY F IH]; intros i; [destruct i; constructor|].
    destruct i; cbn [upd]; constructor; auto.
  Qed.

  Lemma sim_nth {A B} (R : A -> B -> Prop) i l m d e : Forall2 R l m -> R d e -> R (nth i l d) (nth i m e).
  Proof. intros F D0. revert i. induction F; intros [|i]; cbn [nth]; auto. Qed.

  Lemma sim_nth_error {A B} (R : A -> B -> Prop) i l m : Forall2 R l m -> orel R (nth_error l i) (nth_error m i).
  Proof. intro F. revert i. induction F; intros [|i]; cbn [nth_error orel]; auto. Qed.

  Lemma sim_len {A B} (R : A -> B -> Prop) l m : Forall2 R l m -> length l = length m.
  Proof. intro F. induction F; cbn; congruence. Qed.

  Definition RO : option (Sc C) -> option (Sc D) -> Prop := orel RS.
  Definition pairs (a : list (option (Sc C)) * list (option (Sc C))) (b : list (option (Sc D)) * list (option (Sc D))) : Prop :=
    Forall2 RO (fst a) (fst b) /\ Forall2 RO (snd a) (snd b).

  Lemma sim_loop x y m ring ring' : RS x y -> Forall2 RP ring ring' -> forall fuel i k r es es' ss ss',
    Forall2 RO es es' -> Forall2 RO ss ss' ->
    rrel pairs (ring_loop C fuel i k r x m ring es ss) (ring_loop D fuel i k r y m ring' es' ss').
  Proof.
    intros X RR fuel. induction fuel as [|fuel IH]; intros i k r es es' ss ss' E S; cbn [ring_loop].
    - destruct (Nat.eqb i k); [split; assumption|exact I].
    - destruct (Nat.eqb i k); [split; assumption|].
      pose proof (sim_nth_error RP i _ _ RR) as N1. pose proof (sim_nth RO i _ _ None None E I) as N2.
      destruct (nth_error ring i), (nth_error ring' i); cbn [orel] in N1; try contradiction; [|exact I].
      destruct (nth i es None), (nth i es' None); cbn [RO orel] in N2; try contradiction; [|exact I].
      pose proof (sim_gen_k _ _ (m ++ itoa (Z.of_nat i)) X) as K.
      apply IH; apply sim_upd; try assumption. cbn [RO orel]. apply sim_link; assumption.
  Qed.

  Lemma sim_all_some es es' : Forall2 RO es es' -> rrel (Forall2 RS) (all_some es) (all_some es').
  Proof.
    intro F. induction F as [|a b l m AB F IH]; cbn [all_some]; [constructor|].
    destruct a, b; cbn [RO orel] in AB; try contradiction; [|exact I].
    apply (rrel_bind _ _ _ _ _ _ IH). intros u v UV. cbn [rrel]. constructor; assumption.
  Qed.

  Definition rings (a : ringsig C) (b : ringsig D) : Prop :=
    Forall2 RP (rs_ring a) (rs_ring b) /\ Forall2 RS (rs_s a) (rs_s b) /\ RS (rs_e a) (rs_e b).

  Theorem sim_ring_sign x y m ring ring' : RS x y -> Forall2 RP ring ring' ->
    rrel rings (ring_sign C x m ring) (ring_sign D y m ring').
  Proof.
    intros X RR. unfold ring_sign. rewrite (sim_index _ _ _ _ RR (sim_public _ _ X)), (sim_len _ _ _ RR).
    destruct (signer_index D ring' (public_key D y)) as [k|]; [|exact I]. cbv zeta.
    assert (N : forall n, Forall2 RO (repeat None n) (repeat None n)).
    { intro n. induction n; cbn [repeat]; constructor; [exact I|assumption]. }
    pose proof (sim_gen_k _ _ m X) as K.
    assert (H : RO (Some (create_hash C (m ++ pstr C (pmul C (gen_k C x m) (base C)))))
                   (Some (create_hash D (m ++ pstr D (pmul D (gen_k D y m) (base D)))))).
    { cbn [RO orel]. rewrite (sim_pstr _ (pmul D (gen_k D y m) (base D))); [apply sim_hash|].
      apply (sim_mul SIM); [exact K|apply (sim_base SIM)]. }
    refine (rrel_bind pairs _ _ _ _ _ _ _).
    { apply sim_loop; [exact X|exact RR| |apply N]. apply sim_upd; [exact H|apply N]. }
    intros [es ss] [es' ss'] [E S]. cbn [fst snd] in E, S.
    pose proof (sim_nth RO k _ _ None None E I) as N1. pose proof (sim_nth RO 0 _ _ None None E I) as N2.
    destruct (nth k es None), (nth k es' None); cbn [RO orel] in N1; try contradiction; [|exact I].
    destruct (nth 0 es None), (nth 0 es' None); cbn [RO orel] in N2; try contradiction; [|exact I].
    refine (rrel_bind (Forall2 RS) _ _ _ _ _ _ _).
    { apply sim_all_some. apply sim_upd; [|exact S]. cbn [RO orel].
      apply (sim_ssub SIM); [exact K|]. apply (sim_smul SIM); assumption. }
    intros u v UV. cbn [rrel]. unfold rings. cbn [rs_ring rs_s rs_e]. auto.
  Qed.

  Lemma sim_fold m ring ring' : Forall2 RP ring ring' -> forall ss ss' e f, Forall2 RS ss ss' -> RS e f ->
    rrel RS (ring_fold C m ring ss e) (ring_fold D m ring' ss' f).
  Proof.
    intro RR. induction RR as [|p q ring ring' PQ RR IH]; intros ss ss' e f S E; cbn [ring_fold]; [exact E|].
    destruct S as [|s t ss ss' ST S]; [exact I|]. apply IH; [exact S|]. apply sim_link; assumption.
  Qed.

  Theorem sim_ring_verify a b m : rings a b -> ring_verify C a m = ring_verify D b m.
  Proof.
    intros (R & S & E). unfold ring_verify. apply rrel_eq.
    apply (rrel_bind RS); [apply sim_fold; assumption|]. intros x y XY. cbn [rrel]. apply (sim_seqb SIM); assumption.
  Qed.

  Lemma sim_concat {A B} (R : A -> B -> Prop) (f : A -> bytes) g l m : (forall a b, R a b -> f a = g b) -> Forall2 R l m ->
    concat (map f l) = concat (map g m).
  Proof. intros H F. induction F; cbn [map concat]; [reflexivity|]. f_equal; auto. Qed.

  Theorem sim_ring_string a b : rings a b -> ring_string C a = ring_string D b.
  Proof.
    intros (R & S & E). unfold ring_string. rewrite (sim_sstr _ _ E).
    rewrite (sim_concat RP _ (fun p => pstr D p ++ [barsep]) _ _ (fun p q H => f_equal (fun z => z ++ [barsep]) (sim_pstr p q H)) R).
    rewrite (sim_concat RS _ (fun s => sstr D s ++ [barsep]) _ _ (fun p q H => f_equal (fun z => z ++ [barsep]) (sim_sstr p q H)) S).
    reflexivity.
  Qed.

  Lemma sim_elements {A B} (R : A -> B -> Prop) f g l : (forall w, rrel R (f w) (g w)) ->
    rrel (Forall2 R) (elements f l) (elements g l).
  Proof.
    intro H. induction l as [|w l IH]; cbn [elements]; [constructor|]. destruct w as [|c w]; [exact IH|].
    apply (rrel_bind R); [apply H|]. intros x y XY. apply (rrel_bind _ _ _ _ _ _ IH). intros u v UV.
    cbn [rrel]. constructor; assumption.
  Qed.

  Theorem sim_ring_of_string s : rrel rings (ring_of_string C s) (ring_of_string D s).
  Proof.
    unfold ring_of_string. apply rrel_refl_bind. intro d.
    destruct (split hashsep d) as [|a [|b [|c [|? ?]]]]; try exact I.
    apply (rrel_bind (Forall2 RP)); [apply sim_elements; apply sim_point_of_string|]. intros ring ring' RR.
    apply (rrel_bind (Forall2 RS)); [apply sim_elements; apply sim_scalar_of_string|]. intros ss ss' SS.
    apply (rrel_bind RS); [apply sim_scalar_of_string|]. intros e f EF.
    cbn [rrel]. unfold rings. cbn [rs_ring rs_s rs_e]. auto.
  Qed.

  Lemma sim_compare ring ring' hs : Forall2 RP ring ring' -> compare_keys C ring hs = compare_keys D ring' hs.
  Proof.
    intro F. revert hs. induction F as [|p q ring ring' PQ F IH]; intro hs; cbn [compare_keys]; [reflexivity|].
    destruct hs as [|h hs]; [reflexivity|]. rewrite (sim_pstr _ _ PQ). destruct (FromString (pstr D q)); cbn [rbind]; try reflexivity.
    rewrite IH. reflexivity.
  Qed.

  Theorem sim_to_verification a b m hs : rings a b -> to_verification C a m hs = to_verification D b m hs.
  Proof.
    intro H. unfold to_verification. rewrite (sim_ring_verify a b m H). destruct H as (R & _ & _).
    rewrite (sim_len _ _ _ R), (sim_compare _ _ hs R). reflexivity.
  Qed.

  Definition sigs (a : sig C) (b : sig D) : Prop := RP (sg_r a) (sg_r b) /\ RS (sg_s a) (sg_s b).

  Theorem sim_sig_public a b m : sigs a b -> RP (sig_public_key C a m) (sig_public_key D b m).
  Proof.
    intros [R S]. unfold sig_public_key. cbv zeta. rewrite (sim_pstr _ _ R).
    apply (sim_mul SIM); [apply (sim_sinv SIM); apply sim_hash|]. apply (sim_sub SIM); [exact R|].
    apply (sim_mul SIM); [exact S|apply (sim_base SIM)].
  Qed.

  Theorem sim_sig_verify rnd a b : sigs a b -> sig_verify C rnd a = sig_verify D rnd b.
  Proof.
    intro H. pose proof (sim_sig_public a b (itoa rnd) H) as P. destruct H as [R S]. unfold sig_verify. cbv zeta.
    rewrite (sim_pstr _ _ R). apply (sim_eqb SIM).
    - apply (sim_mul SIM); [exact S|apply (sim_base SIM)].
    - apply (sim_sub SIM); [exact R|]. apply (sim_mul SIM); [apply sim_hash|exact P].
  Qed.

  Lemma sim_create rnd p q s t : RP p q -> RS s t -> rrel sigs (create_signature C rnd p s) (create_signature D rnd q t).
  Proof.
    intros P S. unfold create_signature. rewrite (sim_sig_verify rnd (Sig p s) (Sig q t)) by (split; assumption).
    destruct (sig_verify D rnd (Sig q t)); [|exact I]. cbn [rrel]. split; assumption.
  Qed.

  Theorem sim_sign rnd x y m : RS x y -> rrel sigs (sign C rnd x m) (sign D rnd y m).
  Proof.
    intro X. unfold sign. cbv zeta. pose proof (sim_gen_k _ _ m X) as K.
    assert (R : RP (pmul C (gen_k C x m) (base C)) (pmul D (gen_k D y m) (base D))).
    { apply (sim_mul SIM); [exact K|apply (sim_base SIM)]. }
    apply sim_create; [exact R|]. rewrite (sim_pstr _ _ R).
    apply (sim_ssub SIM); [exact K|]. apply (sim_smul SIM); [apply sim_hash|exact X].
  Qed.

  Theorem sim_sig_string a b : sigs a b -> sig_string C a = sig_string D b.
  Proof. intros [R S]. unfold sig_string. rewrite (sim_pstr _ _ R), (sim_sstr _ _ S). reflexivity. Qed.

  Theorem sim_sig_of_string rnd s : rrel sigs (sig_of_string C rnd s) (sig_of_string D rnd s).
  Proof.
    unfold sig_of_string. apply rrel_refl_bind. intro d.
    destruct (split hashsep d) as [|a [|b [|? ?]]]; try exact I.
    apply (rrel_bind RP); [apply sim_point_of_string|]. intros p q PQ.
    apply (rrel_bind RS); [apply sim_scalar_of_string|]. intros u v UV. apply sim_create; assumption.
  Qed.
End Simulation.

(** ** The limbs simulate the exact numbers *)

Definition same32 (s t : bytes) : Prop := s = t /\ length s = 32.

Local Opaque l_point_mul l_point_add l_point_sub l_point_eqb l_point_bytes l_point_from l_base
  l_scalar_sub l_scalar_mul l_scalar_inverse point_base point_mul point_add point_sub point_eqb point_bytes point_from
  scalar_of.

Theorem limb_simulates : simulates limb25519 ed25519 same32 stands.
Proof.
  constructor; cbn [limb25519 ed25519 Sc Pt base pmul padd psub peqb penc pdec ssub smul sinv seqb senc sdec sofb sha256].
  - exact stands_base.
  - intros s t p q [<- L] P. apply stands_mul; assumption.
  - intros p q p' q'. apply stands_add.
  - intros p q p' q'. apply stands_sub.
  - intros p q p' q'. apply l_point_eqb_eq.
  - exact l_point_bytes_eq.
  - intro b. pose proof (stands_from b) as H. destruct (l_point_from b), (point_from b); exact H.
  - intros s t s' t' [<- L] [<- L']. rewrite (l_scalar_sub_eq s s' L L'). split; [reflexivity|apply scalar_of_length].
  - intros s t s' t' [<- L] [<- L']. rewrite (l_scalar_mul_eq s s' L L'). split; [reflexivity|apply scalar_of_length].
  - intros s t [<- L]. rewrite (l_scalar_inverse_eq s L). split; [reflexivity|apply scalar_of_length].
  - intros s t s' t' [<- L] [<- L']. reflexivity.
  - intros s t [<- L]. reflexivity.
  - intro b. unfold scalar_from. destruct (Nat.ltb (length b) 32) eqn:L; [exact I|]. cbn [orel].
    split; [reflexivity|]. apply firstn_length_le. apply Nat.ltb_ge in L. exact L.
  - intro b. split; [reflexivity|apply scalar_of_length].
  - reflexivity.
Qed.
