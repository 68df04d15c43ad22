From Coq Require Import Lia ZifyBool ZifyNat ZifyN.
From Verif Require Import Base BaseFacts HashModel HashProofs HashSpec HashTreeModel HashTreeProofs SignModel EntitiesModel FloatModel
  PiastresModel PiastresSpec PiastresProofs JsonModel JsonProofs TimeModel TimeProofs FloatText MemJsonModel CodecProofs MemSpec
  MemJsonProofs TransferModel TransferProofs StoreModel StoreSpec StoreProofs StoreInvariant StoreHistory ConcurrentModel ConcurrentSpec
  ConcurrentProofs ConcurrentInvariant.

Lemma overlay_prefix : forall i j (c : bytes), overlay (firstn i c) (firstn j c) = firstn (Nat.max i j) c.
Proof.
  intros i j c. unfold overlay. destruct (Nat.le_gt_cases j i) as [L|L].
  - rewrite skipn_all2 by (rewrite !firstn_length; lia). rewrite app_nil_r, Nat.max_l by exact L. reflexivity.
  - rewrite Nat.max_r by lia. destruct (Nat.le_gt_cases i (length c)) as [M|M].
    + rewrite firstn_length, Nat.min_l by exact M. rewrite <- (firstn_skipn i (firstn j c)) at 2.
      rewrite firstn_firstn, Nat.min_l by lia. reflexivity.
    + rewrite skipn_all2 by (rewrite !firstn_length; lia). rewrite app_nil_r, !firstn_all2 by lia. reflexivity.
Qed.

Section WithCurve.
Context {C : Curve}.
Implicit Types o : obj C.
Notation fname := file_name.
Notation torn := (@unreadable C).

Section Universe.
Variable U : obj C -> Prop.
Hypothesis X : exact U.
Notation canon := (canon U).

(** ** What holds at any moment *)
(** files only hold beginnings of what they should *)
Definition prefixed (d : disk) : Prop := forall k n c, d k n = Some c -> exists s i, canon k n s /\ c = firstn i s.
Lemma canon_torn : forall k n s i, canon k n s -> firstn i s = s \/ torn k (firstn i s).
Proof.
  intros k n s i (o & Uo & <- & _ & T). destruct (text_facts o (x_proper U X o Uo)) as (s' & T' & _ & F).
  assert (s' = s) by congruence. subst s'. destruct (Nat.lt_ge_cases i (length s)) as [L|L]; [right; auto|left; apply firstn_all2; exact L].
Qed.
Lemma prefixed_cases : forall d, prefixed d -> forall k n c, d k n = Some c -> canon k n c \/ torn k c.
Proof.
  intros d P k n c E. destruct (P k n c E) as (s & i & K & ->). destruct (canon_torn k n s i K) as [->|T]; auto.
Qed.
Definition touched (d : disk) (ps : list (thread C)) (k : kind) (n : bytes) : Prop :=
  (exists c, canon k n c /\ d k n = Some c) \/ exists c f, In (PFill k n c f) ps.
Definition post (b : bool) (c : call C) (S : fset) (r : res (option (obj C))) : Prop :=
  match c with
  | Saves o => (r = Ok None /\ owned o S) \/ (r = Err /\ (b = true \/ (kind_of o = KGenesis /\ owned o S)))
  | Retrieves k h => r = Err \/ exists x o, r = Ok (Some x) /\ U o /\ kind_of o = k /\ fname k (hash_of o) = fname k h /\ same x o
  end.
Definition running (b : bool) (S0 : fset) (cs : list (call C)) (d : disk) (ps : list (thread C)) : Prop :=
  prefixed d /\
  Forall2 (fun c p => exists S, safe U b (post b c) S p /\ (b = false -> forall k n, S k n -> touched d ps k n)) cs ps /\
  (b = false -> forall k n, S0 k n -> touched d ps k n).

Lemma content_prefix : forall d k n s, prefixed d -> canon k n s -> exists j, content_at d k n = firstn j s.
Proof.
  intros d k n s P K. unfold content_at. destruct (d k n) as [c|] eqn:E; [|exists 0; reflexivity].
  destruct (P k n c E) as (s' & i & K' & ->). rewrite (canon_fun U X _ _ _ _ K K'). eauto.
Qed.
Lemma prefixed_upd : forall d k n s i, prefixed d -> canon k n s -> prefixed (upd d k n (firstn i s)).
Proof.
  intros d k n s i P K k' n' c E. destruct (file_dec k' k n' n) as [[-> ->]|Q].
  - rewrite upd_same in E. injection E as <-. eauto.
  - rewrite upd_other in E by exact Q. eauto.
Qed.
Lemma prefixed_step : forall b K S e (p : thread C) d p' d', prefixed d -> safe U b K S p -> pstep e p d = Some (p', d') -> prefixed d'.
Proof.
  intros b K S e p d p' d' P H E. destruct p as [r|k n f|k n c f|k n c f]; cbn [pstep safe] in *.
  - discriminate.
  - injection E as _ <-. exact P.
  - destruct H as (K1 & _). destruct e; injection E as _ <-; try exact P; apply (prefixed_upd d k n c 0); assumption.
  - destruct H as (K1 & _). destruct (content_prefix d k n c P K1) as (j & J). destruct e as [| |i]; injection E as _ <-; [|exact P|].
    + rewrite J. replace c with (firstn (length c) c) at 1 by apply firstn_all. rewrite overlay_prefix. apply prefixed_upd; assumption.
    + rewrite J, overlay_prefix. apply prefixed_upd; assumption.
Qed.
(** a call keeps its promise *)
Lemma safe_step : forall b K S e (p : thread C) d p' d', prefixed d -> safe U b K S p -> (b = false -> e = Fine) -> pstep e p d = Some (p', d') ->
  exists S', safe U b K S' p' /\ forall k n, S' k n -> S k n \/ exists c, canon k n c /\ d' k n = Some c.
Proof.
  intros b K S e p d p' d' P H He E.
  assert (AD : forall S k n d', (exists c, canon k n c /\ d' k n = Some c) -> forall k' n', add S k n k' n' ->
    S k' n' \/ exists c, canon k' n' c /\ d' k' n' = Some c).
  { intros S1 k n d1 Hc k' n' [Q|[-> ->]]; auto. }
  destruct p as [r|k n f|k n c f|k n c f]; cbn [pstep safe] in *.
  - discriminate.
  - injection E as <- <-. destruct H as (H1 & H2 & H3). destruct (d k n) as [c|] eqn:D.
    + destruct (prefixed_cases d P k n c D) as [Q|Q].
      * exists (add S k n). split; [auto|]. apply AD. eauto.
      * exists S. auto.
    + exists S. auto.
  - destruct e as [| |i]; injection E as <- <-.
    + exists S. split; [exact H|auto].
    + exists S. split; [|auto]. apply H. destruct b; [reflexivity|]. specialize (He eq_refl). discriminate.
    + exists S. split; [exact H|auto].
  - destruct H as (K1 & H1 & H2). destruct (content_prefix d k n c P K1) as (j & J). destruct e as [| |i]; injection E as <- <-.
    + exists (add S k n). split; [exact H1|]. apply AD. exists c. split; [exact K1|]. rewrite upd_same, J. f_equal.
      replace c with (firstn (length c) c) at 1 by apply firstn_all. rewrite overlay_prefix. apply firstn_all2. lia.
    + exists S. split; [|auto]. apply H2. destruct b; [reflexivity|]. specialize (He eq_refl). discriminate.
    + exists S. split; [|auto]. apply H2. destruct b; [reflexivity|]. specialize (He eq_refl). discriminate.
Qed.
(** a file stays touched *)
Lemma touched_step : forall K S (p : thread C) d p' d' l r, prefixed d -> safe U false K S p -> pstep Fine p d = Some (p', d') ->
  forall k n, touched d (l ++ p :: r) k n -> touched d' (l ++ p' :: r) k n.
Proof.
  intros K S p d p' d' l r P H E k n T.
  assert (KEEP : forall c f, In (PFill k n c f) (l ++ p :: r) -> p <> PFill k n c f -> In (PFill k n c f) (l ++ p' :: r)).
  { intros c f Hi N. rewrite in_app_iff in *. destruct Hi as [Hi|[Hi|Hi]]; [auto|congruence|]. right. right. exact Hi. }
  destruct p as [r0|k0 n0 f0|k0 n0 c0 f0|k0 n0 c0 f0]; cbn [pstep safe] in *.
  - discriminate.
  - injection E as <- <-. destruct T as [T|(c & f & Hi)]; [left; exact T|]. right. exists c, f. apply KEEP; [exact Hi|discriminate].
  - injection E as <- <-. destruct (file_dec k k0 n n0) as [[-> ->]|Q].
    + right. exists c0, f0. rewrite in_app_iff. right. left. reflexivity.
    + destruct T as [(c & Kc & D)|(c & f & Hi)].
      * left. exists c. split; [exact Kc|]. rewrite upd_other by exact Q. exact D.
      * right. exists c, f. apply KEEP; [exact Hi|discriminate].
  - destruct H as (K1 & _). injection E as <- <-. destruct (content_prefix d k0 n0 c0 P K1) as (j & J). destruct (file_dec k k0 n n0) as [[-> ->]|Q].
    + left. exists c0. split; [exact K1|]. rewrite upd_same, J. f_equal.
      replace c0 with (firstn (length c0) c0) at 1 by apply firstn_all. rewrite overlay_prefix. apply firstn_all2. lia.
    + destruct T as [(c & Kc & D)|(c & f & Hi)].
      * left. exists c. split; [exact Kc|]. rewrite upd_other by exact Q. exact D.
      * right. exists c, f. apply KEEP; [exact Hi|]. congruence.
Qed.
Lemma Forall2_mid : forall A B (R : A -> B -> Prop) cs l p r, Forall2 R cs (l ++ p :: r) ->
  exists cl c cr, cs = cl ++ c :: cr /\ Forall2 R cl l /\ R c p /\ Forall2 R cr r.
Proof.
  intros A B R cs l p r F. apply Forall2_app_inv_r in F as (cl & cr & F1 & F2 & ->). inversion F2; subst. eauto 7.
Qed.
Lemma Forall2_weaken : forall A B (R R' : A -> B -> Prop) l l', (forall a b, R a b -> R' a b) -> Forall2 R l l' -> Forall2 R' l l'.
Proof. intros A B R R' l l' H F. induction F; constructor; auto. Qed.
Lemma Forall2_in : forall A B (R : A -> B -> Prop) l l', Forall2 R l l' -> forall a, In a l -> exists b, In b l' /\ R a b.
Proof.
  intros A B R l l' F. induction F as [|a b l l' H F IH]; intros c Hc; [destruct Hc|]. destruct Hc as [->|Hc]; [exists b; split; [left; reflexivity|exact H]|].
  destruct (IH c Hc) as (x & Hx & Hr). exists x. split; [right; exact Hx|exact Hr].
Qed.
Lemma running_step : forall b S0 cs d ps d' ps', running b S0 cs d ps -> cstep b (d, ps) (d', ps') -> running b S0 cs d' ps'.
Proof.
  intros b S0 cs d ps d' ps' (P & F & T0) St. inversion St as [d1 l p r e p' d2 He E Q1 Q2]. subst d1 ps d2 ps'. clear St.
  destruct (Forall2_mid _ _ _ _ _ _ _ F) as (cl & c & cr & -> & F1 & (S & Sf & TS) & F2).
  assert (TM : b = false -> forall k n, touched d (l ++ p :: r) k n -> touched d' (l ++ p' :: r) k n).
  { intros Hb. subst b. rewrite (He eq_refl) in E. exact (touched_step _ _ _ _ _ _ _ _ P Sf E). }
  split; [exact (prefixed_step _ _ _ _ _ _ _ _ P Sf E)|]. split; [|intros Hb k n Hk; apply (TM Hb), T0; auto].
  assert (FW : forall cs ps, Forall2 (fun c p0 => exists S, safe U b (post b c) S p0 /\ (b = false -> forall k n, S k n -> touched d (l ++ p :: r) k n)) cs ps ->
    Forall2 (fun c p0 => exists S, safe U b (post b c) S p0 /\ (b = false -> forall k n, S k n -> touched d' (l ++ p' :: r) k n)) cs ps).
  { intros cs ps G. eapply Forall2_weaken; [|exact G]. intros c1 p1 (S1 & G1 & G2). exists S1. split; [exact G1|]. intros Hb k n Hk. apply (TM Hb), (G2 Hb), Hk. }
  apply Forall2_app; [apply FW; exact F1|]. constructor; [|apply FW; exact F2].
  destruct (safe_step _ _ _ _ _ _ _ _ P Sf He E) as (S' & Sf' & HS). exists S'. split; [exact Sf'|]. intros Hb k n Hk.
  destruct (HS k n Hk) as [Q|Q]; [apply (TM Hb), (TS Hb), Q|left; exact Q].
Qed.
Lemma running_steps : forall b S0 cs x y, csteps b x y -> running b S0 cs (fst x) (snd x) -> running b S0 cs (fst y) (snd y).
Proof.
  intros b S0 cs x y H R. induction H as [|[d ps] [d' ps'] H IH St]; [exact R|]. cbn [fst snd] in *. eapply running_step; eassumption.
Qed.

(** ** The beginning *)
Definition nothing : fset := fun _ _ => False.
Lemma start_safe : forall b c, about U c -> safe U b (post b c) nothing (start c).
Proof.
  intros b [o|k h] A; cbn [start about] in *.
  - apply safe_pseq. destruct o as [l|bi|e|t|g|bl|mb|li|ml];
      try (apply ensures_obj; [exact X|exact A|discriminate| |];
        [intros S _ H; cbn [safe]; left; auto|intros Hb S _; right; auto]).
    apply genesis_safe; [exact X|exact A| |].
    + intros S _ H. split; [cbn [safe]; left; auto|right; auto].
    + intros Hb S _. right. auto.
  - apply safe_of_get.
    assert (W : forall g : rprog (obj C), strict g -> (forall o, U o -> kind_of o = k -> fname k (hash_of o) = fname k h -> 
        forall d, retrieve_obj (kind_of o) (hash_of o) d = rmap (fun x => x) (rp_run g d)) ->
      (match g with RRet r => r = Err | RGet k' n _ => k' = k /\ n = fname k h end) ->
      gets U (fun S r => safe U b (post b (Retrieves k h)) S (PRet (rmap Some r))) nothing g).
    { intros g Hg HR HS. destruct g as [r|k' n f]; [subst r; left; reflexivity|]. destruct HS as [-> ->]. cbn [gets]. split; [|split].
      - intros c (o & Uo & Ek & En & T). 
        assert (G : gets U (fun S r => safe U b (post b (Retrieves k h)) S (PRet (rmap Some r))) nothing (RGet k (fname k h) f)).
        { apply (gets_obj U X _ (fun x => x) _ o); auto.
          - intros S _. left. reflexivity.
          - intros S x _ _ Sm. right. exists x, o. repeat split; auto. }
        cbn [gets] in G. apply G. exists o. auto.
      - intros c Hc. cbn [strict] in Hg. rewrite (proj1 Hg c Hc). left. reflexivity.
      - left. reflexivity. }
    apply W.
    + apply strict_obj.
    + intros o Uo Ek En d. rewrite rp_obj. rewrite Ek.
      assert (Q : retrieve_obj k (hash_of o) d = retrieve_obj k h d).
      { destruct k; try reflexivity; cbn [file_name] in En; apply hash_string_inj in En; rewrite En; reflexivity. }
      rewrite Q. destruct (retrieve_obj k h d); reflexivity.
    + destruct k; cbn; auto.
Qed.
Lemma running_start : forall b (S0 : fset) cs d, prefixed d -> (forall c, In c cs -> about U c) ->
  (b = false -> forall k n, S0 k n -> exists c, canon k n c /\ d k n = Some c) -> running b S0 cs d (map start cs).
Proof.
  intros b S0 cs d P A H. split; [exact P|]. split.
  - assert (G : forall ps, (forall c, In c cs -> about U c) ->
      Forall2 (fun c p => exists S, safe U b (post b c) S p /\ (b = false -> forall k n, S k n -> touched d ps k n)) cs (map start cs)).
    { clear A. intros ps A. induction cs as [|c cs IH]; cbn [map]; constructor.
      - exists nothing. split; [apply start_safe; apply A; left; reflexivity|]. intros _ k n [].
      - apply IH. intros c' Hc'. apply A. right. exact Hc'. }
    apply G. exact A.
  - intros Hb k n Hk. left. apply H; assumption.
Qed.
Lemma left_prefixed : forall d, left_behind U d -> prefixed d.
Proof.
  intros d L. induction L as [|d cs d' ps L IH A St]; [intros k n c E; discriminate|].
  assert (R : running true nothing cs d (map start cs)) by (apply running_start; auto; discriminate).
  apply (running_steps _ _ _ _ _ St) in R. apply R.
Qed.
Lemma left_running : forall d cs b d' ps, left_behind U d -> (forall c, In c cs -> about U c) -> csteps b (d, map start cs) (d', ps) ->
  running b (fun k n => exists c, canon k n c /\ d k n = Some c) cs d' ps.
Proof.
  intros d cs b d' ps L A St. apply (running_steps _ _ _ _ _ St). cbn [fst snd]. apply running_start; auto. apply left_prefixed. exact L.
Qed.

(** ** The end *)
Lemma retrieves_seen : forall d cs b d' l p r c, left_behind U d -> (forall c, In c cs -> about U c) ->
  csteps b (d, map start cs) (d', l ++ PRet p :: r) -> nth_error cs (length l) = Some c -> exists S, post b c S p.
Proof.
  intros d cs b d' l p r c L A St Hc. destruct (left_running _ _ _ _ _ L A St) as (_ & F & _).
  destruct (Forall2_mid _ _ _ _ _ _ _ F) as (cl & c' & cr & -> & F1 & (S & Sf & _) & _).
  apply Forall2_len in F1. rewrite nth_error_app2, F1, Nat.sub_diag in Hc by lia. injection Hc as <-. exists S. exact Sf.
Qed.
Lemma still_there : forall d cs b d' ps, left_behind U d -> (forall c, In c cs -> about U c) -> csteps b (d, map start cs) (d', ps) ->
  b = false -> Forall returned ps -> forall o x, U o -> retrieve_obj (kind_of o) (hash_of o) d = Ok x ->
  exists o', retrieve_obj (kind_of o) (hash_of o) d' = Ok o' /\ same o' o.
Proof.
  intros d cs b d' ps L A St Hb Fin o x Uo R. destruct (left_running _ _ _ _ _ L A St) as (P & F & T0).
  apply (complete_retrieve U X); [exact Uo|]. intros p s Hp T.
  pose proof (retrieve_complete U X o d x (prefixed_cases d (left_prefixed d L)) Uo R p s Hp T) as E.
  pose proof (canon_obj U p s (U_deep U X o p Uo Hp) T) as K.
  destruct (T0 Hb (kind_of p) (fname (kind_of p) (hash_of p)) (ex_intro _ s (conj K E))) as [(c & Kc & D)|(c & f & Hi)].
  - rewrite D. f_equal. exact (canon_fun U X _ _ _ _ Kc K).
  - rewrite Forall_forall in Fin. destruct (Fin _ Hi) as [r Q]. discriminate.
Qed.
Lemma genesis_unique : forall g g', U (OGenesis g) -> U (OGenesis g') -> g' = g.
Proof. intros g g' H H'. assert (Q : OGenesis g' = OGenesis g) by (apply (x_exact U X); auto). congruence. Qed.
(** what lies between an object and its genesis *)
Lemma deep_own : forall o q, In q (deep o) -> own o q \/ exists g, genesis_of o = Some g /\ In q (deep (OGenesis g)).
Proof.
  apply (deep_ind (fun o => forall q, In q (deep o) -> own o q \/ exists g, genesis_of o = Some g /\ In q (deep (OGenesis g)))).
  intros o IH q Hq. apply deep_inv in Hq as [->|(p & Hp & Hq)]; [left; apply own_self|].
  assert (NG : forall p q, (forall q, In q (deep p) -> own p q \/ exists g, genesis_of p = Some g /\ In q (deep (OGenesis g))) ->
    In p (saved_parts o) -> In q (deep p) -> (forall g, genesis_of p = Some g -> genesis_of o = Some g) ->
    own o q \/ exists g, genesis_of o = Some g /\ In q (deep (OGenesis g))).
  { intros p' q' H1 H2 H3 H4. destruct (H1 q' H3) as [H|(g & Eg & H)]; [left; eapply own_part; eassumption|right; exists g; auto]. }
  destruct o as [l|b|e|t|g|b|b|l|l]; try (apply (NG p q (IH p Hp) Hp Hq)).
  - destruct Hp.
  - destruct Hp as [<-|[]]. intros ? Q; discriminate Q.
  - cbn [parts] in Hp. rewrite !in_app_iff in Hp. destruct Hp as [Hp|[[<-|[]]|Hp]]; [|intros ? Q; discriminate Q|];
      apply in_map_iff in Hp as (x & <- & _); intros ? Q; discriminate Q.
  - apply in_map_iff in Hp as (x & <- & _); intros ? Q; discriminate Q.
  - destruct Hp as [<-|[]]. intros ? Q; discriminate Q.
  - destruct Hp as [<-|Hp'].
    + right. exists (bk_genesis b). auto.
    + apply (NG p q); [apply IH; right; exact Hp'|exact Hp'|exact Hq|]. apply in_map_iff in Hp' as (x & <- & _); intros ? Q; discriminate Q.
  - destruct Hp as [<-|[]]. auto.
  - destruct Hp as [<-|[]]. auto.
  - destruct Hp as [<-|[]]. auto.
Qed.
Lemma U_genesis : forall o g, U o -> genesis_of o = Some g -> U (OGenesis g).
Proof.
  intros o g Uo E. assert (D : In (OGenesis g) (deep o)); [|apply (U_deep U X o); assumption].
  destruct o as [l|b|e|t|g0|b|b|l|l]; try discriminate; injection E as <-.
  - apply (deep_parts _ (OBlock b)); [apply deep_self|left; reflexivity].
  - apply (deep_parts _ (OBlock (mb_block b))); [|left; reflexivity]. apply (deep_parts _ (OMBlock b)); [apply deep_self|left; reflexivity].
  - apply (deep_parts _ (OBlock (ln_next l))); [|left; reflexivity]. apply (deep_parts _ (OLink l)); [apply deep_self|left; reflexivity].
  - apply (deep_parts _ (OBlock (ln_next (ml_link l)))); [|left; reflexivity].
    apply (deep_parts _ (OLink (ml_link l))); [|left; reflexivity]. apply (deep_parts _ (OMLink l)); [apply deep_self|left; reflexivity].
Qed.
Lemma all_saved : forall d cs d' ps, left_behind U d -> (forall c, In c cs -> about U c) -> csteps false (d, map start cs) (d', ps) ->
  Forall returned ps -> forall o, In (Saves o) cs -> genesis_there d cs o ->
  exists o', retrieve_obj (kind_of o) (hash_of o) d' = Ok o' /\ same o' o.
Proof.
  intros d cs d' ps L A St Fin o Ho HG. pose proof (left_running _ _ _ _ _ L A St) as (P & F & T0).
  assert (Uo : U o) by exact (A _ Ho).
  assert (TT : forall o, In (Saves o) cs -> forall q, own o q -> U q -> forall s, text_of q = Ok s -> d' (kind_of q) (fname (kind_of q) (hash_of q)) = Some s).
  { clear o Ho HG Uo. intros o Ho q Hq Uq s T.
    assert (G : exists p, In p ps /\ exists S, safe U false (post false (Saves o)) S p /\ (false = false -> forall k n, S k n -> touched d' ps k n)).
    { exact (Forall2_in _ _ _ _ _ F _ Ho). }
    destruct G as (p & Hp & S & Sf & TS). pose proof Fin as Fin'. rewrite Forall_forall in Fin'. destruct (Fin' p Hp) as (r & ->). cbn [safe post] in Sf.
    assert (O : owned o S) by (destruct Sf as [[_ O]|[_ [Q|[_ O]]]]; [exact O|discriminate|exact O]).
    destruct (TS eq_refl _ _ (O q Hq)) as [(c & Kc & D)|(c & f & Hi)].
    - rewrite D. f_equal. exact (canon_fun U X _ _ _ _ Kc (canon_obj U q s Uq T)).
    - destruct (Fin' _ Hi) as [r' Q]. discriminate. }
  apply (complete_retrieve U X); [exact Uo|]. intros q s Hq T. pose proof (U_deep U X o q Uo Hq) as Uq.
  destruct (deep_own o q Hq) as [Hw|(g & Eg & Hw)]; [exact (TT o Ho q Hw Uq s T)|]. pose proof (U_genesis o g Uo Eg) as Ug.
  destruct (HG g Eg) as [(g' & R)|Hg].
  - assert (R' : retrieve_obj (kind_of (OGenesis g)) (hash_of (OGenesis g)) d = Ok (OGenesis g')) by (cbn; rewrite R; reflexivity).
    pose proof (retrieve_complete U X _ d _ (prefixed_cases d (left_prefixed d L)) Ug R' q s Hw T) as E.
    destruct (T0 eq_refl _ _ (ex_intro _ s (conj (canon_obj U q s Uq T) E))) as [(c & Kc & D)|(c & f & Hi)].
    + rewrite D. f_equal. exact (canon_fun U X _ _ _ _ Kc (canon_obj U q s Uq T)).
    + rewrite Forall_forall in Fin. destruct (Fin _ Hi) as [r' Q]. discriminate.
  - destruct (deep_own (OGenesis g) q Hw) as [Hw'|(g' & E' & _)]; [|discriminate]. exact (TT _ Hg q Hw' Uq s T).
Qed.
End Universe.

(** ** Every schedule ends *)
Inductive child : thread C -> thread C -> Prop :=
| child_get : forall k n f x, child (f x) (PGet k n f)
| child_denied : forall k n c f r, child (f r) (PPut k n c f)
| child_open : forall k n c f, child (PFill k n c f) (PPut k n c f)
| child_fill : forall k n c f r, child (f r) (PFill k n c f).
Lemma pstep_child : forall e p d p' d', pstep e p d = Some (p', d') -> child p' p.
Proof.
  intros e p d p' d' E. destruct p as [r|k n f|k n c f|k n c f]; cbn [pstep] in E; try discriminate; [|destruct e|destruct e];
    injection E as <- _; constructor.
Qed.
Lemma child_wf : forall p, Acc child p.
Proof.
  assert (A : forall k n c f, (forall r, Acc child (f r)) -> Acc child (PFill k n c f)).
  { intros k n c f H. constructor. intros y Hy. inversion Hy; subst. apply H. }
  induction p as [r|k n f IH|k n c f IH|k n c f IH]; constructor; intros y Hy; inversion Hy; subst; auto.
Qed.
Inductive shrinks : list (thread C) -> list (thread C) -> Prop :=
| shrinks_intro : forall l p p' r, child p' p -> shrinks (l ++ p' :: r) (l ++ p :: r).
Lemma shrinks_wf : forall ps, Acc shrinks ps.
Proof.
  induction ps as [|p ps IH].
  - constructor. intros y Hy. inversion Hy as [l p p' r Hc E1 E2]. destruct l; discriminate.
  - revert ps IH. induction (child_wf p) as [p _ IHp]. intros ps IH. induction IH as [ps Hps IHps].
    constructor. intros y Hy. inversion Hy as [l q q' r Hc E1 E2]. destruct l as [|q0 l]; cbn [app] in *; injection E2 as -> <-.
    + apply IHp; [exact Hc|]. constructor. exact Hps.
    + apply IHps. constructor. exact Hc.
Qed.
Lemma schedules_end : forall b (st : nat -> disk * list (thread C)), ~ (forall i, cstep b (st i) (st (S i))).
Proof.
  intros b st H. assert (S : forall i, shrinks (snd (st (S i))) (snd (st i))).
  { intro i. specialize (H i). inversion H as [d l p r e p' d' He E Q1 Q2]. cbn [snd]. constructor. eapply pstep_child. exact E. }
  assert (G : forall ps, Acc shrinks ps -> forall i, snd (st i) = ps -> False).
  { intros ps A. induction A as [ps _ IH]. intros i E. apply (IH (snd (st (Datatypes.S i)))) with (i := Datatypes.S i); [|reflexivity].
    rewrite <- E. apply S. }
  exact (G _ (shrinks_wf _) 0 eq_refl).
Qed.
Lemma can_go_on : forall b d (ps : list (thread C)), Forall returned ps \/ exists y, cstep b (d, ps) y.
Proof.
  intros b d ps. induction ps as [|p ps [IH|(y & IH)]].
  - left. constructor.
  - destruct p as [r|k n f|k n c f|k n c f]; [left; constructor; [exists r; reflexivity|exact IH]| | |]; right;
      eexists; apply (cstep_intro b d [] _ ps Fine); [reflexivity|reflexivity|reflexivity|reflexivity|reflexivity|reflexivity].
  - right. inversion IH as [d1 l q r e q' d' He E Q1 Q2]. subst. exists (d', (p :: l) ++ q' :: r).
    apply (cstep_intro b d (p :: l) q r e q' d' He E).
Qed.
End WithCurve.
