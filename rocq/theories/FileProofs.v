(** Proofs about the file stores. *)
From Coq Require Import Lia.
From Verif Require Import Base BaseFacts CfbModel CfbProofs FileModel FileSpec HashModel HashProofs.

Lemma patheq_eq : forall a b, patheq a b = true <-> a = b.
Proof.
  induction a as [|x a IH]; intros [|y b]; cbn; split; intro H; try discriminate; try reflexivity.
  - apply andb_true_iff in H as [H1 H2]. apply bseq_eq in H1. apply IH in H2. congruence.
  - injection H as -> ->. rewrite bseq_refl. cbn. apply IH. reflexivity.
Qed.

Lemma path_dec : forall a b : path, {a = b} + {a <> b}.
Proof.
  intros a b. destruct (patheq a b) eqn:E.
  - left. apply patheq_eq. exact E.
  - right. intro H. apply patheq_eq in H. congruence.
Qed.

Lemma fget_aput_eq : forall d p n, p <> [] -> fget (aput p n d) p = Some n.
Proof. intros d [|c p] n H; [contradiction|]. apply aget_aput_eq. apply patheq_eq. Qed.

Lemma fget_aput_neq : forall d p q n, q <> p -> fget (aput p n d) q = fget d q.
Proof. intros d p [|c q] n H; [reflexivity|]. apply aget_aput_neq; [apply patheq_eq|exact H]. Qed.

Lemma fget_adel_eq : forall d p, p <> [] -> fget (adel patheq p d) p = None.
Proof. intros d [|c p] H; [contradiction|]. apply aget_adel_eq. Qed.

Lemma fget_adel_neq : forall d p q, q <> p -> fget (adel patheq p d) q = fget d q.
Proof. intros d p [|c q] H; [reflexivity|]. apply aget_adel_neq; [apply patheq_eq|exact H]. Qed.

(** ** ancestors *)
Lemma ancestors_from_app : forall p q pre,
  ancestors_from pre (p ++ q) = ancestors_from pre p ++ ancestors_from (pre ++ p) q.
Proof.
  induction p as [|c p IH]; intros q pre; cbn.
  - rewrite app_nil_r. reflexivity.
  - rewrite IH, <- app_assoc. reflexivity.
Qed.

Lemma ancestors_snoc : forall p c, ancestors (p ++ [c]) = ancestors p ++ [p].
Proof. intros p c. unfold ancestors. rewrite ancestors_from_app. reflexivity. Qed.

Lemma ancestors_prefix : forall p q, In q (ancestors p) <-> exists c r, p = q ++ c :: r.
Proof.
  intro p. induction p as [|c p IH] using rev_ind; intro q.
  - split; [intros []|]. intros (c & r & H). destruct q; discriminate.
  - rewrite ancestors_snoc, in_app_iff, IH. split.
    + intros [(x & r & ->)|[->|[]]].
      * exists x, (r ++ [c]). rewrite <- app_assoc. reflexivity.
      * exists c, []. reflexivity.
    + intros (x & r & H). destruct r as [|y r] using rev_ind.
      * apply app_inj_tail in H as [-> ->]. right. left. reflexivity.
      * left. exists x, r. rewrite app_comm_cons, app_assoc in H.
        apply app_inj_tail in H as [-> _]. reflexivity.
Qed.

Lemma is_dir_true : forall d p, is_dir d p = true <-> fget d p = Some Dir.
Proof.
  intros d p. unfold is_dir. destruct (fget d p) as [[|]|]; split; intro H; congruence.
Qed.

Lemma all_dirs : forall d ps, forallb (is_dir d) ps = true <-> Forall (fun a => fget d a = Some Dir) ps.
Proof.
  intros d ps. rewrite forallb_forall, Forall_forall. split; intros H a Ha; apply is_dir_true; auto.
Qed.

Lemma consistent_stat : forall d p, consistent_fs d -> stat d p = fget d p.
Proof.
  intros d p H. unfold stat. destruct (forallb (is_dir d) (ancestors p)) eqn:E; [reflexivity|].
  destruct (fget d p) as [n|] eqn:G; [|reflexivity].
  apply H in G. apply all_dirs in G. congruence.
Qed.

Lemma consistent_empty : consistent_fs [].
Proof.
  intros [|c p] n H; cbn in H; [|discriminate]. constructor.
Qed.

Lemma consistent_aput : forall d p n,
  consistent_fs d -> Forall (fun a => fget d a = Some Dir) (ancestors p) ->
  (n = Dir \/ fget d p <> Some Dir) -> p <> [] -> consistent_fs (aput p n d).
Proof.
  intros d p n Hc Ha Hn Hp q m Hq.
  apply Forall_forall. intros a Hin.
  destruct (path_dec q p) as [->|NE].
  - assert (a <> p). { intros ->. apply ancestors_prefix in Hin as (c & r & E).
      apply (f_equal (@length bytes)) in E. rewrite app_length in E. cbn in E. lia. }
    rewrite fget_aput_neq by assumption. rewrite Forall_forall in Ha. apply Ha. exact Hin.
  - rewrite fget_aput_neq in Hq by exact NE. apply Hc in Hq. rewrite Forall_forall in Hq.
    destruct (path_dec a p) as [->|NE'].
    + specialize (Hq p Hin). rewrite fget_aput_eq by exact Hp.
      destruct Hn as [->|Hn]; [reflexivity|contradiction].
    + rewrite fget_aput_neq by exact NE'. apply Hq. exact Hin.
Qed.

(** ** mkdirs *)
Lemma mkdirs_spec : forall q pre d,
  consistent_fs d -> Forall (fun a => fget d a = Some Dir) (ancestors pre) ->
  let d' := mkdirs d (ancestors_from pre q) in
  consistent_fs d' /\
  (forall x, fget d' x = fget d x \/ (fget d x = None /\ fget d' x = Some Dir)) /\
  (forall x, fget d' x <> fget d x -> In x (ancestors_from pre q)) /\
  ((forall a c, In a (ancestors_from pre q) -> fget d a <> Some (File c)) ->
   Forall (fun a => fget d' a = Some Dir) (ancestors_from pre q)).
Proof.
  induction q as [|c q IH]; intros pre d Hc Ha; cbn [ancestors_from mkdirs].
  - repeat split; auto. intros x H. exfalso. apply H. reflexivity.
  - destruct (fget d pre) as [[|f]|] eqn:E.
    + assert (Ha' : Forall (fun a => fget d a = Some Dir) (ancestors (pre ++ [c]))).
      { rewrite ancestors_snoc. apply Forall_app. auto. }
      destruct (IH (pre ++ [c]) d Hc Ha') as (I1 & I2 & I3 & I4).
      split; [exact I1|]. split; [exact I2|]. split; [intros x Hx; right; apply I3; exact Hx|].
      intros Hf. constructor.
      * destruct (I2 pre) as [->|[? _]]; congruence.
      * apply I4. intros a c' Hin. apply Hf. right. exact Hin.
    + repeat split; auto.
      * intros x H. exfalso. apply H. reflexivity.
      * intros Hf. exfalso. apply (Hf pre f); [left; reflexivity|exact E].
    + assert (Hp : pre <> []) by (intros ->; discriminate).
      assert (Hc1 : consistent_fs (aput pre Dir d)) by (apply consistent_aput; auto).
      assert (Ha' : Forall (fun a => fget (aput pre Dir d) a = Some Dir) (ancestors (pre ++ [c]))).
      { rewrite ancestors_snoc. apply Forall_app. split.
        - rewrite Forall_forall in *. intros a Hin. destruct (path_dec a pre) as [->|NE].
          + apply fget_aput_eq. exact Hp.
          + rewrite fget_aput_neq by exact NE. apply Ha. exact Hin.
        - constructor; [|constructor]. apply fget_aput_eq. exact Hp. }
      destruct (IH (pre ++ [c]) _ Hc1 Ha') as (I1 & I2 & I3 & I4).
      split; [exact I1|]. split; [|split].
      * intro x. destruct (path_dec x pre) as [->|NE].
        -- right. split; [exact E|]. destruct (I2 pre) as [->|[_ H]]; [|exact H].
           apply fget_aput_eq. exact Hp.
        -- destruct (I2 x) as [H|[H1 H2]].
           ++ left. rewrite H. apply fget_aput_neq. exact NE.
           ++ right. rewrite fget_aput_neq in H1 by exact NE. auto.
      * intros x Hx. destruct (path_dec x pre) as [->|NE]; [left; reflexivity|].
        right. apply I3. rewrite fget_aput_neq by exact NE. exact Hx.
      * intros Hf. constructor.
        -- destruct (I2 pre) as [->|[_ H]]; [|exact H]. apply fget_aput_eq. exact Hp.
        -- apply I4. intros a c' Hin. destruct (path_dec a pre) as [->|NE].
           ++ rewrite fget_aput_eq by exact Hp. discriminate.
           ++ rewrite fget_aput_neq by exact NE. apply Hf. right. exact Hin.
Qed.

Lemma content_same : forall d d' x,
  (fget d' x = fget d x \/ (fget d x = None /\ fget d' x = Some Dir)) -> content_at d' x = content_at d x.
Proof.
  intros d d' x [H|[H1 H2]]; unfold content_at; [rewrite H|rewrite H1, H2]; reflexivity.
Qed.

Lemma mkdir_all_dirname : forall d p, p <> [] -> mkdir_all d (dirname p) = mkdirs d (ancestors p).
Proof.
  intros d p Hp. unfold mkdir_all, dirname.
  destruct (exists_last Hp) as (q & c & ->). rewrite removelast_last, ancestors_snoc. reflexivity.
Qed.

Lemma stat_notexist_root : forall d, stat_notexist d [] = false.
Proof. reflexivity. Qed.

(** The disk after the optional MkdirAll of Save. *)
Definition prep (d : fs) (p : path) : fs := if stat_notexist d p then mkdir_all d (dirname p) else d.

Lemma prep_spec : forall d p, consistent_fs d ->
  consistent_fs (prep d p) /\
  (forall x, fget (prep d p) x = fget d x \/ (fget d x = None /\ fget (prep d p) x = Some Dir)) /\
  fget (prep d p) p = fget d p /\
  ((forall a c, In a (ancestors p) -> fget d a <> Some (File c)) ->
   Forall (fun a => fget (prep d p) a = Some Dir) (ancestors p)) /\
  ((exists a c, In a (ancestors p) /\ fget d a = Some (File c)) ->
   ~ Forall (fun a => fget (prep d p) a = Some Dir) (ancestors p)) /\
  (forall x, fget (prep d p) x = Some Dir -> fget d x = Some Dir \/ In x (ancestors p)).
Proof.
  intros d p Hc. unfold prep. destruct (stat_notexist d p) eqn:E.
  - assert (Hp : p <> []) by (intros ->; rewrite stat_notexist_root in E; discriminate).
    rewrite mkdir_all_dirname by exact Hp.
    destruct (mkdirs_spec p [] d Hc (Forall_nil _)) as (I1 & I2 & I3 & I4).
    fold (ancestors p) in I1, I2, I3, I4.
    split; [exact I1|]. split; [exact I2|]. split; [|split; [exact I4|]].
    + destruct (I2 p) as [H|[H1 H2]]; [exact H|]. exfalso.
      assert (In p (ancestors p)) as Hin by (apply I3; congruence).
      apply ancestors_prefix in Hin as (c & r & E').
      apply (f_equal (@length bytes)) in E'. rewrite app_length in E'. cbn in E'. lia.
    + split.
      * intros (a & c & Hin & Hf) HF. rewrite Forall_forall in HF. specialize (HF a Hin).
        destruct (I2 a) as [H|[H1 _]]; congruence.
      * intros x Hx. destruct (I2 x) as [H|[H _]]; [left; congruence|]. right. apply I3. congruence.
  - split; [exact Hc|]. split; [auto|]. split; [reflexivity|]. split.
    + intros Hf. unfold stat_notexist in E. rewrite consistent_stat in E by exact Hc.
      destruct (fget d p) as [n|] eqn:G; [exact (Hc p n G)|].
      destruct (find (fun a => negb (is_dir d a)) (ancestors p)) as [a|] eqn:F; [|discriminate].
      apply find_some in F as [F1 F2].
      destruct (fget d a) as [[|c]|] eqn:Ga; try discriminate. exfalso. exact (Hf a c F1 Ga).
    + split; [|auto].
      intros (a & c & Hin & Hf) HF. rewrite Forall_forall in HF. specialize (HF a Hin). congruence.
Qed.

(** ** Save *)
Lemma save_spec : forall base d rel c, consistent_fs d ->
  let p := fpath base rel in
  let '(d', ok) := save base d rel c in
  consistent_fs d' /\
  (ok = true <-> (forall a f, In a (ancestors p) -> fget d a <> Some (File f)) /\ fget d p <> Some Dir) /\
  (forall x, content_at d' x = if ok && patheq x p then Some c else content_at d x) /\
  (forall x, fget d' x = Some Dir -> fget d x = Some Dir \/ In x (ancestors p)).
Proof.
  intros base d rel c Hc p. unfold save. fold p. fold (prep d p).
  destruct (prep_spec d p Hc) as (I1 & I2 & I3 & I4 & I5 & I6).
  unfold write_file. destruct (forallb (is_dir (prep d p)) (ancestors p)) eqn:E.
  - apply all_dirs in E. rewrite I3. destruct (fget d p) as [[|f]|] eqn:G.
    + split; [exact I1|]. split.
      * split; [discriminate|]. intros [_ H]. congruence.
      * split; [intro x; cbn; apply content_same; apply I2|exact I6].
    + assert (Hp : p <> []) by (intros ->; discriminate).
      split; [apply consistent_aput; auto; right; congruence|]. split.
      * split; [|reflexivity]. intros _. split; [|congruence].
        intros a f' Hin Hf. apply I5; [|exact E]. eauto.
      * split; [|intros x Hx; destruct (path_dec x p) as [->|NE];
          [rewrite fget_aput_eq in Hx by exact Hp; discriminate|
           rewrite fget_aput_neq in Hx by exact NE; apply I6; exact Hx]].
        intro x. cbn [andb]. destruct (patheq x p) eqn:Ex.
        -- apply patheq_eq in Ex. subst x. unfold content_at. rewrite fget_aput_eq by exact Hp. reflexivity.
        -- rewrite <- (content_same d (prep d p) x (I2 x)). unfold content_at. rewrite fget_aput_neq; [reflexivity|].
           intro H. apply patheq_eq in H. congruence.
    + assert (Hp : p <> []) by (intros ->; discriminate).
      split; [apply consistent_aput; auto; right; congruence|]. split.
      * split; [|reflexivity]. intros _. split; [|congruence].
        intros a f' Hin Hf. apply I5; [|exact E]. eauto.
      * split; [|intros x Hx; destruct (path_dec x p) as [->|NE];
          [rewrite fget_aput_eq in Hx by exact Hp; discriminate|
           rewrite fget_aput_neq in Hx by exact NE; apply I6; exact Hx]].
        intro x. cbn [andb]. destruct (patheq x p) eqn:Ex.
        -- apply patheq_eq in Ex. subst x. unfold content_at. rewrite fget_aput_eq by exact Hp. reflexivity.
        -- rewrite <- (content_same d (prep d p) x (I2 x)). unfold content_at. rewrite fget_aput_neq; [reflexivity|].
           intro H. apply patheq_eq in H. congruence.
  - split; [exact I1|]. split.
    + split; [discriminate|]. intros [H _]. apply I4 in H. apply all_dirs in H. congruence.
    + split; [intro x; cbn; apply content_same; apply I2|exact I6].
Qed.

(** ** Delete *)
Lemma has_child_spec : forall d p, has_child d p = false ->
  forall c n, fget d (p ++ [c]) = Some n -> False.
Proof.
  intros d p H c n G. unfold has_child in H.
  assert (Hin : exists m, In (p ++ [c], m) d).
  { assert (aget patheq (p ++ [c]) d = Some n) as A.
    { destruct (p ++ [c]) eqn:E; [destruct p; discriminate|exact G]. }
    clear - A. induction d as [|[k m] d IH]; cbn in A; [discriminate|].
    destruct (patheq (p ++ [c]) k) eqn:E.
    - apply patheq_eq in E. subst. exists m. left. reflexivity.
    - destruct (IH A) as [m' H]. exists m'. right. exact H. }
  destruct Hin as [m Hin].
  assert (T : existsb (fun e => patheq (removelast (fst e)) p && negb (patheq (fst e) [])
     && match fget d (fst e) with Some _ => true | None => false end) d = true).
  { apply existsb_exists. exists (p ++ [c], m). split; [exact Hin|]. cbn [fst].
    rewrite removelast_last, G. apply andb_true_iff. split; [|reflexivity].
    apply andb_true_iff. split; [apply patheq_eq; reflexivity|].
    apply negb_true_iff. destruct (patheq (p ++ [c]) []) eqn:E; [|reflexivity].
    apply patheq_eq in E. destruct p; discriminate. }
  congruence.
Qed.

Lemma consistent_adel : forall d p, consistent_fs d -> p <> [] ->
  (forall c n, fget d (p ++ [c]) = Some n -> False) -> consistent_fs (adel patheq p d).
Proof.
  intros d p Hc Hp Hch q n Hq.
  destruct (path_dec q p) as [->|NE]; [rewrite fget_adel_eq in Hq by exact Hp; discriminate|].
  rewrite fget_adel_neq in Hq by exact NE. pose proof (Hc q n Hq) as HF.
  rewrite Forall_forall in *. intros a Hin. destruct (path_dec a p) as [->|NE'].
  - exfalso. apply ancestors_prefix in Hin as (c & r & ->).
    destruct r as [|y r].
    + exact (Hch c n Hq).
    + assert (Hin' : In (p ++ [c]) (ancestors (p ++ c :: y :: r))).
      { apply ancestors_prefix. exists y, r. rewrite <- app_assoc. reflexivity. }
      specialize (HF _ Hin'). exact (Hch c _ HF).
  - rewrite fget_adel_neq by exact NE'. apply HF. exact Hin.
Qed.

Lemma delete_spec : forall base d rel, consistent_fs d ->
  let p := fpath base rel in
  let '(d', ok) := delete base d rel in
  consistent_fs d' /\
  (content_at d p <> None -> ok = true) /\ (fget d p = None -> ok = false) /\
  (ok = false -> d' = d) /\
  (forall x, content_at d' x = if ok && patheq x p then None else content_at d x).
Proof.
  intros base d rel Hc p. unfold delete. fold p.
  destruct (stat_notexist d p) eqn:E.
  - split; [exact Hc|]. unfold stat_notexist in E. rewrite consistent_stat in E by exact Hc.
    unfold content_at at 1. destruct (fget d p) as [n|] eqn:G; [discriminate|]. repeat split; try congruence.
  - unfold remove. rewrite consistent_stat by exact Hc. destruct (fget d p) as [[|f]|] eqn:G.
    + destruct p as [|c0 p0] eqn:Ep.
      * split; [exact Hc|]. unfold content_at at 1. cbn. repeat split; congruence.
      * rewrite <- Ep in *. assert (Hp : p <> []) by congruence. clear Ep.
        destruct (has_child d p) eqn:HC.
        -- split; [exact Hc|]. unfold content_at at 1. rewrite G. repeat split; congruence.
        -- split; [apply consistent_adel; [exact Hc|exact Hp|apply has_child_spec; exact HC]|].
           repeat split; try congruence. intro x. cbn [andb].
           destruct (patheq x p) eqn:Ex.
           ++ apply patheq_eq in Ex. subst x. unfold content_at. rewrite fget_adel_eq by exact Hp. reflexivity.
           ++ unfold content_at. rewrite fget_adel_neq; [reflexivity|]. intro H. apply patheq_eq in H. congruence.
    + assert (Hp : p <> []) by (intros Ep; rewrite Ep in G; discriminate).
      split; [|].
      * apply consistent_adel; [exact Hc|exact Hp|]. intros c n H. apply Hc in H.
        rewrite ancestors_snoc in H. apply Forall_app in H as [_ H]. inversion H. congruence.
      * repeat split; try congruence. intro x. cbn [andb]. destruct (patheq x p) eqn:Ex.
        -- apply patheq_eq in Ex. subst x. unfold content_at. rewrite fget_adel_eq by exact Hp. reflexivity.
        -- unfold content_at. rewrite fget_adel_neq; [reflexivity|]. intro H. apply patheq_eq in H. congruence.
    + split; [exact Hc|]. unfold content_at at 1. rewrite G. repeat split; congruence.
Qed.

Lemma delete_dirs : forall base d rel x, fget (fst (delete base d rel)) x = Some Dir -> fget d x = Some Dir.
Proof.
  intros base d rel x. unfold delete. destruct (stat_notexist d (fpath base rel)); [auto|].
  assert (A : forall p, fget (adel patheq p d) x = Some Dir -> fget d x = Some Dir).
  { intros p H. destruct (path_dec x p) as [->|NE].
    - destruct p as [|c p]; [reflexivity|]. rewrite fget_adel_eq in H by discriminate. discriminate.
    - rewrite fget_adel_neq in H by exact NE. exact H. }
  unfold remove. destruct (stat d (fpath base rel)) as [[|f]|]; cbn; [|apply A|auto].
  destruct (fpath base rel) as [|c p] eqn:E; [auto|]. destruct (has_child d (c :: p)); cbn; [auto|apply A].
Qed.

(** ** Histories *)
Definition refines (base : bytes) (d : fs) (m : path -> option bytes) : Prop :=
  forall x, content_at d x = m x.

Notation after base := (map_after patheq (fpath base)).

Lemma map_after_app : forall {K} keq (key : bytes -> K) e1 e2 m,
  map_after keq key m (e1 ++ e2) = map_after keq key (map_after keq key m e1) e2.
Proof. intros. unfold map_after. apply fold_left_app. Qed.

Lemma run_deletes_spec : forall base rels d m, consistent_fs d -> refines base d m ->
  let '(d', evs) := run_deletes base d rels in
  consistent_fs d' /\ refines base d' (after base m evs).
Proof.
  intros base. induction rels as [|r rels IH]; intros d m Hc Hm; cbn [run_deletes].
  - split; [exact Hc|exact Hm].
  - pose proof (delete_spec base d r Hc) as S. cbn zeta in S. destruct (delete base d r) as [d1 ok].
    destruct S as (S1 & _ & _ & _ & S5). destruct ok.
    + specialize (IH d1 (map_event patheq (fpath base) m (EvDelete r true)) S1).
      destruct (run_deletes base d1 rels) as [d2 evs]. cbn [map_after fold_left]. apply IH.
      intro x. rewrite S5. cbn. destruct (patheq x (fpath base r)); [reflexivity|apply Hm].
    + split; [exact S1|]. intro x. rewrite S5. cbn. apply Hm.
Qed.

Lemma run_op_spec : forall base o d m, consistent_fs d -> refines base d m ->
  let '(d', evs) := run_op base d o in
  consistent_fs d' /\ refines base d' (after base m evs).
Proof.
  intros base [r c|r|rs] d m Hc Hm; cbn [run_op].
  - pose proof (save_spec base d r c Hc) as S. cbn zeta in S. destruct (save base d r c) as [d1 ok].
    destruct S as (S1 & _ & S3 & _). split; [exact S1|]. intro x. rewrite S3.
    destruct ok; cbn; [|apply Hm]. destruct (patheq x (fpath base r)); [reflexivity|apply Hm].
  - pose proof (delete_spec base d r Hc) as S. cbn zeta in S. destruct (delete base d r) as [d1 ok].
    destruct S as (S1 & _ & _ & _ & S5). split; [exact S1|]. intro x. rewrite S5.
    destruct ok; cbn; [|apply Hm]. destruct (patheq x (fpath base r)); [reflexivity|apply Hm].
  - apply run_deletes_spec; assumption.
Qed.

Lemma run_ops_spec : forall base os d m, consistent_fs d -> refines base d m ->
  let '(d', evs) := run_ops base d os in
  consistent_fs d' /\ refines base d' (after base m evs).
Proof.
  intros base. induction os as [|o os IH]; intros d m Hc Hm; cbn [run_ops].
  - split; assumption.
  - pose proof (run_op_spec base o d m Hc Hm) as S. destruct (run_op base d o) as [d1 e1].
    destruct S as [S1 S2]. specialize (IH d1 _ S1 S2). destruct (run_ops base d1 os) as [d2 e2].
    rewrite map_after_app. exact IH.
Qed.

Lemma retrieve_content : forall base d rel, consistent_fs d ->
  retrieve base d rel = as_result (content_at d (fpath base rel)).
Proof.
  intros base d rel Hc. unfold retrieve, content_at. rewrite consistent_stat by exact Hc.
  destruct (fget d (fpath base rel)) as [[|c]|]; reflexivity.
Qed.

(** C28, disk store *)
Lemma disk_refines_map : forall base d os, consistent_fs d ->
  let '(d', evs) := run_ops base d os in
  consistent_fs d' /\
  forall rel, retrieve base d' rel =
    as_result (map_after patheq (fpath base) (content_at d) evs (fpath base rel)).
Proof.
  intros base d os Hc. pose proof (run_ops_spec base os d (content_at d) Hc (fun x => eq_refl)) as S.
  destruct (run_ops base d os) as [d' evs]. destruct S as [S1 S2]. split; [exact S1|].
  intro rel. rewrite retrieve_content by exact S1. rewrite S2. reflexivity.
Qed.

Definition ev_ok (e : file_event) : bool :=
  match e with EvSave _ _ ok => ok | EvDelete _ ok => ok end.

(** DeleteAll is the deletions one by one *)
Lemma delete_all_events : forall base rels d,
  delete_all base d rels =
  (fst (run_deletes base d rels), forallb ev_ok (snd (run_deletes base d rels))).
Proof.
  intros base. induction rels as [|r rels IH]; intro d; cbn [delete_all run_deletes]; [reflexivity|].
  destruct (delete base d r) as [d1 [|]]; [|reflexivity]. rewrite IH.
  destruct (run_deletes base d1 rels). reflexivity.
Qed.

Lemma t_delete_all_events : forall rels d,
  t_delete_all d rels =
  (fst (t_run_deletes d rels), forallb ev_ok (snd (t_run_deletes d rels))).
Proof.
  induction rels as [|r rels IH]; intro d; cbn [t_delete_all t_run_deletes]; [reflexivity|].
  destruct (t_delete d r) as [d1 [|]]; [|reflexivity]. rewrite IH.
  destruct (t_run_deletes d1 rels). reflexivity.
Qed.

(** When Save and Delete succeed *)
Lemma save_succeeds : forall base d rel c, consistent_fs d ->
  (snd (save base d rel c) = true <->
   (forall a f, In a (ancestors (fpath base rel)) -> fget d a <> Some (File f)) /\
   fget d (fpath base rel) <> Some Dir).
Proof.
  intros base d rel c Hc. pose proof (save_spec base d rel c Hc) as S. cbn zeta in S.
  destruct (save base d rel c) as [d' ok]. apply S.
Qed.

Lemma save_then_retrieve : forall base d rel c d', consistent_fs d ->
  save base d rel c = (d', true) ->
  retrieve base d' rel = Ok c /\
  forall rel', fpath base rel' <> fpath base rel -> retrieve base d' rel' = retrieve base d rel'.
Proof.
  intros base d rel c d' Hc H. pose proof (save_spec base d rel c Hc) as S. cbn zeta in S. rewrite H in S.
  destruct S as (S1 & _ & S3 & _). split.
  - rewrite retrieve_content by exact S1. rewrite S3.
    replace (patheq (fpath base rel) (fpath base rel)) with true by (symmetry; apply patheq_eq; reflexivity).
    reflexivity.
  - intros rel' NE. rewrite !retrieve_content by assumption. rewrite S3.
    destruct (patheq (fpath base rel') (fpath base rel)) eqn:E; [apply patheq_eq in E; contradiction|]. reflexivity.
Qed.

Lemma delete_missing : forall base d rel, consistent_fs d ->
  fget d (fpath base rel) = None -> delete base d rel = (d, false).
Proof.
  intros base d rel Hc H. pose proof (delete_spec base d rel Hc) as S. cbn zeta in S.
  destruct (delete base d rel) as [d' ok]. destruct S as (_ & _ & S3 & S4 & _).
  specialize (S3 H). subst ok. rewrite S4 by reflexivity. reflexivity.
Qed.

Lemma delete_present : forall base d rel c, consistent_fs d -> retrieve base d rel = Ok c ->
  exists d', delete base d rel = (d', true) /\ retrieve base d' rel = Err /\
  forall rel', fpath base rel' <> fpath base rel -> retrieve base d' rel' = retrieve base d rel'.
Proof.
  intros base d rel c Hc H. rewrite retrieve_content in H by exact Hc.
  pose proof (delete_spec base d rel Hc) as S. cbn zeta in S. destruct (delete base d rel) as [d' ok].
  destruct S as (S1 & S2 & _ & _ & S5). destruct (content_at d (fpath base rel)) as [c'|] eqn:E; [|discriminate].
  rewrite S2 in * by discriminate. exists d'. split; [reflexivity|]. split.
  - rewrite retrieve_content by exact S1. rewrite S5.
    replace (patheq (fpath base rel) (fpath base rel)) with true by (symmetry; apply patheq_eq; reflexivity).
    reflexivity.
  - intros rel' NE. rewrite !retrieve_content by assumption. rewrite S5.
    destruct (patheq (fpath base rel') (fpath base rel)) eqn:E'; [apply patheq_eq in E'; contradiction|]. reflexivity.
Qed.

(** ** Flat names *)
Lemma fpath_flat : forall base n, flat_name n -> fpath base n = clean (split x2f base) ++ [n].
Proof.
  intros base n (H1 & H2 & H3 & H4). unfold fpath, clean. rewrite (split_none x2f n) by exact H2.
  rewrite fold_left_app. cbn [fold_left]. unfold clean_step at 1.
  destruct n as [|x n]; [contradiction|].
  destruct (bseq (x :: n) [x2e]) eqn:E1; [apply bseq_eq in E1; contradiction|].
  destruct (bseq (x :: n) [x2e; x2e]) eqn:E2; [apply bseq_eq in E2; contradiction|]. reflexivity.
Qed.

Lemma fpath_flat_inj : forall base a b, flat_name a -> flat_name b -> fpath base a = fpath base b -> a = b.
Proof.
  intros base a b Ha Hb H. rewrite !fpath_flat in H by assumption.
  apply app_inj_tail in H as [_ H]. exact H.
Qed.

Lemma lowhex_not : forall h (b : byte), Forall is_lowhex h -> In b h -> is_lowhex b.
Proof. intros h b H Hin. rewrite Forall_forall in H. auto. Qed.

Lemma hash_string_flat : forall h, length h = 64 -> flat_name (hash_string h).
Proof.
  intros h H. pose proof (hash_string_length h H) as L.
  pose proof (hex_encode_lowhex h) as F. repeat split.
  - intro E. rewrite E in L. discriminate.
  - intro Hin. apply (lowhex_not _ _ F) in Hin. unfold is_lowhex, b2n in Hin. cbn in Hin. lia.
  - intro E. rewrite E in L. discriminate.
  - intro E. rewrite E in L. discriminate.
Qed.

(** Only flat names used: the store directory and its parents never become files. *)
Definition usable (base : bytes) (d : fs) : Prop :=
  consistent_fs d /\
  (forall a f, In a (clean (split x2f base) :: ancestors (clean (split x2f base))) -> fget d a <> Some (File f)) /\
  (forall n, flat_name n -> fget d (clean (split x2f base) ++ [n]) <> Some Dir).

Lemma usable_save : forall base d n c, usable base d -> flat_name n -> snd (save base d n c) = true.
Proof.
  intros base d n c (U1 & U2 & U3) Hn. apply save_succeeds; [exact U1|].
  rewrite fpath_flat by exact Hn. split; [|apply U3; exact Hn].
  intros a f Hin. rewrite ancestors_snoc in Hin. apply in_app_or in Hin as [Hin|[<-|[]]]; apply U2; cbn; auto.
Qed.

(** ** Test store *)
Notation t_after := (map_after bseq (fun r => r)).

Lemma t_run_deletes_spec : forall rels d m, (forall x, aget bseq x d = m x) ->
  let '(d', evs) := t_run_deletes d rels in forall x, aget bseq x d' = t_after m evs x.
Proof.
  induction rels as [|r rels IH]; intros d m Hm; cbn [t_run_deletes]; [exact Hm|].
  unfold t_delete. destruct (aget bseq r d) as [c|] eqn:E.
  - specialize (IH (adel bseq r d) (map_event bseq (fun r => r) m (EvDelete r true))).
    destruct (t_run_deletes (adel bseq r d) rels) as [d2 evs]. cbn [map_after fold_left]. apply IH.
    intro x. cbn. destruct (bseq x r) eqn:Ex.
    + apply bseq_eq in Ex. subst. apply aget_adel_eq.
    + rewrite aget_adel_neq; [apply Hm|apply bseq_eq|apply bseq_neq; exact Ex].
  - exact Hm.
Qed.

Lemma t_run_op_spec : forall o d m, (forall x, aget bseq x d = m x) ->
  let '(d', evs) := t_run_op d o in forall x, aget bseq x d' = t_after m evs x.
Proof.
  intros [r c|r|rs] d m Hm; cbn [t_run_op t_save].
  - intro x. cbn. destruct (bseq x r); [reflexivity|apply Hm].
  - unfold t_delete. destruct (aget bseq r d) as [c|] eqn:E; [|exact Hm].
    intro x. cbn. destruct (bseq x r) eqn:Ex.
    + apply bseq_eq in Ex. subst. apply aget_adel_eq.
    + rewrite aget_adel_neq; [apply Hm|apply bseq_eq|apply bseq_neq; exact Ex].
  - apply t_run_deletes_spec. exact Hm.
Qed.

Lemma t_run_ops_spec : forall os d m, (forall x, aget bseq x d = m x) ->
  let '(d', evs) := t_run_ops d os in forall x, aget bseq x d' = t_after m evs x.
Proof.
  induction os as [|o os IH]; intros d m Hm; cbn [t_run_ops]; [exact Hm|].
  pose proof (t_run_op_spec o d m Hm) as S. destruct (t_run_op d o) as [d1 e1].
  specialize (IH d1 _ S). destruct (t_run_ops d1 os) as [d2 e2]. rewrite map_after_app. exact IH.
Qed.

Lemma test_store_refines_map : forall os d,
  let '(d', evs) := t_run_ops d os in
  forall rel, t_retrieve d' rel =
    as_result (map_after bseq (fun r => r) (fun r => aget bseq r d) evs rel).
Proof.
  intros os d. pose proof (t_run_ops_spec os d _ (fun x => eq_refl)) as S.
  destruct (t_run_ops d os) as [d' evs]. intro rel. unfold t_retrieve. rewrite S.
  unfold as_result. reflexivity.
Qed.

(** ** On flat names the disk store and the test store are the same *)
Lemma clean_not_ancestor : forall (B : path) n n', ~ In (B ++ [n]) (ancestors (B ++ [n'])).
Proof.
  intros B n n' H. apply ancestors_prefix in H as (c & r & E).
  apply (f_equal (@length bytes)) in E. rewrite !app_length in E. cbn in E. lia.
Qed.

Lemma not_below : forall (B : path) n a, In a (B :: ancestors B) -> a <> B ++ [n].
Proof.
  intros B n a [<-|H] E.
  - apply (f_equal (@length bytes)) in E. rewrite app_length in E. cbn in E. lia.
  - subst a. apply ancestors_prefix in H as (c & r & E).
    apply (f_equal (@length bytes)) in E. rewrite !app_length in E. cbn in E. lia.
Qed.

Lemma content_not_file : forall d a, (forall f, fget d a <> Some (File f)) <-> content_at d a = None.
Proof.
  intros d a. unfold content_at. destruct (fget d a) as [[|f]|]; split; intro H; try congruence.
  exfalso. exact (H f eq_refl).
Qed.

Definition same_flat (base : bytes) (d : fs) (t : tstore) : Prop :=
  forall n, flat_name n -> content_at d (fpath base n) = aget bseq n t.

Lemma usable_save_step : forall base d t n c, usable base d -> same_flat base d t -> flat_name n ->
  exists d', save base d n c = (d', true) /\ usable base d' /\ same_flat base d' (aput n c t).
Proof.
  intros base d t n c U Hs Hn. pose proof (usable_save base d n c U Hn) as Hok.
  destruct U as (U1 & U2 & U3). pose proof (save_spec base d n c U1) as S. cbn zeta in S.
  destruct (save base d n c) as [d' ok]. cbn in Hok. subst ok. destruct S as (S1 & _ & S3 & S4).
  rewrite fpath_flat in S3, S4 by exact Hn.
  exists d'. split; [reflexivity|]. split; [split; [exact S1|split]|].
  - intros a f Ha. revert f. apply content_not_file. rewrite S3.
    destruct (patheq a _) eqn:E; [apply patheq_eq in E; exfalso; exact (not_below _ n a Ha E)|].
    apply content_not_file. intro f. apply U2. exact Ha.
  - intros n' Hn' H. apply S4 in H as [H|H]; [exact (U3 n' Hn' H)|exact (clean_not_ancestor _ _ _ H)].
  - intros n' Hn'. rewrite fpath_flat by exact Hn'. rewrite S3. cbn [andb].
    destruct (patheq _ _) eqn:E.
    + apply patheq_eq in E. apply app_inj_tail in E as [_ E]. subst n'.
      symmetry. apply aget_aput_eq. apply bseq_eq.
    + rewrite aget_aput_neq; [|apply bseq_eq|].
      * rewrite <- fpath_flat by exact Hn'. apply Hs. exact Hn'.
      * intros ->. assert (patheq (clean (split x2f base) ++ [n]) (clean (split x2f base) ++ [n]) = true) by (apply patheq_eq; reflexivity). congruence.
Qed.

Lemma usable_delete_step : forall base d t n, usable base d -> same_flat base d t -> flat_name n ->
  snd (delete base d n) = snd (t_delete t n) /\
  usable base (fst (delete base d n)) /\ same_flat base (fst (delete base d n)) (fst (t_delete t n)).
Proof.
  intros base d t n (U1 & U2 & U3) Hs Hn. pose proof (delete_spec base d n U1) as S. cbn zeta in S.
  pose proof (delete_dirs base d n) as D.
  destruct (delete base d n) as [d' ok]. cbn [fst snd] in *. destruct S as (S1 & S2 & S3 & S4 & S5).
  assert (Hok : ok = snd (t_delete t n)).
  { unfold t_delete. rewrite <- (Hs n Hn). unfold content_at in *. specialize (U3 n Hn).
    rewrite <- fpath_flat in U3 by exact Hn. destruct (fget d (fpath base n)) as [[|f]|].
    - contradiction.
    - cbn. apply S2. discriminate.
    - cbn. apply S3. reflexivity. }
  split; [exact Hok|]. split; [split; [exact S1|split]|].
  - intros a f Ha. revert f. apply content_not_file. rewrite S5.
    destruct (ok && patheq a _); [reflexivity|]. apply content_not_file. intro f. apply U2. exact Ha.
  - intros n' Hn' H. apply D in H. exact (U3 n' Hn' H).
  - intros n' Hn'. rewrite S5, Hok. unfold t_delete. rewrite <- (Hs n Hn). pose proof (Hs n' Hn') as E'.
    destruct (patheq (fpath base n') (fpath base n)) eqn:E.
    + apply patheq_eq in E. apply fpath_flat_inj in E; [|assumption..]. subst n'.
      destruct (content_at d (fpath base n)) as [c|] eqn:G; cbn [snd fst andb].
      * symmetry. apply aget_adel_eq.
      * exact E'.
    + rewrite andb_false_r. destruct (content_at d (fpath base n)) as [c|] eqn:G; cbn [snd fst]; [|exact E'].
      rewrite aget_adel_neq; [exact E'|apply bseq_eq|]. intros ->.
      assert (patheq (fpath base n) (fpath base n) = true) by (apply patheq_eq; reflexivity). congruence.
Qed.

Definition op_names (o : file_op) : list bytes :=
  match o with OSave r _ => [r] | ODelete r => [r] | ODeleteAll rs => rs end.

Lemma flat_run_op : forall base o d t, usable base d -> same_flat base d t -> Forall flat_name (op_names o) ->
  snd (run_op base d o) = snd (t_run_op t o) /\
  usable base (fst (run_op base d o)) /\ same_flat base (fst (run_op base d o)) (fst (t_run_op t o)).
Proof.
  intros base [r c|r|rs] d t U Hs HF; cbn [run_op t_run_op op_names] in *.
  - inversion HF; subst. destruct (usable_save_step base d t r c U Hs) as (d' & -> & X); [assumption|].
    split; [reflexivity|exact X].
  - inversion HF; subst. destruct (usable_delete_step base d t r U Hs) as (X1 & X2); [assumption|].
    destruct (delete base d r), (t_delete t r). cbn [fst snd] in *. subst. auto.
  - revert d t U Hs. induction rs as [|r rs IH]; intros d t U Hs; cbn [run_deletes t_run_deletes]; [auto|].
    inversion HF; subst. destruct (usable_delete_step base d t r U Hs) as (X1 & X2 & X3); [assumption|].
    destruct (delete base d r) as [d1 ok], (t_delete t r) as [t1 ok']. cbn [fst snd] in *. subst ok'.
    destruct ok; [|auto]. destruct (IH ltac:(assumption) d1 t1 X2 X3) as (Y1 & Y2 & Y3).
    destruct (run_deletes base d1 rs), (t_run_deletes t1 rs). cbn [fst snd] in *. subst. auto.
Qed.

Lemma flat_run_ops : forall base os d t, usable base d -> same_flat base d t ->
  Forall (fun o => Forall flat_name (op_names o)) os ->
  snd (run_ops base d os) = snd (t_run_ops t os) /\
  usable base (fst (run_ops base d os)) /\ same_flat base (fst (run_ops base d os)) (fst (t_run_ops t os)).
Proof.
  intros base. induction os as [|o os IH]; intros d t U Hs HF; cbn [run_ops t_run_ops]; [auto|].
  inversion HF; subst. destruct (flat_run_op base o d t U Hs) as (X1 & X2 & X3); [assumption|].
  destruct (run_op base d o) as [d1 e1], (t_run_op t o) as [t1 e1']. cbn [fst snd] in *. subst e1'.
  destruct (IH d1 t1 X2 X3) as (Y1 & Y2 & Y3); [assumption|].
  destruct (run_ops base d1 os), (t_run_ops t1 os). cbn [fst snd] in *. subst. auto.
Qed.

Lemma flat_same_as_test_store : forall base os,
  Forall (fun o => Forall flat_name (op_names o)) os ->
  snd (run_ops base [] os) = snd (t_run_ops [] os) /\
  forall n, flat_name n -> retrieve base (fst (run_ops base [] os)) n = t_retrieve (fst (t_run_ops [] os)) n.
Proof.
  intros base os HF.
  assert (U : usable base []).
  { split; [apply consistent_empty|]. split.
    - intros [|c a] f _; cbn; discriminate.
    - intros n _. destruct (clean (split x2f base)); cbn; discriminate. }
  assert (Hs : same_flat base [] []).
  { intros n _. unfold content_at. destruct (fpath base n); reflexivity. }
  destruct (flat_run_ops base os [] [] U Hs HF) as (X1 & X2 & X3). split; [exact X1|].
  intros n Hn. destruct X2 as (C & _). rewrite retrieve_content by exact C. rewrite X3 by exact Hn.
  unfold t_retrieve, as_result. reflexivity.
Qed.

(** ** Encrypted store *)
Section Enc.
  Variable H256 : bytes -> bytes.
  Variable AES : bytes -> bytes -> bytes.

  Lemma enc_save_then_retrieve : forall pw base d iv rel c d', consistent_fs d -> length iv = 16 ->
    enc_save H256 AES pw base d iv rel c = (d', true) ->
    consistent_fs d' /\
    enc_retrieve H256 AES pw base d' rel = Ok c /\
    forall rel', fpath base rel' <> fpath base rel ->
      enc_retrieve H256 AES pw base d' rel' = enc_retrieve H256 AES pw base d rel'.
  Proof.
    intros pw base d iv rel c d' Hc Hiv H. unfold enc_save in H.
    pose proof (save_spec base d rel (encrypt H256 AES pw iv c) Hc) as S. cbn zeta in S. rewrite H in S.
    destruct (save_then_retrieve _ _ _ _ _ Hc H) as [R1 R2]. split; [apply S|].
    unfold enc_retrieve. split.
    - rewrite R1. cbn. apply decrypt_encrypt. exact Hiv.
    - intros rel' NE. rewrite R2 by exact NE. reflexivity.
  Qed.

  Lemma enc_delete_removes : forall pw base d rel c, consistent_fs d ->
    enc_retrieve H256 AES pw base d rel = Ok c ->
    exists d', enc_delete base d rel = (d', true) /\ enc_retrieve H256 AES pw base d' rel = Err.
  Proof.
    intros pw base d rel c Hc H. unfold enc_retrieve in H. apply rbind_Ok in H as (t & H1 & _).
    destruct (delete_present _ _ _ _ Hc H1) as (d' & D1 & D2 & _). exists d'. split; [exact D1|].
    unfold enc_retrieve. rewrite D2. reflexivity.
  Qed.

  Definition dec_opt (pw : bytes) (o : option bytes) : option bytes :=
    match o with
    | Some t => match decrypt H256 AES pw t with Ok m => Some m | _ => None end
    | None => None
    end.

  Lemma decrypt_no_panic : forall pw t, decrypt H256 AES pw t <> Panic.
  Proof.
    intros pw t. unfold decrypt. destruct (b64_decode t) as [ct| |] eqn:E; cbn [rbind].
    - destruct (length ct <? 16); discriminate.
    - discriminate.
    - exfalso. revert E. apply b64_decode_no_panic.
  Qed.

  Lemma enc_retrieve_content : forall pw base d rel, consistent_fs d ->
    enc_retrieve H256 AES pw base d rel = as_result (dec_opt pw (content_at d (fpath base rel))).
  Proof.
    intros pw base d rel Hc. unfold enc_retrieve. rewrite retrieve_content by exact Hc.
    destruct (content_at d (fpath base rel)) as [t|]; [|reflexivity]. cbn [as_result rbind dec_opt].
    pose proof (decrypt_no_panic pw t). destruct (decrypt H256 AES pw t); try reflexivity. contradiction.
  Qed.

  Lemma enc_run_ops_spec : forall pw base os d m, consistent_fs d ->
    (forall x, dec_opt pw (content_at d x) = m x) -> Forall (fun o => length (snd o) = 16) os ->
    let '(d', evs) := enc_run_ops H256 AES pw base d os in
    consistent_fs d' /\ forall x, dec_opt pw (content_at d' x) = map_after patheq (fpath base) m evs x.
  Proof.
    intros pw base. induction os as [|[o iv] os IH]; intros d m Hc Hm HF; cbn [enc_run_ops].
    - split; assumption.
    - inversion HF as [|? ? Hiv HF']; subst. cbn [snd] in Hiv.
      assert (S : let '(d1, e1) := enc_run_op H256 AES pw base d (o, iv) in
        consistent_fs d1 /\ forall x, dec_opt pw (content_at d1 x) = map_after patheq (fpath base) m e1 x).
      { destruct o as [r c|r|rs]; cbn [enc_run_op].
        - unfold enc_save. pose proof (save_spec base d r (encrypt H256 AES pw iv c) Hc) as S. cbn zeta in S.
          destruct (save base d r (encrypt H256 AES pw iv c)) as [d1 ok]. destruct S as (S1 & _ & S3 & _).
          split; [exact S1|]. intro x. rewrite S3. destruct ok; cbn; [|apply Hm].
          destruct (patheq x (fpath base r)); [|apply Hm]. cbn. rewrite decrypt_encrypt by exact Hiv. reflexivity.
        - unfold enc_delete. pose proof (delete_spec base d r Hc) as S. cbn zeta in S.
          destruct (delete base d r) as [d1 ok]. destruct S as (S1 & _ & _ & _ & S5).
          split; [exact S1|]. intro x. rewrite S5.
          destruct ok; cbn; [|apply Hm]. destruct (patheq x (fpath base r)); [reflexivity|apply Hm].
        - clear IH HF HF'. revert d m Hc Hm. induction rs as [|r rs IH]; intros d m Hc Hm; cbn [run_deletes].
          + split; assumption.
          + pose proof (delete_spec base d r Hc) as S. cbn zeta in S. destruct (delete base d r) as [d1 ok].
            destruct S as (S1 & _ & _ & _ & S5). destruct ok.
            * specialize (IH d1 (map_event patheq (fpath base) m (EvDelete r true)) S1).
              destruct (run_deletes base d1 rs) as [d2 evs]. cbn [map_after fold_left]. apply IH.
              intro x. rewrite S5. cbn. destruct (patheq x (fpath base r)); [reflexivity|apply Hm].
            * split; [exact S1|]. intro x. rewrite S5. cbn. apply Hm. }
      destruct (enc_run_op H256 AES pw base d (o, iv)) as [d1 e1]. destruct S as [S1 S2].
      specialize (IH d1 _ S1 S2 HF'). destruct (enc_run_ops H256 AES pw base d1 os) as [d2 e2].
      rewrite map_after_app. exact IH.
  Qed.

  Lemma enc_refines_map : forall pw base d os, consistent_fs d -> Forall (fun o => length (snd o) = 16) os ->
    let '(d', evs) := enc_run_ops H256 AES pw base d os in
    consistent_fs d' /\
    forall rel, enc_retrieve H256 AES pw base d' rel =
      as_result (map_after patheq (fpath base) (fun p => dec_opt pw (content_at d p)) evs (fpath base rel)).
  Proof.
    intros pw base d os Hc HF.
    pose proof (enc_run_ops_spec pw base os d _ Hc (fun x => eq_refl) HF) as S.
    destruct (enc_run_ops H256 AES pw base d os) as [d' evs]. destruct S as [S1 S2]. split; [exact S1|].
    intro rel. rewrite enc_retrieve_content by exact S1. rewrite S2. reflexivity.
  Qed.

  Lemma enc_refines_map_empty : forall pw base os, Forall (fun o => length (snd o) = 16) os ->
    let '(d', evs) := enc_run_ops H256 AES pw base [] os in
    forall rel, enc_retrieve H256 AES pw base d' rel =
      as_result (map_after patheq (fpath base) (fun _ => None) evs (fpath base rel)).
  Proof.
    intros pw base os HF.
    assert (E : forall x, dec_opt pw (content_at [] x) = None) by (intros [|c x]; reflexivity).
    pose proof (enc_run_ops_spec pw base os [] _ consistent_empty E HF) as S.
    destruct (enc_run_ops H256 AES pw base [] os) as [d' evs]. destruct S as [S1 S2].
    intro rel. rewrite enc_retrieve_content by exact S1. rewrite S2. reflexivity.
  Qed.
End Enc.
