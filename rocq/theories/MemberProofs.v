From Coq Require Import Lia ZifyBool ZifyNat ZifyN.
From Verif Require Import Base BaseFacts JsonModel MemberSpec.

Lemma dlast_app : forall A (d : json -> res A) js js' old, dlast d old (js ++ js') = let! a := dlast d old js in dlast d a js'.
Proof.
  intros A d. induction js as [|j js IH]; intros js' old; [reflexivity|].
  destruct j; cbn [app dlast]; [apply IH|..]; (match goal with |- context [d ?x] => destruct (d x) as [a| |] end; cbn [rbind]; [apply IH|reflexivity|reflexivity]).
Qed.
Lemma dlast_one : forall A (d : json -> res A) old j, j <> JNull -> dlast d old [j] = d j.
Proof. intros A d old j N. destruct j; try congruence; cbn [dlast]; (match goal with |- context [d ?x] => destruct (d x) end); reflexivity. Qed.
Lemma dlast_iff : forall A (d : json -> res A) old js a, dlast d old js = Ok a <-> finally (fun j a => d j = Ok a) old js a.
Proof.
  intros A d old js a. split.
  - revert a. induction js as [|j js IH] using rev_ind; intros a H.
    + injection H as <-. constructor.
    + rewrite dlast_app in H. apply rbind_Ok in H as (b & Hb & H). apply IH in Hb.
      assert (D : j = JNull \/ j <> JNull) by (destruct j; [left; reflexivity|right; discriminate..]). destruct D as [->|N].
      * injection H as <-. constructor. exact Hb.
      * rewrite dlast_one in H by exact N. econstructor; eassumption.
  - intro H. induction H as [|js a H IH|js j a b H IH N R]; [reflexivity|..]; rewrite dlast_app, IH; cbn [rbind]; [reflexivity|].
    rewrite dlast_one by exact N. exact R.
Qed.
Lemma finally_ext : forall A (R R' : json -> A -> Prop) old js a, (forall j a, R j a <-> R' j a) -> finally R old js a <-> finally R' old js a.
Proof.
  intros A R R' old js a E. split; intro H; induction H as [|js a H IH|js j a b H IH N K]; try constructor; auto; (econstructor; [exact IH|exact N|apply E; exact K]).
Qed.

(** ** structs *)
Lemma dstruct_iff : forall js m, dstruct js = Ok m <-> members_of js m.
Proof.
  intros js m. split.
  - revert m. induction js as [|j js IH]; intros m H; [injection H as <-; constructor|].
    destruct j; cbn [dstruct] in H; try discriminate H; [constructor; apply IH; exact H|].
    apply rbind_Ok in H as (m' & H & E). injection E as <-. constructor. apply IH. exact H.
  - intro H. induction H as [|js m H IH|o js m H IH]; [reflexivity|exact IH|]. cbn [dstruct]. rewrite IH. reflexivity.
Qed.

(** ** pointers *)
Lemma dpoints_seg : forall A (d : list json -> res A) seg pre js, ~ In JNull seg -> dpoints d pre (seg ++ js) = dpoints d (pre ++ seg) js.
Proof.
  intros A d. induction seg as [|j seg IH]; intros pre js N; [rewrite app_nil_r; reflexivity|].
  assert (Nj : j <> JNull) by (intros ->; apply N; left; reflexivity). assert (Ns : ~ In JNull seg) by (intro; apply N; right; assumption).
  rewrite <- (IH (pre ++ [j]) js Ns) || idtac. destruct j; try congruence; cbn [app dpoints]; rewrite IH by exact Ns; rewrite <- app_assoc; reflexivity.
Qed.
Lemma first_null : forall js : list json, ~ In JNull js \/ exists seg js', js = seg ++ JNull :: js' /\ ~ In JNull seg.
Proof.
  induction js as [|j js IH]; [left; auto|]. destruct j; try (destruct IH as [IH|(seg & js' & -> & N)];
    [left; intros [E|E]; [discriminate E|contradiction]|right; eexists (_ :: seg), js'; split; [reflexivity|intros [E|E]; [discriminate E|contradiction]]]).
  right. exists [], js. split; [reflexivity|auto].
Qed.
Lemma dptr_reset : forall A (d : list json -> res A) seg js o, ~ In JNull seg ->
  dptr d (seg ++ JNull :: js) = Ok o <-> (seg = [] \/ exists a, d seg = Ok a) /\ dptr d js = Ok o.
Proof.
  intros A d seg js o N. unfold dptr. rewrite dpoints_seg by exact N. cbn [app dpoints]. destruct seg as [|j seg].
  - cbn [rbind]. tauto.
  - destruct (d (j :: seg)) as [a| |]; cbn [rbind].
    + split; [intro H; split; [right; eauto|exact H]|intros [_ H]; exact H].
    + split; [discriminate|]. intros [[E|[a E]] _]; discriminate E.
    + split; [discriminate|]. intros [[E|[a E]] _]; discriminate E.
Qed.
Lemma dptr_iff : forall A (d : list json -> res A) js o, dptr d js = Ok o <-> points_to (fun js a => d js = Ok a) js o.
Proof.
  intros A d js o. split.
  - remember (length js) as n eqn:E. assert (L : length js <= n) by lia. clear E. revert js o L. induction n as [|n IH]; intros js o L H.
    + destruct js; [|cbn in L; lia]. injection H as <-. constructor.
    + destruct (first_null js) as [N|(seg & js' & -> & N)].
      * destruct js as [|j js]; [injection H as <-; constructor|]. unfold dptr in H. rewrite <- (app_nil_r (j :: js)) in H. rewrite dpoints_seg in H by exact N.
        cbn [app dpoints] in H. apply rbind_Ok in H as (a & H & E). injection E as <-. constructor; [exact N|discriminate|exact H].
      * apply dptr_reset in H as [H1 H2]; [|exact N]. constructor; [exact N|exact H1|]. apply IH; [rewrite app_length in L; cbn [length] in L; lia|exact H2].
  - intro H. induction H as [|js a N E R|seg js o N R H IH]; [reflexivity| |apply dptr_reset; auto].
    unfold dptr. rewrite <- (app_nil_r js). rewrite dpoints_seg by exact N. cbn [app dpoints]. destruct js; [congruence|]. rewrite R. reflexivity.
Qed.

(** ** slices *)
Lemma nth_nil : forall A i, nth_error (@nil A) i = None. Proof. intros A [|i]; reflexivity. Qed.
Lemma over_nth : forall cells l i, nth_error (over cells l) i =
  match nth_error cells i, nth_error l i with
  | Some c, Some j => Some (c ++ [j]) | Some c, None => Some c | None, Some j => Some [j] | None, None => None end.
Proof.
  induction cells as [|c cells IH]; intros l i.
  - cbn [over]. rewrite nth_nil. revert i. induction l as [|j l IH]; intro i; [rewrite !nth_nil; reflexivity|]. destruct i; [reflexivity|]. apply IH.
  - destruct l as [|j l]; cbn [over]; [rewrite nth_nil; destruct (nth_error _ i); reflexivity|]. destruct i; [reflexivity|]. exact (IH l i).
Qed.
(** the cells are the columns *)
Definition cells_are (cells : list (list json)) (ls : list (list json)) : Prop :=
  forall i, nth_error cells i = match column i ls with [] => None | c => Some c end.
Lemma column_snoc : forall i ls l, column i (ls ++ [l]) = column i ls ++ match nth_error l i with Some j => [j] | None => [] end.
Proof. intros i ls l. unfold column. rewrite flat_map_app. cbn [flat_map]. rewrite app_nil_r. reflexivity. Qed.
Lemma cells_over : forall cells ls l, cells_are cells ls -> cells_are (over cells l) (ls ++ [l]).
Proof.
  intros cells ls l H i. rewrite over_nth, column_snoc, (H i). destruct (column i ls) as [|c cs]; cbn [app]; destruct (nth_error l i); try reflexivity.
  rewrite app_nil_r. reflexivity.
Qed.
Lemma cells_read : forall A (d : list json -> res A) cells ls, cells_are cells ls ->
  (exists l, rmapM d cells = Ok l) <-> readable_columns (fun js a => d js = Ok a) ls.
Proof.
  intros A d cells ls H. split.
  - intros [l E] i N. apply rmapM_Ok_iff in E. specialize (H i). destruct (column i ls) as [|c cs] eqn:Ec; [congruence|].
    clear - E H. revert i H. induction E as [|x y xs ys Ex E IH]; intros [|i] H; try discriminate H; [injection H as ->; eauto|exact (IH i H)].
  - intro R. assert (G : forall c, In c cells -> exists a, d c = Ok a).
    { intros c I. apply In_nth_error in I as [i I]. rewrite (H i) in I. specialize (R i). destruct (column i ls) as [|x y]; [discriminate I|].
      injection I as <-. apply R. discriminate. }
    clear - G. induction cells as [|c cells IH]; [exists []; reflexivity|]. destruct (G c (or_introl eq_refl)) as [a Ea].
    destruct IH as [l El]; [intros; apply G; right; assumption|]. exists (a :: l). cbn [rmapM]. rewrite Ea. cbn [rbind]. rewrite El. reflexivity.
Qed.
Lemma rmapM_nth : forall A B (f : A -> res B) l l' i, rmapM f l = Ok l' ->
  match nth_error l i, nth_error l' i with Some a, Some b => f a = Ok b | None, None => True | _, _ => False end.
Proof. intros A B f l l' i E. apply rmapM_Ok_iff in E. revert i. induction E as [|x y xs ys Ex E IH]; intros [|i]; cbn [nth_error]; auto. apply IH. Qed.
Lemma nth_ext_error : forall A (l l' : list A), (forall i, nth_error l i = nth_error l' i) -> l = l'.
Proof.
  induction l as [|a l IH]; intros [|b l'] H; [reflexivity|discriminate (H 0)|discriminate (H 0)|]. f_equal; [pose proof (H 0) as E; injection E; auto|].
  apply IH. intro i. exact (H (S i)).
Qed.
Lemma firstn_nth : forall A (l : list A) n i, nth_error (firstn n l) i = if i <? n then nth_error l i else None.
Proof.
  induction l as [|a l IH]; intros n i; [rewrite firstn_nil, nth_nil; destruct (i <? n); reflexivity|].
  destruct n; [destruct i; reflexivity|]. destruct i; [reflexivity|]. cbn [firstn nth_error]. rewrite IH. reflexivity.
Qed.
Lemma delems_end : forall A (d : list json -> res A) cells ls l, cells_are cells ls ->
  delems d cells (length (last ls [])) [] = Ok l <->
  readable_columns (fun js a => d js = Ok a) ls /\ length l = length (last ls []) /\ (forall i a, nth_error l i = Some a -> d (column i ls) = Ok a).
Proof.
  intros A d cells ls l H. cbn [delems].
  assert (LC : length (last ls []) <= length cells).
  { destruct (Nat.le_gt_cases (length (last ls [])) (length cells)) as [L|L]; [exact L|exfalso].
    set (i := length cells) in *. destruct ls as [|x ls _] using rev_ind; [cbn in L; lia|]. rewrite last_last in L. pose proof (H i) as Hi. rewrite column_snoc in Hi.
    destruct (nth_error x i) eqn:E; [|apply nth_error_None in E; lia]. assert (N : nth_error cells i = None) by (apply nth_error_None; lia). rewrite N in Hi.
    destruct (column i ls); discriminate Hi. }
  split.
  - intro E. apply rbind_Ok in E as (l0 & E & X). injection X as <-. split; [apply (cells_read _ _ _ _ H); eauto|].
    assert (L0 : length l0 = length cells) by (apply rmapM_Ok_iff in E; clear - E; induction E; cbn [length]; congruence).
    split; [rewrite firstn_length; lia|]. intros i a N. rewrite firstn_nth in N. destruct (i <? _); [|discriminate N].
    pose proof (rmapM_nth _ _ _ _ _ i E) as K. rewrite N in K. rewrite (H i) in K. destruct (column i ls) as [|c cs]; [contradiction|exact K].
  - intros (R & L & K). apply (cells_read _ _ _ _ H) in R as [l0 E]. rewrite E. cbn [rbind]. f_equal. apply nth_ext_error. intro i. rewrite firstn_nth.
    assert (L0 : length l0 = length cells) by (apply rmapM_Ok_iff in E; clear - E; induction E; cbn [length]; congruence).
    destruct (Nat.ltb_spec i (length (last ls []))) as [Li|Li].
    + destruct (nth_error l i) as [a|] eqn:Ea; [|apply nth_error_None in Ea; lia]. pose proof (K i a Ea) as D. pose proof (rmapM_nth _ _ _ _ _ i E) as M.
      rewrite (H i) in M. destruct (column i ls) as [|c cs] eqn:Ec.
      * exfalso. pose proof (H i) as Hi. rewrite Ec in Hi. apply nth_error_None in Hi. lia.
      * destruct (nth_error l0 i); [congruence|contradiction].
    + symmetry. apply nth_error_None. lia.
Qed.
Lemma delems_reset : forall A (d : list json -> res A) cells ls n r js l, cells_are cells ls -> r = JNull \/ r = JArr [] ->
  delems d cells n (r :: js) = Ok l <-> readable_columns (fun js a => d js = Ok a) ls /\ dlist d js = Ok l.
Proof.
  intros A d cells ls n r js l H Hr. assert (E : delems d cells n (r :: js) = let! _ := rmapM d cells in dlist d js) by (destruct Hr as [->| ->]; reflexivity).
  rewrite E. split.
  - intro K. apply rbind_Ok in K as (l0 & K1 & K2). split; [|exact K2]. apply (cells_read _ _ _ _ H). eauto.
  - intros [R K]. apply (cells_read _ _ _ _ H) in R as [l0 R]. rewrite R. exact K.
Qed.
Lemma cells_nil : cells_are [] [].
Proof. intro i. rewrite nth_nil. reflexivity. Qed.
Lemma delems_arrays : forall A (d : list json -> res A) ls' ls cells js, cells_are cells ls -> Forall (fun x => x <> []) ls' ->
  exists cells', cells_are cells' (ls ++ ls') /\
    delems d cells (length (last ls [])) (map JArr ls' ++ js) = delems d cells' (length (last (ls ++ ls') [])) js.
Proof.
  intros A d. induction ls' as [|x ls' IH]; intros ls cells js H F.
  - exists cells. rewrite app_nil_r. split; [exact H|reflexivity].
  - inversion F; subst. destruct (IH (ls ++ [x]) (over cells x) js (cells_over _ _ _ H)) as (cells' & H' & E); [assumption|].
    exists cells'. rewrite <- app_assoc in H', E. cbn [app] in H', E. split; [exact H'|]. rewrite last_last in E. rewrite <- E.
    destruct x as [|j x]; [congruence|]. reflexivity.
Qed.
Lemma first_reset : forall (A : Type) (d : list json -> res A) js l cells n, delems d cells n js = Ok l ->
  exists ls, Forall (fun x => x <> []) ls /\ (js = map JArr ls \/ exists r js', js = map JArr ls ++ r :: js' /\ (r = JNull \/ r = JArr [])).
Proof.
  intros A d. induction js as [|j js IH]; intros l cells n H; [exists []; split; [constructor|left; reflexivity]|].
  destruct j as [| | | | |[|x y]|]; cbn [delems] in H; try discriminate H.
  - exists []. split; [constructor|]. right. exists JNull, js. auto.
  - exists []. split; [constructor|]. right. exists (JArr []), js. auto.
  - apply IH in H as (ls & F & [->|(r & js' & -> & Hr)]); exists ((x :: y) :: ls); (split; [constructor; [discriminate|exact F]|]); [left; reflexivity|].
    right. exists r, js'. auto.
Qed.
Lemma dlist_iff : forall A (d : list json -> res A) js l, dlist d js = Ok l <-> elements_of (fun js a => d js = Ok a) js l.
Proof.
  intros A d js l. split.
  - remember (length js) as n eqn:E. assert (L : length js <= n) by lia. clear E. revert js l L. induction n as [|n IH]; intros js l L H;
      (destruct (first_reset A d js l [] 0 H) as (ls & F & [->|(r & js' & -> & Hr)]);
       [unfold dlist in H; rewrite <- (app_nil_r (map JArr ls)) in H; destruct (delems_arrays A d ls [] [] [] cells_nil F) as (cells & C & E); cbn [app last length] in E; rewrite E in H;
        apply (delems_end _ _ _ _ _ C) in H as (R & Ll & K); apply elements_end; assumption
       |]).
    + rewrite app_length in L. cbn [length] in L. lia.
    + unfold dlist in H. destruct (delems_arrays A d ls [] [] (r :: js') cells_nil F) as (cells & C & E). cbn [app last length] in E. rewrite E in H.
      apply (delems_reset _ _ _ _ _ _ _ _ C Hr) in H as [R K]. apply elements_reset; [exact F|exact R|exact Hr|]. apply IH; [rewrite app_length in L; cbn [length] in L; lia|exact K].
  - intro H. induction H as [ls l F R Ll K|ls r js l F R Hr H IH]; unfold dlist.
    + destruct (delems_arrays A d ls [] [] [] cells_nil F) as (cells & C & E). cbn [app last length] in E. rewrite app_nil_r in E. rewrite E.
      apply (delems_end _ _ _ _ _ C). auto.
    + destruct (delems_arrays A d ls [] [] (r :: js) cells_nil F) as (cells & C & E). cbn [app last length] in E. rewrite E.
      apply (delems_reset _ _ _ _ _ _ _ _ C Hr). auto.
Qed.

(** ** names *)
Lemma b2n_small : forall n, (n < 256)%N -> b2n (n2b n) = n.
Proof. intros n H. rewrite b2n_n2b. apply N.mod_small. exact H. Qed.
Lemma fold_long_s : forall s, fold_name (xc5 :: xbf :: s) = x73 :: fold_name s.
Proof. reflexivity. Qed.
Lemma fold_kelvin : forall s, fold_name (xe2 :: x84 :: xaa :: s) = x6b :: fold_name s.
Proof. reflexivity. Qed.
Lemma fold_other : forall c s, c <> xc5 -> c <> xe2 -> fold_name (c :: s) = lower c :: fold_name s.
Proof.
  intros c s N1 N2. assert (E1 : beq c xc5 = false) by (apply beq_neq; exact N1). assert (E2 : beq c xe2 = false) by (apply beq_neq; exact N2).
  cbn [fold_name]. rewrite E1, E2. cbn [andb]. destruct s as [|d [|e s]]; reflexivity.
Qed.
Lemma fold_cases : forall k, k = [] \/ (exists s, k = xc5 :: xbf :: s) \/ (exists s, k = xe2 :: x84 :: xaa :: s) \/
  exists c s, k = c :: s /\ fold_name k = lower c :: fold_name s.
Proof.
  intros [|c s]; [left; reflexivity|right]. cbn [fold_name]. destruct s as [|d s]; [right; right; eauto|].
  destruct (beq c xc5 && beq d xbf) eqn:E1.
  - apply andb_true_iff in E1 as [A B]. apply beq_eq in A, B. subst. left. eauto.
  - destruct s as [|e s]; [right; right; eauto|]. destruct (beq c xe2 && beq d x84 && beq e xaa) eqn:E2; [|right; right; eauto].
    apply andb_true_iff in E2 as [E2 D]. apply andb_true_iff in E2 as [A B]. apply beq_eq in A, B, D. subst. right. left. eauto.
Qed.
Lemma lower_same : forall c d, (b2n d < 128)%N -> lower c = lower d -> c = d \/ letter c d.
Proof.
  intros c d L E. unfold lower in E. pose proof (b2n_lt c) as Bc. pose proof (b2n_lt d) as Bd.
  assert (G : forall x y, n2b x = y -> (x < 256)%N -> x = b2n y) by (intros x y <- H; symmetry; apply b2n_small; exact H).
  destruct ((65 <=? b2n c) && (b2n c <=? 90))%N eqn:Ec, ((65 <=? b2n d) && (b2n d <=? 90))%N eqn:Ed.
  - left. apply (f_equal b2n) in E. rewrite !b2n_small in E by lia. apply b2n_inj. lia.
  - right. apply G in E; [|lia]. exists (b2n c - 65)%N. split; [lia|]. split; [left|right]; apply b2n_inj; rewrite b2n_small by lia; lia.
  - right. symmetry in E. apply G in E; [|lia]. exists (b2n d - 65)%N. split; [lia|]. split; [right|left]; apply b2n_inj; rewrite b2n_small by lia; lia.
  - left. exact E.
Qed.
Lemma letter_lower : forall c d, letter c d -> lower c = lower d /\ (b2n c < 128)%N.
Proof.
  intros c d (n & Ln & Hc & Hd).
  assert (G : forall x, x = n2b (65 + n) \/ x = n2b (97 + n) -> lower x = n2b (97 + n) /\ (b2n x < 128)%N).
  { intros x [->| ->]; unfold lower; rewrite !b2n_small by lia.
    - replace ((65 <=? 65 + n) && (65 + n <=? 90))%N with true by lia. split; [f_equal; lia|lia].
    - replace ((65 <=? 97 + n) && (97 + n <=? 90))%N with false by lia. split; [reflexivity|lia]. }
  destruct (G c Hc) as [-> A]. destruct (G d Hd) as [-> _]. auto.
Qed.
Lemma same_name_iff : forall n k, Forall (fun c => b2n c < 128)%N n -> bseq (fold_name k) (map lower n) = true <-> same_name k n.
Proof.
  intros n k A. rewrite bseq_eq. split.
  - remember (length k) as l eqn:El. assert (L : length k <= l) by lia. clear El. revert k n A L. induction l as [|l IH]; intros k n A L H.
    + destruct k; [|cbn in L; lia]. destruct n; [constructor|discriminate H].
    + destruct (fold_cases k) as [->|[(s & ->)|[(s & ->)|(c & s & -> & E)]]].
      * destruct n; [constructor|discriminate H].
      * rewrite fold_long_s in H. destruct n as [|d n]; [discriminate H|]. cbn [map] in H. injection H as Hd H. inversion A; subst. cbn [length] in L.
        apply same_long_s; [|apply IH; [assumption|lia|exact H]]. change x73 with (lower x73) in Hd. symmetry in Hd.
        clear - Hd. revert Hd. destruct d; vm_compute; intro E; try discriminate E; auto.
      * rewrite fold_kelvin in H. destruct n as [|d n]; [discriminate H|]. cbn [map] in H. injection H as Hd H. inversion A; subst. cbn [length] in L.
        apply same_kelvin; [|apply IH; [assumption|lia|exact H]]. symmetry in Hd.
        clear - Hd. revert Hd. destruct d; vm_compute; intro E; try discriminate E; auto.
      * rewrite E in H. destruct n as [|d n]; [discriminate H|]. cbn [map] in H. injection H as Hd H. inversion A; subst. cbn [length] in L.
        assert (S : same_name s n) by (apply IH; [assumption|lia|exact H]). destruct (lower_same c d) as [->|Lt]; auto using same_char, same_letter.
  - intro H. induction H as [|c s t H IH|c d s t Lt H IH|c s t Hc H IH|c s t Hc H IH]; try (inversion A; subst); try reflexivity.
    + rewrite fold_other; [|intros ->; discriminate|intros ->; discriminate]. cbn [map]. rewrite IH by assumption. reflexivity.
    + destruct (letter_lower c d Lt) as [El Lc]. rewrite fold_other; [|intros ->; discriminate|intros ->; discriminate]. cbn [map]. rewrite IH by assumption. rewrite El. reflexivity.
    + rewrite fold_kelvin. cbn [map]. rewrite IH by assumption. destruct Hc as [->| ->]; reflexivity.
    + rewrite fold_long_s. cbn [map]. rewrite IH by assumption. destruct Hc as [->| ->]; reflexivity.
Qed.
