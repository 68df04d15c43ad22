From Coq Require Import Lia ZifyBool ZifyNat ZifyN.
From Verif Require Import Base BaseFacts JsonModel UnicodeProofs.
From Verif Require Export UnicodeSpec.

(** induction over nested values *)
Section JsonInd.
  Variable P : json -> Prop.
  Hypothesis Hnull : P JNull.
  Hypothesis Hbool : forall b, P (JBool b).
  Hypothesis Hnum : forall t, P (JNum t).
  Hypothesis Hstr : forall s, P (JStr s).
  Hypothesis Hesc : forall s, P (JEsc s).
  Hypothesis Harr : forall l, Forall P l -> P (JArr l).
  Hypothesis Hobj : forall m, Forall (fun p => P (snd p)) m -> P (JObj m).
  Fixpoint json_ind2 (j : json) : P j :=
    match j with
    | JNull => Hnull
    | JBool b => Hbool b
    | JNum t => Hnum t
    | JStr s => Hstr s
    | JEsc s => Hesc s
    | JArr l => Harr l ((fix go l : Forall P l :=
        match l with [] => Forall_nil _ | x :: l => Forall_cons _ (json_ind2 x) (go l) end) l)
    | JObj m => Hobj m ((fix go m : Forall (fun p => P (snd p)) m :=
        match m with [] => Forall_nil _ | x :: m => Forall_cons _ (json_ind2 (snd x)) (go m) end) m)
    end.
End JsonInd.

Definition ascii (s : bytes) : Prop := Forall (fun c => (b2n c < 128)%N) s.

Lemma ascii_unicode : forall s, ascii s -> unicode s.
Proof. intros s H. induction H as [|c s Hc H IH]; [apply unicode_nil|apply unicode_1; assumption]. Qed.

(** values that are printed, and those printed without loss *)
Inductive printable : json -> Prop :=
| printable_null : printable JNull
| printable_bool : forall b, printable (JBool b)
| printable_num : forall t, valid_number t = true -> forallb is_num_char t = true -> printable (JNum t)
| printable_str : forall s, printable (JStr s)
| printable_arr : forall l, Forall printable l -> printable (JArr l)
| printable_obj : forall m, Forall (fun p => printable (snd p)) m -> printable (JObj m).
Inductive plain : json -> Prop :=
| plain_null : plain JNull
| plain_bool : forall b, plain (JBool b)
| plain_num : forall t, valid_number t = true -> forallb is_num_char t = true -> plain (JNum t)
| plain_str : forall s, unicode s -> plain (JStr s)
| plain_arr : forall l, Forall plain l -> plain (JArr l)
| plain_obj : forall m, Forall (fun p => unicode (fst p)) m -> Forall (fun p => plain (snd p)) m -> plain (JObj m).
(** what is read again *)
Fixpoint jclean (j : json) : json :=
  match j with
  | JStr s => JStr (clean s)
  | JArr l => JArr (map jclean l)
  | JObj m => JObj (map (fun p => (clean (fst p), jclean (snd p))) m)
  | _ => j
  end.
Lemma plain_printable : forall j, plain j -> printable j.
Proof.
  induction j as [|b|t|s|s|l IH|m IH] using json_ind2; intro H; inversion H; subst; constructor; auto;
    (rewrite Forall_forall in *; intros x Hx; auto).
Qed.
Lemma plain_clean : forall j, plain j -> jclean j = j.
Proof.
  induction j as [|b|t|s|s|l IH|m IH] using json_ind2; intro H; inversion H; subst; cbn [jclean]; try reflexivity.
  - rewrite clean_id by assumption. reflexivity.
  - f_equal. rewrite <- (map_id l) at 2. apply map_ext_in. intros x Hx. rewrite Forall_forall in *. auto.
  - f_equal. rewrite <- (map_id m) at 2. apply map_ext_in. intros [k j] Hx. rewrite Forall_forall in *. cbn [fst snd].
    rewrite (clean_id k) by exact (H1 _ Hx). f_equal. exact (IH _ Hx (H2 _ Hx)).
Qed.

Fixpoint print_arr (first : bool) (l : list json) : bytes :=
  match l with
  | [] => [x5d]
  | j :: l => (if first then [] else [x2c]) ++ jprint j ++ print_arr false l
  end.
Fixpoint print_obj (first : bool) (m : list (bytes * json)) : bytes :=
  match m with
  | [] => [x7d]
  | (k, j) :: m => (if first then [] else [x2c]) ++ quote k ++ [x3a] ++ jprint j ++ print_obj false m
  end.
Lemma jprint_arr : forall l, jprint (JArr l) = x5b :: print_arr true l.
Proof. reflexivity. Qed.
Lemma jprint_obj : forall m, jprint (JObj m) = x7b :: print_obj true m.
Proof. reflexivity. Qed.

(** ** Strings *)
Lemma quote_head : forall s r, quote s ++ r = x22 :: quote_body s ++ x22 :: r.
Proof. intros s r. unfold quote. cbn [app]. rewrite <- app_assoc. reflexivity. Qed.

Lemma bare_quote : forall s, bare (clean s) = true -> quote_body s = clean s.
Proof.
  intro s. induction s as [|c s A IH|c d s A R IH|c d e s A R IH|c d e f s A R IH|c s A B IH] using runes_ind; intro H; [reflexivity|..].
  - rewrite clean_1 in * by assumption. rewrite quote_1 by assumption. unfold bare in H. cbn [forallb] in H.
    apply andb_prop in H as [H H2]. apply andb_prop in H as [_ H1]. apply bseq_eq in H1. rewrite H1, IH by exact H2. reflexivity.
  - rewrite clean_2 in H by assumption. unfold bare in H. cbn [forallb] in H. lia.
  - rewrite clean_3 in H by assumption. unfold bare in H. cbn [forallb] in H. lia.
  - rewrite clean_4 in H by assumption. unfold bare in H. cbn [forallb] in H. lia.
  - rewrite clean_bad in H by assumption. discriminate H.
Qed.
Lemma string_read_quoted : forall s r, string_read (quote_body s ++ x22 :: r) (clean s) r = JStr (clean s).
Proof.
  intros s r. unfold string_read. destruct (bare (clean s)) eqn:B; [|reflexivity]. rewrite (bare_quote s B).
  rewrite (proj2 (bseq_eq _ _) eq_refl). reflexivity.
Qed.
Lemma string_read_ext : forall s u v t, string_read (s ++ t) u (v ++ t) = string_read s u v.
Proof.
  intros s u v t. unfold string_read. replace (bseq (s ++ t) (u ++ x22 :: v ++ t)) with (bseq s (u ++ x22 :: v)); [reflexivity|].
  apply eq_true_iff_eq. rewrite !bseq_eq, app_comm_cons, app_assoc. split; [intros ->; reflexivity|apply app_inv_tail].
Qed.

(** ** Round trip *)
Fixpoint jfuel (j : json) : nat :=
  match j with
  | JArr l => S ((fix go l := match l with [] => 1 | j :: l => S (Nat.max (jfuel j) (go l)) end) l)
  | JObj m => S ((fix go m := match m with [] => 1 | (_, j) :: m => S (Nat.max (jfuel j) (go m)) end) m)
  | _ => 1
  end.
Fixpoint arr_fuel (l : list json) : nat :=
  match l with [] => 1 | j :: l => S (Nat.max (jfuel j) (arr_fuel l)) end.
Fixpoint obj_fuel (m : list (bytes * json)) : nat :=
  match m with [] => 1 | (_, j) :: m => S (Nat.max (jfuel j) (obj_fuel m)) end.
Lemma jfuel_arr : forall l, jfuel (JArr l) = S (arr_fuel l).
Proof. reflexivity. Qed.
Lemma jfuel_obj : forall m, jfuel (JObj m) = S (obj_fuel m).
Proof. reflexivity. Qed.

Definition stops (r : bytes) : Prop := match r with c :: _ => is_num_char c = false | [] => True end.

Lemma span_num_app : forall t r, forallb is_num_char t = true -> stops r -> span_num (t ++ r) = (t, r).
Proof.
  induction t as [|c t IH]; intros r H S; cbn [app].
  - destruct r as [|c r]; [reflexivity|]. cbn [span_num]. cbn in S. rewrite S. reflexivity.
  - cbn in H. apply andb_prop in H as [H1 H2]. cbn [span_num]. rewrite H1, IH by assumption. reflexivity.
Qed.

(** the first character of a number *)
Definition num_start (c : byte) : Prop :=
  is_ws c = false /\ beq c x6e = false /\ beq c x74 = false /\ beq c x66 = false /\ beq c x22 = false /\
  beq c x5b = false /\ beq c x7b = false /\ beq c x5d = false /\ beq c x7d = false.
Lemma valid_number_start : forall t, valid_number t = true -> forallb is_num_char t = true ->
  exists c t', t = c :: t' /\ num_start c.
Proof.
  intros [|c t] H F; [discriminate|]. exists c, t. split; [reflexivity|].
  cbn in F. apply andb_prop in F as [F _].
  destruct c; try (vm_compute in F; discriminate F); vm_compute; repeat split.
Qed.

(** the first character of a printed value *)
Definition val_start (c : byte) : Prop := is_ws c = false /\ beq c x5d = false /\ beq c x7d = false.
Lemma jprint_start : forall j, printable j -> exists c t, jprint j = c :: t /\ val_start c.
Proof.
  intros j H. destruct H as [|b|t V N|s|l F|m F].
  - do 2 eexists. split; [reflexivity|]. vm_compute. auto.
  - destruct b; do 2 eexists; (split; [reflexivity|]); vm_compute; auto.
  - destruct (valid_number_start t V N) as (c & t' & -> & N1 & _ & _ & _ & _ & _ & _ & N2 & N3).
    exists c, t'. split; [reflexivity|]. repeat split; assumption.
  - do 2 eexists. split; [reflexivity|]. vm_compute. auto.
  - rewrite jprint_arr. do 2 eexists. split; [reflexivity|]. vm_compute. auto.
  - rewrite jprint_obj. do 2 eexists. split; [reflexivity|]. vm_compute. auto.
Qed.

Lemma prefix_of_app : forall p s, prefix_of p (p ++ s) = Some s.
Proof. induction p as [|a p IH]; intro s; [reflexivity|]. cbn. rewrite beq_refl. apply IH. Qed.

Lemma pval_nil : forall n, pval n [] = None.
Proof. destruct n; reflexivity. Qed.
Lemma parr_nil : forall n b, parr n b [] = None.
Proof. destruct n; reflexivity. Qed.
Lemma pobj_nil : forall n b, pobj n b [] = None.
Proof. destruct n; reflexivity. Qed.

Lemma print_arr_stops : forall l r, stops (print_arr false l ++ r).
Proof. intros [|j l] r; reflexivity. Qed.
Lemma print_obj_stops : forall m r, stops (print_obj false m ++ r).
Proof. intros [|[k j] m] r; reflexivity. Qed.

(** a number ends where no character of numbers follows; other values end by themselves *)
Definition ends (j : json) (r : bytes) : Prop := match j with JNum _ => stops r | _ => True end.
Lemma stops_ends : forall j r, stops r -> ends j r.
Proof. intros [] r H; try exact I. exact H. Qed.
Lemma pval_ends : forall j, printable j -> forall n r, jfuel j <= n -> ends j r ->
  pval n (jprint j ++ r) = Some (jclean j, r).
Proof.
  induction j as [|b|t|s|s|l IH|m IH] using json_ind2; intros Hp n r Hn Hr; inversion Hp; subst;
    (destruct n as [|n]; [cbn in Hn; lia|]).
  - reflexivity.
  - destruct b; reflexivity.
  - cbn [jprint]. destruct (valid_number_start t) as (c & t' & -> & N1 & N2 & N3 & N4 & N5 & N6 & N7 & _); auto.
    cbn [pval app skip_ws]. rewrite N1, N2, N3, N4, N5, N6, N7. unfold pnum. rewrite app_comm_cons, span_num_app by assumption.
    rewrite H0. reflexivity.
  - cbn [jprint]. rewrite quote_head. cbn [pval skip_ws]. change (is_ws x22) with false. cbn match.
    change (beq x22 x6e) with false. change (beq x22 x74) with false. change (beq x22 x66) with false.
    change (beq x22 x22) with true. cbn match. rewrite pstring_clean, string_read_quoted. reflexivity.
  - rewrite jprint_arr. cbn [app pval skip_ws]. change (is_ws x5b) with false. cbn match.
    change (beq x5b x6e) with false. change (beq x5b x74) with false. change (beq x5b x66) with false.
    change (beq x5b x22) with false. change (beq x5b x5b) with true. cbn match.
    rewrite jfuel_arr in Hn. apply le_S_n in Hn.
    assert (G : forall l first n, Forall printable l -> Forall (fun j => printable j -> forall n r, jfuel j <= n -> ends j r ->
        pval n (jprint j ++ r) = Some (jclean j, r)) l -> arr_fuel l <= n ->
        parr n first (print_arr first l ++ r) = Some (map jclean l, r)).
    { clear. induction l as [|j l IH]; intros first n F G L; (destruct n as [|n]; [cbn in L; lia|]).
      - destruct first; reflexivity.
      - inversion F as [|? ? F1 F2]; inversion G as [|? ? G1 G2]; subst. cbn [arr_fuel] in L.
        cbn [print_arr]. destruct (jprint_start j F1) as (c & t & E & W & W1 & W2).
        assert (X : pval n (jprint j ++ print_arr false l ++ r) = Some (jclean j, print_arr false l ++ r)).
        { apply G1; [exact F1|lia|apply stops_ends, print_arr_stops]. }
        destruct first; cbn [app parr].
        + rewrite <- app_assoc. rewrite E in *. cbn [app skip_ws] in *. rewrite W, W1. rewrite X.
          rewrite IH by (auto; lia). reflexivity.
        + cbn [skip_ws]. change (is_ws x2c) with false. cbn match. change (beq x2c x5d) with false. cbn match.
          cbn [prefix_of]. change (beq x2c x2c) with true. cbn match. rewrite <- app_assoc, X.
          rewrite IH by (auto; lia). reflexivity. }
    rewrite G by assumption. reflexivity.
  - rewrite jprint_obj. cbn [app pval skip_ws]. change (is_ws x7b) with false. cbn match.
    change (beq x7b x6e) with false. change (beq x7b x74) with false. change (beq x7b x66) with false.
    change (beq x7b x22) with false. change (beq x7b x5b) with false. change (beq x7b x7b) with true. cbn match.
    rewrite jfuel_obj in Hn. apply le_S_n in Hn.
    assert (G : forall m first n, Forall (fun p => printable (snd p)) m ->
        Forall (fun p => printable (snd p) -> forall n r, jfuel (snd p) <= n -> ends (snd p) r ->
        pval n (jprint (snd p) ++ r) = Some (jclean (snd p), r)) m -> obj_fuel m <= n ->
        pobj n first (print_obj first m ++ r) = Some (map (fun p => (clean (fst p), jclean (snd p))) m, r)).
    { clear. induction m as [|[k j] m IH]; intros first n F G L; (destruct n as [|n]; [cbn in L; lia|]).
      - destruct first; reflexivity.
      - inversion F as [|? ? F1 F2]; inversion G as [|? ? G1 G2]; subst. cbn [fst snd] in *.
        cbn [obj_fuel] in L. cbn [print_obj].
        assert (X : pval n (jprint j ++ print_obj false m ++ r) = Some (jclean j, print_obj false m ++ r)).
        { apply G1; [exact F1|lia|apply stops_ends, print_obj_stops]. }
        assert (Y : forall k', pstring (quote_body k ++ x22 :: k') = Some (clean k, k')) by (intro; apply pstring_clean).
        destruct first; cbn [app].
        + rewrite <- !app_assoc, quote_head. cbn [pobj skip_ws]. change (is_ws x22) with false. cbn match.
          change (beq x22 x7d) with false. cbn match. cbn [skip_ws]. change (is_ws x22) with false. cbn match.
          cbn [prefix_of]. change (beq x22 x22) with true. cbn match. rewrite Y. cbn [app skip_ws].
          change (is_ws x3a) with false. cbn match. cbn [prefix_of]. change (beq x3a x3a) with true. cbn match.
          rewrite <- app_assoc, X. rewrite IH by (auto; lia). reflexivity.
        + rewrite <- !app_assoc, quote_head. cbn [pobj skip_ws]. change (is_ws x2c) with false. cbn match.
          change (beq x2c x7d) with false. cbn match. cbn [prefix_of]. change (beq x2c x2c) with true. cbn match.
          cbn [skip_ws]. change (is_ws x22) with false. cbn match. cbn [prefix_of].
          change (beq x22 x22) with true. cbn match. rewrite Y. cbn [app skip_ws].
          change (is_ws x3a) with false. cbn match. cbn [prefix_of]. change (beq x3a x3a) with true. cbn match.
          rewrite <- app_assoc, X. rewrite IH by (auto; lia). reflexivity. }
    rewrite G by assumption. reflexivity.
Qed.

Lemma pval_clean : forall j, printable j -> forall n r, jfuel j <= n -> stops r ->
  pval n (jprint j ++ r) = Some (jclean j, r).
Proof. intros j H n r L S. apply pval_ends; [exact H|exact L|apply stops_ends; exact S]. Qed.

Lemma jprint_nonempty : forall j, printable j -> 1 <= length (jprint j).
Proof. intros j H. destruct (jprint_start j H) as (c & t & -> & _). cbn. lia. Qed.

Lemma jfuel_printable : forall j, printable j -> jfuel j <= length (jprint j).
Proof.
  induction j as [|b|t|s|s|l IH|m IH] using json_ind2; intro Hp; inversion Hp; subst.
  - cbn. lia.
  - destruct b; cbn; lia.
  - apply (jprint_nonempty _ Hp).
  - apply (jprint_nonempty _ Hp).
  - rewrite jfuel_arr, jprint_arr. cbn [length]. apply le_n_S. generalize true. clear Hp.
    induction l as [|j l IHl]; intro first; cbn [arr_fuel print_arr]; [cbn; lia|].
    inversion IH as [|? ? I1 I2]; inversion H0 as [|? ? F1 F2]; subst.
    specialize (I1 F1). specialize (IHl I2 F2 false). pose proof (jprint_nonempty j F1).
    assert (1 <= length (print_arr false l)) by (destruct l; cbn; lia). rewrite !app_length. lia.
  - rewrite jfuel_obj, jprint_obj. cbn [length]. apply le_n_S. generalize true. clear Hp.
    induction m as [|[k j] m IHm]; intro first; cbn [obj_fuel print_obj]; [cbn; lia|].
    inversion IH as [|? ? I1 I2]; inversion H0 as [|? ? F1 F2]; subst. cbn [snd] in *.
    specialize (I1 F1). specialize (IHm I2 F2 false). pose proof (jprint_nonempty j F1).
    assert (1 <= length (print_obj false m)) by (destruct m as [|[? ?] ?]; cbn; lia). rewrite !app_length. cbn [length]. lia.
Qed.

Lemma jfuel_le : forall j, plain j -> jfuel j <= length (jprint j).
Proof. intros j H. apply jfuel_printable. apply plain_printable. exact H. Qed.
Lemma pval_print : forall j, plain j -> forall n r, jfuel j <= n -> stops r ->
  pval n (jprint j ++ r) = Some (j, r).
Proof. intros j H n r L S. rewrite pval_clean, plain_clean by auto using plain_printable. reflexivity. Qed.
Theorem jparse_clean : forall j, printable j -> jparse (jprint j) = Some (jclean j).
Proof.
  intros j H. unfold jparse. rewrite <- (app_nil_r (jprint j)) at 2.
  rewrite pval_clean; [reflexivity|exact H| |exact I]. pose proof (jfuel_printable j H). lia.
Qed.
(** a document with anything but white space behind it is none *)
Lemma jparse_behind : forall m t, printable (JObj m) -> skip_ws t <> [] -> jparse (jprint (JObj m) ++ t) = None.
Proof.
  intros m t H T. unfold jparse. rewrite pval_ends; [|exact H| |exact I].
  - destruct (skip_ws t); [exfalso; apply T; reflexivity|reflexivity].
  - pose proof (jfuel_printable _ H). rewrite app_length. lia.
Qed.
Theorem jparse_jprint : forall j, plain j -> jparse (jprint j) = Some j.
Proof. intros j H. rewrite jparse_clean, plain_clean by auto using plain_printable. reflexivity. Qed.

(** ** More fuel *)
Lemma fuel_mono : forall n,
  (forall s x, pval n s = Some x -> pval (S n) s = Some x) /\
  (forall b s x, parr n b s = Some x -> parr (S n) b s = Some x) /\
  (forall b s x, pobj n b s = Some x -> pobj (S n) b s = Some x).
Proof.
  induction n as [|n (I1 & I2 & I3)].
  { split; [|split]; intros; discriminate. }
  split; [|split].
  - intros s x H. cbn [pval] in H. remember (S n) as n' eqn:En. cbn [pval].
    destruct (skip_ws s) as [|c s']; [discriminate|].
    destruct (beq c x6e); [exact H|]. destruct (beq c x74); [exact H|]. destruct (beq c x66); [exact H|].
    destruct (beq c x22); [exact H|]. destruct (beq c x5b).
    { destruct (parr n true s') as [[l r]|] eqn:E; [|discriminate]. apply I2 in E. subst n'. rewrite E. exact H. }
    destruct (beq c x7b); [|exact H].
    destruct (pobj n true s') as [[l r]|] eqn:E; [|discriminate]. apply I3 in E. subst n'. rewrite E. exact H.
  - intros b s x H. cbn [parr] in H. remember (S n) as n' eqn:En. cbn [parr].
    destruct (skip_ws s) as [|c s']; [discriminate|]. destruct (beq c x5d); [exact H|].
    destruct (if b then Some (c :: s') else prefix_of [x2c] (c :: s')) as [s2|]; [|discriminate].
    destruct (pval n s2) as [[j r]|] eqn:E; [|discriminate]. apply I1 in E. subst n'. rewrite E.
    destruct (parr n false r) as [[l r2]|] eqn:E2; [|discriminate]. apply I2 in E2. rewrite E2. exact H.
  - intros b s x H. cbn [pobj] in H. remember (S n) as n' eqn:En. cbn [pobj].
    destruct (skip_ws s) as [|c s']; [discriminate|]. destruct (beq c x7d); [exact H|].
    destruct (if b then Some (c :: s') else prefix_of [x2c] (c :: s')) as [s2|]; [|discriminate].
    destruct (prefix_of [x22] (skip_ws s2)) as [s3|]; [|discriminate].
    destruct (pstring s3) as [[k r]|]; [|discriminate].
    destruct (prefix_of [x3a] (skip_ws r)) as [s4|]; [|discriminate].
    destruct (pval n s4) as [[j r3]|] eqn:E; [|discriminate]. apply I1 in E. subst n'. rewrite E.
    destruct (pobj n false r3) as [[l r4]|] eqn:E2; [|discriminate]. apply I3 in E2. rewrite E2. exact H.
Qed.
Lemma pval_mono : forall n m s x, n <= m -> pval n s = Some x -> pval m s = Some x.
Proof.
  intros n m s x L H. induction L as [|m L IH]; [exact H|]. apply (proj1 (fuel_mono m)). exact IH.
Qed.

(** ** More input *)
Lemma skip_ws_app : forall s c s' t, skip_ws s = c :: s' -> skip_ws (s ++ t) = c :: s' ++ t.
Proof.
  induction s as [|a s IH]; intros c s' t H; [discriminate|]. cbn [skip_ws app] in *.
  destruct (is_ws a); [apply IH; exact H|]. injection H as <- <-. reflexivity.
Qed.
Lemma prefix_of_ext : forall p s r t, prefix_of p s = Some r -> prefix_of p (s ++ t) = Some (r ++ t).
Proof.
  induction p as [|a p IH]; intros s r t H; cbn in *; [congruence|].
  destruct s as [|b s]; [discriminate|]. cbn [app]. destruct (beq a b); [apply IH; exact H|discriminate].
Qed.
Lemma span_num_ext : forall s a r t, span_num s = (a, r) -> r <> [] -> span_num (s ++ t) = (a, r ++ t).
Proof.
  induction s as [|c s IH]; intros a r t H N; cbn [span_num app] in *; [congruence|].
  destruct (is_num_char c); [|injection H as <- <-; reflexivity].
  destruct (span_num s) as [x y] eqn:E. injection H as <- <-. rewrite (IH x y t eq_refl N). reflexivity.
Qed.

Definition is_num (j : json) : bool := match j with JNum _ => true | _ => false end.
Lemma more_input : forall n,
  (forall s j r t, pval n s = Some (j, r) -> is_num j = false \/ r <> [] -> pval n (s ++ t) = Some (j, r ++ t)) /\
  (forall b s l r t, parr n b s = Some (l, r) -> parr n b (s ++ t) = Some (l, r ++ t)) /\
  (forall b s m r t, pobj n b s = Some (m, r) -> pobj n b (s ++ t) = Some (m, r ++ t)).
Proof.
  induction n as [|n (I1 & I2 & I3)].
  { split; [|split]; intros; discriminate. }
  assert (PRE : forall (b : bool) c s' s2 t, (if b then Some (c :: s') else prefix_of [x2c] (c :: s')) = Some s2 ->
    (if b then Some (c :: s' ++ t) else prefix_of [x2c] (c :: s' ++ t)) = Some (s2 ++ t)).
  { intros [|] c s' s2 t H; [injection H as <-; reflexivity|].
    apply (prefix_of_ext [x2c] (c :: s') s2 t) in H. exact H. }
  assert (NUL : forall b r x, parr n b r = Some x -> r <> []).
  { intros b r x H E. subst. rewrite parr_nil in H. discriminate. }
  assert (NUL2 : forall b r x, pobj n b r = Some x -> r <> []).
  { intros b r x H E. subst. rewrite pobj_nil in H. discriminate. }
  split; [|split].
  - intros s j r t H N. cbn [pval] in *. destruct (skip_ws s) as [|c s'] eqn:W; [discriminate|].
    rewrite (skip_ws_app _ _ _ t W).
    assert (LIT : forall p x, lit p x s' = Some (j, r) -> lit p x (s' ++ t) = Some (j, r ++ t)).
    { unfold lit. intros p x HH. destruct (prefix_of p s') as [q|] eqn:E; [|discriminate].
      rewrite (prefix_of_ext _ _ _ t E). congruence. }
    destruct (beq c x6e); [apply LIT; exact H|]. destruct (beq c x74); [apply LIT; exact H|].
    destruct (beq c x66); [apply LIT; exact H|]. destruct (beq c x22).
    { destruct (pstring s') as [[u v]|] eqn:E; [|discriminate]. rewrite (pstring_ext _ _ _ _ t (le_n _) E).
      rewrite string_read_ext. congruence. }
    destruct (beq c x5b).
    { destruct (parr n true s') as [[l r2]|] eqn:E; [|discriminate]. rewrite (I2 _ _ _ _ t E). congruence. }
    destruct (beq c x7b).
    { destruct (pobj n true s') as [[l r2]|] eqn:E; [|discriminate]. rewrite (I3 _ _ _ _ t E). congruence. }
    unfold pnum in *. destruct (span_num (c :: s')) as [a b] eqn:E. destruct (valid_number a) eqn:V; [|discriminate].
    injection H as <- <-. destruct N as [N|N]; [discriminate|].
    change (c :: s' ++ t) with ((c :: s') ++ t). rewrite (span_num_ext _ _ _ t E N), V. reflexivity.
  - intros b s l r t H. cbn [parr] in *. destruct (skip_ws s) as [|c s'] eqn:W; [discriminate|].
    rewrite (skip_ws_app _ _ _ t W). destruct (beq c x5d); [congruence|].
    destruct (if b then Some (c :: s') else prefix_of [x2c] (c :: s')) as [s2|] eqn:E0; [|discriminate].
    rewrite (PRE _ _ _ _ t E0).
    destruct (pval n s2) as [[j r2]|] eqn:E; [|discriminate].
    destruct (parr n false r2) as [[l2 r3]|] eqn:E2; [|discriminate].
    rewrite (I1 _ _ _ t E) by (right; eapply NUL; exact E2). rewrite (I2 _ _ _ _ t E2). congruence.
  - intros b s l r t H. cbn [pobj] in *. destruct (skip_ws s) as [|c s'] eqn:W; [discriminate|].
    rewrite (skip_ws_app _ _ _ t W). destruct (beq c x7d); [congruence|].
    destruct (if b then Some (c :: s') else prefix_of [x2c] (c :: s')) as [s2|] eqn:E0; [|discriminate].
    rewrite (PRE _ _ _ _ t E0).
    destruct (skip_ws s2) as [|c2 s2'] eqn:W2; [discriminate|]. rewrite (skip_ws_app _ _ _ t W2).
    destruct (prefix_of [x22] (c2 :: s2')) as [s3|] eqn:E1; [|discriminate].
    rewrite app_comm_cons, (prefix_of_ext _ _ _ t E1).
    destruct (pstring s3) as [[k r0]|] eqn:E2; [|discriminate]. rewrite (pstring_ext _ _ _ _ t (le_n _) E2).
    destruct (skip_ws r0) as [|c3 r0'] eqn:W3; [discriminate|]. rewrite (skip_ws_app _ _ _ t W3).
    destruct (prefix_of [x3a] (c3 :: r0')) as [s4|] eqn:E3; [|discriminate].
    rewrite app_comm_cons, (prefix_of_ext _ _ _ t E3).
    destruct (pval n s4) as [[j r2]|] eqn:E4; [|discriminate].
    destruct (pobj n false r2) as [[l2 r3]|] eqn:E5; [|discriminate].
    rewrite (I1 _ _ _ t E4) by (right; eapply NUL2; exact E5). rewrite (I3 _ _ _ _ t E5). congruence.
Qed.

(** A proper prefix of the text of an object is not a JSON text. *)
Theorem torn_object : forall m p t, plain (JObj m) -> jprint (JObj m) = p ++ t -> t <> [] -> jparse p = None.
Proof.
  intros m p t Hp E N. unfold jparse. destruct (pval (S (length p)) p) as [[j r]|] eqn:P; [|reflexivity].
  assert (NN : is_num j = false).
  { destruct p as [|c p]; [discriminate|]. rewrite jprint_obj in E. cbn [app] in E. injection E as <- _.
    cbn [pval skip_ws] in P. change (is_ws x7b) with false in P. cbn match in P.
    change (beq x7b x6e) with false in P. change (beq x7b x74) with false in P. change (beq x7b x66) with false in P.
    change (beq x7b x22) with false in P. change (beq x7b x5b) with false in P. change (beq x7b x7b) with true in P.
    cbn match in P. destruct (pobj _ true p) as [[l q]|]; [|discriminate]. injection P as <- _. reflexivity. }
  apply (proj1 (more_input _)) with (t := t) in P; [|left; exact NN]. rewrite <- E in P.
  assert (L : S (length p) <= S (length (jprint (JObj m)))) by (rewrite E, app_length; lia).
  apply (pval_mono _ _ _ _ L) in P.
  pose proof (pval_print (JObj m) Hp (S (length (jprint (JObj m)))) []) as Q. rewrite app_nil_r in Q.
  rewrite Q in P; [|pose proof (jfuel_le _ Hp); lia|exact I]. injection P as _ P.
  exfalso. apply N. symmetry in P. apply app_eq_nil in P. tauto.
Qed.
