(** Which file a name stands for. *)
From Coq Require Import Lia.
From Verif Require Import Base BaseFacts FileModel FileSpec FileProofs FilePathSpec.

Lemma walk_clean p cs q : walk p cs q -> q = fold_left clean_step cs p.
Proof.
  induction 1 as [p|p c cs q C W IH|cs q W IH|p a cs q W IH|p c cs q F W IH]; cbn [fold_left].
  - reflexivity.
  - destruct C as [->| ->]; exact IH.
  - exact IH.
  - rewrite IH. f_equal. symmetry. exact (removelast_last p a).
  - rewrite IH. f_equal. destruct F as (A1 & A2 & A3 & A4). unfold clean_step. destruct c as [|b c]; [congruence|].
    destruct (bseq (b :: c) [x2e]) eqn:E1; [apply bseq_eq in E1; congruence|].
    destruct (bseq (b :: c) [x2e; x2e]) eqn:E2; [apply bseq_eq in E2; congruence|reflexivity].
Qed.

Lemma split_clean sep l : Forall (fun w => ~ In sep w) (split sep l).
Proof.
  induction l as [|x l IH]; cbn [split]; [repeat constructor; intros []|].
  destruct (beq x sep) eqn:E; [constructor; [intros []|exact IH]|].
  destruct (split sep l) as [|w ws]; [repeat constructor|].
  - intros [->|[]]. rewrite beq_refl in E. discriminate E.
  - inversion IH; subst. constructor; [|assumption].
    intros [->|H]; [rewrite beq_refl in E; discriminate E|contradiction].
Qed.

Lemma clean_walk cs : Forall (fun w => ~ In x2f w) cs -> forall p, walk p cs (fold_left clean_step cs p).
Proof.
  induction 1 as [|c cs C F IH]; intro p; cbn [fold_left]; [constructor|].
  destruct c as [|b c]; [apply W_stay; [left; reflexivity|apply IH]|]. unfold clean_step at 2.
  destruct (bseq (b :: c) [x2e]) eqn:E1.
  - apply bseq_eq in E1. rewrite E1. apply W_stay; [right; reflexivity|apply IH].
  - destruct (bseq (b :: c) [x2e; x2e]) eqn:E2.
    + apply bseq_eq in E2. rewrite E2. destruct p as [|a p'] using rev_ind.
      * apply W_root. apply IH.
      * rewrite removelast_last. apply W_up. apply IH.
    + apply W_down; [|apply IH]. unfold flat_name. repeat split; [discriminate|exact C| |]; intro E.
      * rewrite E in E1. discriminate E1.
      * rewrite E in E2. discriminate E2.
Qed.

Theorem fpath_walk base rel p : fpath base rel = p <-> walk [] (split x2f base ++ split x2f rel) p.
Proof.
  assert (W : walk [] (split x2f base ++ split x2f rel) (fpath base rel)).
  { apply clean_walk. apply Forall_app. split; apply split_clean. }
  split; [intros <-; exact W|]. intro H. symmetry. exact (walk_clean _ _ _ H).
Qed.

Lemma split_slashed cs : cs <> [] -> Forall (fun w => ~ In x2f w) cs -> split x2f (slashed cs) = cs.
Proof.
  intros N F. induction F as [|c cs C F IH]; [congruence|]. cbn [slashed]. destruct cs as [|c' cs].
  - apply split_none. exact C.
  - rewrite split_app by exact C. f_equal. apply IH. discriminate.
Qed.

Lemma ups n p : walk p (repeat (s2b "..") (length p + n)) [].
Proof.
  revert n. induction p as [|a p IH] using rev_ind; intro n.
  - cbn [length plus]. induction n; cbn [repeat]; [constructor|apply W_root; exact IHn].
  - rewrite app_length. cbn [length]. replace (length p + 1 + n)%nat with (S (length p + n)) by lia.
    cbn [repeat]. apply W_up. apply IH.
Qed.

Lemma walk_app p cs q cs' r : walk p cs q -> walk q cs' r -> walk p (cs ++ cs') r.
Proof. induction 1; intro H'; cbn [app]; [exact H'|apply W_stay|apply W_root|apply W_up|apply W_down]; auto. Qed.

Lemma downs cs : Forall flat_name cs -> forall p, walk p cs (p ++ cs).
Proof.
  induction 1 as [|c cs C F IH]; intro p; [rewrite app_nil_r; constructor|].
  apply W_down; [exact C|]. replace (p ++ c :: cs) with ((p ++ [c]) ++ cs) by (rewrite <- app_assoc; reflexivity). apply IH.
Qed.

(** every file of the disk has a name in the store *)
Theorem outside base target : target <> [] -> Forall flat_name target ->
  exists rel, fpath base rel = target.
Proof.
  intros N F. set (b := fpath base []).
  exists (slashed (repeat (s2b "..") (length b) ++ target)).
  apply fpath_walk. rewrite split_slashed.
  - assert (B' : walk [] (split x2f base) b).
    { unfold b, fpath, clean. rewrite fold_left_app. cbn [split fold_left clean_step].
      apply clean_walk. apply split_clean. }
    apply (walk_app _ _ b); [exact B'|]. apply (walk_app _ _ []).
    + replace (length b) with (length b + 0)%nat by lia. apply ups.
    + exact (downs target F []).
  - destruct (repeat (s2b "..") (length b)); cbn [app]; [exact N|discriminate].
  - apply Forall_app. split.
    + apply Forall_forall. intros x H. apply repeat_spec in H. subst x. cbn. intros [D|[D|[]]]; discriminate D.
    + eapply Forall_impl; [|exact F]. intros c C. apply C.
Qed.

(** names without ".." *)
Theorem inside base rel : ~ In (s2b "..") (split x2f rel) -> within (fpath base []) (fpath base rel).
Proof.
  intro N. unfold fpath, clean. rewrite !fold_left_app. cbn [split fold_left clean_step].
  generalize (fold_left clean_step (split x2f base) []) as p. induction (split x2f rel) as [|c cs IH]; intro p; cbn [fold_left].
  - exists []. symmetry. apply app_nil_r.
  - assert (N' : ~ In (s2b "..") cs) by (intro H; apply N; right; exact H).
    assert (ST : exists r, clean_step p c = p ++ r).
    { unfold clean_step. destruct c as [|b c]; [exists []; symmetry; apply app_nil_r|].
      destruct (bseq (b :: c) [x2e]); [exists []; symmetry; apply app_nil_r|].
      destruct (bseq (b :: c) [x2e; x2e]) eqn:E; [|exists [b :: c]; reflexivity].
      apply bseq_eq in E. exfalso. apply N. left. rewrite E. reflexivity. }
    destruct ST as [r R]. rewrite R. destruct (IH N' (p ++ r)) as [s S]. exists (r ++ s). rewrite app_assoc. exact S.
Qed.

Theorem outside_read base d target c : consistent_fs d -> target <> [] -> Forall flat_name target ->
  content_at d target = Some c -> exists rel, retrieve base d rel = Ok c.
Proof.
  intros H N F E. destruct (outside base target N F) as [rel R]. exists rel.
  rewrite retrieve_content by exact H. rewrite R, E. reflexivity.
Qed.
