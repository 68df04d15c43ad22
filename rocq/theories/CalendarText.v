(** A time in a document: the literal itself is a timestamp. *)
From Coq Require Import Lia ZifyBool ZifyNat ZifyN.
From Verif Require Import Base BaseFacts JsonModel JsonProofs TimeModel TimeProofs UnicodeSpec UnicodeProofs FormatSpec GrammarSpec GrammarProofs CalendarSpec CalendarProofs.
Local Open Scope Z_scope.

Lemma parse_ok : forall s t, parse_time s = Ok t <-> timestamp s t.
Proof. intros s t. rewrite <- parse_time_iff. unfold parse_time. destruct (parse_time_opt s); split; congruence. Qed.

(** a timestamp consists of characters that are never escaped *)
Lemma digit_as_is : forall ds, Forall digit ds -> as_is ds.
Proof.
  intros ds F. apply Forall_impl with (2 := F). intros c H. unfold digit in H. split; [lia|]. split; [|intros ->; vm_compute in H; intuition congruence].
  intro K. assert (X : Forall (fun c => 57 < b2n c \/ b2n c < 48)%N (s2b "<>&\")) by (repeat constructor; vm_compute; auto).
  rewrite Forall_forall in X. specialize (X c K). lia.
Qed.
Lemma as_is_app : forall a b, as_is a -> as_is b -> as_is (a ++ b).
Proof. intros a b A B. apply Forall_app. split; assumption. Qed.
Lemma as_is_chars : forall s, as_is s -> chars s s.
Proof.
  intros s H. induction H as [|c s (L & N & Q) H IH]; [constructor|].
  destruct (rune_1 c) as [E S]; [lia|]. change (c :: s) with ([c] ++ s). rewrite E at 1 2. apply chars_plain; try assumption; try lia.
  - intro X. apply Q. apply b2n_inj. exact X.
  - intro X. apply N. assert (c = x5c) by (apply b2n_inj; exact X). subst. vm_compute. auto 10.
Qed.
Lemma timestamp_as_is : forall s t, timestamp s t -> as_is s.
Proof.
  intros s t (Y & M & D & h & m & sec & f & z & y & mo & d & day & hh & mi & ss & ns & off & -> & (_ & NY & _) & (_ & NM & _) & (_ & ND & _) & _ &
    NH & (_ & Nm & _) & (_ & NS & _) & _ & _ & _ & NF & NZ & _).
  assert (NH' : Forall digit h) by (destruct NH as [(_ & K & _)|(_ & K & _)]; exact K).
  assert (one : forall c, as_is [c] <-> (32 <= b2n c < 128)%N /\ ~ In c (s2b "<>&\") /\ c <> x22).
  { intro c. split; [intro H; inversion H; assumption|intro H; constructor; [exact H|constructor]]. }
  assert (C : forall c, In c [x2d; x54; x3a; x2e; x5a; x2b] -> as_is [c]).
  { intros c H. apply bare_iff. cbn [In] in H. repeat destruct H as [<-|H]; try reflexivity. destruct H. }
  assert (O : forall u n, offset_part u n -> as_is u).
  { intros u n [(_ & K & _)|(c & [((_ & K & _) & ->)|((_ & K & _) & ->)])]; [apply digit_as_is; exact K|..].
    - change [x2b; c] with ([x2b] ++ [c]). apply as_is_app; [apply C; cbn; tauto|apply digit_as_is; exact K].
    - change [x2d; c] with ([x2d] ++ [c]). apply as_is_app; [apply C; cbn; tauto|apply digit_as_is; exact K]. }
  unfold written. repeat (apply as_is_app); try (apply digit_as_is; assumption); try (apply C; cbn; tauto).
  - destruct NF as [(-> & _)|(w & ds & v & -> & (_ & K & _) & _)]; [constructor|].
    change (x2e :: ds) with ([x2e] ++ ds). apply as_is_app; [apply C; cbn; tauto|apply digit_as_is; exact K].
  - destruct NZ as [(-> & _)|(u & v & p & q & Hu & Hv & [(-> & _)|(-> & _)])]; [apply C; cbn; tauto|..].
    + change (x2b :: u ++ x3a :: v) with ([x2b] ++ u ++ [x3a] ++ v). repeat apply as_is_app; try (apply C; cbn; tauto); eapply O; eassumption.
    + change (x2d :: u ++ x3a :: v) with ([x2d] ++ u ++ [x3a] ++ v). repeat apply as_is_app; try (apply C; cbn; tauto); eapply O; eassumption.
Qed.
Lemma time_literal : forall text t, (exists j, jparse text = Some j /\ time_value j = Ok t) <->
  exists a s b, blank a /\ blank b /\ text = a ++ quoted s ++ b /\ timestamp s t.
Proof.
  intros text t. split.
  - intros (j & P & V). apply jparse_iff in P as (a & u & b & A & Vj & B & ->). destruct j as [| | |s| | |]; try discriminate V.
    cbn [time_value] in V. apply parse_ok in V. inversion Vj as [| | | |raw s' K E| | | | |]; subst.
    rewrite (E (timestamp_as_is s t V)). eauto 10.
  - intros (a & s & b & A & B & -> & T). exists (JStr s). split; [|apply parse_ok; exact T].
    apply jparse_iff. exists a, (quoted s), b. repeat split; try assumption. apply value_str; [|reflexivity].
    apply as_is_chars. exact (timestamp_as_is s t T).
Qed.
