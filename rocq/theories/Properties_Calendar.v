(** C99: times are written and read by the calendar. *)
From Coq Require Import Lia.
From Verif Require Import Base BaseFacts JsonModel TimeModel TimeProofs MemberSpec MemberProofs FormatSpec GrammarSpec CalendarSpec CalendarProofs CalendarText.
Local Open Scope Z_scope.

(** ** C99: the date of a day is the one found by counting from 1970-01-01 *)
Theorem C99_date : forall n x, on_day n x <-> civil_of_days n = x.
Proof. exact calendar_iff. Qed.
Print Assumptions C99_date.
Theorem C99_day : forall y m d l, month_length y m l -> 1 <= d <= l -> forall n, on_day n (y, m, d) <-> days_of_civil y m d = n.
Proof.
  intros y m d l L D n. pose proof (length_range _ _ _ L) as M. apply length_iff in L; [|exact M]. subst l. split.
  - intro H. apply on_day_number in H as [_ H]. exact H.
  - intros <-. apply day_of. cbn. auto.
Qed.
Print Assumptions C99_day.

(** ** C99: a time is read from exactly the texts that stand for it *)
Theorem C99_read : forall s t, parse_time s = Ok t <-> timestamp s t.
Proof.
  intros s t. rewrite <- parse_time_iff. unfold parse_time. destruct (parse_time_opt s); split; congruence.
Qed.
Print Assumptions C99_read.
Theorem C99_refuse : forall s, parse_time s = Err <-> forall t, ~ timestamp s t.
Proof.
  intro s. split.
  - intros H t T. apply C99_read in T. congruence.
  - intro H. unfold parse_time. destruct (parse_time_opt s) as [t|] eqn:E; [|reflexivity]. apply parse_time_iff in E. destruct (H t E).
Qed.
Print Assumptions C99_refuse.

(** ** C99: and written in the one canonical way *)
Theorem C99_write : forall t s, time_text t = Ok s <-> canonical s t.
Proof. exact time_text_canon_iff. Qed.
Print Assumptions C99_write.
Theorem C99_unwritable : forall t, time_text t = Err <-> forall s, ~ canonical s t.
Proof.
  intro t. split.
  - intros H s C. apply C99_write in C. congruence.
  - intro H. destruct (time_text t) as [s| |] eqn:E; [apply C99_write in E; destruct (H s E)|reflexivity|].
    unfold time_text in E. destruct (civil_of_days (t / day_ns)) as [[y m] d]. destruct (_ && _); discriminate E.
Qed.
Print Assumptions C99_unwritable.
Theorem C99_canonical : forall s s' t, canonical s t -> canonical s' t -> s = s'.
Proof. exact canonical_inj. Qed.
Print Assumptions C99_canonical.
(** what is written stands for the time *)
Theorem C99_means : forall s t, canonical s t -> timestamp s t.
Proof. exact canonical_timestamp. Qed.
Print Assumptions C99_means.

(** ** C99: in a document *)
(** the first day of the year 1 if there is no such member; a null changes nothing *)
Theorem C99_member : forall js t, dtime js = Ok t <->
  exists zero n, on_day n (1, 1, 1) /\ zero = instant n 0 0 0 0 0 /\ finally (fun j t => exists s, j = JStr s /\ timestamp s t) zero js t.
Proof.
  intros js t. assert (R : forall j t, time_value j = Ok t <-> exists s, j = JStr s /\ timestamp s t).
  { intros j t'. split.
    - intro H. destruct j; try discriminate H. exists s. split; [reflexivity|]. apply C99_read. exact H.
    - intros (s & -> & H). apply C99_read. exact H. }
  unfold dtime. rewrite dlast_iff. rewrite (finally_ext _ _ _ _ _ _ R). split.
  - intro H. exists zero_time, (days_of_civil 1 1 1). split; [apply day_of; vm_compute; intuition discriminate|]. split; [reflexivity|exact H].
  - intros (z & n & D & -> & H). apply on_day_number in D as [_ <-]. exact H.
Qed.
Print Assumptions C99_member.
(** as a text: the timestamp stands between the quotes as it is, without escapes *)
Theorem C99_text : forall text t, (exists j, jparse text = Some j /\ time_value j = Ok t) <->
  exists a s b, blank a /\ blank b /\ text = a ++ quoted s ++ b /\ timestamp s t.
Proof. exact time_literal. Qed.
Print Assumptions C99_text.

Example C99_case :
  on_day 11016 (2000, 2, 29) /\ on_day (-25508) (1900, 3, 1) /\ (forall n, ~ on_day n (1900, 2, 29)) /\
  canonical (s2b "2020-09-13T12:26:40.12345Z") 1600000000123450000 /\
  timestamp (s2b "2020-09-13T14:26:40.123450+02:00") 1600000000123450000 /\
  timestamp (s2b "2020-09-13T2:26:40-10:00") 1600000000000000000 /\
  ~ canonical (s2b "2020-09-13T12:26:40.123450Z") 1600000000123450000 /\
  (forall t, ~ timestamp (s2b "2021-02-29T00:00:00Z") t) /\ (forall t, ~ timestamp (s2b "2021-02-28T00:00:60Z") t).
Proof.
  split; [apply C99_date; vm_compute; reflexivity|]. split; [apply C99_date; vm_compute; reflexivity|].
  split; [intros n H; apply on_day_number in H as [[_ H] _]; revert H; vm_compute; intuition congruence|].
  split; [apply C99_write; vm_compute; reflexivity|]. split; [apply C99_read; vm_compute; reflexivity|].
  split; [apply C99_read; vm_compute; reflexivity|].
  split; [intro H; apply C99_write in H; assert (X : time_text 1600000000123450000 = Ok (s2b "2020-09-13T12:26:40.12345Z")) by (vm_compute; reflexivity);
    rewrite X in H; apply Ok_inj in H; assert (Y : length (s2b "2020-09-13T12:26:40.12345Z") <> length (s2b "2020-09-13T12:26:40.123450Z")) by (vm_compute; discriminate);
    apply Y; rewrite H; reflexivity|].
  split; apply C99_refuse; vm_compute; reflexivity.
Qed.
(** an escaped digit is read in a string but not in a time *)
Example C99_case_text :
  (exists j, jparse (s2b " ""2020-09-13T12:26:40Z""") = Some j /\ time_value j = Ok 1600000000000000000) /\
  (exists j, jparse (s2b """\u0032020-09-13T12:26:40Z""") = Some j /\ time_value j = Err /\ str_value j = Ok (s2b "2020-09-13T12:26:40Z")).
Proof.
  split; [exists (JStr (s2b "2020-09-13T12:26:40Z")); split|exists (JEsc (s2b "2020-09-13T12:26:40Z")); split; [|split]]; vm_compute; reflexivity.
Qed.
