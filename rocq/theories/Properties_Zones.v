(** C110: the time zones of the times in documents. *)
From Verif Require Import Base JsonModel TimeModel TimeProofs CalendarSpec ZoneModel ZoneSpec ZoneProofs.
Local Open Scope Z_scope.

(** ** C110.  A time given to CreatedOn has a zone; the document has the clock of the zone and its offset, to the minute. *)

(** the instant and the offset come back exactly when the offset is one of whole minutes and below a hundred hours *)
Theorem C110_kept_partial : forall t o s, zoned_text t o = Ok s -> (zoned s t o <-> (60 | o) /\ Z.abs o < 360000).
Proof. exact zoned_kept_iff. Qed.
Print Assumptions C110_kept_partial.
(** ... with an offset that has seconds another instant comes back, up to a minute away *)
Theorem C110_refuted_seconds : forall t o s, zoned_text t o = Ok s -> Z.abs o < 360000 -> ~ (60 | o) ->
  exists t' o', zoned s t' o' /\ t' <> t /\ Z.abs (t' - t) < 60 * 10 ^ 9 /\ (60 | o').
Proof. exact zoned_seconds. Qed.
Print Assumptions C110_refuted_seconds.
(** ... with an offset of a hundred hours or more what was written is not a time *)
Theorem C110_refuted_wide : forall t o s, zoned_text t o = Ok s -> 360000 <= Z.abs o -> forall t' o', ~ zoned s t' o'.
Proof. exact zoned_wide. Qed.
Print Assumptions C110_refuted_wide.
(** a time can be written exactly when the year in its zone has four digits *)
Theorem C110_written : forall t o, (exists s, zoned_text t o = Ok s) <-> year0 <= t + o * 10 ^ 9 < year10000.
Proof. exact zoned_text_iff. Qed.
Print Assumptions C110_written.
(** what was read from a document can always be written again, and then has its instant and offset unless these are a hundred hours or more (+99:99) *)
Theorem C110_again_partial : forall s t o, zoned s t o -> exists s', zoned_text t o = Ok s' /\ (zoned s' t o <-> Z.abs o < 360000).
Proof. exact zoned_again. Qed.
Print Assumptions C110_again_partial.
(** a text stands for one instant and one offset; the times of the other models are these instants, written with the offset 0 *)
Theorem C110_unique : forall s t o t' o', zoned s t o -> zoned s t' o' -> t' = t /\ o' = o.
Proof. exact zoned_unique. Qed.
Print Assumptions C110_unique.
Theorem C110_instants : (forall s t o, parse_zoned s = Some (t, o) <-> zoned s t o) /\
  (forall s t, parse_time s = Ok t <-> exists o, zoned s t o) /\ (forall t, time_text t = zoned_text t 0).
Proof.
  split; [exact parse_zoned_iff|]. split; [|intro t; symmetry; apply zoned_utc].
  intros s t. unfold parse_time. rewrite parse_zoned_time. split.
  - intro H. destruct (parse_zoned s) as [[t' o]|] eqn:E; [|discriminate]. injection H as ->. exists o. apply parse_zoned_iff. exact E.
  - intros [o H]. apply parse_zoned_iff in H. rewrite H. reflexivity.
Qed.
Print Assumptions C110_instants.

(** Paris; the time of Amsterdam until 1937, 19 minutes and 32 seconds before Greenwich's: the document is read 32 seconds later; a hundred hours; +99:99 *)
Example C110_case :
  zoned_text 1600000000123450000 7200 = Ok (s2b "2020-09-13T14:26:40.12345+02:00") /\ parse_zoned (s2b "2020-09-13T14:26:40.12345+02:00") = Some (1600000000123450000, 7200) /\
  zoned_text 0 1172 = Ok (s2b "1970-01-01T00:19:32+00:19") /\ parse_zoned (s2b "1970-01-01T00:19:32+00:19") = Some (32 * 10 ^ 9, 1140) /\
  zoned_text 0 (-30) = Ok (s2b "1969-12-31T23:59:30+00:00") /\ parse_zoned (s2b "1969-12-31T23:59:30+00:00") = Some (-30 * 10 ^ 9, 0) /\
  zoned_text 0 360000 = Ok (s2b "1970-01-05T04:00:00+100:00") /\ parse_zoned (s2b "1970-01-05T04:00:00+100:00") = None /\
  parse_zoned (s2b "1970-01-01T00:00:00+99:99") = Some (- 362340 * 10 ^ 9, 362340) /\ zoned_text (- 362340 * 10 ^ 9) 362340 = Ok (s2b "1970-01-01T00:00:00+100:39") /\
  zoned_text (year0 - 10 ^ 9) 3600 = Ok (s2b "0000-01-01T00:59:59+01:00") /\ zoned_text (year10000 - 10 ^ 9) 3600 = Err.
Proof. vm_compute. auto 20. Qed.
