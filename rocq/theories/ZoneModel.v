(** Times with their zone: time.Time's MarshalJSON and UnmarshalJSON for a time that is not in UTC.

    The created_on and last_updated_on fields of all documents are time.Time values
    (e.g. domain/transfers/piastres/bills/json_bill.go:9, domain/transfers/piastres/blocks/json_block.go, libs/entities/immutable.go:11);
    CreatedOn takes any time.Time (domain/transfers/piastres/bills/builder.go:57-60).  In TimeModel a time is an instant; here it is an instant
    and the offset of its zone at that instant, in seconds east of UTC.  Simplification: of a zone only that offset is kept (the name is not written,
    and what is read has a zone of that offset at that instant).  Printing and parsing are those of Go 1.13 to 1.16, as in TimeModel. *)
From Verif Require Import Base JsonModel TimeModel.
Local Open Scope Z_scope.

(** appendInt with width 2: at least two digits *)
Definition int2 (n : Z) : bytes := if n <? 100 then pad2 n else itoa n.
(** the "Z07:00" of the layout RFC3339Nano: Z, or the offset in minutes; Go divides towards zero, the sign is that of the minutes *)
Definition zone_text (o : Z) : bytes :=
  if o =? 0 then [x5a]
  else let z := Z.quot o 60 in
       (if z <? 0 then x2d else x2b) :: int2 (Z.abs z / 60) ++ [x3a] ++ int2 (Z.abs z mod 60).
(** time.Time.MarshalJSON: the clock of the zone, and its offset; the year is the one in the zone *)
Definition zoned_text (t o : Z) : res bytes :=
  let local := t + o * 10 ^ 9 in
  let '(y, m, d) := civil_of_days (local / day_ns) in
  let ns := local mod day_ns in
  let s := ns / 10 ^ 9 in
  if (0 <=? y) && (y <=? 9999)
  then Ok (pad4 y ++ [x2d] ++ pad2 m ++ [x2d] ++ pad2 d ++ [x54] ++
           pad2 (s / 3600) ++ [x3a] ++ pad2 (s / 60 mod 60) ++ [x3a] ++ pad2 (s mod 60) ++
           frac_text (ns mod 10 ^ 9) ++ zone_text o)
  else Err.
(** time.Time.UnmarshalJSON: the instant and the offset of the zone the time gets (time.Parse: UTC, the local zone if it has that offset then,
    or a FixedZone) *)
Definition parse_zoned (s : bytes) : option (Z * Z) :=
  let? (y, s) := take_num 4 s in
  let? s := take_char x2d s in
  let? (m, s) := take_num 2 s in
  let? s := take_char x2d s in
  let? (d, s) := take_num 2 s in
  let? s := take_char x54 s in
  let? (hh, s) := take_hour s in
  let? s := take_char x3a s in
  let? (mm, s) := take_num 2 s in
  let? s := take_char x3a s in
  let? (ss, s) := take_num 2 s in
  let? (ns, s) := take_frac s in
  let? off := take_zone s in
  if (1 <=? m) && (m <=? 12) && (1 <=? d) && (d <=? month_days y m) &&
     (hh <=? 23) && (mm <=? 59) && (ss <=? 59)
  then Some (days_of_civil y m d * day_ns + ((hh * 60 + mm) * 60 + ss - off) * 10 ^ 9 + ns, off)
  else None.

Example zoned_case :
  zoned_text 1600000000123450000 7200 = Ok (s2b "2020-09-13T14:26:40.12345+02:00") /\
  parse_zoned (s2b "2020-09-13T14:26:40.12345+02:00") = Some (1600000000123450000, 7200) /\
  zoned_text 1600000000000000000 (-12600) = Ok (s2b "2020-09-13T08:56:40-03:30") /\
  zoned_text 0 1172 = Ok (s2b "1970-01-01T00:19:32+00:19") /\
  zoned_text 0 360000 = Ok (s2b "1970-01-05T04:00:00+100:00").
Proof. vm_compute. auto 10. Qed.
