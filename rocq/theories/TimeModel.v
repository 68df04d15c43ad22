(** Times as JSON texts: time.Time's MarshalJSON and UnmarshalJSON.

    An instant is a number of nanoseconds since 1970-01-01T00:00:00Z.  Simplification:
    the time zone of a Go value is dropped (texts are printed in UTC).  Parsing is that of the Go
    versions of go.mod's time (1.13 to 1.16): a number below 10^9 with more than nine digits is
    taken as a fraction in nanoseconds, and offsets are not limited. *)
From Verif Require Import Base JsonModel.
Local Open Scope Z_scope.

Definition day_ns : Z := 86400 * 10 ^ 9.

(** proleptic Gregorian calendar; months 1..12, days 1..31, day 0 = 1970-01-01 *)
Definition days_of_civil (y m d : Z) : Z :=
  let y := if m <=? 2 then y - 1 else y in
  let era := y / 400 in
  let yoe := y mod 400 in
  let doy := (153 * (if 2 <? m then m - 3 else m + 9) + 2) / 5 + d - 1 in
  era * 146097 + (yoe * 365 + yoe / 4 - yoe / 100 + doy) - 719468.

Definition civil_of_days (z : Z) : Z * Z * Z :=
  let z := z + 719468 in
  let era := z / 146097 in
  let doe := z mod 146097 in
  let yoe := (doe - doe / 1460 + doe / 36524 - doe / 146096) / 365 in
  let doy := doe - (365 * yoe + yoe / 4 - yoe / 100) in
  let mp := (5 * doy + 2) / 153 in
  let d := doy - (153 * mp + 2) / 5 + 1 in
  let m := if mp <? 10 then mp + 3 else mp - 9 in
  (yoe + era * 400 + (if m <=? 2 then 1 else 0), m, d).

Definition leap (y : Z) : bool := (y mod 4 =? 0) && (negb (y mod 100 =? 0) || (y mod 400 =? 0)).
Definition month_days (y m : Z) : Z :=
  if m =? 2 then (if leap y then 29 else 28)
  else if (m =? 4) || (m =? 6) || (m =? 9) || (m =? 11) then 30 else 31.

(** ** Printing *)
Definition dig (n : Z) : byte := n2b (Z.to_N (48 + n mod 10)).
Definition pad2 (n : Z) : bytes := [dig (n / 10); dig n].
Definition pad4 (n : Z) : bytes := [dig (n / 1000); dig (n / 100); dig (n / 10); dig n].
Definition pad9 (n : Z) : bytes :=
  [dig (n / 10 ^ 8); dig (n / 10 ^ 7); dig (n / 10 ^ 6); dig (n / 10 ^ 5); dig (n / 10 ^ 4);
   dig (n / 1000); dig (n / 100); dig (n / 10); dig n].

(** the digits without trailing zeros *)
Fixpoint trim0 (s : bytes) : bytes :=
  match s with
  | [] => []
  | c :: s => match trim0 s with [] => if beq c x30 then [] else [c] | s' => c :: s' end
  end.
Definition frac_text (ns : Z) : bytes := match trim0 (pad9 ns) with [] => [] | s => x2e :: s end.

(** time.Time.MarshalJSON: the layout RFC3339Nano, an error for a year outside [0,9999] *)
Definition time_text (t : Z) : res bytes :=
  let '(y, m, d) := civil_of_days (t / day_ns) in
  let ns := t mod day_ns in
  let s := ns / 10 ^ 9 in
  if (0 <=? y) && (y <=? 9999)
  then Ok (pad4 y ++ [x2d] ++ pad2 m ++ [x2d] ++ pad2 d ++ [x54] ++
           pad2 (s / 3600) ++ [x3a] ++ pad2 (s / 60 mod 60) ++ [x3a] ++ pad2 (s mod 60) ++
           frac_text (ns mod 10 ^ 9) ++ [x5a])
  else Err.

(** ** Parsing *)
Definition dval (c : byte) : option Z := if is_digit_b c then Some (Z.of_N (b2n c) - 48) else None.
Fixpoint dvals (acc : Z) (s : bytes) : option Z :=
  match s with
  | [] => Some acc
  | c :: s => match dval c with Some d => dvals (acc * 10 + d) s | None => None end
  end.
(** [n] digits *)
Definition take_num (n : nat) (s : bytes) : option (Z * bytes) :=
  if (length s <? n)%nat then None
  else match dvals 0 (firstn n s) with Some v => Some (v, skipn n s) | None => None end.
Definition take_char (c : byte) (s : bytes) : option bytes :=
  match s with c' :: s => if beq c' c then Some s else None | [] => None end.

(** the hour: one digit or two (getnum) *)
Definition take_hour (s : bytes) : option (Z * bytes) :=
  match s with
  | [] => None
  | a :: r =>
      match dval a with
      | None => None
      | Some x =>
          match r with
          | [] => Some (x, r)
          | b :: r' => match dval b with Some y => Some (x * 10 + y, r') | None => Some (x, r) end
          end
      end
  end.
(** two characters of an offset (atoi): the first can be a sign *)
Definition take_part (s : bytes) : option (Z * bytes) :=
  match s with
  | a :: b :: r =>
      match dval b with
      | None => None
      | Some y =>
          if beq a x2d then Some (- y, r)
          else if beq a x2b then Some (y, r)
          else match dval a with Some x => Some (x * 10 + y, r) | None => None end
      end
  | _ => None
  end.

Fixpoint span_digits (s : bytes) : bytes * bytes :=
  match s with
  | c :: s' => if is_digit_b c then let '(a, b) := span_digits s' in (c :: a, b) else ([], s)
  | [] => ([], [])
  end.
(** the optional fraction (parseNanoseconds) *)
Definition take_frac (s : bytes) : option (Z * bytes) :=
  match s with
  | c :: s' =>
      if beq c x2e then
        let '(ds, r) := span_digits s' in
        if (1 <=? length ds)%nat
        then match dvals 0 ds with
             | Some v => if v <? 10 ^ 9 then Some (v * 10 ^ Z.of_nat (9 - length ds), r) else None
             | None => None
             end
        else None
      else Some (0, s)
  | [] => Some (0, s)
  end.
(** the zone: seconds east of UTC; the end of the text must follow *)
Definition take_zone (s : bytes) : option Z :=
  match s with
  | c :: s' =>
      if beq c x5a then match s' with [] => Some 0 | _ => None end
      else if beq c x2b || beq c x2d then
        match take_part s' with
        | None => None
        | Some (hh, s1) =>
            match take_char x3a s1 with
            | None => None
            | Some s2 =>
                match take_part s2 with
                | Some (mm, []) => Some ((if beq c x2d then -1 else 1) * (hh * 60 + mm) * 60)
                | _ => None
                end
            end
        end
      else None
  | [] => None
  end.

Notation "'let?' x := a 'in' b" := (match a with Some x => b | None => None end)
  (at level 200, x pattern, a at level 100, b at level 200).

Definition parse_time_opt (s : bytes) : option Z :=
  let? (y, s) := take_num 4 s in
  let? s := take_char x2d s in
  let? (m, s) := take_num 2 s in
  let? s := take_char x2d s in
  let? (d, s) := take_num 2 s in
  let? s := take_char x54 s in
  let? (hh, s) := take_hour s in
  let? s := take_char x3a s in
  let? (mm, s) := take_num 2 s in
  let? s := take_char x3a s in
  let? (ss, s) := take_num 2 s in
  let? (ns, s) := take_frac s in
  let? off := take_zone s in
  if (1 <=? m) && (m <=? 12) && (1 <=? d) && (d <=? month_days y m) &&
     (hh <=? 23) && (mm <=? 59) && (ss <=? 59)
  then Some (days_of_civil y m d * day_ns + ((hh * 60 + mm) * 60 + ss - off) * 10 ^ 9 + ns)
  else None.
Definition parse_time (s : bytes) : res Z := match parse_time_opt s with Some t => Ok t | None => Err end.

(** the zero time.Time, 0001-01-01T00:00:00Z *)
Definition zero_time : Z := days_of_civil 1 1 1 * day_ns.

(** time.Time.MarshalJSON and UnmarshalJSON (null leaves it as it is; the text of the literal
    is parsed, so that a time written with escapes is none) *)
Definition jtime (t : Z) : res json := let! s := time_text t in Ok (JStr s).
Definition time_value (j : json) : res Z := match j with JStr s => parse_time s | _ => Err end.
Definition dtime : list json -> res Z := dlast time_value zero_time.

Example time_case :
  time_text 1600000000123450000 = Ok (s2b "2020-09-13T12:26:40.12345Z") /\
  parse_time (s2b "2020-09-13T14:26:40.12345+02:00") = Ok 1600000000123450000 /\
  time_text zero_time = Ok (s2b "0001-01-01T00:00:00Z") /\
  parse_time (s2b "2021-02-29T00:00:00Z") = Err /\
  parse_time (s2b "1970-01-01T0:00:00.0000000123Z") = Ok 123 /\
  parse_time (s2b "1970-01-01T00:00:00+-1:+5") = Ok ((60 - 5) * 60 * 10 ^ 9).
Proof. vm_compute. auto 10. Qed.
