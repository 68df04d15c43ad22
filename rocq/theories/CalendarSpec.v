(** The calendar, counted day by day, and the texts of times (RFC 3339 as time.Parse reads it). *)
From Verif Require Import Base GrammarSpec.
Local Open Scope Z_scope.

(** ** Days *)
Definition leap_year (y : Z) : Prop := (4 | y) /\ (~ (100 | y) \/ (400 | y)).
(** the length of a month *)
Inductive month_length : Z -> Z -> Z -> Prop :=
| length_31 : forall y m, In m [1; 3; 5; 7; 8; 10; 12] -> month_length y m 31
| length_30 : forall y m, In m [4; 6; 9; 11] -> month_length y m 30
| length_29 : forall y, leap_year y -> month_length y 2 29
| length_28 : forall y, ~ leap_year y -> month_length y 2 28.
(** the date of the next day *)
Inductive next : Z * Z * Z -> Z * Z * Z -> Prop :=
| next_day : forall y m d l, month_length y m l -> 1 <= d < l -> next (y, m, d) (y, m, d + 1)
| next_month : forall y m l, month_length y m l -> m < 12 -> next (y, m, l) (y, m + 1, 1)
| next_year : forall y, next (y, 12, 31) (y + 1, 1, 1).
(** the date of the day that many days after 1970-01-01 *)
Inductive on_day : Z -> Z * Z * Z -> Prop :=
| epoch : on_day 0 (1970, 1, 1)
| later : forall n a b, on_day n a -> next a b -> on_day (n + 1) b
| earlier : forall n a b, on_day (n + 1) b -> next a b -> on_day n a.

(** ** Texts *)
Fixpoint decimal_value (acc : Z) (ds : bytes) : Z :=
  match ds with [] => acc | c :: ds => decimal_value (10 * acc + (Z.of_N (b2n c) - 48)) ds end.
(** the number written with so many digits *)
Definition numeral (w : nat) (ds : bytes) (n : Z) : Prop := length ds = w /\ Forall digit ds /\ n = decimal_value 0 ds.
(** nanoseconds: the digits count tenths, hundredths, ...; behind the ninth they count nanoseconds only *)
Definition second_part (f : bytes) (ns : Z) : Prop :=
  f = [] /\ ns = 0 \/
  exists w ds v, f = x2e :: ds /\ numeral w ds v /\ (1 <= w)%nat /\
    ((w <= 9)%nat /\ ns * 10 ^ Z.of_nat w = v * 10 ^ 9 \/ (9 < w)%nat /\ ns = v /\ v < 10 ^ 9).
(** two characters of an offset *)
Definition offset_part (s : bytes) (n : Z) : Prop :=
  numeral 2 s n \/ exists c, numeral 1 [c] n /\ s = [x2b; c] \/ numeral 1 [c] (- n) /\ s = [x2d; c].
(** seconds east of Greenwich *)
Definition zone (z : bytes) (off : Z) : Prop :=
  z = [x5a] /\ off = 0 \/
  exists h m hh mm, offset_part h hh /\ offset_part m mm /\
    (z = x2b :: h ++ x3a :: m /\ off = (hh * 60 + mm) * 60 \/ z = x2d :: h ++ x3a :: m /\ off = - ((hh * 60 + mm) * 60)).
(** the nanoseconds since 1970 of a date, a time of the day and an offset *)
Definition instant (day hh mi ss ns off : Z) : Z := ((((day * 24 + hh) * 60 + mi) * 60 + ss) - off) * 10 ^ 9 + ns.
Definition written (Y M D h m sec f z : bytes) : bytes :=
  Y ++ [x2d] ++ M ++ [x2d] ++ D ++ [x54] ++ h ++ [x3a] ++ m ++ [x3a] ++ sec ++ f ++ z.
(** the text stands for the instant *)
Definition timestamp (s : bytes) (t : Z) : Prop :=
  exists Y M D h m sec f z y mo d day hh mi ss ns off,
    s = written Y M D h m sec f z /\ numeral 4 Y y /\ numeral 2 M mo /\ numeral 2 D d /\ on_day day (y, mo, d) /\
    (numeral 2 h hh \/ numeral 1 h hh) /\ numeral 2 m mi /\ numeral 2 sec ss /\ hh < 24 /\ mi < 60 /\ ss < 60 /\
    second_part f ns /\ zone z off /\ t = instant day hh mi ss ns off.
(** ... in the form in which times are written: universal time, no superfluous digits *)
Definition canonical (s : bytes) (t : Z) : Prop :=
  exists Y M D h m sec f y mo d day hh mi ss ns,
    s = written Y M D h m sec f [x5a] /\ numeral 4 Y y /\ numeral 2 M mo /\ numeral 2 D d /\ on_day day (y, mo, d) /\
    numeral 2 h hh /\ numeral 2 m mi /\ numeral 2 sec ss /\ hh < 24 /\ mi < 60 /\ ss < 60 /\
    second_part f ns /\ (length f <= 10)%nat /\ (f = [] \/ exists c f', f = f' ++ [c] /\ digit c /\ c <> x30) /\
    t = instant day hh mi ss ns 0.
