(** A text with an instant and an offset. *)
From Verif Require Import Base GrammarSpec CalendarSpec.
Local Open Scope Z_scope.

(** the text gives the date and the clock of a place so many seconds east of Greenwich *)
Definition zoned (s : bytes) (t off : Z) : Prop :=
  exists Y M D h m sec f z y mo d day hh mi ss ns,
    s = written Y M D h m sec f z /\ numeral 4 Y y /\ numeral 2 M mo /\ numeral 2 D d /\ on_day day (y, mo, d) /\
    (numeral 2 h hh \/ numeral 1 h hh) /\ numeral 2 m mi /\ numeral 2 sec ss /\ hh < 24 /\ mi < 60 /\ ss < 60 /\
    second_part f ns /\ zone z off /\ t = instant day hh mi ss ns off.
