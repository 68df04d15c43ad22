(** C98: what is read and written is JSON. *)
From Coq Require Import Lia.
From Verif Require Import Base BaseFacts JsonModel UnicodeSpec UnicodeProofs JsonProofs FormatSpec GrammarSpec GrammarProofs.

(** ** C98: the texts that are read are the JSON texts, with the values they have by the grammar *)
Theorem C98_read : forall s j, jparse s = Some j <-> document s j.
Proof. exact jparse_iff. Qed.
Print Assumptions C98_read.
(** a text has at most one value *)
Theorem C98_unambiguous : forall s j j', document s j -> document s j' -> j = j'.
Proof. intros s j j' H H'. apply C98_read in H, H'. congruence. Qed.
Print Assumptions C98_unambiguous.
(** every other text is refused *)
Theorem C98_refuse : forall s, jparse s = None <-> forall j, ~ document s j.
Proof.
  intro s. split.
  - intros H j D. apply C98_read in D. congruence.
  - intro H. destruct (jparse s) as [j|] eqn:E; [|reflexivity]. apply C98_read in E. destruct (H j E).
Qed.
Print Assumptions C98_refuse.
(** a string is written as the spelling of its code points between quotes *)
Theorem C98_write : forall s t, quote s = quoted t <-> spelt s t.
Proof. exact quote_iff. Qed.
Print Assumptions C98_write.
(** every string has exactly one spelling *)
Theorem C98_spelling : forall s, exists t, spelt s t /\ forall t', spelt s t' -> t' = t.
Proof.
  intro s. exists (quote_body s). split; [exact (quote_spelt s)|]. intros t' H. apply C98_write in H. unfold quote, quoted in H.
  injection H as H. apply app_inj_tail in H as [H _]. congruence.
Qed.
Print Assumptions C98_spelling.
(** the spelling of a string is in the grammar, and of text in UTF-8 it means the string *)
Theorem C98_spelt_chars : forall s t, unicode s -> spelt s t -> chars t s.
Proof. exact spelt_chars. Qed.
Print Assumptions C98_spelt_chars.

(** texts that a simpler reader gets wrong *)
Definition grammar_good : list (bytes * json) :=
  [(s2b " [ -0.5e+3 ,true ] ", JArr [JNum (s2b "-0.5e+3"); JBool true]);
   (s2b "{""\u00e9"":null,""a"":{ }}", JObj [([xc3; xa9], JNull); (s2b "a", JObj [])]);
   (s2b """\ud83d\ude00\ud83dx""", JStr ([xf0; x9f; x98; x80] ++ [xef; xbf; xbd] ++ s2b "x"));
   (s2b """\udbff\udfff""", JStr [xf4; x8f; xbf; xbf]);
   ([x22; xff; x22], JStr [xef; xbf; xbd]);
   (s2b "[""\u0041"",""A"",""\u0022""]", JArr [JEsc (s2b "A"); JStr (s2b "A"); JStr [x22]])].
Definition grammar_bad : list bytes :=
  map s2b ([""; "[1,]"; "{""a"":1,}"; "01"; "1."; "+1"; ".5"; "1e"; "[1 2]"; "nul"; "{a:1}"; """\x41"""; """a"; "1 1"; "[,1]"])%string.
Example C98_case :
  (forall s j, In (s, j) grammar_good -> document s j) /\ (forall s, In s grammar_bad -> forall j, ~ document s j) /\
  spelt ([x22; x3c; x0a; x01; xc3; xa9; xff] ++ [xe2; x80; xa8]) (s2b "\""\u003c\n\u0001" ++ [xc3; xa9] ++ s2b "\ufffd\u2028").
Proof.
  split; [|split].
  - intros s j H. apply C98_read. cbn [grammar_good In] in H.
    repeat match type of H with _ \/ _ => destruct H as [H|H]; [injection H as <- <-; vm_compute; reflexivity|] end. destruct H.
  - intros s H. apply C98_refuse. unfold grammar_bad in H. cbn [map In] in H.
    repeat match type of H with _ \/ _ => destruct H as [<-|H]; [vm_compute; reflexivity|] end. destruct H.
  - apply C98_write. vm_compute. reflexivity.
Qed.
