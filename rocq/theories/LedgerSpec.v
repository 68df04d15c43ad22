(** What a ledger is meant to guarantee, in terms of the objects only. *)
From Verif Require Import Base HashModel SignModel EntitiesModel PiastresModel PiastresSpec.

Section WithCurve.
Context {C : Curve}.
(** the bill with hash [h] is among the inputs *)
Definition spends (h : hash) (e : @expense C) : Prop := In h (map bl_hash (ct_from (ex_content e))).
(** the expenses of a list of transactions, in order *)
Definition expenses_of (ts : list (@transaction C)) : list (@expense C) := concat (map tx_fees ts).
(** no bill is spent by two expenses, nor twice by one *)
Definition no_double_spend (es : list (@expense C)) : Prop :=
  NoDup (concat (map (fun e => map bl_hash (ct_from (ex_content e))) es)).
(** the bills an expense makes *)
Definition makes (e : @expense C) : list bill := ct_to (ex_content e) :: opt_list (ct_remaining (ex_content e)).
(** every input was made by the genesis or by an earlier expense *)
Definition sourced (g : genesis) (es : list (@expense C)) : Prop :=
  forall before e after b, es = before ++ e :: after -> In b (ct_from (ex_content e)) ->
    In (bl_hash b) (map bl_hash (gn_bill g :: concat (map makes before))).
(** the bills there are, and the hashes of those that were spent *)
Definition made (g : genesis) (es : list (@expense C)) : list bill := gn_bill g :: concat (map makes es).
Definition spent (es : list (@expense C)) : list hash := concat (map (fun e => map bl_hash (ct_from (ex_content e))) es).
(** bills with different hashes that were made and not spent *)
Definition unspent (g : genesis) (es : list (@expense C)) (bs : list bill) : Prop :=
  NoDup (map bl_hash bs) /\ forall b, In b bs -> In b (made g es) /\ ~ In (bl_hash b) (spent es).
(** all bills that occur, as outputs and as inputs *)
Definition all_bills (g : genesis) (es : list (@expense C)) : list bill :=
  made g es ++ concat (map (fun e => ct_from (ex_content e)) es).
(** the parts of a chain belong together: one genesis, and the head follows some link or
    block; for a chain of two blocks that is the root *)
Definition one_genesis (c : @chain C) : Prop :=
  bk_genesis (mb_block (ch_root c)) = ch_genesis c /\ bk_genesis (ln_next (ml_link (ch_head c))) = ch_genesis c.
(** the number of transactions in a list of blocks *)
Definition count_trx (bs : list (@block C)) : N := N.of_nat (length (concat (map bk_trx bs))).
End WithCurve.
