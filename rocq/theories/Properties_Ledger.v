(** What the objects guarantee as a ledger (C76 to C80). *)
From Coq Require Import Lia.
From Verif Require Import Base BaseFacts HashModel HashProofs EntitiesModel SignModel SignSpec ToyCurve FloatModel PiastresModel PiastresSpec PiastresProofs
  Properties_Piastres JsonModel TimeModel FloatText MemJsonModel MemSpec JsonFixtures TransferModel StoreModel StoreSpec StoreProofs StoreTheorems StoreFixtures
  PeersModel PeersProofs Properties_Peers Properties_Miner LedgerSpec LedgerProofs LedgerConserved HashSpec.

(** ** C76: a bill is spent at most once *)
(** Every accepted expense goes into one block together with a second one that pays the
    same bills to anybody else. *)
Theorem C76_refuted : forall (C : Curve) now now1 amount from lk rem created c (sigs : list (ringsig C)) e,
  content_now now1 amount from (Some lk) rem created = Ok c -> expense_now now (Some c) (Some sigs) = Ok e ->
  forall thief amount' g additional, (0 < amount' <= total_u64 from)%N ->
  exists e' t b, ct_from (ex_content e') = from /\ bl_lock (ct_to (ex_content e')) = thief /\ bl_amount (ct_to (ex_content e')) = amount' /\
    transaction_now now None None [e; e'] created = Ok t /\ block_now now (Some g) additional [t] created = Ok b /\
    expenses_of (bk_trx b) = [e; e'] /\ ~ no_double_spend (expenses_of (bk_trx b)).
Proof. exact @double_spend_block. Qed.
Print Assumptions C76_refuted.
(** The stores accept both, one after the other, whatever they spend. *)
Theorem C76_refuted_stored : forall (C : Curve) (U : obj C -> Prop) d e1 e2, universe Low U -> reach Low U d -> U (OExpense e1) -> U (OExpense e2) ->
  let d1 := saved (OExpense e1) d in let d2 := saved (OExpense e2) d1 in
  outcome (OExpense e1) d = Ok tt /\ outcome (OExpense e2) d1 = Ok tt /\
  (exists e1', expense_retrieve (ex_hash e1) d2 = Ok e1' /\ expense_eq e1' e1) /\
  (exists e2', expense_retrieve (ex_hash e2) d2 = Ok e2' /\ expense_eq e2' e2).
Proof. exact @both_stored. Qed.
Print Assumptions C76_refuted_stored.
(** Any list of transactions makes a block, one transaction many times included, and any
    list of expenses a transaction. *)
Theorem C76_refuted_any_block : forall (C : Curve) now g additional (trx : list (@transaction C)) created, trx <> [] ->
  exists b, block_now now (Some g) additional trx created = Ok b /\ bk_trx b = trx /\ bk_genesis b = g.
Proof. exact @block_any_trx. Qed.
Print Assumptions C76_refuted_any_block.
Theorem C76_refuted_any_transaction : forall (C : Curve) now bucket (fees : list (@expense C)) created, fees <> [] ->
  exists t, transaction_now now None bucket fees created = Ok t /\ tx_fees t = fees /\ tx_address t = None.
Proof. exact @transaction_any_fees. Qed.
Print Assumptions C76_refuted_any_transaction.
(** one expense for two owners, in a block over the toy genesis *)
Definition pays (to : Z) (amount : N) (rem : option lock) : res (@expense toy) :=
  rget (toy_bill 5 100) (fun b => rget (toy_sig b 5) (fun s => rget (toy_lock to) (fun lk =>
  rget (content_now 0 amount [b] (Some lk) rem None) (fun c => @expense_now toy 0 (Some c) (Some [s]))))).
Example C76_case : rget toy_genesis (fun g => rget (pays 11 100 None) (fun e1 => rget (pays 13 100 None) (fun e2 =>
  rget (transaction_now 0 None None [e1; e2] None) (fun t => rget (block_now 0 (Some g) 0 [t; t] None) (fun b =>
  Ok [bseq (ex_hash e1) (ex_hash e2); bseq (bl_hash (hd (gn_bill g) (ct_from (ex_content e1)))) (bl_hash (hd (gn_bill g) (ct_from (ex_content e2))))]))))) =
  Ok [false; true].
Proof. vm_compute. reflexivity. Qed.

(** ** C77: money only comes from the genesis *)
(** Whoever has a key makes a bill of any amount, spends it and gets the block built. *)
Theorem C77_refuted : forall (C : Curve) red zero sadd, CurveLaws C red zero sadd ->
  forall now ring x created lk, red x -> In (public_key C x) ring -> lock_now now (map (pstr C) ring) created = Ok lk ->
  forall amount to g additional, (0 < amount < 2 ^ 64)%N ->
  exists b sig c e t bk, bill_now now (Some lk) amount created = Ok b /\ ring_sign C x (hash_string (lk_hash lk)) ring = Ok sig /\
    content_now now amount [b] (Some to) None created = Ok c /\ expense_now now (Some c) (Some [sig]) = Ok e /\
    transaction_now now None None [e] created = Ok t /\ block_now now (Some g) additional [t] created = Ok bk /\
    expenses_of (bk_trx bk) = [e] /\ bl_lock (ct_to (ex_content e)) = to /\ bl_amount (ct_to (ex_content e)) = amount /\
    (bl_hash b <> bl_hash (gn_bill g) -> ~ sourced g (expenses_of (bk_trx bk))).
Proof. exact @money_from_nowhere. Qed.
Print Assumptions C77_refuted.
(** The store takes the expense without ever having seen a genesis. *)
Theorem C77_refuted_stored : forall (C : Curve) (U : obj C -> Prop) e, universe Low U -> U (OExpense e) ->
  let d := saved (OExpense e) empty in
  outcome (OExpense e) empty = Ok tt /\ (exists e', expense_retrieve (ex_hash e) d = Ok e' /\ expense_eq e' e) /\ genesis_retrieve d = Err.
Proof. exact @stored_without_genesis. Qed.
Print Assumptions C77_refuted_stored.
(** Who checks what the builders do not - that every input was made by the genesis or by an earlier expense, and that no bill is spent twice - knows
    that the bills nobody has spent are worth no more than the genesis bill, however many expenses there were and whatever sums wrapped around. *)
Theorem C77_conserved_partial : forall (C : Curve) g (es : list (@expense C)) bs,
  built_bill (gn_bill g) -> Forall (fun e => built_content (ex_content e)) es ->
  (forall b1 b2, In b1 (all_bills g es) -> In b2 (all_bills g es) -> ~ sha_collision (bill_text b1) (bill_text b2)) ->
  sourced g es -> no_double_spend es -> unspent g es bs -> (value bs <= bl_amount (gn_bill g))%N.
Proof. exact @money_conserved. Qed.
Print Assumptions C77_conserved_partial.
(** the toy genesis of 100, spent by an expense that pays 60 and gives 40 back *)
Example C77_conserved_case :
  rget toy_genesis (fun g => rget toy_fee (fun e =>
  Ok (map (fun b => bseq (bl_hash b) (bl_hash (gn_bill g))) (ct_from (ex_content e)), map (fun b => bseq (bl_hash b) (bl_hash (gn_bill g))) (makes e),
      map bl_amount (makes e), bl_amount (gn_bill g)))) = Ok ([true], [false; false], [60; 40]%N, 100%N).
Proof. vm_compute. reflexivity. Qed.

(** the owner of key 7 makes the largest bill there is *)
Example C77_case : In (public_key toy (mk 7)) [mk 3; mk 7] /\
  rget (lock_now 0 (map (pstr toy) [mk 3; mk 7]) None) (fun lk => rget (bill_now 0 (Some lk) 18446744073709551615 None) (fun b =>
  rget toy_genesis (fun g => Ok (bseq (bl_hash b) (bl_hash (gn_bill g)))))) = Ok false /\
  exists e U, spending = Ok e /\ universe Low U /\ U (OExpense e).
Proof.
  split; [right; left; apply v_inj; vm_compute; reflexivity|]. split; [vm_compute; reflexivity|].
  destruct spending_ok as [e E]. exists e, (fun o => In o (spending_objects e)). split; [exact E|]. split; [apply spending_universe; exact E|left; reflexivity].
Qed.

(** ** C78: the parts of a chain belong together *)
(** The builder takes the genesis of one chain, the root of a second and the head of a third, *)
Theorem C78_refuted : forall (C : Curve) now g root (head : @mined_link C) total created, (known_trx root head <= total)%N ->
  bk_genesis (mb_block root) <> g \/ bk_genesis (ln_next (ml_link head)) <> g ->
  exists c, chain_now now (Some g) (Some root) (Some head) total created = Ok c /\ ~ one_genesis c.
Proof. exact @chain_mixed. Qed.
Print Assumptions C78_refuted.
(** and a link continues whatever it is told to, under any index. *)
Theorem C78_refuted_link : forall (C : Curve) now prev (next : @block C) index created,
  exists l, link_now now (Some prev) (Some next) index created = Ok l /\ ln_prev l = prev /\ ln_next l = next /\ ln_index l = index.
Proof. exact @link_any_parts. Qed.
Print Assumptions C78_refuted_link.
(** A chain that was retrieved has one genesis. *)
Theorem C78_retrieved_partial : forall (C : Curve) d (c : @chain C), chain_retrieve d = Ok c -> one_genesis c.
Proof. exact @retrieved_one_genesis. Qed.
Print Assumptions C78_retrieved_partial.
(** a root and a head over one genesis, in a chain with another; and a chain that is retrieved *)
Example C78_case :
  rget (mining_genesis 1) (fun g => rget plain_mblock (fun r => rget plain_mlink (fun l =>
  rget (chain_now 0 (Some g) (Some r) (Some l) 2 None) (fun c =>
  Ok (bseq (gn_hash (ch_genesis c)) (gn_hash (bk_genesis (mb_block (ch_root c))))))))) = Ok false /\
  rget (mining_store 0) (fun '(s, _) => Ok (is_ok (@chain_retrieve toy (fs_disk s)))) = Ok true.
Proof. split; vm_compute; reflexivity. Qed.

(** ** C79: a chain has as many transactions as it says *)
(** The builder believes every number from the transactions of root and head upwards; the
    daemon follows the peer that names the biggest. *)
Theorem C79_refuted : forall (C : Curve) now g root (head : @mined_link C) created bound, (known_trx root head <= bound)%N -> (bound < 2 ^ 63 - 1)%N ->
  exists c, chain_now now (Some g) (Some root) (Some head) (bound + 1) created = Ok c /\ ch_root c = root /\ ch_head c = head /\
    forall at_index local ask ps p, (local <= bound)%N -> In p ps -> ask p = Ok (Remote c at_index) ->
      (forall q, In q ps -> exists r, ask q = Ok r /\ (r = Remote c at_index \/ (ch_total (rc_chain r) <= bound)%N)) ->
      biggest local ask ps 0 None = Ok (Some (Remote c at_index)).
Proof. exact @liar_chosen. Qed.
Print Assumptions C79_refuted.
(** It never says less than what root and head have. *)
Theorem C79_at_least_partial : forall (C : Curve) now g root (head : option (@mined_link C)) total created c,
  chain_now now g root head total created = Ok c ->
  (count_trx [mb_block (ch_root c); ln_next (ml_link (ch_head c))] < 2 ^ 64)%N ->
  (count_trx [mb_block (ch_root c); ln_next (ml_link (ch_head c))] <= ch_total c)%N.
Proof. exact @total_at_least. Qed.
Print Assumptions C79_at_least_partial.
Example C79_case :
  rget toy_genesis (fun g => rget plain_mblock (fun r => rget plain_mlink (fun l =>
  rget (chain_now 0 (Some g) (Some r) (Some l) 1000000 None) (fun c =>
  rget (biggest 900 (fun p => Ok (Remote (if pe_onion p then c else case_chain 900 901) (fun _ => Err))) [peer_a; peer_b; peer_c] 0 None) (fun x =>
  Ok (option_map (fun r => ch_total (rc_chain r)) x, count_trx [mb_block (ch_root c); ln_next (ml_link (ch_head c))])))))) = Ok (Some 1000000%N, 2%N) /\
  rget toy_genesis (fun g => rget plain_mblock (fun r => rget plain_mlink (fun l =>
  Ok (is_ok (chain_now 0 (Some g) (Some r) (Some l) 1 None))))) = Ok false.
Proof. split; vm_compute; reflexivity. Qed.

(** ** C80: nothing is older than what it is made of *)
Theorem C80_refuted_content : forall now amount from lk rem created c, content_now now amount from lk rem created = Ok c ->
  forall t, exists c', content_now now amount from lk rem (Some t) = Ok c' /\ im_created (ct_im c') = t /\ ct_from c' = from.
Proof. exact content_any_time. Qed.
Print Assumptions C80_refuted_content.
Theorem C80_refuted_block : forall (C : Curve) now g additional (trx : list (@transaction C)) created b, block_now now g additional trx created = Ok b ->
  forall t, exists b', block_now now g additional trx (Some t) = Ok b' /\ im_created (bk_im b') = t /\ bk_trx b' = trx.
Proof. exact @block_any_time. Qed.
Print Assumptions C80_refuted_block.
(** The bills an expense makes and the expense itself have the time of its content. *)
Theorem C80_expense_partial : forall (C : Curve) now amount from lk rem created c, content_now now amount from lk rem created = Ok c ->
  im_created (ct_im c) = time_of now created /\ im_created (bl_im (ct_to c)) = time_of now created /\
  (forall r, ct_remaining c = Some r -> im_created (bl_im r) = time_of now created) /\
  forall now' (sigs : list (ringsig C)) e, expense_now now' (Some c) (Some sigs) = Ok e -> im_created (ex_im e) = time_of now created.
Proof. exact @content_one_time. Qed.
Print Assumptions C80_expense_partial.
(** a bill of time 0 spent 5 nanoseconds before it was made *)
Example C80_case : rget (toy_bill 5 100) (fun b => rget (toy_lock 11) (fun lk =>
  rget (content_now 3 60 [b] (Some lk) (Some (bl_lock b)) (Some (-5)%Z)) (fun c =>
  Ok [im_created (bl_im b); im_created (ct_im c); im_created (bl_im (ct_to c))]))) = Ok [0; -5; -5]%Z.
Proof. vm_compute. reflexivity. Qed.
