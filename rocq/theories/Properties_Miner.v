(** Mining (application/miners). *)
From Coq Require Import Lia SpecFloat.
From Verif Require Import Base BaseFacts Sha512 HashModel HashProofs EntitiesModel SignModel SignSpec ToyCurve
  FloatModel PiastresModel PiastresSpec PiastresProofs Properties_Piastres JsonModel JsonProofs TimeModel FloatText MemJsonModel MemSpec MemJsonProofs JsonFixtures TransferModel StoreModel StoreSpec
  StoreRefuted StoreFixtures StoreMore Properties_Store MinerModel MinerSpec MinerProofs MinerMore.

(** ** C39 *)
(** Mining returns the first solution, after as many nested calls as it has leading
    extra zeros, and returns nothing else: no error, no other text *)
Theorem C39_first_solution : forall d h, (d < 2 ^ 63)%N ->
  (forall fuel r, mine fuel d h = Some r -> exists k i, r = Ok (candidate k i) /\ first_solution d h k i) /\
  (forall k i, first_solution d h k i -> forall fuel,
    (k < fuel -> mine fuel d h = Some (Ok (candidate k i))) /\ (fuel <= k -> mine fuel d h = None)).
Proof. exact mine_returns. Qed.
Print Assumptions C39_first_solution.
Theorem C39_mined_block : forall (C : Curve) fuel d (b : @block C) s now created mb, (d < 2 ^ 63)%N ->
  mine fuel d (bk_hash b) = Some (Ok s) -> mined_block_now now (Some b) s created = Ok mb -> leading_zeros d (mb_hash mb).
Proof. exact @mined_block_meets. Qed.
Print Assumptions C39_mined_block.
Theorem C39_mined_link : forall (C : Curve) fuel d (l : @chain_link C) s now created ml, (d < 2 ^ 63)%N ->
  mine fuel d (ln_hash l) = Some (Ok s) -> mined_link_now now (Some l) s created = Ok ml -> leading_zeros d (ml_hash ml).
Proof. exact @mined_link_meets. Qed.
Print Assumptions C39_mined_link.
(** more zero bytes than a hash has: it never returns *)
Theorem C39_never_returns : forall fuel d h, (64 < d < 2 ^ 63)%N -> mine fuel d h = None.
Proof. exact mine_impossible. Qed.
Print Assumptions C39_never_returns.
(** a difficulty that is negative as an int demands nothing *)
Theorem C39_huge_demands_nothing : forall fuel d h, (2 ^ 63 <= d < 2 ^ 64)%N -> mine (S fuel) d h = Some (Ok (s2b "0")).
Proof. exact mine_huge. Qed.
Print Assumptions C39_huge_demands_nothing.
Example C39_case : mine 1 1 (rhash 258) = Some (Ok (s2b "2")) /\ first_solution 1 (rhash 258) 0 2.
Proof.
  assert (E : mine 1 1 (rhash 258) = Some (Ok (s2b "2"))) by (vm_compute; reflexivity). split; [exact E|].
  destruct (mine_result 1 1 (rhash 258) _ ltac:(lia) E) as (k & i & L & R & F). assert (k = 0) by lia. subst k.
  change (Ok (itoa 2) = Ok (itoa (Z.of_N i))) in R. assert (Q : itoa 2 = itoa (Z.of_N i)) by congruence. apply itoa_inj in Q. replace 2%N with i by lia. exact F.
Qed.

(** ** C40: the builders accept any mining text *)
Theorem C40_refuted_blocks : forall (C : Curve) now (b : @block C) created d, length (bk_hash b) = 64 -> ~ leading_zeros d (bk_hash b) ->
  exists mb, mined_block_now now (Some b) [] created = Ok mb /\ mb_block mb = b /\ ~ leading_zeros d (mb_hash mb).
Proof. exact @block_unmined. Qed.
Print Assumptions C40_refuted_blocks.
Theorem C40_refuted_links : forall (C : Curve) now (l : @chain_link C) created d, length (ln_hash l) = 64 -> ~ leading_zeros d (ln_hash l) ->
  exists ml, mined_link_now now (Some l) [] created = Ok ml /\ ml_link ml = l /\ ~ leading_zeros d (ml_hash ml).
Proof. exact @link_unmined. Qed.
Print Assumptions C40_refuted_links.
(** nor do the stores: whatever is saved is given back *)
Theorem C40_refuted_stored : forall (C : Curve) (U : obj C -> Prop) d mb d', universe All U -> reach All U d -> U (OMBlock mb) ->
  ready d (OMBlock mb) -> mblock_save mb (Fs d []) = (Ok tt, Fs d' []) ->
  forall n, ~ leading_zeros n (mb_hash mb) ->
  exists mb', mblock_retrieve (mb_hash mb) d' = Ok mb' /\ mb_mining mb' = mb_mining mb /\ ~ leading_zeros n (mb_hash mb').
Proof. exact @unmined_stored. Qed.
Print Assumptions C40_refuted_stored.
(** what decides is the hash of the block and the text *)
Theorem C40_checkable_partial : forall (C : Curve) now (b : @block C) mining created mb, mined_block_now now (Some b) mining created = Ok mb ->
  forall d, leading_zeros d (mb_hash mb) <-> leading_zeros d (from_bytes (bk_hash b ++ mining)).
Proof. exact @mined_block_check. Qed.
Print Assumptions C40_checkable_partial.
Definition unmined_run : res (list bool) :=
  rget toy_genesis (fun g => rget plain_block (fun b => rget (mined_block_now 10 (Some b) [] None) (fun mb =>
  let s := genesis_save g (Fs empty []) in
  let s := mblock_save mb (snd s) in
  Ok [bseq (mb_hash mb) (bk_hash b); has_prefix (mb_hash mb) (prefix (gn_base g)); is_ok (fst s);
      is_ok (@mblock_retrieve toy (mb_hash mb) (fs_disk (snd s)))]))).
Example C40_case : unmined_run = Ok [true; false; true; true].
Proof. vm_compute. reflexivity. Qed.

(** ** C41 *)
Theorem C41_grows_partial : forall increase, positive increase -> forall base n n' wild, (base < 2 ^ 64)%N -> n <= n' ->
  (Z.of_nat n' < 2 ^ 64)%Z -> determined base increase n' ->
  determined base increase n /\ (difficulty wild base increase n <= difficulty wild base increase n')%N.
Proof. exact difficulty_grows. Qed.
Print Assumptions C41_grows_partial.
Theorem C41_at_least_base_partial : forall increase, positive increase -> forall base n wild, (base <= 2 ^ 53)%N ->
  (Z.of_nat n < 2 ^ 64)%Z -> determined base increase n -> (base <= difficulty wild base increase n)%N.
Proof. exact difficulty_base. Qed.
Print Assumptions C41_at_least_base_partial.
Theorem C41_without_transactions_partial : forall increase base wild, (base <= 2 ^ 53)%N -> difficulty wild base increase 0 = base.
Proof. exact difficulty_none. Qed.
Print Assumptions C41_without_transactions_partial.
(** bases beyond the precision of floats are rounded, also downwards *)
Theorem C41_refuted : exists base increase, positive increase /\ (base < 2 ^ 64)%N /\
  forall wild, (difficulty wild base increase 1 < base)%N.
Proof. exact difficulty_below_base. Qed.
Print Assumptions C41_refuted.
(** a NaN increase passes the check of the genesis builder *)
Theorem C41_refuted_nan : forall now base lnk b created, (0 < base)%N -> (0 < lnk)%N ->
  (exists g, genesis_now now base S754_nan lnk (Some b) created = Ok g) /\ forall n wild, 0 < n -> difficulty wild base S754_nan n = wild S754_nan.
Proof. exact difficulty_nan. Qed.
Print Assumptions C41_refuted_nan.
(** three transactions at 0.5 each on a base of 3: 3 + 0.5 + 1 + 1.5 *)
Example C41_case : positive (S754_finite false 4503599627370496 (-53)) /\ determined 3 (S754_finite false 4503599627370496 (-53)) 3 /\
  difficulty (fun _ => 0%N) 3 (S754_finite false 4503599627370496 (-53)) 3 = 6%N.
Proof. split; [split; reflexivity|]. split; [intros w w'; reflexivity|vm_compute; reflexivity]. Qed.

(** ** C58 *)
Theorem C58_block_partial : forall (C : Curve) wild fuel created mined trx s s',
  @miner_block C wild fuel created mined trx s = Some (Ok tt, s') ->
  exists hs ts c mb, Forall2 (fun t h => from_string t = Ok h) trx hs /\ Forall2 (fun h t => trx_retrieve h (fs_disk s) = Ok t) hs ts /\
    chain_retrieve (fs_disk s) = Ok c /\ ts <> [] /\
    bk_genesis (mb_block mb) = ch_genesis c /\ bk_trx (mb_block mb) = ts /\ bk_additional (mb_block mb) = 0%N /\
    im_created (bk_im (mb_block mb)) = created /\ im_created (mb_im mb) = mined /\
    (let d := difficulty wild (gn_base (ch_genesis c)) (gn_increase (ch_genesis c)) (length trx) in (d < 2 ^ 63)%N -> leading_zeros d (mb_hash mb)) /\
    mblock_save mb s = (Ok tt, s').
Proof. exact @miner_block_result. Qed.
Print Assumptions C58_block_partial.
(** only the final save writes *)
Theorem C58_failure_writes_nothing_partial : forall (C : Curve) wild fuel created mined trx s r s',
  @miner_block C wild fuel created mined trx s = Some (r, s') -> s' = s \/ exists mb, mblock_save mb s = (r, s').
Proof. exact @miner_block_writes. Qed.
Print Assumptions C58_failure_writes_nothing_partial.
(** with the stores of this repository a chain that was inserted can never be mined on *)
Theorem C58_refuted : forall (C : Curve) (U : obj C -> Prop) d (c : @chain C) fl s', universe Base U -> runs U empty d ->
  (forall o, In o (op_objs (OpInsert c)) -> U o) -> good_chain readable unicode c ->
  chain_retrieve d = Err -> chain_insert c (Fs d fl) = (Ok tt, s') ->
  forall wild fuel created mined trx, exists r, @miner_block C wild fuel created mined trx s' = Some (r, s') /\ r <> Ok tt.
Proof. exact @inserted_not_mined. Qed.
Print Assumptions C58_refuted.

Theorem C59_refuted_after_insert : forall (C : Curve) (U : obj C -> Prop) d (c : @chain C) fl s', universe Base U -> runs U empty d ->
  (forall o, In o (op_objs (OpInsert c)) -> U o) -> good_chain readable unicode c ->
  chain_retrieve d = Err -> chain_insert c (Fs d fl) = (Ok tt, s') ->
  forall fuel created mined prev next, @miner_link C fuel created mined prev next s' = Some (Err, s').
Proof. exact @inserted_not_linked. Qed.
Print Assumptions C59_refuted_after_insert.

(** ** C59 *)
Theorem C59_link_partial : forall (C : Curve) fuel created mined prev next s s',
  @miner_link C fuel created mined prev next s = Some (Ok tt, s') ->
  exists ph nh c p b ml, from_string prev = Ok ph /\ from_string next = Ok nh /\ chain_retrieve (fs_disk s) = Ok c /\
    mlink_retrieve ph (fs_disk s) = Ok p /\ block_retrieve nh (fs_disk s) = Ok b /\
    ln_prev (ml_link ml) = ml_hash p /\ ln_next (ml_link ml) = b /\ ln_index (ml_link ml) = 0%N /\
    im_created (ln_im (ml_link ml)) = created /\ im_created (ml_im ml) = mined /\
    (let d := gn_link (ch_genesis c) in (d < 2 ^ 63)%N -> leading_zeros d (ml_hash ml)) /\
    mlink_save ml s = (Ok tt, s').
Proof. exact @miner_link_result. Qed.
Print Assumptions C59_link_partial.
Theorem C59_failure_writes_nothing_partial : forall (C : Curve) fuel created mined prev next s r s',
  @miner_link C fuel created mined prev next s = Some (r, s') -> s' = s \/ exists ml, mlink_save ml s = (r, s').
Proof. exact @miner_link_writes. Qed.
Print Assumptions C59_failure_writes_nothing_partial.
(** the index never continues the previous one *)
Theorem C59_refuted : forall (C : Curve) fuel created mined prev next s s',
  @miner_link C fuel created mined prev next s = Some (Ok tt, s') ->
  exists ph p ml, from_string prev = Ok ph /\ mlink_retrieve ph (fs_disk s) = Ok p /\ mlink_save ml s = (Ok tt, s') /\
    ln_prev (ml_link ml) = ml_hash p /\ ln_index (ml_link ml) <> (ln_index (ml_link p) + 1)%N.
Proof. exact @link_index_lost. Qed.
Print Assumptions C59_refuted.

(** a store on which mining works: a chain whose file names another genesis than the one
    stored; the transaction and the blocks are saved first *)
Definition mining_genesis (link : N) : res genesis :=
  rget (toy_bill 5 100) (fun b => genesis_now 0 1 (S754_finite false 4503599627370496 (-53)) link (Some b) None).
Definition mining_trx (k : N) : res (@transaction toy) := transaction_now 7 None (Some (rhash k)) [] None.
Definition mining_mlink (k : N) (t : @transaction toy) (g : genesis) : res (@mined_link toy) :=
  rget (block_now 0 (Some g) 0 [t] (Some 8%Z)) (fun b => rget (link_now 9 (Some (rhash k)) (Some b) 1 None) (fun l => mined_link_now 10 (Some l) (s2b "4f") None)).
Definition mining_store (k : N) : res (fs * (@transaction toy * @mined_link toy)) :=
  rget (mining_genesis 1) (fun g => rget (mining_genesis 2) (fun g2 => rget (mining_trx 4) (fun t => rget (mining_mlink k t g) (fun l =>
  rget (mined_block_now 0 (Some (ln_next (ml_link l))) (s2b "x") (Some 8%Z)) (fun r =>
  rget (chain_now 0 (Some g2) (Some r) (Some l) 5 None) (fun c =>
  match (genesis_save g ;; mblock_save r ;; chain_write c) (Fs empty []) with
  | (Ok _, s) => Ok (s, (t, l))
  | _ => Err
  end)))))).
Definition mined_hash (h : hash) : hash := match mine 1 1 h with Some (Ok m) => from_bytes (h ++ m) | _ => [] end.
Definition block_run : res (list bool) :=
  rget (mining_store 0) (fun '(s, (t, l)) =>
  match @miner_block toy (fun _ => 0%N) 1 8 9 [hash_string (tx_hash t)] s,
        @miner_block toy (fun _ => 0%N) 1 8 9 [hash_string (rhash 1)] s with
  | Some (r, s'), Some (r2, _) =>
      let h := mined_hash (bk_hash (ln_next (ml_link l))) in
      Ok [is_ok r; has_prefix h [x00]; is_ok (@mblock_retrieve toy h (fs_disk s)); is_ok (@mblock_retrieve toy h (fs_disk s')); is_ok r2]
  | _, _ => Err
  end).
Example C58_case : block_run = Ok [true; true; false; true; false].
Proof. vm_compute. reflexivity. Qed.
Definition link_run : res (list N) :=
  rget (mining_store 75) (fun '(s, (_, l)) =>
  let b := ln_next (ml_link l) in
  match @miner_link toy 1 8 9 (hash_string (ml_hash l)) (hash_string (bk_hash b)) s with
  | Some (r, s') =>
      rget r (fun _ =>
      rget (link_now 0 (Some (ml_hash l)) (Some b) 0 None) (fun next =>
      rget (@mlink_retrieve toy (mined_hash (ln_hash next)) (fs_disk s')) (fun ml => Ok [ln_index (ml_link l); ln_index (ml_link ml)])))
  | _ => Err
  end).
Example C59_case : link_run = Ok [1; 0]%N.
Proof. vm_compute. reflexivity. Qed.
