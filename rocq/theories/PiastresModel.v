(** Model of the in-memory objects of domain/memory/piastres and their builders.

    The content builder rejects an empty slice of bills too: the amount then has to be
    0, which the bill builder rejects.

    Every builder is a function from the values given to its With... methods
    ([option] for pointers and interfaces, nil being [None]) and the clock reading
    [now] to the object.  Slices: nil and empty slices are both [[]]; all the builders
    treat the two alike (each rejects both, or maps both to nil).  A [uint] and a
    [uint64] are [N] below 2^64.  Times are nanoseconds. *)
From Coq Require Import SpecFloat.
From Verif Require Import Base HashModel EntitiesModel SignModel FloatModel.

Existing Class Curve.

Definition u64 (n : N) : N := (n mod 2 ^ 64)%N.

(** ** Locks *)

(** domain/memory/piastres/locks/lock.go:14-18.  The map [mpKeys] is determined by
    [pubKeys] (builder.go:74-77) and is computed on demand. *)
Record lock := Lock { lk_im : immutable; lk_keys : list hash }.
Definition lk_hash (l : lock) : hash := im_hash (lk_im l).

(** keys of a Go map filled from a list: the distinct elements *)
Fixpoint map_keys (l : list bytes) : list bytes :=
  match l with
  | [] => []
  | x :: l => if existsb (bseq x) (map_keys l) then map_keys l else x :: map_keys l
  end.
Definition mp_keys (keys : list hash) : list bytes := map_keys (map hash_string keys).

(** locks/builder.go:50-84 Now *)
Definition lock_now (now : Z) (keys : list hash) (created : option Z) : res lock :=
  guard (0 <? length keys)%nat in
  let! h := FromMultiBytes keys in
  let! im := immutable_now now (Some h) created in
  guard (length (mp_keys keys) =? length keys)%nat in
  Ok (Lock im keys).

Section WithCurve.
Context {C : Curve}.

(** locks/lock.go:73-85: the loop over the ring, returning the keys of [ringMp] *)
Fixpoint unlock_ring (mp : list bytes) (ring : list (Pt C)) (seen : list bytes) : res (list bytes) :=
  match ring with
  | [] => Ok seen
  | p :: ring =>
      let! rh := FromBytes (pstr C p) in
      let keyname := hash_string rh in
      if existsb (bseq keyname) mp
      then unlock_ring mp ring (if existsb (bseq keyname) seen then seen else keyname :: seen)
      else Err
  end.
(** locks/lock.go:69-99 Unlock *)
Definition unlock (l : lock) (sig : ringsig C) : res unit :=
  let mp := mp_keys (lk_keys l) in
  let! seen := unlock_ring mp (rs_ring sig) [] in
  guard (length seen =? length mp)%nat in
  let! v := ring_verify C sig (hash_string (lk_hash l)) in
  if v then Ok tt else Err.

(** application/genesis/current.go:84-98 (one key) and
    application/identities/piastres/current.go:111-127: the lock the applications
    make for some public keys *)
Definition app_lock (now : Z) (pks : list (Pt C)) (created : option Z) : res lock :=
  let! keys := rmapM (fun p => FromString (pstr C p)) pks in
  lock_now now keys created.

(** ** Bills *)

(** bills/bill.go:12-16 *)
Record bill := Bill { bl_im : immutable; bl_lock : lock; bl_amount : N }.
Definition bl_hash (b : bill) : hash := im_hash (bl_im b).

(** bills/builder.go:60-84 Now *)
Definition bill_now (now : Z) (lk : option lock) (amount : N) (created : option Z) : res bill :=
  match lk with
  | None => Err
  | Some lk =>
      guard (0 <? amount)%N in
      let! h := FromMultiBytes [lk_hash lk; itoa_u64 amount] in
      let! im := immutable_now now (Some h) created in
      Ok (Bill im lk amount)
  end.

(** ** Expenses *)

(** expenses/content.go:12-17 *)
Record content := Content {
  ct_im : immutable; ct_from : list bill; ct_to : bill; ct_remaining : option bill }.
Definition ct_hash (c : content) : hash := im_hash (ct_im c).

(** expenses/content_builder.go:90-93: the sum of the amounts in uint64 *)
Definition total_u64 (bs : list bill) : N := fold_left (fun t b => u64 (t + bl_amount b)) bs 0%N.

Definition opt_list {A} (o : option A) : list A := match o with Some a => [a] | None => [] end.

(** expenses/content_builder.go:81-152 Now *)
Definition content_now (now : Z) (amount : N) (from : list bill) (lk remaining : option lock)
    (created : option Z) : res content :=
  match lk with
  | None => Err
  | Some lk =>
      let total := total_u64 from in
      if (total <? amount)%N then Err
      else
        let rem := (total - amount)%N in
        if (match remaining with Some _ => (rem <=? 0)%N | None => (0 <? rem)%N end) then Err
        else
          let! h := FromMultiBytes ([lk_hash lk; itoa_u64 amount] ++ map bl_hash from
                                    ++ map lk_hash (opt_list remaining)) in
          let! im := immutable_now now (Some h) created in
          let! to := bill_now now (Some lk) amount (Some (im_created im)) in
          match remaining with
          | Some r =>
              let! rb := bill_now now (Some r) rem (Some (im_created im)) in
              Ok (Content im from to (Some rb))
          | None => Ok (Content im from to None)
          end
  end.

(** expenses/expense.go:12-16 *)
Record expense := Expense { ex_im : immutable; ex_content : content; ex_sigs : list (ringsig C) }.
Definition ex_hash (e : expense) : hash := im_hash (ex_im e).

(** expenses/builder.go:66-71; both slices have the same length here *)
Fixpoint unlock_all (from : list bill) (sigs : list (ringsig C)) : res unit :=
  match from, sigs with
  | [], _ => Ok tt
  | _ :: _, [] => Panic
  | b :: from, s :: sigs => let! _ := unlock (bl_lock b) s in unlock_all from sigs
  end.

(** expenses/builder.go:51-93 Now.  A nil signature slice is an error while an
    empty one is only one when there are bills; a content always has bills. *)
Definition expense_now (now : Z) (ct : option content) (sigs : option (list (ringsig C))) : res expense :=
  match ct, sigs with
  | Some ct, Some sigs =>
      guard (length sigs =? length (ct_from ct))%nat in
      let! _ := unlock_all (ct_from ct) sigs in
      let! h := FromMultiBytes (ct_hash ct :: map (ring_string C) sigs) in
      let! im := immutable_now now (Some h) (Some (im_created (ct_im ct))) in
      Ok (Expense im ct sigs)
  | _, _ => Err
  end.

(** ** Addresses and transactions *)

(** transactions/addresses/address.go:12-17; no recipients is [[]] *)
Record address := Address {
  ad_im : immutable; ad_sender : option hash; ad_recipients : list hash; ad_subject : option hash }.
Definition ad_hash (a : address) : hash := im_hash (ad_im a).

(** transactions/addresses/builder.go:66-125 Now; the constructors called in lines
    96-122 set exactly the given fields *)
Definition address_now (now : Z) (sender : option hash) (recipients : list hash) (subject : option hash)
    (created : option Z) : res address :=
  let! h := FromMultiBytes (opt_list sender ++ recipients ++ opt_list subject) in
  let! im := immutable_now now (Some h) created in
  match sender, recipients, subject with
  | None, [], None => Err
  | _, _, _ => Ok (Address im sender recipients subject)
  end.

(** transactions/transaction.go:12-17; no fees is [[]] *)
Record transaction := Transaction {
  tx_im : immutable; tx_address : option address; tx_bucket : option hash; tx_fees : list expense }.
Definition tx_hash (t : transaction) : hash := im_hash (tx_im t).

(** transactions/builder.go:68-127 Now *)
Definition transaction_now (now : Z) (addr : option address) (bucket : option hash) (fees : list expense)
    (created : option Z) : res transaction :=
  let! h := FromMultiBytes (map ad_hash (opt_list addr) ++ opt_list bucket ++ map ex_hash fees) in
  let! im := immutable_now now (Some h) created in
  match addr, bucket, fees with
  | None, None, [] => Err
  | _, _, _ => Ok (Transaction im addr bucket fees)
  end.

(** ** Genesis *)

(** genesis/genesis.go, difficulty.go:3-6, block.go:3-6 *)
Record genesis := Genesis {
  gn_im : immutable; gn_bill : bill; gn_base : N; gn_increase : float64; gn_link : N }.
Definition gn_hash (g : genesis) : hash := im_hash (gn_im g).

(** genesis/builder.go:76-112 Now *)
Definition genesis_now (now : Z) (base : N) (increase : float64) (link : N) (b : option bill)
    (created : option Z) : res genesis :=
  guard (0 <? base)%N in
  guard (negb (f_le_zero increase)) in
  guard (0 <? link)%N in
  match b with
  | None => Err
  | Some b =>
      let! h := FromMultiBytes [itoa_u64 base; format_f12 increase; itoa_u64 link; bl_hash b] in
      let! im := immutable_now now (Some h) created in
      Ok (Genesis im b base increase link)
  end.

(** ** Blocks and links *)

(** blocks/block.go:12-17 *)
Record block := Block { bk_im : immutable; bk_genesis : genesis; bk_additional : N; bk_trx : list transaction }.
Definition bk_hash (b : block) : hash := im_hash (bk_im b).

(** blocks/builder.go:69-102 Now *)
Definition block_now (now : Z) (gen : option genesis) (additional : N) (trx : list transaction)
    (created : option Z) : res block :=
  match gen with
  | None => Err
  | Some gen =>
      guard (0 <? length trx)%nat in
      let! h := FromMultiBytes ([gn_hash gen; itoa_u64 additional] ++ map tx_hash trx) in
      let! im := immutable_now now (Some h) created in
      Ok (Block im gen additional trx)
  end.

(** blocks/mined/block.go *)
Record mined_block := MinedBlock { mb_im : immutable; mb_block : block; mb_mining : bytes }.
Definition mb_hash (b : mined_block) : hash := im_hash (mb_im b).

(** blocks/mined/builder.go:59-79 Now *)
Definition mined_block_now (now : Z) (b : option block) (mining : bytes) (created : option Z) : res mined_block :=
  match b with
  | None => Err
  | Some b =>
      let! h := FromMultiBytes [bk_hash b; mining] in
      let! im := immutable_now now (Some h) created in
      Ok (MinedBlock im b mining)
  end.

(** links/link.go *)
Record chain_link := ChainLink { ln_im : immutable; ln_prev : hash; ln_next : block; ln_index : N }.
Definition ln_hash (l : chain_link) : hash := im_hash (ln_im l).

(** links/builder.go:68-93 Now *)
Definition link_now (now : Z) (prev : option hash) (next : option block) (index : N) (created : option Z) : res chain_link :=
  match prev, next with
  | Some prev, Some next =>
      let! h := FromMultiBytes [prev; bk_hash next; itoa_u64 index] in
      let! im := immutable_now now (Some h) created in
      Ok (ChainLink im prev next index)
  | _, _ => Err
  end.

(** links/mined/link.go *)
Record mined_link := MinedLink { ml_im : immutable; ml_link : chain_link; ml_mining : bytes }.
Definition ml_hash (l : mined_link) : hash := im_hash (ml_im l).

(** links/mined/builder.go:59-79 Now *)
Definition mined_link_now (now : Z) (l : option chain_link) (mining : bytes) (created : option Z) : res mined_link :=
  match l with
  | None => Err
  | Some l =>
      let! h := FromMultiBytes [ln_hash l; mining] in
      let! im := immutable_now now (Some h) created in
      Ok (MinedLink im l mining)
  end.

(** ** Chains and states *)

(** chains/chain.go *)
Record chain := Chain {
  ch_im : immutable; ch_genesis : genesis; ch_root : mined_block; ch_head : mined_link; ch_total : N }.
Definition ch_hash (c : chain) : hash := im_hash (ch_im c).

(** chains/builder.go:92: [uint] of the number of transactions known *)
Definition known_trx (root : mined_block) (head : mined_link) : N :=
  u64 (N.of_nat (length (bk_trx (mb_block root)) + length (bk_trx (ln_next (ml_link head))))).

(** chains/builder.go:79-115 Now *)
Definition chain_now (now : Z) (gen : option genesis) (root : option mined_block) (head : option mined_link)
    (total : N) (created : option Z) : res chain :=
  match gen, root, head with
  | Some gen, Some root, Some head =>
      if (total <? known_trx root head)%N then Err
      else
        let! h := FromMultiBytes [gn_hash gen; mb_hash root; ml_hash head; itoa_u64 total] in
        let! im := immutable_now now (Some h) created in
        Ok (Chain im gen root head total)
  | _, _, _ => Err
  end.

(** states/state.go *)
Record state := State {
  st_im : immutable; st_chain : hash; st_prev : hash; st_height : N; st_trx : list transaction }.
Definition st_hash (s : state) : hash := im_hash (st_im s).

(** states/builder.go:76-118 Now *)
Definition state_now (now : Z) (ch prev : option hash) (height : N) (trx : list transaction)
    (created : option Z) : res state :=
  match ch, prev with
  | Some ch, Some prev =>
      guard (0 <? height)%N in
      guard (0 <? length trx)%nat in
      let! h := FromMultiBytes ([ch; prev; itoa_u64 height] ++ map tx_hash trx) in
      let! im := immutable_now now (Some h) created in
      Ok (State im ch prev height trx)
  | _, _ => Err
  end.

End WithCurve.
