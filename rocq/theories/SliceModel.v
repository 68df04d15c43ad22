(** Model of the objects that keep a slice they were given: the array of the slice belongs to
    the caller as well, who may write to it later, and the getter gives it out again.

    An array is a number, a heap says what each array of a type holds.  The elements of the
    slices of bills, signatures and transactions are interfaces; what they stand for is taken
    as a value here (the objects below have slices of their own). *)
From Verif Require Import Base HashModel EntitiesModel SignModel PiastresModel.

Definition arrays (A : Type) := nat -> list A.
(** a part of an array: [len] elements from [from] on *)
Record slice := Slice { sl_array : nat; sl_from : nat; sl_len : nat }.
Definition contents {A} (h : arrays A) (s : slice) : list A := firstn (sl_len s) (skipn (sl_from s) (h (sl_array s))).
Fixpoint put_at {A} (i : nat) (v : A) (l : list A) : list A :=
  match l, i with
  | [], _ => []
  | _ :: l, 0 => v :: l
  | x :: l, S i => x :: put_at i v l
  end.
(** the assignment s[i] = v *)
Definition assign {A} (h : arrays A) (s : slice) (i : nat) (v : A) : arrays A :=
  fun a => if a =? sl_array s then put_at (sl_from s + i) v (h a) else h a.
(** any number of assignments to elements of slices *)
Definition assigns {A} (h : arrays A) (ws : list (slice * nat * A)) : arrays A :=
  fold_left (fun h w => assign h (fst (fst w)) (snd (fst w)) (snd w)) ws h.

Section WithCurve.
Context {C : Curve}.

(** domain/memory/piastres/locks/lock.go:14-18: the slice given to WithPublicKeys (builder.go:
    38-41, 83) and the map made from it (builder.go:74-77) *)
Record hlock := HLock { hl_im : immutable; hl_keys : slice; hl_map : list bytes }.
(** locks/builder.go:50-84 Now *)
Definition hlock_now (h : arrays hash) (now : Z) (keys : slice) (created : option Z) : res hlock :=
  let! l := lock_now now (contents h keys) created in
  Ok (HLock (lk_im l) keys (mp_keys (contents h keys))).
(** lock.go:59-61 PublicKeys gives out the slice; everything else reads the keys through it *)
Definition hlock_slice (l : hlock) : slice := hl_keys l.
Definition hlock_seen (h : arrays hash) (l : hlock) : lock := Lock (hl_im l) (contents h (hl_keys l)).
(** lock.go:69-99 Unlock reads the map *)
Definition hlock_unlock (l : hlock) (sig : ringsig C) : res unit :=
  let! seen := unlock_ring (hl_map l) (rs_ring sig) [] in
  guard (length seen =? length (hl_map l))%nat in
  let! v := ring_verify C sig (hash_string (im_hash (hl_im l))) in
  if v then Ok tt else Err.

(** expenses/content.go:12-17 with From (content_builder.go:57-60, 148-151; content.go:94-96) *)
Record hcontent := HContent { hc_im : immutable; hc_from : slice; hc_to : bill; hc_remaining : option bill }.
Definition hcontent_now (h : arrays bill) (now : Z) (amount : N) (from : slice) (lk remaining : option lock) (created : option Z) : res hcontent :=
  let! c := content_now now amount (contents h from) lk remaining created in
  Ok (HContent (ct_im c) from (ct_to c) (ct_remaining c)).
Definition hcontent_seen (h : arrays bill) (c : hcontent) : content := Content (hc_im c) (contents h (hc_from c)) (hc_to c) (hc_remaining c).

(** expenses/expense.go:12-16 with WithSignatures (builder.go:45-48, 92; expense.go:63-65) *)
Record hexpense := HExpense { he_im : immutable; he_content : content; he_sigs : slice }.
Definition hexpense_now (h : arrays (ringsig C)) (now : Z) (ct : content) (sigs : slice) : res hexpense :=
  let! e := expense_now now (Some ct) (Some (contents h sigs)) in
  Ok (HExpense (ex_im e) (ex_content e) sigs).
Definition hexpense_seen (h : arrays (ringsig C)) (e : hexpense) : expense := Expense (he_im e) (he_content e) (contents h (he_sigs e)).

(** blocks/block.go:13-18 with WithTransactions (builder.go:56-59, 101; block.go:79-81) *)
Record hblock := HBlock { hb_im : immutable; hb_genesis : genesis; hb_additional : N; hb_trx : slice }.
Definition hblock_now (h : arrays transaction) (now : Z) (gen : option genesis) (additional : N) (trx : slice) (created : option Z) : res hblock :=
  let! b := block_now now gen additional (contents h trx) created in
  Ok (HBlock (bk_im b) (bk_genesis b) (bk_additional b) trx).
Definition hblock_seen (h : arrays transaction) (b : hblock) : block := Block (hb_im b) (hb_genesis b) (hb_additional b) (contents h (hb_trx b)).
(** blocks/mined/block.go: the block itself is kept *)
Record hmined := HMined { hm_im : immutable; hm_block : hblock; hm_mining : bytes }.
Definition hmined_now (h : arrays transaction) (now : Z) (b : hblock) (mining : bytes) (created : option Z) : res hmined :=
  let! m := mined_block_now now (Some (hblock_seen h b)) mining created in
  Ok (HMined (mb_im m) b mining).
Definition hmined_seen (h : arrays transaction) (m : hmined) : mined_block := MinedBlock (hm_im m) (hblock_seen h (hm_block m)) (hm_mining m).

(** transactions/addresses/address.go:11-16 with WithRecipients (builder.go:47-51, 96-118; address.go:152-154).  Sender and
    Subject, which give out pointers to copies of their own, are taken as values (PointerModel.v has the pointers). *)
Record haddress := HAddress { ha_im : immutable; ha_sender : option hash; ha_recipients : slice; ha_subject : option hash }.
Definition haddress_now (h : arrays hash) (now : Z) (sender : option hash) (recipients : slice) (subject : option hash) (created : option Z) : res haddress :=
  let! a := address_now now sender (contents h recipients) subject created in
  Ok (HAddress (ad_im a) (ad_sender a) recipients (ad_subject a)).
Definition haddress_seen (h : arrays hash) (a : haddress) : address := Address (ha_im a) (ha_sender a) (contents h (ha_recipients a)) (ha_subject a).
(** transactions/transaction.go:13-18 with WithFees (builder.go:55-59, 97-121; transaction.go:161-163); a slice of no fees is
    dropped (builder.go:69-71), which shows nothing *)
Record htransaction := HTransaction { hx_im : immutable; hx_address : option address; hx_bucket : option hash; hx_fees : slice }.
Definition htransaction_now (h : arrays expense) (now : Z) (addr : option address) (bucket : option hash) (fees : slice) (created : option Z) : res htransaction :=
  let! t := transaction_now now addr bucket (contents h fees) created in
  Ok (HTransaction (tx_im t) (tx_address t) (tx_bucket t) fees).
Definition htransaction_seen (h : arrays expense) (t : htransaction) : transaction :=
  Transaction (hx_im t) (hx_address t) (hx_bucket t) (contents h (hx_fees t)).
End WithCurve.
