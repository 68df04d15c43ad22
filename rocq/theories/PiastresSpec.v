(** Independent specifications for the objects of the piastres domain. *)
From Coq Require Import SpecFloat.
From Verif Require Import Base HashModel HashSpec SignModel FloatModel PiastresModel.

(** a Go value of type [64]byte *)
Definition hash64 (h : hash) : Prop := length h = 64.
(** a Go value of type uint or uint64 *)
Definition is_u64 (n : N) : Prop := (n < 2 ^ 64)%N.

(** the creation time of an object *)
Definition time_of (now : Z) (created : option Z) : Z := match created with Some c => c | None => now end.

(** the true (unbounded) sum of the amounts *)
Definition value (bs : list bill) : N := fold_right N.add 0%N (map bl_amount bs).
Definition paid (c : content) : N :=
  (bl_amount (ct_to c) + match ct_remaining c with Some b => bl_amount b | None => 0 end)%N.

(** the value of the bills with distinct hashes *)
Fixpoint distinct_value (seen : list hash) (bs : list bill) : N :=
  match bs with
  | [] => 0
  | b :: bs => if existsb (bseq (bl_hash b)) seen then distinct_value seen bs
               else (bl_amount b + distinct_value (bl_hash b :: seen) bs)%N
  end.

(** Objects a builder has returned for well-typed inputs. *)
Definition built_lock (l : lock) : Prop :=
  exists now keys created, Forall hash64 keys /\ lock_now now keys created = Ok l.
Definition built_bill (b : bill) : Prop :=
  exists now l amount created, hash64 (lk_hash l) /\ is_u64 amount /\
    bill_now now (Some l) amount created = Ok b.
Definition built_content (c : content) : Prop :=
  exists now amount from l rem created,
    is_u64 amount /\ hash64 (lk_hash l) /\ Forall built_bill from /\
    (forall r, rem = Some r -> hash64 (lk_hash r)) /\
    content_now now amount from (Some l) rem created = Ok c.
Definition built_address (a : address) : Prop :=
  exists now sender recipients subject created,
    (forall h, sender = Some h -> hash64 h) /\ Forall hash64 recipients /\
    (forall h, subject = Some h -> hash64 h) /\
    address_now now sender recipients subject created = Ok a.

(** The strings that are hashed. *)
Definition dec (n : N) : bytes := itoa_u64 n.
Definition lock_text (l : lock) : bytes := concat (lk_keys l).
Definition bill_text (b : bill) : bytes := lk_hash (bl_lock b) ++ dec (bl_amount b).
(** two different bills at the same position of two given lists whose texts collide *)
Definition bill_collision_in (l1 l2 : list bill) : Prop :=
  exists i b1 b2, nth_error l1 i = Some b1 /\ nth_error l2 i = Some b2 /\
    sha_collision (bill_text b1) (bill_text b2).
Definition content_text (c : content) : bytes :=
  lk_hash (bl_lock (ct_to c)) ++ dec (bl_amount (ct_to c)) ++ concat (map bl_hash (ct_from c)) ++
  match ct_remaining c with Some b => lk_hash (bl_lock b) | None => [] end.
Definition opt_bytes (o : option bytes) : bytes := match o with Some b => b | None => [] end.
Definition address_text (a : address) : bytes :=
  opt_bytes (ad_sender a) ++ concat (ad_recipients a) ++ opt_bytes (ad_subject a).
Definition address_parts (a : address) : nat :=
  length (opt_list (ad_sender a)) + length (ad_recipients a) + length (opt_list (ad_subject a)).

Section WithCurve.
Context {C : Curve}.

Definition built_transaction (t : transaction) : Prop :=
  exists now addr bucket fees created,
    (forall a, addr = Some a -> hash64 (ad_hash a)) /\ (forall h, bucket = Some h -> hash64 h) /\
    Forall (fun e => hash64 (ex_hash e)) fees /\
    transaction_now now addr bucket fees created = Ok t.
Definition built_genesis (g : genesis) : Prop :=
  exists now base increase lnk b created,
    is_u64 base /\ is_u64 lnk /\ hash64 (bl_hash b) /\
    genesis_now now base increase lnk (Some b) created = Ok g.
Definition built_block (b : block) : Prop :=
  exists now g additional trx created,
    hash64 (gn_hash g) /\ is_u64 additional /\ Forall (fun t => hash64 (tx_hash t)) trx /\
    block_now now (Some g) additional trx created = Ok b.
Definition built_mined_block (b : mined_block) : Prop :=
  exists now bk mining created, hash64 (bk_hash bk) /\ mined_block_now now (Some bk) mining created = Ok b.
Definition built_link (l : chain_link) : Prop :=
  exists now prev next index created, hash64 prev /\ hash64 (bk_hash next) /\ is_u64 index /\
    link_now now (Some prev) (Some next) index created = Ok l.
Definition built_mined_link (l : mined_link) : Prop :=
  exists now lk mining created, hash64 (ln_hash lk) /\ mined_link_now now (Some lk) mining created = Ok l.
Definition built_chain (c : chain) : Prop :=
  exists now g root head total created,
    hash64 (gn_hash g) /\ hash64 (mb_hash root) /\ hash64 (ml_hash head) /\ is_u64 total /\
    chain_now now (Some g) (Some root) (Some head) total created = Ok c.
Definition built_state (s : state) : Prop :=
  exists now ch prev height trx created,
    hash64 ch /\ hash64 prev /\ is_u64 height /\ Forall (fun t => hash64 (tx_hash t)) trx /\
    state_now now (Some ch) (Some prev) height trx created = Ok s.

Definition transaction_text (t : transaction) : bytes :=
  match tx_address t with Some a => ad_hash a | None => [] end ++ opt_bytes (tx_bucket t) ++
  concat (map ex_hash (tx_fees t)).
Definition transaction_parts (t : transaction) : nat :=
  length (opt_list (tx_address t)) + length (opt_list (tx_bucket t)) + length (tx_fees t).
Definition genesis_text (g : genesis) : bytes :=
  dec (gn_base g) ++ format_f12 (gn_increase g) ++ dec (gn_link g) ++ bl_hash (gn_bill g).
Definition block_text (b : block) : bytes :=
  gn_hash (bk_genesis b) ++ dec (bk_additional b) ++ concat (map tx_hash (bk_trx b)).
Definition mined_block_text (b : mined_block) : bytes := bk_hash (mb_block b) ++ mb_mining b.
Definition link_text (l : chain_link) : bytes := ln_prev l ++ bk_hash (ln_next l) ++ dec (ln_index l).
Definition mined_link_text (l : mined_link) : bytes := ln_hash (ml_link l) ++ ml_mining l.
Definition chain_text (c : chain) : bytes :=
  gn_hash (ch_genesis c) ++ mb_hash (ch_root c) ++ ml_hash (ch_head c) ++ dec (ch_total c).
Definition state_text (s : state) : bytes :=
  st_chain s ++ st_prev s ++ dec (st_height s) ++ concat (map tx_hash (st_trx s)).

(** the key hashes of a lock are exactly those of the ring *)
Definition same_keys (l : lock) (sig : ringsig C) : Prop :=
  forall k, In k (lk_keys l) <-> exists p, In p (rs_ring sig) /\ k = from_bytes (pstr C p).
End WithCurve.
