(** Objects made by the builders all the way down: every part has itself been returned
    by its builder for well-typed inputs.  [Sg] restricts the signatures and [Mn] the
    mining strings. *)
From Verif Require Import Base HashModel SignModel EntitiesModel FloatModel PiastresModel PiastresSpec JsonModel
  TimeModel MemJsonModel NumberSpec.

Definition good_lock (l : lock) : Prop := built_lock l.
Definition good_bill (b : bill) : Prop :=
  exists now l amount created, good_lock l /\ is_u64 amount /\ bill_now now (Some l) amount created = Ok b.
Definition good_content (c : content) : Prop :=
  exists now amount from l rem created,
    is_u64 amount /\ Forall good_bill from /\ good_lock l /\ (forall r, rem = Some r -> good_lock r) /\
    content_now now amount from (Some l) rem created = Ok c.
Definition good_address (a : address) : Prop := built_address a.
Definition good_genesis (g : genesis) : Prop :=
  exists now base increase lnk b created,
    is_u64 base /\ is_u64 lnk /\ good_bill b /\ genesis_now now base increase lnk (Some b) created = Ok g.

Section WithCurve.
Context {C : Curve}.
Variable Sg : ringsig C -> Prop.
Variable Mn : bytes -> Prop.

Definition good_expense (e : expense) : Prop :=
  exists now c sigs, good_content c /\ Forall Sg sigs /\ expense_now now (Some c) (Some sigs) = Ok e.
Definition good_trx (t : transaction) : Prop :=
  exists now addr bucket fees created,
    (forall a, addr = Some a -> good_address a) /\ (forall h, bucket = Some h -> hash64 h) /\
    Forall good_expense fees /\ transaction_now now addr bucket fees created = Ok t.
Definition good_block (b : block) : Prop :=
  exists now g additional trx created,
    good_genesis g /\ is_u64 additional /\ Forall good_trx trx /\
    block_now now (Some g) additional trx created = Ok b.
Definition good_mined_block (b : mined_block) : Prop :=
  exists now bk mining created, good_block bk /\ Mn mining /\ mined_block_now now (Some bk) mining created = Ok b.
Definition good_link (l : chain_link) : Prop :=
  exists now prev next index created, hash64 prev /\ good_block next /\ is_u64 index /\
    link_now now (Some prev) (Some next) index created = Ok l.
Definition good_mined_link (l : mined_link) : Prop :=
  exists now lk mining created, good_link lk /\ Mn mining /\ mined_link_now now (Some lk) mining created = Ok l.
Definition good_chain (c : chain) : Prop :=
  exists now g root head total created,
    good_genesis g /\ good_mined_block root /\ good_mined_link head /\ is_u64 total /\
    chain_now now (Some g) (Some root) (Some head) total created = Ok c.

(** ** JSON documents without missing parts, whose signatures have a scalar per key *)
Definition opt_is {A} (P : A -> Prop) (o : option A) : Prop := exists a, o = Some a /\ P a.
Definition opt_if {A} (P : A -> Prop) (o : option A) : Prop := forall a, o = Some a -> P a.
Definition enough_scalars (s : bytes) : Prop :=
  forall sig, ring_of_string C s = Ok sig -> length (rs_ring sig) <= length (rs_s sig).
Definition full_bill (x : jbill) : Prop := jb_lock x <> None.
Definition full_content (x : jcontent) : Prop :=
  Forall (opt_is full_bill) (jct_from x) /\ opt_is full_bill (jct_to x) /\ opt_if full_bill (jct_remaining x).
Definition full_expense (x : jexpense) : Prop :=
  opt_is full_content (jex_content x) /\ Forall enough_scalars (jex_sigs x).
Definition full_trx (x : jtrx) : Prop := Forall (opt_is full_expense) (jtx_fees x).
Definition full_genesis (x : jgenesis) : Prop := opt_is full_bill (jg_bill x).
Definition full_block (x : jblock) : Prop :=
  Forall (opt_is full_trx) (jbk_trx x) /\ opt_is full_genesis (jbk_genesis x).
Definition full_link (x : jlink) : Prop := opt_is full_block (jln_next x).
Definition full_mlink (x : jmlink) : Prop := opt_is full_link (jml_link x).

(** ** Objects all of whose times lie in the years 0 to 9999 *)
Definition dated (t : Z) : Prop := (-62167219200 * 10 ^ 9 <= t < 253402300800 * 10 ^ 9)%Z.
Definition dated_lock (l : lock) : Prop := dated (im_created (lk_im l)).
Definition dated_bill (b : bill) : Prop := dated_lock (bl_lock b) /\ dated (im_created (bl_im b)).
Definition dated_content (c : content) : Prop :=
  Forall dated_bill (ct_from c) /\ dated_bill (ct_to c) /\ opt_if dated_bill (ct_remaining c) /\
  dated (im_created (ct_im c)).
Definition dated_expense (e : expense) : Prop := dated_content (ex_content e).
Definition dated_address (a : address) : Prop := dated (im_created (ad_im a)).
Definition dated_trx (t : transaction) : Prop :=
  opt_if dated_address (tx_address t) /\ Forall dated_expense (tx_fees t) /\ dated (im_created (tx_im t)).
(** the increase must be a number, neither NaN nor infinite *)
Definition dated_genesis (g : genesis) : Prop :=
  dated_bill (gn_bill g) /\ float_number (gn_increase g) /\ dated (im_created (gn_im g)).
Definition dated_block (b : block) : Prop :=
  dated_genesis (bk_genesis b) /\ Forall dated_trx (bk_trx b) /\ dated (im_created (bk_im b)).
Definition dated_link (l : chain_link) : Prop := dated_block (ln_next l) /\ dated (im_created (ln_im l)).
Definition dated_mined_link (l : mined_link) : Prop := dated_link (ml_link l) /\ dated (im_created (ml_im l)).
End WithCurve.
