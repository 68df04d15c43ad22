(** Model of the pointers that addresses and transactions give out: Sender and Subject of an address and Bucket of a
    transaction return the pointer the object itself keeps, which is the one its builder keeps.

    A pointer to a hash is a number, the memory says what it points to.  Slices are values here (SliceModel.v has them). *)
From Verif Require Import Base HashModel EntitiesModel SignModel PiastresModel SliceModel.

Definition memory := list hash.
(** what an optional pointer points to; a pointer that was never made does not occur *)
Definition deref (m : memory) (p : option nat) : option hash := match p with Some p => nth_error m p | None => None end.

(** domain/memory/piastres/transactions/addresses/builder.go:11-18 and address.go:11-16 *)
Record abuilder := ABuilder { ab_sender : option nat; ab_recipients : list hash; ab_subject : option nat; ab_created : option Z }.
Record paddress := PAddress { pa_im : immutable; pa_sender : option nat; pa_recipients : list hash; pa_subject : option nat }.
(** addresses/builder.go:66-125 Now: the address keeps the pointers of the builder (lines 96-122), and so does the builder *)
Definition paddress_now (m : memory) (now : Z) (b : abuilder) : res paddress :=
  let! a := address_now now (deref m (ab_sender b)) (ab_recipients b) (deref m (ab_subject b)) (ab_created b) in
  Ok (PAddress (ad_im a) (ab_sender b) (ab_recipients b) (ab_subject b)).
(** what the methods of an address say; address.go:142-144, 152-154 and 162-164 *)
Definition paddress_seen (m : memory) (a : paddress) : address :=
  Address (pa_im a) (deref m (pa_sender a)) (pa_recipients a) (deref m (pa_subject a)).

Section WithCurve.
Context {C : Curve}.
(** transactions/builder.go:13-20 and transaction.go:13-18 *)
Record tbuilder := TBuilder { tb_address : option paddress; tb_bucket : option nat; tb_fees : list expense; tb_created : option Z }.
Record ptransaction := PTransaction { px_im : immutable; px_address : option paddress; px_bucket : option nat; px_fees : list expense }.
(** transactions/builder.go:68-127 Now; the address is kept, too, which is an interface with a pointer in it *)
Definition ptransaction_now (m : memory) (now : Z) (b : tbuilder) : res ptransaction :=
  let! t := transaction_now now (option_map (paddress_seen m) (tb_address b)) (deref m (tb_bucket b)) (tb_fees b) (tb_created b) in
  Ok (PTransaction (tx_im t) (tb_address b) (tb_bucket b) (tb_fees b)).
(** transaction.go:141-163 *)
Definition ptransaction_seen (m : memory) (t : ptransaction) : transaction :=
  Transaction (px_im t) (option_map (paddress_seen m) (px_address t)) (deref m (px_bucket t)) (px_fees t).

(** a builder of each kind, and what they have made so far, the oldest first *)
Record world := World { w_memory : memory; w_ab : abuilder; w_tb : tbuilder; w_addresses : list paddress; w_transactions : list ptransaction }.
Inductive act :=
| CreateA | WithSender (h : hash) | WithRecipients (l : list hash) | WithSubject (h : hash) | CreatedOnA (t : Z) | NowA (now : Z)
| CreateT | WithAddress (a : nat) | WithBucket (h : hash) | WithFees (l : list expense) | CreatedOnT (t : Z) | NowT (now : Z)
| Write (p : nat) (h : hash).
(** addresses/builder.go:37-63 and transactions/builder.go:39-65: WithSender, WithSubject and WithBucket make a new variable,
    their parameter, and keep a pointer to it.  [WithAddress] gives the address made as number [a]; [Write] is the assignment
    *p = h with a pointer p that Sender, Subject or Bucket returned. *)
Definition act_step (w : world) (x : act) : world :=
  let 'World m ab tb az tz := w in
  match x with
  | CreateA => World m (ABuilder None [] None None) tb az tz
  | WithSender h => World (m ++ [h]) (ABuilder (Some (length m)) (ab_recipients ab) (ab_subject ab) (ab_created ab)) tb az tz
  | WithRecipients l => World m (ABuilder (ab_sender ab) l (ab_subject ab) (ab_created ab)) tb az tz
  | WithSubject h => World (m ++ [h]) (ABuilder (ab_sender ab) (ab_recipients ab) (Some (length m)) (ab_created ab)) tb az tz
  | CreatedOnA t => World m (ABuilder (ab_sender ab) (ab_recipients ab) (ab_subject ab) (Some t)) tb az tz
  | NowA now => match paddress_now m now ab with Ok a => World m ab tb (az ++ [a]) tz | _ => w end
  | CreateT => World m ab (TBuilder None None [] None) az tz
  | WithAddress a => match nth_error az a with Some a => World m ab (TBuilder (Some a) (tb_bucket tb) (tb_fees tb) (tb_created tb)) az tz | None => w end
  | WithBucket h => World (m ++ [h]) ab (TBuilder (tb_address tb) (Some (length m)) (tb_fees tb) (tb_created tb)) az tz
  | WithFees l => World m ab (TBuilder (tb_address tb) (tb_bucket tb) l (tb_created tb)) az tz
  | CreatedOnT t => World m ab (TBuilder (tb_address tb) (tb_bucket tb) (tb_fees tb) (Some t)) az tz
  | NowT now => match ptransaction_now m now tb with Ok t => World m ab tb az (tz ++ [t]) | _ => w end
  | Write p h => World (put_at p h m) ab tb az tz
  end.
Definition acts (w : world) (xs : list act) : world := fold_left act_step xs w.
Definition world0 : world := World [] (ABuilder None [] None None) (TBuilder None None [] None) [] [].
End WithCurve.
Arguments act : clear implicits.
Arguments world : clear implicits.
