(** Saves and Retrieves that run at the same time, as goroutines or as processes on the
    same folder.  The code has no locks: the services of domain/memory/piastres and the file
    service below them (libs/file) keep nothing between two calls, so that calls only meet on
    the disk.

    A call is the tree of its file operations.  The functions are those of StoreModel, with
    the disk replaced by operations; [alone] runs a call without others, and
    ConcurrentProofs shows that it then does what StoreModel says.

    Simplifications, besides those of StoreModel:
    - ioutil.ReadFile is one operation: what is read is the content at one moment.
    - ioutil.WriteFile is two: opening the file with O_TRUNC, which empties it, and one write
      at offset 0, which leaves what lies behind the text written as it is. *)
From Verif Require Import Base HashModel HashTreeModel SignModel EntitiesModel FloatModel PiastresModel
  JsonModel TimeModel FloatText MemJsonModel TransferModel StoreModel StoreSpec.

(** ** Reading *)
(** a [Retrieve]: an error if a file is missing *)
Inductive rprog (A : Type) :=
| RRet (r : res A)
| RGet (k : kind) (n : bytes) (f : bytes -> rprog A).
Arguments RRet {A} r.
Arguments RGet {A} k n f.
(** [a, err := g(); if err != nil { return err }; f(a)] *)
Fixpoint rb {A B} (g : rprog A) (f : A -> rprog B) : rprog B :=
  match g with
  | RRet (Ok a) => f a
  | RRet Err => RRet Err
  | RRet Panic => RRet Panic
  | RGet k n c => RGet k n (fun s => rb (c s) f)
  end.
Fixpoint rb_each {A B} (f : A -> rprog B) (l : list A) : rprog (list B) :=
  match l with
  | [] => RRet (Ok [])
  | x :: l => rb (f x) (fun y => rb (rb_each f l) (fun ys => RRet (Ok (y :: ys))))
  end.
(** domain/transfers/piastres/*/repository.go Retrieve *)
Definition tr_get {T} (dec : list json -> res T) (k : kind) (n : bytes) : rprog T := RGet k n (fun c => RRet (unmarshal dec c)).

(** locks/repository.go:26-35 *)
Definition lock_get (h : hash) : rprog lock :=
  rb (tr_get d_tlock KLock (hash_string h)) (fun t => RRet (lock_now 0 (tl_keys t) (Some (im_created (tl_im t))))).
(** bills/repository.go:30-45 *)
Definition bill_get (h : hash) : rprog bill :=
  rb (tr_get d_tbill KBill (hash_string h)) (fun t =>
  rb (lock_get (tb_lock t)) (fun l =>
  RRet (bill_now 0 (Some l) (tb_amount t) (Some (im_created (tb_im t)))))).
(** genesis/repository.go:29-52 *)
Definition genesis_get : rprog genesis :=
  rb (tr_get d_tgenesis KGenesis genesis_name) (fun t =>
  rb (bill_get (tg_bill t)) (fun b =>
  RRet (genesis_now 0 (tg_base t) (tg_increase t) (tg_link t) (Some b) (Some (im_created (tg_im t)))))).

(** ** Writing *)
Inductive prog (A : Type) :=
| PRet (r : res A)
| PGet (k : kind) (n : bytes) (f : option bytes -> prog A)
| PPut (k : kind) (n c : bytes) (f : res unit -> prog A)
| PFill (k : kind) (n c : bytes) (f : res unit -> prog A).  (* the file was opened *)
Arguments PRet {A} r.
Arguments PGet {A} k n f.
Arguments PPut {A} k n c f.
Arguments PFill {A} k n c f.
(** a write at offset 0 *)
Definition overlay (c old : bytes) : bytes := c ++ skipn (length c) old.
Definition content_at (d : disk) (k : kind) (n : bytes) : bytes := match d k n with Some c => c | None => [] end.
(** one operation, with the fault it meets; nothing if the call has returned *)
Definition pstep {A} (e : fault) (p : prog A) (d : disk) : option (prog A * disk) :=
  match p with
  | PRet _ => None
  | PGet k n f => Some (f (d k n), d)
  | PPut k n c f =>
      match e with
      | Denied => Some (f Err, d)
      | _ => Some (PFill k n c f, upd d k n [])
      end
  | PFill k n c f =>
      match e with
      | Fine => Some (f (Ok tt), upd d k n (overlay c (content_at d k n)))
      | Denied => Some (f Err, d)
      | Torn i => Some (f Err, upd d k n (overlay (firstn i c) (content_at d k n)))
      end
  end.
(** the result of a [Retrieve] and what is done with it *)
Fixpoint of_get {A B} (g : rprog A) (f : res A -> prog B) : prog B :=
  match g with
  | RRet r => f r
  | RGet k n c => PGet k n (fun o => match o with Some s => of_get (c s) f | None => f Err end)
  end.
Fixpoint pseq {A} (a : prog unit) (b : prog A) : prog A :=
  match a with
  | PRet (Ok _) => b
  | PRet Err => PRet Err
  | PRet Panic => PRet Panic
  | PGet k n f => PGet k n (fun o => pseq (f o) b)
  | PPut k n c f => PPut k n c (fun r => pseq (f r) b)
  | PFill k n c f => PFill k n c (fun r => pseq (f r) b)
  end.
Definition plift {A} (x : res A) (f : A -> prog unit) : prog unit :=
  match x with Ok a => f a | Err => PRet Err | Panic => PRet Panic end.
Definition punless {A} (g : rprog A) (a : prog unit) : prog unit :=
  of_get g (fun r => match r with Ok _ => PRet (Ok tt) | Err => a | Panic => PRet Panic end).
Fixpoint peach {A} (f : A -> prog unit) (l : list A) : prog unit :=
  match l with
  | [] => PRet (Ok tt)
  | x :: l => pseq (f x) (peach f l)
  end.
Definition peach_opt {A} (f : A -> prog unit) (o : option A) : prog unit :=
  match o with Some x => f x | None => PRet (Ok tt) end.
(** domain/transfers/piastres/*/service.go Save *)
Definition tr_put {T} (enc : T -> res json) (k : kind) (n : bytes) (t : T) : prog unit :=
  plift (marshal enc t) (fun c => PPut k n c PRet).

(** locks/service.go:28-41 *)
Definition lock_put (l : lock) : prog unit :=
  punless (lock_get (lk_hash l)) (
  plift (lock_to_transfer l) (tr_put e_tlock KLock (hash_string (lk_hash l)))).
(** bills/service.go:32-51 *)
Definition bill_put (b : bill) : prog unit :=
  punless (bill_get (bl_hash b)) (
  pseq (lock_put (bl_lock b))
  (plift (bill_to_transfer b) (tr_put e_tbill KBill (hash_string (bl_hash b))))).
(** genesis/service.go:34-52 *)
Definition genesis_put (g : genesis) : prog unit :=
  of_get genesis_get (fun r =>
  match r with
  | Ok _ => PRet Err
  | Panic => PRet Panic
  | Err =>
      pseq (bill_put (gn_bill g))
      (plift (genesis_to_transfer g) (tr_put e_tgenesis KGenesis genesis_name))
  end).

Section WithCurve.
Context {C : Curve}.
(** expenses/repository.go:33-72 *)
Definition expense_get (h : hash) : rprog expense :=
  rb (tr_get d_texpense KExpense (hash_string h)) (fun t =>
  rb (rb_each bill_get (te_from t)) (fun from =>
  rb (bill_get (te_to t)) (fun to =>
  rb (match te_remaining t with
      | Some r => rb (bill_get r) (fun b => RRet (Ok (Some (bl_lock b))))
      | None => RRet (Ok None)
      end) (fun rem =>
  RRet (let! c := content_now 0 (bl_amount to) from (Some (bl_lock to)) rem (Some (im_created (te_im t))) in
        expense_now 0 (Some c) (Some (te_sigs t))))))).
(** transactions/repository.go:30-54 *)
Definition trx_get (h : hash) : rprog transaction :=
  rb (tr_get d_ttrx KTrx (hash_string h)) (fun t =>
  rb (rb_each expense_get (tt_fees t)) (fun fees =>
  RRet (transaction_now 0 None (tt_bucket t) fees (Some (im_created (tt_im t)))))).
(** blocks/repository.go:34-65 *)
Definition block_get (h : hash) : rprog block :=
  rb (tr_get d_tblock KBlock (hash_string h)) (fun t =>
  rb genesis_get (fun g =>
  rb (RRet (tree_hashes (tk_amount t) (tk_trx t))) (fun hs =>
  rb (rb_each trx_get hs) (fun trx =>
  RRet (block_now 0 (Some g) (tk_additional t) trx (Some (im_created (tk_im t)))))))).
(** blocks/mined/repository.go:30-45 *)
Definition mblock_get (h : hash) : rprog mined_block :=
  rb (tr_get d_tmblock KMBlock (hash_string h)) (fun t =>
  rb (block_get (tm_block t)) (fun b =>
  RRet (mined_block_now 0 (Some b) (tm_mining t) (Some (im_created (tm_im t)))))).
(** links/repository.go:30-51 *)
Definition link_get (h : hash) : rprog chain_link :=
  rb (tr_get d_tlink KLink (hash_string h)) (fun t =>
  rb (block_get (ti_next t)) (fun b =>
  RRet (link_now 0 (Some (ti_prev t)) (Some b) (ti_index t) (Some (im_created (ti_im t)))))).
(** links/mined/repository.go:30-45 *)
Definition mlink_get (h : hash) : rprog mined_link :=
  rb (tr_get d_tmlink KMLink (hash_string h)) (fun t =>
  rb (link_get (tn_link t)) (fun l =>
  RRet (mined_link_now 0 (Some l) (tn_mining t) (Some (im_created (tn_im t)))))).

(** expenses/service.go:32-66 *)
Definition expense_put (e : expense) : prog unit :=
  let c := ex_content e in
  punless (expense_get (ex_hash e)) (
  pseq (peach bill_put (ct_from c)) (
  pseq (bill_put (ct_to c)) (
  pseq (peach_opt bill_put (ct_remaining c)) (
  plift (expense_to_transfer e) (tr_put e_texpense KExpense (hash_string (ex_hash e))))))).
(** transactions/service.go:32-53 *)
Definition trx_put (t : transaction) : prog unit :=
  punless (trx_get (tx_hash t)) (
  pseq (peach expense_put (tx_fees t)) (
  plift (trx_to_transfer t) (tr_put e_ttrx KTrx (hash_string (tx_hash t))))).
(** blocks/service.go:32-51 *)
Definition block_put (b : block) : prog unit :=
  punless (block_get (bk_hash b)) (
  pseq (peach trx_put (bk_trx b)) (
  plift (block_to_transfer b) (tr_put e_tblock KBlock (hash_string (bk_hash b))))).
(** blocks/mined/service.go:32-51 *)
Definition mblock_put (b : mined_block) : prog unit :=
  punless (mblock_get (mb_hash b)) (
  pseq (block_put (mb_block b)) (
  plift (mblock_to_transfer b) (tr_put e_tmblock KMBlock (hash_string (mb_hash b))))).
(** links/service.go:32-51 *)
Definition link_put (l : chain_link) : prog unit :=
  punless (link_get (ln_hash l)) (
  pseq (block_put (ln_next l)) (
  plift (link_to_transfer l) (tr_put e_tlink KLink (hash_string (ln_hash l))))).
(** links/mined/service.go:32-51 *)
Definition mlink_put (l : mined_link) : prog unit :=
  punless (mlink_get (ml_hash l)) (
  pseq (link_put (ml_link l)) (
  plift (mlink_to_transfer l) (tr_put e_tmlink KMLink (hash_string (ml_hash l))))).

(** ** Calls *)
Inductive call := Saves (o : obj C) | Retrieves (k : kind) (h : hash).
Definition save_prog (o : obj C) : prog unit :=
  match o with
  | OLock l => lock_put l | OBill b => bill_put b | OExpense e => expense_put e | OTrx t => trx_put t
  | OGenesis g => genesis_put g | OBlock b => block_put b | OMBlock b => mblock_put b
  | OLink l => link_put l | OMLink l => mlink_put l
  end.
Definition rmapP {A} (f : A -> obj C) (g : rprog A) : rprog (obj C) := rb g (fun a => RRet (Ok (f a))).
Definition get_obj (k : kind) (h : hash) : rprog (obj C) :=
  match k with
  | KLock => rmapP OLock (lock_get h)
  | KBill => rmapP OBill (bill_get h)
  | KExpense => rmapP OExpense (expense_get h)
  | KTrx => rmapP OTrx (trx_get h)
  | KGenesis => rmapP OGenesis genesis_get
  | KBlock => rmapP OBlock (block_get h)
  | KMBlock => rmapP OMBlock (mblock_get h)
  | KLink => rmapP OLink (link_get h)
  | KMLink => rmapP OMLink (mlink_get h)
  | KAddress | KChain | KState => RRet Err
  end.
(** a call in progress; in the end the object retrieved, if it was a [Retrieve] *)
Notation thread := (prog (option (obj C))).
Definition start (c : call) : thread :=
  match c with
  | Saves o => pseq (save_prog o) (PRet (Ok None))
  | Retrieves k h => of_get (get_obj k h) (fun r => PRet (rmap Some r))
  end.

(** ** Running them *)
(** One of the calls in progress does its next operation; with [faulty] it may meet any
    fault. *)
Inductive cstep (faulty : bool) : disk * list thread -> disk * list thread -> Prop :=
| cstep_intro : forall d l p r e p' d', (faulty = false -> e = Fine) -> pstep e p d = Some (p', d') ->
    cstep faulty (d, l ++ p :: r) (d', l ++ p' :: r).
Inductive csteps (faulty : bool) (x : disk * list thread) : disk * list thread -> Prop :=
| csteps_none : csteps faulty x x
| csteps_one : forall y z, csteps faulty x y -> cstep faulty y z -> csteps faulty x z.
End WithCurve.
Arguments call C : clear implicits.
Notation thread C := (prog (option (obj C))).

(** A call that runs alone. *)
Fixpoint alone {A} (p : prog A) (s : fs) : res A * fs :=
  match p with
  | PRet r => (r, s)
  | PGet k n f => alone (f (fs_disk s k n)) s
  | PPut k n c f => let (r, s') := write k n c s in alone (f r) s'
  | PFill k n c f =>
      let old := content_at (fs_disk s) k n in
      match fs_faults s with
      | [] => alone (f (Ok tt)) (Fs (upd (fs_disk s) k n (overlay c old)) [])
      | Fine :: fl => alone (f (Ok tt)) (Fs (upd (fs_disk s) k n (overlay c old)) fl)
      | Denied :: fl => alone (f Err) (Fs (fs_disk s) fl)
      | Torn i :: fl => alone (f Err) (Fs (upd (fs_disk s) k n (overlay (firstn i c) old)) fl)
      end
  end.
Fixpoint rp_run {A} (g : rprog A) (d : disk) : res A :=
  match g with
  | RRet r => r
  | RGet k n f => match d k n with Some c => rp_run (f c) d | None => Err end
  end.
