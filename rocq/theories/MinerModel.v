(** Model of application/miners (helper.go, current.go, sdk.go). *)
From Coq Require Import SpecFloat.
From Verif Require Import Base HashModel HashTreeModel SignModel EntitiesModel FloatModel PiastresModel
  JsonModel TimeModel FloatText MemJsonModel TransferModel FileModel StoreModel.

(** ** Difficulty *)
(** helper.go:20-24: [sum] after [n] rounds *)
Fixpoint trx_sum (increase : float64) (n : nat) : float64 :=
  match n with
  | O => S754_zero false
  | S n => f_add (trx_sum increase n) (f_mul (f_of_Z (Z.of_nat (S n))) increase)
  end.
(** helper.go:15-27 difficulty, of the chain's [base] and [increase].  [wild] gives the
    result of [uint(x)] where it depends on the implementation.  Simplification:
    [amountTrx] is the length of a slice, so [int(amountTrx)] is itself. *)
Definition difficulty (wild : float64 -> N) (base : N) (increase : float64) (n : nat) : N :=
  let x := f_add (trx_sum increase n) (f_of_Z (Z.of_N base)) in
  match f_to_uint x with Some d => d | None => wild x end.

(** ** Mining *)
(** helper.go:30-48 prefix: [binary.Write] of an int8 to a buffer never fails *)
Definition prefix (difficulty : N) : bytes := repeat x00 (Z.to_nat (int_of_u64 difficulty)).
(** bytes.HasPrefix *)
Fixpoint has_prefix (s p : bytes) {struct p} : bool :=
  match p, s with
  | [], _ => true
  | c :: p, d :: s => beq c d && has_prefix s p
  | _, [] => false
  end.
(** [for i := lo; i < lo + 2^k; i++ { if g(i) ends the loop { return } }].  The loop is cut
    in halves so that [k] is small. *)
Fixpoint seek {A} (k : nat) (lo : N) (g : N -> option A) : option A :=
  match k with
  | O => g lo
  | S k =>
      match seek k lo g with
      | Some a => Some a
      | None => seek k (lo + 2 ^ N.of_nat k) g
      end
  end.
(** sdk.go: maxMiningValue and maxMiningTries are 2147483647 = 2^31 - 1 *)
Definition max_tries : N := 2147483647.
(** helper.go:76-87: the hash tried *)
Definition try_hash (base tries : bytes) (i : N) : hash :=
  from_multi ([base] ++ (match tries with [] => [] | _ => [tries] end) ++ [itoa_u64 i]).
(** helper.go:70-113 mineRecursively; [None] when more than [fuel] nested calls are
    needed *)
Fixpoint mine_rec (fuel : nat) (pre base tries : bytes) : option (res bytes) :=
  match fuel with
  | O => None
  | S fuel =>
      match seek 31 0 (fun i => if has_prefix (try_hash base tries i) pre then Some i else None) with
      | Some i => Some (Ok (tries ++ itoa_u64 i))
      | None =>
          match seek 31 0 (fun i =>
              if (i <? max_tries)%N
              then
                match mine_rec fuel pre base (tries ++ itoa_u64 i) with
                | None => Some None
                | Some (Ok []) => None
                | Some r => Some (Some r)
                end
              else None) with
          | Some r => r
          | None => Some Err
          end
      end
  end.
(** helper.go:50-68 mine *)
Definition mine (fuel : nat) (difficulty : N) (h : hash) : option (res bytes) := mine_rec fuel (prefix difficulty) h [].

(** ** The application *)
Section WithCurve.
Context {C : Curve}.

(** an execution that may never return *)
Definition run := fs -> option (res unit * fs).
Definition lift_run {A} (x : res A) (k : A -> run) : run := fun s =>
  match x with
  | Ok a => k a s
  | Err => Some (Err, s)
  | Panic => Some (Panic, s)
  end.
Definition mine_run (fuel : nat) (d : N) (h : hash) (k : bytes -> run) : run := fun s =>
  match mine fuel d h with
  | None => None
  | Some r => lift_run r k s
  end.
(** the chain repository and the disk; [created] and [mined] are what time.Now() returns *)
(** current.go:60-115 Block *)
Definition miner_block (wild : float64 -> N) (fuel : nat) (created mined : Z) (trx : list bytes) : run := fun s =>
  lift_run (rmapM FromString trx) (fun hs =>
  lift_run (trxs_retrieve hs (fs_disk s)) (fun ts =>
  lift_run (chain_retrieve (fs_disk s)) (fun c =>
  let g := ch_genesis c in
  let d := difficulty wild (gn_base g) (gn_increase g) (length ts) in
  lift_run (block_now 0 (Some g) 0 ts (Some created)) (fun b =>
  mine_run fuel d (bk_hash b) (fun r =>
  lift_run (mined_block_now 0 (Some b) r (Some mined)) (fun mb s => Some (mblock_save mb s))))))) s.
(** current.go:118-177 Link: the index is not given to the builder and is 0 *)
Definition miner_link (fuel : nat) (created mined : Z) (prev next : bytes) : run := fun s =>
  lift_run (chain_retrieve (fs_disk s)) (fun c =>
  lift_run (FromString prev) (fun ph =>
  lift_run (FromString next) (fun nh =>
  lift_run (mlink_retrieve ph (fs_disk s)) (fun p =>
  lift_run (block_retrieve nh (fs_disk s)) (fun b =>
  lift_run (link_now 0 (Some (ml_hash p)) (Some b) 0 (Some created)) (fun l =>
  mine_run fuel (gn_link (ch_genesis c)) (ln_hash l) (fun r =>
  lift_run (mined_link_now 0 (Some l) r (Some mined)) (fun ml s => Some (mlink_save ml s))))))))) s.
End WithCurve.
