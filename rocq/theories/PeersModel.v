(** Model of domain/memory/peers, domain/transfers/peers, application/peers and the
    daemons of infrastructure/daemons. *)
From Verif Require Import Base HashModel EntitiesModel SignModel PiastresModel JsonModel FileModel BucketModel IdentityModel.

(** ** Peers *)
(** domain/memory/peers/peer/peer.go:5-10 and domain/transfers/peers/peer/peer.go:3-8,
    which have the same fields *)
Record peer := Peer { pe_host : bytes; pe_port : N; pe_clear : bool; pe_onion : bool }.
(** domain/memory/peers/peer/builder.go:61-79 and domain/transfers/peers/peer/builder.go:55-73 Now;
    [clear] and [onion] tell whether IsClear and IsOnion were called *)
Definition peer_now (host : bytes) (port : N) (clear onion : bool) : res peer :=
  guard negb (bseq host []) in
  guard negb (port =? 0)%N in
  if clear then Ok (Peer host port true false)
  else if onion then Ok (Peer host port false true)
  else Err.
Definition sep : bytes := s2b "://".
(** memory peer.go:63-70 String; %d of a uint *)
Definition peer_string (p : peer) : bytes :=
  (if pe_onion p then s2b "onion" else s2b "https") ++ sep ++ pe_host p ++ x3a :: ntoa (pe_port p).

(** map[string]peer.Peer as a list without two entries of the same key *)
Fixpoint pset (k : bytes) (p : peer) (m : list (bytes * peer)) : list (bytes * peer) :=
  match m with
  | [] => [(k, p)]
  | (k', p') :: m => if bseq k k' then (k, p) :: m else (k', p') :: pset k p m
  end.
(** domain/memory/peers/builder.go:31-47 Now, which never fails; [order] is the order in
    which the range of lines 42-44 visits the map *)
Definition peers_now (order : list peer -> list peer) (ps : list peer) : list peer :=
  order (map snd (fold_left (fun m p => pset (peer_string p) p m) ps [])).

(** ** Stored peers: one file with a line per peer *)
(** domain/transfers/peers/peer/adapter.go:50-63 ToURL *)
Definition to_url (p : peer) : bytes :=
  let protocol := [] in
  let protocol := if pe_clear p then s2b "https" else protocol in
  let protocol := if pe_onion p then s2b "onion" else protocol in
  protocol ++ sep ++ pe_host p ++ x3a :: ntoa (pe_port p).
(** strconv.Atoi; underscores are not accepted in base 10 *)
Definition atoi (s : bytes) : res Z :=
  let '(neg, d) := match s with
                   | c :: r => if beq c x2d then (true, r) else if beq c x2b then (false, r) else (false, s)
                   | [] => (false, [])
                   end in
  match d with
  | [] => Err
  | _ => match digits_val 0 d with
         | Some n =>
             let z := if neg then (- Z.of_N n)%Z else Z.of_N n in
             if ((- 2 ^ 63 <=? z) && (z <? 2 ^ 63))%Z then Ok z else Err
         | None => Err
         end
  end.
(** conversion of an int to uint *)
Definition u64_of_int (z : Z) : N := Z.to_N (z mod 2 ^ 64).
(** adapter.go:24-47 ToPeer; [parse] is url.Parse of net/url, the values of Scheme,
    Hostname and Port of its result *)
Definition to_peer (parse : bytes -> res (bytes * bytes * bytes)) (raw : bytes) : res peer :=
  let! u := parse raw in
  let '(scheme, host, port) := u in
  let! port := atoi port in
  peer_now host (u64_of_int port) (bseq scheme (s2b "https")) (bseq scheme (s2b "onion")).

(** strings.Join with a newline *)
Fixpoint join_lines (l : list bytes) : bytes :=
  match l with
  | [] => []
  | [w] => w
  | w :: l => w ++ x0a :: join_lines l
  end.
(** strings.TrimSpace: ASCII space first; text that then begins or ends with a byte above 127
    goes to strings.TrimFunc with unicode.IsSpace *)
Definition ascii_space (c : byte) : bool :=
  beq c x09 || beq c x0a || beq c x0b || beq c x0c || beq c x0d || beq c x20.
Fixpoint trim_left (s : bytes) : bytes :=
  match s with
  | c :: s' => if ascii_space c then trim_left s' else s
  | [] => []
  end.
(** the white space of unicode in UTF-8: U+0009-000D, U+0020, U+0085, U+00A0, U+1680,
    U+2000-200A, U+2028, U+2029, U+202F, U+205F, U+3000 *)
Definition white_runes : list bytes :=
  [[x09]; [x0a]; [x0b]; [x0c]; [x0d]; [x20]; [xc2; x85]; [xc2; xa0]; [xe1; x9a; x80];
   [xe2; x80; x80]; [xe2; x80; x81]; [xe2; x80; x82]; [xe2; x80; x83]; [xe2; x80; x84]; [xe2; x80; x85]; [xe2; x80; x86];
   [xe2; x80; x87]; [xe2; x80; x88]; [xe2; x80; x89]; [xe2; x80; x8a]; [xe2; x80; xa8]; [xe2; x80; xa9]; [xe2; x80; xaf];
   [xe2; x81; x9f]; [xe3; x80; x80]].
Fixpoint drop_one (ps : list bytes) (s : bytes) : option bytes :=
  match ps with
  | [] => None
  | p :: ps => match prefix_of p s with Some r => Some r | None => drop_one ps s end
  end.
(** [fuel]: the length of [s] is enough *)
Fixpoint drop_all (ps : list bytes) (fuel : nat) (s : bytes) : bytes :=
  match fuel with
  | O => s
  | S fuel => match drop_one ps s with Some r => drop_all ps fuel r | None => s end
  end.
(** strings.TrimFunc: from the left, then from the right.  Bytes that are no UTF-8 are no
    white space; the last bytes are white space if they are one of the runes, as these
    begin with the only byte of theirs that can begin a rune. *)
Definition trim_func (s : bytes) : bytes :=
  let s := drop_all white_runes (length s) s in
  rev (drop_all (map (@rev byte) white_runes) (length s) (rev s)).
Definition trim_space (s : bytes) : bytes :=
  let s := rev (trim_left (rev (trim_left s))) in
  match s with
  | c :: _ => if (128 <=? b2n c)%N || (128 <=? b2n (last s x00))%N then trim_func s else s
  | [] => []
  end.
(** domain/transfers/peers/adapter.go:28-37 ToURLs and service.go:30-34 Save, the file as in
    IdentityModel.v *)
Definition tpeers_save (file : bytes) (ps : list peer) (d : idisk) : idisk :=
  iput d file (join_lines (map to_url ps)).
(** adapter.go:23-25 ToPeers: nil and no error for every list; [None] is the nil of the
    interface *)
Definition to_peers (urls : list bytes) : res (option (list peer)) := Ok None.
(** repository.go:36-45: the lines of the file *)
Definition peer_lines (data : bytes) : list bytes :=
  filter (fun l => negb (bseq l [])) (map trim_space (split x0a data)).
(** repository.go:30-48 Retrieve, with any Adapter (sdk.go), and with that of adapter.go *)
Definition retrieve_with (adapter : list bytes -> res (option (list peer))) (file : bytes) (d : idisk) : res (option (list peer)) :=
  let! data := iget d file in adapter (peer_lines data).
Definition tpeers_retrieve : bytes -> idisk -> res (option (list peer)) := retrieve_with to_peers.
(** All of a Peers value, which panics on nil *)
Definition all_peers (o : option (list peer)) : res (list peer) :=
  match o with Some l => Ok l | None => Panic end.

(** ** The peers application *)
(** domain/memory/peers/sdk.go: Repository and Service are only interfaces; this is what
    they promise: [None] is a store nothing was saved to, whose Retrieve is an error (as
    that of domain/transfers/peers/repository.go:31-34) *)
Definition pstore := option (list peer).
Definition pretrieve (s : pstore) : res (list peer) := match s with Some l => Ok l | None => Err end.
(** application/peers/application.go:37-67 SaveClear and SaveOnion ([onion]): what is
    written, after the part that reads *)
Definition save_begin (onion : bool) (host : bytes) (port : N) (s : pstore) : res (list peer * peer) :=
  let! p := peer_now host port (negb onion) onion in
  let! l := pretrieve s in
  Ok (l, p).
Definition save_end (order : list peer -> list peer) (x : list peer * peer) : list peer :=
  peers_now order (fst x ++ [snd x]).
Definition peers_save (order : list peer -> list peer) (onion : bool) (host : bytes) (port : N) (s : pstore) : res pstore :=
  let! x := save_begin onion host port s in Ok (Some (save_end order x)).

(** ** Daemons *)
(** One pass of the loop of Start after the sleep: it goes on or returns from Start *)
Inductive pass (S : Type) := GoOn (s : S) | Return (r : res unit) (s : S).
Arguments GoOn {S}.
Arguments Return {S}.
Record daemon (S : Type) := Daemon { dm_started : bool; dm_state : S; dm_rounds : nat; dm_result : option (res unit) }.
Arguments Daemon {S}.
Arguments dm_started {S}.
Arguments dm_state {S}.
Arguments dm_rounds {S}.
Arguments dm_result {S}.
(** an end of the sleep, or a call of Stop by another goroutine *)
Inductive devent := Wake | Stop.
Section Daemons.
Context {S : Type} (round : S -> pass S).
(** infrastructure/daemons/peers/application.go:42, buckets/application.go:50 and
    chains/application.go:42 *)
Definition dm_start (s : S) : daemon S := Daemon true s 0 None.
(** peers/application.go:44-51 and 88-91, buckets/application.go:52-59 and 113-116,
    chains/application.go:44-51 and 115-118: Stop sets isStarted to true *)
Definition dm_step (d : daemon S) (e : devent) : daemon S :=
  match e with
  | Stop => Daemon true (dm_state d) (dm_rounds d) (dm_result d)
  | Wake =>
      match dm_result d with
      | Some _ => d
      | None =>
          if dm_started d then
            match round (dm_state d) with
            | GoOn s => Daemon (dm_started d) s (Datatypes.S (dm_rounds d)) None
            | Return r s => Daemon (dm_started d) s (Datatypes.S (dm_rounds d)) (Some r)
            end
          else d
      end
  end.
Definition dm_run (d : daemon S) (es : list devent) : daemon S := fold_left dm_step es d.
End Daemons.

(** *** peers: infrastructure/daemons/peers/application.go:53-83; [remote] is the client of
    lines 61-69 and the All of what it returned *)
Fixpoint ask_peers (remote : peer -> res (list peer)) (local : list peer) : res (list peer) :=
  match local with
  | [] => Ok []
  | p :: local =>
      let! r := remote p in
      let! rest := ask_peers remote local in
      Ok (p :: r ++ rest)
  end.
Definition peers_round (order : list peer -> list peer) (remote : peer -> res (list peer)) (s : pstore) : pass pstore :=
  match pretrieve s with
  | Ok local =>
      match ask_peers remote local with
      | Ok all => GoOn (Some (peers_now order all))
      | Err => Return Err s
      | Panic => Return Panic s
      end
  | Err => Return Err s
  | Panic => Return Panic s
  end.

(** *** buckets: infrastructure/daemons/buckets/application.go:61-108.  An identity is an
    [I] of which Buckets().Follows() is [follows] and Buckets().Follow is [follow];
    [retrieve] and [update] are the identity store in state [S] under the name, password
    and seed of the daemon, [fetch] the client of lines 74-83 *)
Fixpoint follow_all {I : Type} (fetch : hash -> res bucket) (follow : bucket -> I -> res I)
    (hs : list hash) (i : I) : res I :=
  match hs with
  | [] => Ok i
  | h :: hs =>
      let! b := fetch h in
      let! i := follow b i in
      follow_all fetch follow hs i
  end.
Definition buckets_round {I S : Type} (retrieve : S -> res I) (update : I -> S -> res S) (peers : res (list peer))
    (follows : I -> list hash) (fetch : list peer -> hash -> res bucket)
    (follow : bucket -> I -> res I) (s : S) : pass S :=
  match (let! i := retrieve s in
         let! ps := peers in
         let! i := follow_all (fetch ps) follow (follows i) i in
         update i s) with
  | Ok s' => GoOn s'
  | Err => Return Err s
  | Panic => Return Panic s
  end.

(** *** chains: infrastructure/daemons/chains/application.go:53-110.  [Remote] is what the
    client for a peer answers to Retrieve and RetrieveAtIndex *)
Section Chains.
Context {C : Curve}.
(** domain/memory/piastres/chains/chain.go:60-62 Height *)
Definition ch_height (c : chain) : N := ln_index (ml_link (ch_head c)).
Record remote_chain := Remote { rc_chain : chain; rc_at : N -> res chain }.
(** lines 65-86: the first of the chains with the biggest positive difference *)
Fixpoint biggest (local : N) (ask : peer -> res remote_chain) (ps : list peer) (diff : Z) (best : option remote_chain) :
    res (option remote_chain) :=
  match ps with
  | [] => Ok best
  | p :: ps =>
      let! r := ask p in
      let d := int_of_u64 (u64 (ch_total (rc_chain r) + 2 ^ 64 - local)) in
      if (diff <? d)%Z then biggest local ask ps d (Some r) else biggest local ask ps diff best
  end.
(** lines 96-108; [n] is the number of passes left and [i] the index *)
Fixpoint fetch_links {S : Type} (at_index : N -> res chain) (upgrade : mined_link -> S -> res S)
    (local : Z) (n : nat) (i : Z) (s : S) : res unit * S :=
  match n with
  | O => (Ok tt, s)
  | Datatypes.S n =>
      match at_index (u64_of_int (int64 (local + i))) with
      | Ok c =>
          match upgrade (ch_head c) s with
          | Ok s => fetch_links at_index upgrade local n (i + 1) s
          | Err => (Err, s)
          | Panic => (Panic, s)
          end
      | Err => (Err, s)
      | Panic => (Panic, s)
      end
  end.
Definition chains_round {S : Type} (retrieve : S -> res chain) (upgrade : mined_link -> S -> res S)
    (peers : res (list peer)) (ask : peer -> res remote_chain) (s : S) : pass S :=
  match (let! local := retrieve s in
         let! ps := peers in
         let! best := biggest (ch_total local) ask ps 0 None in
         Ok (local, best)) with
  | Ok (local, Some r) =>
      let local_index := int_of_u64 (ch_height local) in
      let diff := int64 (int_of_u64 (ch_height (rc_chain r)) - local_index) in
      let '(o, s) := fetch_links (rc_at r) upgrade local_index (Z.to_nat diff) 0 s in
      Return o s
  | Ok (_, None) => GoOn s
  | Err => Return Err s
  | Panic => Return Panic s
  end.
End Chains.
