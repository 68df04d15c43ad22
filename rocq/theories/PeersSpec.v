(** What peers and daemons are supposed to do. *)
From Coq Require Import Permutation.
From Verif Require Import Base HashModel SignModel PiastresModel JsonModel BucketModel IdentityModel PeersModel UnicodeSpec.

Definition built_peer (p : peer) : Prop :=
  exists host port clear onion, (port < 2 ^ 64)%N /\ peer_now host port clear onion = Ok p.
(** the range over a map visits every entry once, in any order *)
Definition any_order (order : list peer -> list peer) : Prop := forall l, Permutation (order l) l.

(** ** URLs *)
Definition plain_char (c : byte) : bool :=
  let n := b2n c in ((97 <=? n) && (n <=? 122) || (48 <=? n) && (n <=? 57) || (n =? 45) || (n =? 46))%N.
(** a host name or an IPv4 address: lower case letters, digits, hyphens and points *)
Definition plain_host (h : bytes) : Prop := h <> [] /\ forallb plain_char h = true.
(** what is used of net/url: a URL made of a scheme, such a host and a port is taken apart *)
Definition url_contract (parse : bytes -> res (bytes * bytes * bytes)) : Prop :=
  forall scheme host port, scheme = s2b "https" \/ scheme = s2b "onion" -> plain_host host ->
    port <> [] -> forallb (fun c => (48 <=? b2n c) && (b2n c <=? 57))%N port = true ->
    parse (scheme ++ s2b "://" ++ host ++ s2b ":" ++ port) = Ok (scheme, host, port).

(** ** Saving peers one after the other; a refused peer does not end the history *)
Definition save_one (order : list peer -> list peer) (s : pstore) (o : bool * bytes * N) : pstore :=
  let '(onion, host, port) := o in
  match peers_save order onion host port s with Ok s' => s' | _ => s end.
Definition save_seq (order : list peer -> list peer) (os : list (bool * bytes * N)) (s : pstore) : pstore :=
  fold_left (save_one order) os s.
(** the peer an operation asks for *)
Definition asked (o : bool * bytes * N) (p : peer) : Prop :=
  let '(onion, host, port) := o in host <> [] /\ port <> 0%N /\ p = Peer host port (negb onion) onion.

(** ** Saving peers and daemon rounds at the same time.  A call or round reads the store at
    one moment and writes it at another; [pending] are the lists about to be written. *)
Inductive cstep : pstore * list (list peer) -> list peer -> pstore * list (list peer) -> Prop :=
| CS_save : forall s pending onion host port l p, save_begin onion host port s = Ok (l, p) ->
    cstep (s, pending) [p] (s, (l ++ [p]) :: pending)
| CS_round : forall s pending remote l all, pretrieve s = Ok l -> ask_peers remote l = Ok all ->
    cstep (s, pending) all (s, all :: pending)
| CS_end : forall s a x b order, any_order order ->
    cstep (s, a ++ x :: b) [] (Some (peers_now order x), a ++ b).
(** several steps, with the peers added or learnt on the way *)
Inductive csteps : pstore * list (list peer) -> list peer -> pstore * list (list peer) -> Prop :=
| CS_none : forall x, csteps x [] x
| CS_more : forall x l y l' z, cstep x l y -> csteps y l' z -> csteps x (l ++ l') z.

(** ** Chains *)
Section WithCurve.
Context {C : Curve}.
(** the upgrades with these answers, one after the other, up to the first failure *)
Fixpoint upgrades {S : Type} (upgrade : mined_link -> S -> res S) (answers : list (res chain)) (s : S) : res unit * S :=
  match answers with
  | [] => (Ok tt, s)
  | Ok c :: answers =>
      match upgrade (ch_head c) s with
      | Ok s => upgrades upgrade answers s
      | Err => (Err, s)
      | Panic => (Panic, s)
      end
  | Err :: _ => (Err, s)
  | Panic :: _ => (Panic, s)
  end.
(** [from], [from + 1], ... , [upto - 1] *)
Definition indices (from upto : N) : list N := map (fun k => from + N.of_nat k)%N (seq 0 (N.to_nat (upto - from))).
(** two answers of a peer that differ at most in the link at the height of the chain *)
Definition same_but_newest (a b : res remote_chain) : Prop :=
  match a, b with
  | Ok a, Ok b => rc_chain a = rc_chain b /\
      (ch_height (rc_chain a) < 2 ^ 63)%N /\ forall i, i <> ch_height (rc_chain a) -> rc_at a i = rc_at b i
  | _, _ => a = b
  end.
End WithCurve.

(** ** White space of Unicode *)
Definition white (n : N) : Prop :=
  (9 <= n <= 13 \/ n = 0x20 \/ n = 0x85 \/ n = 0xA0 \/ n = 0x1680 \/ 0x2000 <= n <= 0x200A \/ n = 0x2028 \/ n = 0x2029 \/
   n = 0x202F \/ n = 0x205F \/ n = 0x3000)%N.
Definition white_text (s : bytes) : Prop := exists ns, Forall white ns /\ s = concat (map rune_bytes ns).
(** [t] is [s] without the white space at both ends *)
Definition trimmed_to (s t : bytes) : Prop :=
  exists a b, white_text a /\ white_text b /\ s = a ++ t ++ b /\
  (forall n r, white n -> t <> rune_bytes n ++ r) /\ (forall n r, white n -> t <> r ++ rune_bytes n).
(** the lines of a file, without the newlines; the last one need not end with one *)
Definition lines_of (data : bytes) (ls : list bytes) : Prop :=
  Forall (fun l => ~ In x0a l) ls /\ exists l ls', ls = l :: ls' /\ data = l ++ concat (map (fun l => x0a :: l) ls').
