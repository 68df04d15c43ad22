(** Model of the part of net/url that domain/transfers/peers/peer/adapter.go:24-32 calls:
    Parse, and Hostname and Port of its result (Go 1.15).  Of the fields of a URL only Scheme
    and Host are kept; the others are computed as far as that can fail. *)
From Verif Require Import Base JsonModel PeersModel.

(** strings.IndexByte and LastIndexByte, with the texts before and after *)
Fixpoint cut (c : byte) (s : bytes) : option (bytes * bytes) :=
  match s with
  | [] => None
  | x :: s => if beq x c then Some ([], s) else option_map (fun p => (x :: fst p, snd p)) (cut c s)
  end.
Fixpoint cut_last (c : byte) (s : bytes) : option (bytes * bytes) :=
  match s with
  | [] => None
  | x :: s => match cut_last c s with
              | Some (a, b) => Some (x :: a, b)
              | None => if beq x c then Some ([], s) else None
              end
  end.
(** strings.HasPrefix, HasSuffix, Index *)
Fixpoint has_prefix (p s : bytes) : bool :=
  match p, s with
  | [], _ => true
  | x :: p, y :: s => beq x y && has_prefix p s
  | _ :: _, [] => false
  end.
Definition has_suffix (p s : bytes) : bool := has_prefix (rev p) (rev s).
Fixpoint cut_before (p s : bytes) : option (bytes * bytes) :=
  if has_prefix p s then Some ([], s)
  else match s with
       | [] => None
       | x :: s => option_map (fun q => (x :: fst q, snd q)) (cut_before p s)
       end.
(** url.go split *)
Definition usplit (c : byte) (cutc : bool) (s : bytes) : bytes * bytes :=
  match cut c s with
  | Some (a, b) => (a, if cutc then b else c :: b)
  | None => (s, [])
  end.

Definition within (lo hi : N) (c : byte) : bool := ((lo <=? b2n c) && (b2n c <=? hi))%N.
Definition is_letter (c : byte) : bool := within 97 122 c || within 65 90 c.
Definition is_dec (c : byte) : bool := within 48 57 c.
Definition one_of (l : bytes) (c : byte) : bool := existsb (beq c) l.
(** strings.ToLower of ASCII letters *)
Definition to_lower (c : byte) : byte := if within 65 90 c then n2b (b2n c + 32) else c.

(** the encodings encodeHost and encodeZone, and any other but encodeQueryComponent *)
Inductive mode := MHost | MZone | MOther.
(** url.go shouldEscape for encodeHost and encodeZone *)
Definition should_escape (c : byte) : bool :=
  negb (is_letter c || is_dec c || one_of (x22 :: s2b "!$&'()*+,;=:[]<>") c || one_of (s2b "-_.~") c).
(** url.go unescape *)
Fixpoint unescape (m : mode) (s : bytes) : res bytes :=
  match s with
  | [] => Ok []
  | c :: s =>
      if beq c x25 then
        match s with
        | a :: b :: s =>
            match unhexdigit a, unhexdigit b with
            | Some x, Some y =>
                let v := n2b (x * 16 + y) in
                let percent25 := beq a x32 && beq b x35 in
                guard match m with
                      | MHost => negb ((x <? 8)%N && negb percent25)
                      | MZone => negb (negb percent25 && negb (beq v x20) && should_escape v)
                      | MOther => true
                      end in
                rmap (cons v) (unescape m s)
            | _, _ => Err
            end
        | _ => Err
        end
      else
        guard match m with MOther => true | _ => negb ((b2n c <? 128)%N && should_escape c) end in
        rmap (cons c) (unescape m s)
  end.

(** url.go validOptionalPort *)
Definition valid_optional_port (s : bytes) : bool :=
  match s with
  | [] => true
  | c :: s => beq c x3a && forallb is_dec s
  end.
(** url.go parseHost *)
Definition parse_host (host : bytes) : res bytes :=
  if has_prefix [x5b] host then
    match cut_last x5d host with
    | None => Err
    | Some (before, colon_port) =>
        guard valid_optional_port colon_port in
        match cut_before (s2b "%25") before with
        | Some (h1, h2) =>
            let! h1 := unescape MHost h1 in
            let! h2 := unescape MZone h2 in
            let! h3 := unescape MHost (x5d :: colon_port) in
            Ok (h1 ++ h2 ++ h3)
        | None => unescape MHost host
        end
    end
  else
    guard match cut_last x3a host with
          | Some (_, port) => valid_optional_port (x3a :: port)
          | None => true
          end in
    unescape MHost host.
(** url.go validUserinfo *)
Definition valid_userinfo (s : bytes) : bool :=
  forallb (fun c => is_letter c || is_dec c || one_of (s2b "-._:~!$&'()*+,;=%@") c) s.
(** url.go parseAuthority, the host; the name and the password only as to errors *)
Definition parse_authority (authority : bytes) : res bytes :=
  match cut_last x40 authority with
  | None => parse_host authority
  | Some (userinfo, host) =>
      let! host := parse_host host in
      guard valid_userinfo userinfo in
      match cut x3a userinfo with
      | None => let! _ := unescape MOther userinfo in Ok host
      | Some (username, password) =>
          let! _ := unescape MOther username in
          let! _ := unescape MOther password in
          Ok host
      end
  end.

(** url.go getscheme: the index of the colon behind the scheme, if there is one *)
Fixpoint scheme_end (i : nat) (s : bytes) : res (option nat) :=
  match s with
  | [] => Ok None
  | c :: s =>
      if is_letter c then scheme_end (S i) s
      else if is_dec c || one_of (s2b "+-.") c then (if (i =? 0)%nat then Ok None else scheme_end (S i) s)
      else if beq c x3a then (if (i =? 0)%nat then Err else Ok (Some i))
      else Ok None
  end.
Definition get_scheme (raw : bytes) : res (bytes * bytes) :=
  let! e := scheme_end 0 raw in
  match e with
  | Some i => Ok (firstn i raw, skipn (S i) raw)
  | None => Ok ([], raw)
  end.
Definition is_ctl (c : byte) : bool := ((b2n c <? 32) || (b2n c =? 127))%N.
(** url.go parse, not via a request: Scheme and Host *)
Definition parse_url (raw : bytes) : res (bytes * bytes) :=
  guard negb (existsb is_ctl raw) in
  if bseq raw [x2a] then Ok ([], [])
  else
    let! x := get_scheme raw in
    let '(scheme, rest) := x in
    let scheme := map to_lower scheme in
    let rest := if has_suffix [x3f] rest && (length (filter (beq x3f) rest) =? 1)%nat then removelast rest else fst (usplit x3f true rest) in
    if negb (has_prefix [x2f] rest) && negb (bseq scheme []) then Ok (scheme, [])
    else if negb (has_prefix [x2f] rest) &&
            match cut x3a rest, cut x2f rest with
            | Some _, None => true
            | Some (a, _), Some (b, _) => (length a <? length b)%nat
            | None, _ => false
            end then Err
    else
      let! x :=
        if (negb (bseq scheme []) || negb (has_prefix (s2b "///") rest)) && has_prefix (s2b "//") rest then
          let '(authority, rest) := usplit x2f false (skipn 2 rest) in
          let! host := parse_authority authority in
          Ok (host, rest)
        else Ok ([], rest) in
      let '(host, rest) := x in
      let! _ := unescape MOther rest in
      Ok (scheme, host).
(** url.go splitHostPort, for Hostname and Port *)
Definition split_host_port (s : bytes) : bytes * bytes :=
  let '(host, port) := match cut_last x3a s with
                       | Some (a, b) => if valid_optional_port (x3a :: b) then (a, b) else (s, [])
                       | None => (s, [])
                       end in
  (if has_prefix [x5b] host && has_suffix [x5d] host then removelast (tl host) else host, port).
(** url.go Parse, and Scheme, Hostname and Port of the result *)
Definition url_parse (raw : bytes) : res (bytes * bytes * bytes) :=
  let '(u, frag) := usplit x23 true raw in
  let! x := parse_url u in
  let '(scheme, host) := x in
  let! _ := (if bseq frag [] then Ok [] else unescape MOther frag) in
  let '(hostname, port) := split_host_port host in
  Ok (scheme, hostname, port).

Example url_cases :
  url_parse (s2b "HTTPS://user:pw@node-3:80/a%20b?q#f") = Ok (s2b "https", s2b "node-3", s2b "80") /\
  url_parse (s2b "onion://[fe80::1%25en0]:9000") = Ok (s2b "onion", s2b "fe80::1%en0", s2b "9000") /\
  url_parse (s2b "https://a b:80") = Err /\ url_parse (s2b "https://a:b") = Err /\
  url_parse (s2b "a:80") = Ok (s2b "a", [], []) /\ url_parse (s2b "1a:80") = Err /\
  url_parse (s2b "https://a/b:80") = Ok (s2b "https", s2b "a", []).
Proof. vm_compute. repeat split. Qed.
