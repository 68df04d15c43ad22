(** The URLs of peers, written down as a grammar. *)
From Verif Require Import Base PeersModel GrammarSpec CalendarSpec.
Local Open Scope N_scope.

(** ** Characters *)
Definition letter (c : byte) : Prop := 97 <= b2n c <= 122 \/ 65 <= b2n c <= 90.
(** what may stand in a host as it is: ASCII letters and digits, these signs and bytes above 127 *)
Definition host_ascii (c : byte) : Prop := letter c \/ digit c \/ c = x22 \/ In c (s2b "!$&'()*+,;=:[]<>-_.~").
Definition host_byte (c : byte) : Prop := host_ascii c \/ 128 <= b2n c.
Definition user_char (c : byte) : Prop := letter c \/ digit c \/ In c (s2b "-._:~!$&'()*+,;=%@").
Definition control (c : byte) : Prop := b2n c < 32 \/ b2n c = 127.

(** ** Percent signs *)
Definition hex_digit (c : byte) (v : N) : Prop :=
  48 <= b2n c <= 57 /\ v = b2n c - 48 \/ 97 <= b2n c <= 102 /\ v = b2n c - 87 \/ 65 <= b2n c <= 70 /\ v = b2n c - 55.
(** [decodes plain escaped s t]: [s] consists of [plain] bytes and of bytes written as a percent
    sign and two digits, which have to be [escaped]; [t] are the bytes meant *)
Inductive decodes (plain escaped : byte -> Prop) : bytes -> bytes -> Prop :=
| DC_nil : decodes plain escaped [] []
| DC_plain : forall c s t, c <> x25 -> plain c -> decodes plain escaped s t -> decodes plain escaped (c :: s) (c :: t)
| DC_escaped : forall a b x y c s t, hex_digit a x -> hex_digit b y -> b2n c = 16 * x + y -> escaped c ->
    decodes plain escaped s t -> decodes plain escaped (x25 :: a :: b :: s) (c :: t).
Definition anything (c : byte) : Prop := True.
Definition well_escaped (s : bytes) : Prop := exists t, decodes anything anything s t.
Definition host_text : bytes -> bytes -> Prop := decodes host_byte (fun c => 128 <= b2n c \/ c = x25).
Definition zone_text : bytes -> bytes -> Prop := decodes host_byte (fun c => host_ascii c \/ c = x20 \/ c = x25).

(** ** The parts *)
(** the letters of the scheme may be capital *)
Definition scheme_text (s name : bytes) : Prop := Forall2 (fun c d => c = d \/ b2n c + 32 = b2n d) s name.
Definition starts (c : byte) (s : bytes) : Prop := exists r, s = c :: r.
(** a name, or an address in brackets, of which what follows the first %25 is a zone *)
Definition host_part (s host : bytes) : Prop :=
  ~ starts x5b s /\ host_text s host \/
  exists a z a' z', s = x5b :: a ++ z ++ [x5d] /\ host_text a a' /\ zone_text z z' /\ host = a' ++ z' /\
    (z = [] \/ exists r, z = s2b "%25" ++ r) /\ ~ exists l r, a = l ++ s2b "%25" ++ r.
Definition user_part (s : bytes) : Prop := s = [] \/ exists u, s = u ++ s2b "@" /\ Forall user_char u /\ well_escaped u.
Definition path_part (s : bytes) : Prop := s = [] \/ starts x2f s /\ ~ In x3f s /\ ~ In x23 s /\ well_escaped s.
Definition query_part (s : bytes) : Prop := s = [] \/ starts x3f s /\ ~ In x23 s.
Definition fragment_part (s : bytes) : Prop := s = [] \/ exists f, s = x23 :: f /\ well_escaped f.

(** [raw] is a URL of the peer [p]: scheme://user@host:port/path?query#fragment *)
Definition peer_url (raw : bytes) (p : peer) : Prop :=
  exists scheme user host port path query fragment,
    raw = (scheme ++ s2b "://" ++ user ++ host ++ s2b ":" ++ port ++ path ++ query) ++ fragment /\
    (scheme_text scheme (s2b "https") /\ pe_clear p = true /\ pe_onion p = false \/
     scheme_text scheme (s2b "onion") /\ pe_clear p = false /\ pe_onion p = true) /\
    user_part user /\ host_part host (pe_host p) /\ pe_host p <> [] /\
    digits port /\ Z.of_N (pe_port p) = decimal_value 0 port /\ 0 < pe_port p < 2 ^ 63 /\
    path_part path /\ query_part query /\ fragment_part fragment /\
    (forall c, In c (scheme ++ s2b "://" ++ user ++ host ++ s2b ":" ++ port ++ path ++ query) -> ~ control c).

(** hosts that survive being written into a URL *)
Definition safe_host (h : bytes) : Prop := h <> [] /\ Forall host_byte h /\ ~ starts x5b h.
