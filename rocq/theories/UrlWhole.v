From Coq Require Import Lia ZifyBool ZifyNat ZifyN.
From Verif Require Import Base BaseFacts JsonModel PeersModel PeersSpec PeersProofs GrammarSpec GrammarProofs CalendarSpec CalendarProofs UrlModel UrlSpec UrlProofs UrlParts Properties_Outcomes.

(** ** The authority *)
Lemma user_iff : forall s, valid_userinfo s = true <-> Forall user_char s.
Proof.
  intro s. unfold valid_userinfo. rewrite forallb_forall, Forall_forall.
  assert (X : forall c, is_letter c || is_dec c || one_of (s2b "-._:~!$&'()*+,;=%@") c = true <-> user_char c).
  { intro c. unfold user_char. rewrite !orb_true_iff, letter_iff, dec_iff, one_of_iff. tauto. }
  split; intros H c I; apply X; auto.
Qed.
Lemma well_app : forall c, c <> x25 -> (forall v, ~ hex_digit c v) -> forall a b, well_escaped (a ++ c :: b) <-> well_escaped a /\ well_escaped b.
Proof.
  intros c C H a b. split.
  - intros (t & D). apply decodes_split in D as (a' & b' & D1 & _ & D2 & _); [|exact C|exact H]. split; eexists; eassumption.
  - intros [(a' & D1) (b' & D2)]. exists (a' ++ c :: b'). apply decodes_app; [exact D1|]. constructor; [exact C|exact I|exact D2].
Qed.
Lemma other_ok : forall s, well_escaped s -> exists t, unescape MOther s = Ok t.
Proof. intros s H. apply other_unescape. exact H. Qed.
Definition user_check (userinfo : bytes) (host : bytes) : res bytes :=
  guard valid_userinfo userinfo in
  match cut x3a userinfo with
  | None => let! _ := unescape MOther userinfo in Ok host
  | Some (username, password) => let! _ := unescape MOther username in let! _ := unescape MOther password in Ok host
  end.
Lemma user_check_iff : forall u host h, user_check u host = Ok h <-> h = host /\ Forall user_char u /\ well_escaped u.
Proof.
  intros u host h. unfold user_check. rewrite <- user_iff. destruct (valid_userinfo u); [|split; [discriminate|intros (_ & X & _); discriminate X]].
  destruct (cut x3a u) as [[a b]|] eqn:C.
  - apply cut_some in C as [-> _]. rewrite (well_app x3a) by (discriminate || (apply not_hex; reflexivity)). split.
    + intro H. apply rbind_Ok in H as (ta & Ha & H). apply rbind_Ok in H as (tb & Hb & H). injection H as <-. split; [reflexivity|]. split; [reflexivity|].
      split; apply other_unescape; eexists; eassumption.
    + intros (-> & _ & Wa & Wb). apply other_ok in Wa as (ta & Ha). apply other_ok in Wb as (tb & Hb). rewrite Ha. cbn [rbind]. rewrite Hb. reflexivity.
  - split.
    + intro H. apply rbind_Ok in H as (t & Ht & H). injection H as <-. split; [reflexivity|]. split; [reflexivity|]. apply other_unescape. eexists. exact Ht.
    + intros (-> & _ & W). apply other_ok in W as (t & Ht). rewrite Ht. reflexivity.
Qed.
Lemma authority_eq : forall s, parse_authority s = match cut_last x40 s with None => parse_host s | Some (u, host) => let! h := parse_host host in user_check u h end.
Proof. reflexivity. Qed.
Lemma host_part_texts : forall g h, host_part g h -> Forall text_byte g.
Proof.
  intros g h [[_ D]|(a & z & a' & z' & -> & D1 & D2 & _)]; [exact (decodes_texts _ _ _ D)|].
  assert (B : forall c, In c [x5b; x5d] -> text_byte c) by (intros c [<-|[<-|[]]]; left; left; right; right; right; cbn; tauto).
  constructor; [apply B; left; reflexivity|]. rewrite !Forall_app. split; [exact (decodes_texts _ _ _ D1)|]. split; [exact (decodes_texts _ _ _ D2)|]. constructor; [apply B; right; left; reflexivity|constructor].
Qed.
Lemma host_port_texts : forall g h port, host_part g h -> Forall digit port -> Forall text_byte (g ++ x3a :: port).
Proof.
  intros g h port H F. rewrite Forall_app. split; [exact (host_part_texts _ _ H)|]. constructor; [left; left; right; right; right; cbn; tauto|].
  eapply Forall_impl; [|exact F]. intros c D. left. apply digit_host. exact D.
Qed.
Lemma authority_some : forall s u h port, parse_authority s = Ok u -> split_host_port u = (h, port) -> port <> [] ->
  exists user g, s = user ++ g ++ x3a :: port /\ Forall digit port /\ user_part user /\ host_part g h.
Proof.
  intros s u h port P S N. rewrite authority_eq in P. destruct (cut_last x40 s) as [[us hp]|] eqn:C.
  - apply cut_last_some in C as [-> _]. apply rbind_Ok in P as (h0 & P & U). apply user_check_iff in U as (-> & U & W).
    destruct (parse_host_some _ _ _ _ P S N) as (g & -> & F & H). exists (us ++ [x40]), g. split; [rewrite <- app_assoc; reflexivity|]. split; [exact F|]. split; [|exact H].
    right. exists us. auto.
  - destruct (parse_host_some _ _ _ _ P S N) as (g & -> & F & H). exists [], g. split; [reflexivity|]. split; [exact F|]. split; [left; reflexivity|exact H].
Qed.
Lemma authority_of : forall user g h port, user_part user -> host_part g h -> Forall digit port ->
  exists u, parse_authority (user ++ g ++ x3a :: port) = Ok u /\ split_host_port u = (h, port).
Proof.
  intros user g h port U H F. destruct (parse_host_of g h port H F) as (u & P & S). exists u. split; [|exact S]. rewrite authority_eq.
  assert (N : ~ In x40 (g ++ x3a :: port)) by (apply text_nin; [reflexivity|exact (host_port_texts _ _ _ H F)]).
  destruct U as [->|(us & -> & Uc & W)].
  - cbn [app]. rewrite (cut_last_nin _ _ N). exact P.
  - change (s2b "@") with [x40]. rewrite <- app_assoc. cbn [app]. rewrite (cut_last_app _ _ _ N). rewrite P. cbn [rbind]. apply user_check_iff. auto.
Qed.

(** ** Scheme *)
Lemma lower_iff : forall c d, within 97 122 d = true -> (to_lower c = d <-> c = d \/ (b2n c + 32)%N = b2n d).
Proof.
  intros c d D. apply within_iff in D. unfold to_lower. destruct (within 65 90 c) eqn:W.
  - apply within_iff in W. split.
    + intros <-. right. rewrite b2n_n2b, N.mod_small; lia.
    + intros [->|E]; [lia|]. apply b2n_inj. rewrite b2n_n2b, N.mod_small; lia.
  - split; [auto|]. intros [E|E]; [exact E|]. exfalso. assert (within 65 90 c = true) by (apply within_iff; lia). congruence.
Qed.
Lemma lower_all : forall name s, forallb (within 97 122) name = true -> (map to_lower s = name <-> scheme_text s name).
Proof.
  unfold scheme_text. induction name as [|d name IH]; intros s F.
  - split; [destruct s; [constructor|discriminate]|]. intro H. inversion H. reflexivity.
  - cbn [forallb] in F. apply andb_true_iff in F as [D F]. destruct s as [|c s]; [split; [discriminate|intro H; inversion H]|]. cbn [map]. split.
    + intro H. injection H as H1 H2. constructor; [apply lower_iff; assumption|]. apply IH; assumption.
    + intro H. inversion H; subst. f_equal; [apply lower_iff; assumption|]. apply IH; assumption.
Qed.
Lemma scheme_letters : forall name s, forallb (within 97 122) name = true -> scheme_text s name -> Forall letter s.
Proof.
  unfold scheme_text. intros name s F H. induction H as [|c d s name E H IH]; [constructor|]. cbn [forallb] in F. apply andb_true_iff in F as [D F]. constructor; [|auto].
  apply within_iff in D. unfold letter. destruct E as [->|E]; lia.
Qed.
Lemma scheme_end_some : forall s i e, scheme_end i s = Ok (Some e) -> exists a b, s = a ++ x3a :: b /\ e = i + length a.
Proof.
  induction s as [|c s IH]; intros i e H; [discriminate|]. cbn [scheme_end] in H.
  assert (Go : scheme_end (S i) s = Ok (Some e) -> exists a b, c :: s = a ++ x3a :: b /\ e = i + length a).
  { intro X. destruct (IH _ _ X) as (a & b & -> & ->). exists (c :: a), b. split; [reflexivity|]. cbn [length]. lia. }
  destruct (is_letter c); [auto|]. destruct (is_dec c || one_of (s2b "+-.") c); [destruct (i =? 0)%nat; [discriminate|auto]|].
  destruct (beq c x3a) eqn:E; [|discriminate]. destruct (i =? 0)%nat; [discriminate|]. injection H as <-. apply beq_eq in E. subst. exists [], s. cbn [length]. split; [reflexivity|lia].
Qed.
Lemma scheme_end_of : forall a b i, Forall letter a -> (i + length a <> 0)%nat -> scheme_end i (a ++ x3a :: b) = Ok (Some (i + length a)).
Proof.
  induction a as [|c a IH]; intros b i F N; cbn [app scheme_end length].
  - change (is_letter x3a) with false. change (is_dec x3a || one_of (s2b "+-.") x3a) with false. rewrite beq_refl. cbv iota. cbn [length] in N.
    destruct (Nat.eqb_spec i 0); [lia|]. do 2 f_equal. lia.
  - inversion F as [|? ? L F']; subst. apply letter_iff in L. rewrite L. rewrite IH by (assumption || (cbn [length] in N; lia)). do 2 f_equal. lia.
Qed.
Lemma skip_colon : forall a b : bytes, skipn (S (length a)) (a ++ x3a :: b) = b.
Proof. induction a as [|c a IH]; intro b; [reflexivity|]. exact (IH b). Qed.
Lemma first_part : forall a b : bytes, firstn (length a) (a ++ b) = a.
Proof. induction a as [|c a IH]; intro b; [reflexivity|]. cbn [length app firstn]. rewrite IH. reflexivity. Qed.
Lemma get_scheme_some : forall s scheme rest, get_scheme s = Ok (scheme, rest) -> scheme <> [] -> s = scheme ++ x3a :: rest.
Proof.
  intros s scheme rest H N. unfold get_scheme in H. apply rbind_Ok in H as ([e|] & E & H); [|injection H as <- _; congruence].
  assert (X : scheme = firstn e s /\ rest = skipn (S e) s) by (split; congruence). destruct X as [-> ->].
  apply scheme_end_some in E as (a & b & -> & ->). cbn [plus]. rewrite first_part, skip_colon. reflexivity.
Qed.
Lemma get_scheme_of : forall a b, Forall letter a -> a <> [] -> get_scheme (a ++ x3a :: b) = Ok (a, b).
Proof.
  intros a b F N. unfold get_scheme. rewrite scheme_end_of by (assumption || (destruct a; [congruence|cbn [length]; lia])). cbn [rbind plus].
  rewrite first_part, skip_colon. reflexivity.
Qed.

(** ** The query *)
Lemma filter_nin : forall c s, ~ In c s <-> length (filter (beq c) s) = 0%nat.
Proof.
  induction s as [|x s IH]; cbn [filter]; [split; [reflexivity|intros _ []]|]. destruct (beq c x) eqn:E.
  - apply beq_eq in E. subst. split; [intro N; destruct N; left; reflexivity|discriminate].
  - rewrite <- IH. apply beq_neq in E. cbn [In]. split; [intros N I; apply N; right; exact I|intros N [->|I]; [congruence|exact (N I)]].
Qed.
Lemma query_cut : forall s, (if has_suffix [x3f] s && (length (filter (beq x3f) s) =? 1)%nat then removelast s else fst (usplit x3f true s)) = fst (usplit x3f true s).
Proof.
  intro s. destruct (has_suffix [x3f] s) eqn:S; [|reflexivity]. cbn [andb]. destruct (Nat.eqb_spec (length (filter (beq x3f) s)) 1) as [L|]; [|reflexivity].
  apply suffix1_iff in S as (r & ->). rewrite removelast_last. rewrite filter_app, app_length in L. cbn [filter] in L. rewrite beq_refl in L. cbn [length] in L.
  assert (N : ~ In x3f r) by (apply filter_nin; lia).
  assert (E : usplit x3f true (r ++ [x3f]) = (r, [])) by (apply usplit_iff; split; [exact N|right; exists []; auto]). rewrite E. reflexivity.
Qed.
Lemma query_parts : forall s, exists rest query, fst (usplit x3f true s) = rest /\ s = rest ++ query /\ ~ In x3f rest /\ (query = [] \/ starts x3f query).
Proof.
  intro s. destruct (usplit x3f true s) as [a b] eqn:E. apply usplit_iff in E as (N & [(-> & _)|(r & -> & _)]).
  - exists a, []. rewrite app_nil_r. auto.
  - exists a, (x3f :: r). split; [reflexivity|]. split; [reflexivity|]. split; [exact N|]. right. exists r. reflexivity.
Qed.
Lemma query_of : forall rest query, ~ In x3f rest -> query = [] \/ starts x3f query -> fst (usplit x3f true (rest ++ query)) = rest.
Proof.
  intros rest query N [->|(r & ->)].
  - rewrite app_nil_r. assert (E : usplit x3f true rest = (rest, [])) by (apply usplit_iff; auto). rewrite E. reflexivity.
  - assert (E : usplit x3f true (rest ++ x3f :: r) = (rest, r)) by (apply usplit_iff; split; [exact N|right; exists r; auto]). rewrite E. reflexivity.
Qed.
Lemma ctl_iff : forall s, existsb is_ctl s = false <-> forall c, In c s -> ~ control c.
Proof.
  intro s. assert (X : forall c, is_ctl c = true <-> control c) by (intro c; unfold is_ctl, control; lia). split.
  - intros H c I C. apply X in C. assert (existsb is_ctl s = true) by (apply existsb_exists; exists c; auto). congruence.
  - intro H. destruct (existsb is_ctl s) eqn:E; [|reflexivity]. apply existsb_exists in E as (c & I & C). apply X in C. destruct (H c I C).
Qed.

(** ** The URL without its fragment *)
Definition main_text (scheme user host port path query : bytes) : bytes :=
  scheme ++ s2b "://" ++ user ++ host ++ s2b ":" ++ port ++ path ++ query.
Lemma parse_url_some : forall s scheme u h port, parse_url s = Ok (scheme, u) -> scheme <> [] -> split_host_port u = (h, port) -> port <> [] ->
  exists scheme0 user g path query, s = main_text scheme0 user g port path query /\ map to_lower scheme0 = scheme /\
    user_part user /\ host_part g h /\ Forall digit port /\ (path = [] \/ starts x2f path /\ ~ In x3f path /\ well_escaped path) /\
    (query = [] \/ starts x3f query) /\ (forall c, In c s -> ~ control c).
Proof.
  intros s scheme u h port P Ns S N. unfold parse_url in P.
  destruct (existsb is_ctl s) eqn:Ct; [discriminate|]. cbn [negb] in P. pose proof (proj1 (ctl_iff s) Ct) as C. clear Ct.
  destruct (bseq s [x2a]); [injection P as <- _; congruence|].
  apply rbind_Ok in P as ([scheme0 rest0] & G & P). rewrite query_cut in P.
  destruct (query_parts rest0) as (rest & query & Eq & E0 & Nq & Q). rewrite Eq in P. clear Eq.
  destruct (negb (has_prefix [x2f] rest) && negb (bseq (map to_lower scheme0) [])) eqn:Op.
  { exfalso. injection P as _ <-. apply N. injection S as _ <-. reflexivity. }
  match type of P with (if ?b then Err else _) = _ => destruct b; [discriminate P|] end.
  apply rbind_Ok in P as ([host rest'] & P1 & P2). apply rbind_Ok in P2 as (t & W & P2). injection P2 as <- <-.
  assert (Sc : scheme0 <> []) by (intros ->; apply Ns; reflexivity). pose proof (get_scheme_some _ _ _ G Sc) as Es.
  destruct ((negb (bseq (map to_lower scheme0) []) || negb (has_prefix (s2b "///") rest)) && has_prefix (s2b "//") rest) eqn:Au.
  - apply andb_true_iff in Au as [_ Au]. apply prefix_iff in Au as (t0 & Er). rewrite Er in P1. change (skipn 2 (s2b "//" ++ t0)) with t0 in P1.
    destruct (usplit x2f false t0) as [authority path] eqn:Us. apply usplit_iff in Us as (Na & Us).
    apply rbind_Ok in P1 as (host0 & A & P1). injection P1 as -> ->.
    destruct (authority_some _ _ _ _ A S N) as (user & g & -> & F & U & H).
    assert (Et : t0 = (user ++ g ++ x3a :: port) ++ rest') by (destruct Us as [(-> & ->)|(r & -> & ->)]; [rewrite app_nil_r|]; reflexivity).
    exists scheme0, user, g, rest', query. split.
    + rewrite Es, E0, Er, Et. unfold main_text. change (s2b "://") with [x3a; x2f; x2f]. change (s2b "//") with [x2f; x2f]. change (s2b ":") with [x3a]. cbn [app]. rewrite <- !app_assoc. cbn [app]. reflexivity.
    + split; [reflexivity|]. split; [exact U|]. split; [exact H|]. split; [exact F|]. split; [|split; [exact Q|exact C]].
      destruct Us as [(_ & ->)|(r & _ & ->)]; [left; reflexivity|right]. split; [eexists; reflexivity|]. split; [|apply other_unescape; eexists; exact W].
      rewrite Er, Et in Nq. rewrite !nin_app in Nq. tauto.
  - exfalso. injection P1 as <- _. apply N. injection S as _ <-. reflexivity.
Qed.
Lemma parse_url_of : forall scheme user g h port path query, Forall letter scheme -> scheme <> [] ->
  user_part user -> host_part g h -> Forall digit port -> (path = [] \/ starts x2f path /\ ~ In x3f path /\ well_escaped path) ->
  (query = [] \/ starts x3f query) -> (forall c, In c (main_text scheme user g port path query) -> ~ control c) ->
  exists u, parse_url (main_text scheme user g port path query) = Ok (map to_lower scheme, u) /\ split_host_port u = (h, port).
Proof.
  intros scheme user g h port path query L Ns U H F Pa Q C. destruct (authority_of user g h port U H F) as (u & A & S). exists u. split; [|exact S].
  unfold parse_url. rewrite (proj2 (ctl_iff _) C). cbn [negb]. unfold main_text in *.
  set (auth := user ++ g ++ x3a :: port) in *.
  replace (scheme ++ s2b "://" ++ user ++ g ++ s2b ":" ++ port ++ path ++ query) with (scheme ++ x3a :: x2f :: x2f :: (auth ++ path) ++ query)
    by (unfold auth; change (s2b "://") with [x3a; x2f; x2f]; change (s2b ":") with [x3a]; repeat (cbn [app]; rewrite <- app_assoc); reflexivity).
  destruct (bseq _ [x2a]) eqn:St.
  { exfalso. apply bseq_eq in St. apply (f_equal (@length byte)) in St. rewrite app_length in St. cbn [length] in St. lia. }
  rewrite (get_scheme_of scheme _ L Ns). cbn [rbind]. rewrite query_cut.
  assert (Ut : forall c, is_text c = false -> one_of (s2b "-._:~!$&'()*+,;=%@") c = false -> is_letter c = false -> is_dec c = false -> c <> x40 -> ~ In c auth).
  { intros c Tx O Lc Dc At. subst auth. rewrite nin_app. split; [|apply text_nin; [exact Tx|exact (host_port_texts _ _ _ H F)]].
    destruct U as [->|(us & -> & Uc & _)]; [intros []|]. change (s2b "@") with [x40]. rewrite nin_app. split; [|intros [X|[]]; congruence].
    intro I. rewrite Forall_forall in Uc. specialize (Uc c I). unfold user_char in Uc. rewrite <- letter_iff, <- dec_iff, <- one_of_iff in Uc. intuition congruence. }
  assert (Nq : ~ In x3f (x2f :: x2f :: auth ++ path)).
  { intros [X|[X|X]]; try discriminate X. apply in_app_or in X as [X|X]; [revert X; apply Ut; try reflexivity; discriminate|]. destruct Pa as [->|(_ & Pa & _)]; [exact X|exact (Pa X)]. }
  change (x2f :: x2f :: (auth ++ path) ++ query) with ((x2f :: x2f :: auth ++ path) ++ query). rewrite (query_of _ _ Nq Q).
  rewrite (proj2 (prefix1_iff x2f _)) by (eexists; reflexivity). cbn [negb andb].
  assert (Sb : bseq (map to_lower scheme) [] = false) by (apply bseq_neq; destruct scheme; [congruence|discriminate]). rewrite Sb. cbn [negb orb andb].
  rewrite (proj2 (prefix_iff (s2b "//") _)) by (exists (auth ++ path); reflexivity). cbn [skipn].
  assert (Us : usplit x2f false (auth ++ path) = (auth, path)).
  { apply usplit_iff. split; [apply Ut; try reflexivity; discriminate|]. destruct Pa as [->|((r & ->) & _ & _)]; [left; rewrite app_nil_r; auto|right; exists r; auto]. }
  rewrite Us, A. cbn [rbind]. assert (W : well_escaped path) by (destruct Pa as [->|(_ & _ & W)]; [exists []; constructor|exact W]).
  apply other_ok in W as (t & W). rewrite W. reflexivity.
Qed.

(** ** All of it *)
Lemma frag_parts : forall raw u f, usplit x23 true raw = (u, f) -> exists fragment, raw = u ++ fragment /\ ~ In x23 u /\ (fragment = [] /\ f = [] \/ fragment = x23 :: f).
Proof.
  intros raw u f E. apply usplit_iff in E as (N & [(-> & ->)|(r & -> & ->)]).
  - exists []. rewrite app_nil_r. auto.
  - exists (x23 :: r). auto.
Qed.
Lemma known : forall name, name = s2b "https" \/ name = s2b "onion" -> forallb (within 97 122) name = true.
Proof. intros name [-> | ->]; reflexivity. Qed.
Theorem to_peer_iff : forall raw p, to_peer url_parse raw = Ok p <-> peer_url raw p.
Proof.
  intros raw p. rewrite C47_from_url. unfold peer_url. split.
  - intros (scheme & h & port & z & P & (ds & (Nd & Fd) & I) & B & Nz & Nh & Eh & Ep & Sc). unfold url_parse in P.
    destruct (usplit x23 true raw) as [u f] eqn:Fr. destruct (frag_parts _ _ _ Fr) as (fragment & -> & Nf & Fg). clear Fr.
    apply rbind_Ok in P as ([scheme' host] & P1 & P). apply rbind_Ok in P as (t & Wf & P). destruct (split_host_port host) as [hn pt] eqn:S. injection P as -> -> ->.
    assert (Kn : scheme = s2b "https" \/ scheme = s2b "onion") by tauto.
    assert (Ns : scheme <> []) by (destruct Kn as [-> | ->]; discriminate).
    assert (Np : port <> []) by (intros ->; destruct I as [([I|I] & _)|(I & _)]; [congruence|discriminate I|discriminate I]).
    destruct (parse_url_some _ _ _ _ _ P1 Ns S Np) as (scheme0 & user & g & path & query & -> & Lo & U & H & F & Pa & Q & C).
    assert (E : port = ds /\ z = decimal_value 0 ds).
    { destruct port as [|c port]; [congruence|]. inversion F as [|? ? D _]; subst. unfold digit in D.
      destruct I as [([I|I] & ->)|(I & _)]; [auto| |]; injection I as -> _; exfalso; [change (b2n x2b) with 43%N in D|change (b2n x2d) with 45%N in D]; lia. }
    destruct E as [<- ->]. pose proof (decimal_nonneg port F) as Pos. destruct (Z.ltb_spec (decimal_value 0 port) 0) as [|_]; [lia|].
    exists scheme0, user, g, port, path, query, fragment. split; [reflexivity|]. subst scheme. split.
    { destruct Sc as [(E & X)|(E & X)]; [left|right]; (split; [apply lower_all; [reflexivity|exact E]|exact X]). }
    unfold main_text in Nf. rewrite !nin_app in Nf.
    split; [exact U|]. subst h. split; [exact H|]. split; [exact Nh|]. split; [split; assumption|]. split; [exact Ep|]. split.
    { change (2 ^ 63)%N with 9223372036854775808%N. change (2 ^ 63)%Z with 9223372036854775808%Z in B. lia. }
    split; [unfold path_part; destruct Pa as [->|(X & Y & W)]; [left; reflexivity|right; tauto]|].
    split; [unfold query_part; destruct Q as [->|X]; [left; reflexivity|right; tauto]|]. split; [|exact C].
    unfold fragment_part. destruct Fg as [(-> & _)| ->]; [left; reflexivity|right]. exists f. split; [reflexivity|].
    destruct (bseq f []) eqn:Bf; [apply bseq_eq in Bf; subst; exists []; constructor|]. apply other_unescape. exists t. exact Wf.
  - intros (scheme & user & g & port & path & query & fragment & -> & Sc & U & H & Nh & (Nd & F) & Ep & B & Pa & Q & Fg & C).
    fold (main_text scheme user g port path query) in *.
    assert (Kn : exists name, scheme_text scheme name /\ (name = s2b "https" \/ name = s2b "onion") /\
      (name = s2b "https" /\ pe_clear p = true /\ pe_onion p = false \/ name = s2b "onion" /\ pe_clear p = false /\ pe_onion p = true)).
    { destruct Sc as [(X & Y)|(X & Y)]; eexists; (split; [exact X|]); auto. }
    destruct Kn as (name & St & Kn & Sc'). apply known in Kn as Lw. pose proof (scheme_letters _ _ Lw St) as L. apply (lower_all name scheme Lw) in St.
    assert (Ns : scheme <> []) by (intros ->; rewrite <- St in Kn; destruct Kn; discriminate).
    assert (Pa' : path = [] \/ starts x2f path /\ ~ In x3f path /\ well_escaped path) by (destruct Pa as [->|Pa]; [left; reflexivity|right; tauto]).
    assert (Q' : query = [] \/ starts x3f query) by (destruct Q as [->|Q]; [left; reflexivity|right; tauto]).
    destruct (parse_url_of scheme user g (pe_host p) port path query L Ns U H F Pa' Q' C) as (u & P & S).
    exists name, (pe_host p), port, (decimal_value 0 port). split.
    { unfold url_parse. assert (Nf : ~ In x23 (main_text scheme user g port path query)).
      { unfold main_text. rewrite !nin_app. repeat match goal with |- _ /\ _ => split end.
        - intro I. rewrite Forall_forall in L. specialize (L _ I). unfold letter in L. change (b2n x23) with 35%N in L. lia.
        - intros [X|[X|[X|[]]]]; discriminate X.
        - destruct U as [->|(us & -> & Uc & _)]; [intros []|]. rewrite nin_app. split; [|intros [X|[]]; discriminate X].
          intro I. rewrite Forall_forall in Uc. specialize (Uc _ I). unfold user_char in Uc. rewrite <- letter_iff, <- dec_iff, <- one_of_iff in Uc.
          destruct Uc as [X|[X|X]]; discriminate X.
        - apply text_nin; [reflexivity|exact (host_part_texts _ _ H)].
        - intros [X|[]]; discriminate X.
        - apply (digits_nin x23); [reflexivity|exact F].
        - destruct Pa as [->|Pa]; [intros []|tauto].
        - destruct Q as [->|Q]; [intros []|tauto]. }
      destruct Fg as [->|(f & -> & Wf)].
      - assert (Fs : usplit x23 true (main_text scheme user g port path query ++ []) = (main_text scheme user g port path query, [])) by (rewrite app_nil_r; apply usplit_iff; auto).
        rewrite Fs, P. cbn [rbind bseq]. rewrite S, St. reflexivity.
      - assert (Fs : usplit x23 true (main_text scheme user g port path query ++ x23 :: f) = (main_text scheme user g port path query, f)) by (apply usplit_iff; split; [exact Nf|right; exists f; auto]).
        rewrite Fs, P. cbn [rbind]. apply other_ok in Wf as (t & Wf). rewrite Wf. destruct (bseq f []); cbn [rbind]; rewrite S, St; reflexivity. }
    split; [exists port; split; [split; assumption|left; auto]|]. pose proof (decimal_nonneg port F) as Pos.
    change (2 ^ 63)%N with 9223372036854775808%N in B. change (2 ^ 63)%Z with 9223372036854775808%Z. split; [lia|]. split; [lia|]. split; [exact Nh|]. split; [reflexivity|].
    destruct (Z.ltb_spec (decimal_value 0 port) 0) as [|_]; [lia|]. split; [exact Ep|exact Sc'].
Qed.

(** ** No panic *)
Lemma unescape_no_panic : forall m n s, (length s <= n)%nat -> unescape m s <> Panic.
Proof.
  intros m. induction n as [|n IH]; intros s L.
  - destruct s; [discriminate|cbn in L; lia].
  - destruct s as [|c s]; [discriminate|]. cbn [unescape length] in *. destruct (beq c x25).
    + destruct s as [|a [|b s]]; [discriminate|discriminate|]. destruct (unhexdigit a); [|discriminate]. destruct (unhexdigit b); [|discriminate].
      match goal with |- (if ?g then _ else _) <> _ => destruct g end; [|discriminate].
      cbn [length] in L. specialize (IH s ltac:(lia)). destruct (unescape m s); [discriminate|discriminate|congruence].
    + match goal with |- (if ?g then _ else _) <> _ => destruct g end; [|discriminate].
      specialize (IH s ltac:(lia)). destruct (unescape m s); [discriminate|discriminate|congruence].
Qed.
Lemma unesc : forall m s, unescape m s <> Panic. Proof. intros m s. apply (unescape_no_panic m (length s)). lia. Qed.
Lemma bind_no_panic : forall A B (x : res A) (f : A -> res B), x <> Panic -> (forall a, f a <> Panic) -> rbind x f <> Panic.
Proof. intros A B [a| |] f H1 H2; [apply H2|discriminate|congruence]. Qed.
Lemma parse_host_no_panic : forall h, parse_host h <> Panic.
Proof.
  intro h. unfold parse_host. destruct (has_prefix [x5b] h).
  - destruct (cut_last x5d h) as [(a & b)|]; [|discriminate]. destruct (valid_optional_port b); [|discriminate].
    destruct (cut_before (s2b "%25") a) as [(h1 & h2)|]; [|apply unesc].
    apply bind_no_panic; [apply unesc|]. intro x. apply bind_no_panic; [apply unesc|]. intro y. apply bind_no_panic; [apply unesc|]. discriminate.
  - match goal with |- (if ?g then _ else _) <> _ => destruct g end; [apply unesc|discriminate].
Qed.
Lemma authority_no_panic : forall a, parse_authority a <> Panic.
Proof.
  intro a. unfold parse_authority. destruct (cut_last x40 a) as [(u & h)|]; [|apply parse_host_no_panic].
  apply bind_no_panic; [apply parse_host_no_panic|]. intro x. destruct (valid_userinfo u); [|discriminate].
  destruct (cut x3a u) as [(n & p)|]; repeat (apply bind_no_panic; [apply unesc|intro]); discriminate.
Qed.
Lemma scheme_no_panic : forall s i, scheme_end i s <> Panic.
Proof.
  induction s as [|c s IH]; intro i; cbn [scheme_end]; [discriminate|]. destruct (is_letter c); [apply IH|].
  destruct (is_dec c || one_of (s2b "+-.") c); [destruct (i =? 0)%nat; [discriminate|apply IH]|]. destruct (beq c x3a); [destruct (i =? 0)%nat; discriminate|discriminate].
Qed.
Lemma url_no_panic : forall raw, url_parse raw <> Panic.
Proof.
  intro raw. unfold url_parse. destruct (usplit x23 true raw) as [u f]. apply bind_no_panic.
  - unfold parse_url. destruct (negb (existsb is_ctl u)); [|discriminate]. destruct (bseq u [x2a]); [discriminate|].
    apply bind_no_panic.
    + unfold get_scheme. apply bind_no_panic; [apply scheme_no_panic|]. intros [i|]; discriminate.
    + intros [scheme rest]. match goal with |- (if ?g then _ else _) <> _ => destruct g end; [discriminate|].
      match goal with |- (if ?g then _ else _) <> _ => destruct g end; [discriminate|].
      apply bind_no_panic.
      * match goal with |- (if ?g then _ else _) <> _ => destruct g end; [|discriminate].
        match goal with |- (let '(_, _) := ?g in _) <> _ => destruct g end. apply bind_no_panic; [apply authority_no_panic|discriminate].
      * intros [host r]. apply bind_no_panic; [apply unesc|discriminate].
  - intros [scheme host]. apply bind_no_panic; [destruct (bseq f []); [discriminate|apply unesc]|]. intro x.
    destruct (split_host_port host). discriminate.
Qed.
Lemma atoi_no_panic : forall s, atoi s <> Panic.
Proof.
  intro s. unfold atoi. match goal with |- (let '(_, _) := ?g in _) <> _ => destruct g as [neg d] end.
  destruct d; [discriminate|]. destruct (digits_val 0 _); [|discriminate]. cbv zeta.
  match goal with |- (if ?g then _ else _) <> _ => destruct g end; discriminate.
Qed.
Lemma to_peer_no_panic : forall raw, to_peer url_parse raw <> Panic.
Proof.
  intro raw. unfold to_peer. apply bind_no_panic; [apply url_no_panic|]. intros [[scheme host] port]. apply bind_no_panic; [apply atoi_no_panic|].
  intro z. unfold peer_now. destruct (negb (bseq host [])); [|discriminate]. destruct (negb _); [|discriminate].
  destruct (bseq scheme (s2b "https")); [discriminate|]. destruct (bseq scheme (s2b "onion")); discriminate.
Qed.
