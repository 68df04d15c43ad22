From Coq Require Import Lia ZifyBool ZifyNat ZifyN DecimalFacts DecimalN.
From Verif Require Import Base BaseFacts JsonModel PeersModel PeersSpec PeersProofs CodecProofs GrammarSpec GrammarProofs CalendarSpec CalendarProofs UrlModel UrlSpec UrlProofs UrlParts UrlWhole Properties_Outcomes.

(** ** The shortest digits *)
Lemma ntoa_first : forall n, (0 < n)%N -> exists c ds, ntoa n = c :: ds /\ (49 <= b2n c)%N.
Proof.
  intros n P. unfold ntoa. pose proof (Unsigned.to_of (N.to_uint n)) as E. rewrite Unsigned.of_to in E.
  assert (Z0 : N.to_uint n <> Decimal.zero) by (intro X; apply (f_equal N.of_uint) in X; rewrite Unsigned.of_to in X; cbn in X; lia).
  destruct (N.to_uint n) as [|d|d|d|d|d|d|d|d|d|d] eqn:U; cbn [uint_bytes]; try (eexists; eexists; split; [reflexivity|cbn; lia]).
  - discriminate E.
  - exfalso. unfold Decimal.unorm in E. cbn [Decimal.nzhead] in E. destruct (Decimal.nzhead d) eqn:H.
    + apply Z0. exact E.
    + apply (nzhead_nonzero d u). exact H.
    + discriminate E.
    + discriminate E.
    + discriminate E.
    + discriminate E.
    + discriminate E.
    + discriminate E.
    + discriminate E.
    + discriminate E.
    + discriminate E.
Qed.
Lemma ntoa_value : forall n, decimal_value 0 (ntoa n) = Z.of_N n /\ Forall digit (ntoa n).
Proof. intro n. pose proof (digits_val_ntoa n) as H. apply digits_val_iff in H as [F H]. auto. Qed.
Lemma ntoa_shortest : forall n ds, (0 < n)%N -> Forall digit ds -> decimal_value 0 ds = Z.of_N n -> length (ntoa n) <= length ds.
Proof.
  intros n ds P F E. destruct (ntoa_value n) as [V D]. destruct (ntoa_first n P) as (c & r & Er & C). rewrite Er in *. inversion D as [|? ? Dc Dr]; subst. cbn [decimal_value length] in *.
  pose proof (value_bound r (10 * 0 + (Z.of_N (b2n c) - 48)) Dr ltac:(lia)) as [L _]. pose proof (value_bound ds 0 F ltac:(lia)) as [_ U].
  destruct (Nat.le_gt_cases (S (length r)) (length ds)) as [H|H]; [exact H|]. exfalso.
  assert (X : (10 ^ Z.of_nat (length ds) <= 10 ^ Z.of_nat (length r))%Z) by (apply Z.pow_le_mono_r; lia).
  assert (Y : (0 < 10 ^ Z.of_nat (length r))%Z) by (apply Z.pow_pos_nonneg; lia). rewrite V in L. rewrite E in U. revert L U X Y.
  generalize (10 ^ Z.of_nat (length r))%Z, (10 ^ Z.of_nat (length ds))%Z. intros. nia.
Qed.

(** ** Reading a written URL *)
Lemma built_shape : forall p, built_peer p -> pe_host p <> [] /\ (0 < pe_port p < 2 ^ 64)%N /\
  (pe_clear p = true /\ pe_onion p = false /\ to_url p = s2b "https" ++ s2b "://" ++ pe_host p ++ s2b ":" ++ ntoa (pe_port p) \/
   pe_clear p = false /\ pe_onion p = true /\ to_url p = s2b "onion" ++ s2b "://" ++ pe_host p ++ s2b ":" ++ ntoa (pe_port p)).
Proof.
  intros p (host & port & clear & onion & B & H). unfold peer_now in H. destruct (bseq host []) eqn:Hh; [discriminate|]. apply bseq_neq in Hh. cbn [negb] in H.
  destruct (N.eqb_spec port 0) as [|Np]; [discriminate|]. cbn [negb] in H.
  destruct clear; [|destruct onion; [|discriminate]]; injection H as <-; cbn [pe_host pe_port pe_clear pe_onion]; (split; [exact Hh|]); (split; [lia|]); [left|right]; auto.
Qed.
Lemma scheme_same : forall name, forallb (within 97 122) name = true -> scheme_text name name.
Proof. intros name F. apply lower_all; [exact F|]. induction name as [|c name IH]; [reflexivity|]. cbn [forallb] in F. apply andb_true_iff in F as [D F]. cbn [map]. rewrite (IH F). f_equal. apply lower_iff; auto. Qed.
Lemma host_not_control : forall c, host_byte c -> ~ control c.
Proof.
  intros c [[H|[H|[->|H]]]|H]; unfold control.
  - unfold letter in H. lia.
  - unfold digit in H. lia.
  - change (b2n x22) with 34%N. lia.
  - intro X. assert (Y : forallb (fun c => (32 <=? b2n c) && negb (b2n c =? 127))%N (s2b "!$&'()*+,;=:[]<>-_.~") = true) by reflexivity.
    rewrite forallb_forall in Y. specialize (Y c H). lia.
  - lia.
Qed.
Lemma host_not_percent : forall c, host_byte c -> c <> x25.
Proof.
  intros c H ->. destruct H as [H|H]; [|change (b2n x25) with 37%N in H; lia]. apply escape_iff in H. discriminate H.
Qed.
Definition wanted (p : peer) : bytes := if pe_clear p then s2b "https" else s2b "onion".
Lemma url_shape : forall p, built_peer p -> to_url p = wanted p ++ s2b "://" ++ pe_host p ++ s2b ":" ++ ntoa (pe_port p) /\
  (wanted p = s2b "https" /\ pe_clear p = true /\ pe_onion p = false \/ wanted p = s2b "onion" /\ pe_clear p = false /\ pe_onion p = true).
Proof.
  intros p B. destruct (built_shape p B) as (_ & _ & [(C & O & E)|(C & O & E)]); unfold wanted; rewrite C; auto.
Qed.
Lemma scheme_length : forall s name, scheme_text s name -> length s = length name.
Proof. unfold scheme_text. induction 1; cbn [length]; congruence. Qed.
Theorem back_iff : forall p, built_peer p -> (to_peer url_parse (to_url p) = Ok p <-> safe_host (pe_host p) /\ (pe_port p < 2 ^ 63)%N).
Proof.
  intros p B. rewrite to_peer_iff. destruct (url_shape p B) as [E W]. destruct (built_shape p B) as (Nh & Pp & _). split.
  - intros (scheme & user & g & port & path & query & fragment & Er & Sc & U & H & _ & (Nd & F) & Ep & Bp & Pa & Q & Fg & C).
    split; [|apply Bp]. rewrite E in Er.
    assert (Sl : length scheme = length (wanted p)).
    { destruct Sc as [(S & C1 & _)|(S & C1 & _)]; rewrite (scheme_length _ _ S); unfold wanted; rewrite C1; reflexivity. }
    rewrite <- app_assoc in Er. apply app_inj_len in Er; [|symmetry; exact Sl]. destruct Er as [_ Er]. rewrite <- app_assoc in Er. apply app_inv_head in Er.
    rewrite <- !app_assoc in Er. pose proof (f_equal (@length byte) Er) as Len. rewrite !app_length in Len.
    pose proof (ntoa_shortest (pe_port p) port (proj1 Bp) F (eq_sym Ep)) as Short.
    assert (Hl : length (pe_host p) <= length g /\ (length g = length (pe_host p) -> g = pe_host p /\ Forall host_byte g /\ ~ starts x5b g)).
    { destruct H as [[Ns D]|(a & z & a' & z' & -> & D1 & D2 & Eh & _)].
      - split; [exact (decodes_length _ _ _ _ D)|]. intro L. destruct (decodes_same _ _ _ _ D (eq_sym L)) as [-> X]. auto.
      - apply decodes_length in D1. apply decodes_length in D2. rewrite Eh. cbn [length]. rewrite !app_length. cbn [length]. split; [lia|]. intro L. lia. }
    destruct Hl as [Hl Hs]. destruct Hs as (-> & X & Y); [lia|]. split; [exact Nh|]. split; [exact X|exact Y].
  - intros [(_ & Fh & Ns) Bp]. destruct (ntoa_value (pe_port p)) as [V D].
    exists (wanted p), [], (pe_host p), (ntoa (pe_port p)), [], [], []. rewrite E. rewrite !app_nil_r. split; [reflexivity|]. split.
    { destruct W as [(-> & X)|(-> & X)]; [left|right]; (split; [apply scheme_same; reflexivity|exact X]). }
    split; [left; reflexivity|]. split.
    { left. split; [exact Ns|]. apply decodes_self. eapply Forall_impl; [|exact Fh]. intros c Hc. split; [exact Hc|apply host_not_percent; exact Hc]. }
    split; [exact Nh|]. split; [split; [apply ntoa_nonnil|exact D]|]. split; [rewrite V; reflexivity|]. split; [lia|].
    split; [left; reflexivity|]. split; [left; reflexivity|]. split; [left; reflexivity|].
    intros c I. rewrite Forall_forall in Fh, D. rewrite !in_app_iff in I. destruct I as [I|[I|[[]|[I|[I|I]]]]].
    + unfold control. destruct W as [(W & _)|(W & _)]; rewrite W in I; cbn in I; repeat destruct I as [<-|I]; try contradiction; cbn; lia.
    + unfold control. cbn in I. repeat destruct I as [<-|I]; try contradiction; cbn; lia.
    + apply host_not_control. auto.
    + unfold control. cbn in I. destruct I as [<-|[]]. cbn. lia.
    + specialize (D c I). unfold digit in D. unfold control. lia.
Qed.

(** ** The contract that was assumed of net/url *)
Lemma plain_host_byte : forall c, plain_char c = true -> host_byte c /\ c <> x5b.
Proof.
  intros c H. unfold plain_char in H. split.
  - left. unfold host_ascii, letter, digit. assert (X : (97 <= b2n c <= 122 \/ 48 <= b2n c <= 57 \/ b2n c = 45 \/ b2n c = 46)%N) by lia.
    destruct X as [X|[X|[X|X]]]; [left; left; exact X|right; left; exact X|right; right; right|right; right; right].
    + assert (c = x2d) by (apply b2n_inj; exact X). subst. cbn. tauto.
    + assert (c = x2e) by (apply b2n_inj; exact X). subst. cbn. tauto.
  - intros ->. vm_compute in H. discriminate H.
Qed.
Theorem contract_met : url_contract url_parse.
Proof.
  intros scheme host port S [Hn Hp] Np Dp.
  assert (F : Forall digit port) by (rewrite forallb_forall in Dp; rewrite Forall_forall; intros c I; specialize (Dp c I); unfold digit; lia).
  assert (Fh : Forall (fun c => host_byte c /\ c <> x5b) host) by (rewrite forallb_forall in Hp; rewrite Forall_forall; intros c I; apply plain_host_byte; auto).
  assert (H : host_part host host).
  { left. split; [intros (r & ->); inversion Fh as [|? ? X _]; subst; apply (proj2 X); reflexivity|].
    apply decodes_self. eapply Forall_impl; [|exact Fh]. intros c [X _]. split; [exact X|apply host_not_percent; exact X]. }
  assert (Lw : forallb (within 97 122) scheme = true) by (destruct S as [-> | ->]; reflexivity).
  pose proof (scheme_letters _ _ Lw (scheme_same _ Lw)) as L. assert (Ns : scheme <> []) by (destruct S as [-> | ->]; discriminate).
  assert (Ctl : forall c, In c (main_text scheme [] host port [] []) -> ~ control c).
  { intros c I. unfold main_text in I. rewrite !app_nil_r, app_nil_l in I. rewrite !in_app_iff in I. rewrite Forall_forall in L, Fh, F. destruct I as [I|[I|[I|[I|I]]]].
    - specialize (L c I). unfold letter in L. unfold control. lia.
    - unfold control. cbn in I. repeat destruct I as [<-|I]; try contradiction; cbn; lia.
    - apply host_not_control. apply Fh. exact I.
    - unfold control. cbn in I. destruct I as [<-|[]]. cbn. lia.
    - specialize (F c I). unfold digit in F. unfold control. lia. }
  destruct (parse_url_of scheme [] host host port [] [] L Ns (or_introl eq_refl) H F (or_introl eq_refl) (or_introl eq_refl) Ctl) as (u & P & Sp).
  assert (Em : scheme ++ s2b "://" ++ host ++ s2b ":" ++ port = main_text scheme [] host port [] []) by (unfold main_text; rewrite !app_nil_r; reflexivity).
  unfold url_parse. assert (Nf : ~ In x23 (main_text scheme [] host port [] [])).
  { rewrite <- Em. rewrite !nin_app. repeat match goal with |- _ /\ _ => split end.
    - intro I. rewrite Forall_forall in L. specialize (L _ I). unfold letter in L. change (b2n x23) with 35%N in L. lia.
    - intros [X|[X|[X|[]]]]; discriminate X.
    - intro I. rewrite Forall_forall in Fh. specialize (Fh _ I). destruct Fh as [[X|X] _]; [apply escape_iff in X; discriminate X|change (b2n x23) with 35%N in X; lia].
    - intros [X|[]]; discriminate X.
    - apply (digits_nin x23); [reflexivity|exact F]. }
  assert (Fs : usplit x23 true (main_text scheme [] host port [] []) = (main_text scheme [] host port [] [], [])) by (apply usplit_iff; auto).
  rewrite Em, Fs, P. cbn [rbind bseq]. rewrite Sp. do 3 f_equal. apply lower_all; [exact Lw|apply scheme_same; exact Lw].
Qed.

(** ** Peers that are read back as others *)
Lemma user_char_plain : forall c, user_char c -> ~ control c.
Proof.
  intros c [X|[X|X]]; unfold control; [unfold letter in X; lia|unfold digit in X; lia|].
  assert (Y : forallb (fun c => (32 <=? b2n c) && negb (b2n c =? 127))%N (s2b "-._:~!$&'()*+,;=%@") = true) by reflexivity.
  rewrite forallb_forall in Y. specialize (Y c X). lia.
Qed.
(** a peer whose host is any text: its URL, when that has another peer's shape *)
Lemma read_as : forall q user g path, built_peer q -> (pe_port q < 2 ^ 63)%N -> user_part user -> host_part g (pe_host q) -> path_part path ->
  Forall (fun c => ~ control c) user -> Forall (fun c => ~ control c) g -> Forall (fun c => ~ control c) path ->
  to_peer url_parse (wanted q ++ s2b "://" ++ user ++ g ++ s2b ":" ++ ntoa (pe_port q) ++ path) = Ok q.
Proof.
  intros q user g path B Bp U H Pa Cu Cg Cp. destruct (built_shape q B) as (Nh & Pp & _). destruct (url_shape q B) as [_ Wp].
  apply to_peer_iff. destruct (ntoa_value (pe_port q)) as [V D].
  exists (wanted q), user, g, (ntoa (pe_port q)), path, [], []. rewrite !app_nil_r. split; [reflexivity|]. split.
  { destruct Wp as [(-> & X)|(-> & X)]; [left|right]; (split; [apply scheme_same; reflexivity|exact X]). }
  split; [exact U|]. split; [exact H|]. split; [exact Nh|]. split; [split; [apply ntoa_nonnil|exact D]|]. split; [rewrite V; reflexivity|]. split; [split; [exact (proj1 Pp)|exact Bp]|].
  split; [exact Pa|]. split; [left; reflexivity|]. split; [left; reflexivity|].
  intros c I. rewrite Forall_forall in Cu, Cg, Cp, D. rewrite !in_app_iff in I. destruct I as [I|[I|[I|[I|[I|[I|I]]]]]]; auto.
  - unfold control. destruct Wp as [(W' & _)|(W' & _)]; rewrite W' in I; cbn in I; repeat destruct I as [<-|I]; try contradiction; cbn; lia.
  - unfold control. cbn in I. repeat destruct I as [<-|I]; try contradiction; cbn; lia.
  - unfold control. cbn in I. destruct I as [<-|[]]. cbn. lia.
  - specialize (D c I). unfold digit in D. unfold control. lia.
Qed.
Lemma with_host : forall h q, built_peer q -> h <> [] -> forall port, (0 < port < 2 ^ 64)%N -> built_peer (Peer h port (pe_clear q) (pe_onion q)) /\
  to_url (Peer h port (pe_clear q) (pe_onion q)) = wanted q ++ s2b "://" ++ h ++ s2b ":" ++ ntoa port.
Proof.
  intros h q B Nh port P. assert (B' : built_peer (Peer h port (pe_clear q) (pe_onion q))).
  { destruct (built_shape q B) as (_ & _ & [(C & O & _)|(C & O & _)]); rewrite C, O; [exists h, port, true, false|exists h, port, false, true]; (split; [lia|]); unfold peer_now;
    (destruct (bseq h []) eqn:X; [apply bseq_eq in X; congruence|]); (destruct (N.eqb_spec port 0); [lia|]); reflexivity. }
  split; [exact B'|]. destruct (url_shape _ B') as [E _]. exact E.
Qed.
Lemma safe_part : forall h, safe_host h -> host_part h h.
Proof. intros h (_ & Fh & Ns). left. split; [exact Ns|]. apply decodes_self. eapply Forall_impl; [|exact Fh]. intros c Hc. split; [exact Hc|apply host_not_percent; exact Hc]. Qed.
Lemma bytes_plain : forall h, Forall host_byte h -> Forall (fun c => ~ control c) h.
Proof. intros h F. eapply Forall_impl; [|exact F]. exact host_not_control. Qed.
Theorem bracket_read : forall q, built_peer q -> Forall host_byte (pe_host q) -> (pe_port q < 2 ^ 63)%N ->
  to_peer url_parse (to_url (Peer (s2b "[" ++ pe_host q ++ s2b "]") (pe_port q) (pe_clear q) (pe_onion q))) = Ok q.
Proof.
  intros q B F Bp. destruct (built_shape q B) as (Nh & Pp & _).
  destruct (with_host (s2b "[" ++ pe_host q ++ s2b "]") q B ltac:(discriminate) (pe_port q) Pp) as [_ E]. rewrite E.
  pose proof (read_as q [] (s2b "[" ++ pe_host q ++ s2b "]") [] B Bp (or_introl eq_refl)) as R. rewrite !app_nil_r in R. cbn [app] in R. apply R.
  - right. exists (pe_host q), [], (pe_host q), []. split; [reflexivity|]. split; [|split; [constructor|split; [symmetry; apply app_nil_r|split; [left; reflexivity|]]]].
    + apply decodes_self. eapply Forall_impl; [|exact F]. intros c Hc. split; [exact Hc|apply host_not_percent; exact Hc].
    + intros (l & r & X). rewrite X in F. rewrite !Forall_app in F. destruct F as (_ & F & _). inversion F as [|? ? Y _]; subst. apply host_not_percent in Y. apply Y. reflexivity.
  - left. reflexivity.
  - constructor.
  - change (s2b "[" ++ pe_host q ++ s2b "]") with (x5b :: pe_host q ++ [x5d]). constructor; [unfold control; cbn; lia|]. rewrite Forall_app. split; [exact (bytes_plain _ F)|].
    constructor; [unfold control; cbn; lia|constructor].
  - constructor.
Qed.
Theorem path_read : forall q rest port, built_peer q -> safe_host (pe_host q) -> (pe_port q < 2 ^ 63)%N -> Forall host_byte rest -> (0 < port < 2 ^ 64)%N ->
  to_peer url_parse (to_url (Peer (pe_host q ++ s2b ":" ++ ntoa (pe_port q) ++ s2b "/" ++ rest) port (pe_clear q) (pe_onion q))) = Ok q.
Proof.
  intros q rest port B S Bp F P.
  destruct (with_host (pe_host q ++ s2b ":" ++ ntoa (pe_port q) ++ s2b "/" ++ rest) q B ltac:(destruct S as (N & _); destruct (pe_host q); [congruence|discriminate]) port P) as [_ E]. rewrite E.
  pose proof (read_as q [] (pe_host q) (s2b "/" ++ rest ++ s2b ":" ++ ntoa port) B Bp (or_introl eq_refl) (safe_part _ S)) as R. cbn [app] in R.
  assert (G : forall x, (pe_host q ++ s2b ":" ++ ntoa (pe_port q) ++ s2b "/" ++ rest) ++ x = pe_host q ++ s2b ":" ++ ntoa (pe_port q) ++ s2b "/" ++ rest ++ x) by (intro; rewrite <- !app_assoc; reflexivity).
  rewrite G. destruct (ntoa_value port) as [_ D]. apply R.
  - right. assert (N : forall c, is_text c = false -> c <> x2f -> ~ In c (s2b "/" ++ rest ++ s2b ":" ++ ntoa port)).
    { intros c T Nc. rewrite !nin_app. split; [intros [X|[]]; apply Nc; symmetry; exact X|].
      assert (Nr : ~ In c rest) by (apply text_nin; [exact T|]; eapply Forall_impl; [|exact F]; intros d Hd; left; exact Hd).
      split; [exact Nr|]. split; [intros [X|[]]; subst; discriminate T|]. apply text_nin; [exact T|]. eapply Forall_impl; [|exact D]. intros d Hd. left. apply digit_host. exact Hd. }
    split; [eexists; reflexivity|]. split; [apply N; [reflexivity|discriminate]|]. split; [apply N; [reflexivity|discriminate]|].
    exists (s2b "/" ++ rest ++ s2b ":" ++ ntoa port). apply decodes_self.
    change (s2b "/" ++ rest ++ s2b ":" ++ ntoa port) with (x2f :: rest ++ x3a :: ntoa port). constructor; [split; [exact I|discriminate]|]. rewrite Forall_app. split.
    + eapply Forall_impl; [|exact F]. intros d Hd. split; [exact I|apply host_not_percent; exact Hd].
    + constructor; [split; [exact I|discriminate]|]. eapply Forall_impl; [|exact D]. intros d Hd. split; [exact I|apply digit_host; exact Hd].
  - constructor.
  - apply bytes_plain. apply S.
  - change (s2b "/" ++ rest ++ s2b ":" ++ ntoa port) with (x2f :: rest ++ x3a :: ntoa port). constructor; [unfold control; cbn; lia|]. rewrite Forall_app. split; [exact (bytes_plain _ F)|].
    constructor; [unfold control; cbn; lia|]. eapply Forall_impl; [|exact D]. intros d Hd. unfold digit in Hd. unfold control. lia.
Qed.
Theorem user_read_peer : forall q u, built_peer q -> safe_host (pe_host q) -> (pe_port q < 2 ^ 63)%N -> Forall user_char u -> well_escaped u ->
  to_peer url_parse (to_url (Peer (u ++ s2b "@" ++ pe_host q) (pe_port q) (pe_clear q) (pe_onion q))) = Ok q.
Proof.
  intros q u B S Bp Uc W. destruct (built_shape q B) as (_ & Pp & _).
  destruct (with_host (u ++ s2b "@" ++ pe_host q) q B ltac:(destruct u; discriminate) (pe_port q) Pp) as [_ E]. rewrite E.
  pose proof (read_as q (u ++ s2b "@") (pe_host q) [] B Bp) as R. rewrite !app_nil_r in R.
  assert (G : forall x, (u ++ s2b "@" ++ pe_host q) ++ x = (u ++ s2b "@") ++ pe_host q ++ x) by (intro; rewrite <- !app_assoc; reflexivity).
  rewrite G. apply R.
  - right. exists u. auto.
  - exact (safe_part _ S).
  - left. reflexivity.
  - rewrite Forall_app. split; [eapply Forall_impl; [|exact Uc]; exact user_char_plain|]. constructor; [unfold control; cbn; lia|constructor].
  - apply bytes_plain. apply S.
  - constructor.
Qed.
