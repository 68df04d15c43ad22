(** Which texts are read as private keys. *)
From Coq Require Import ZArith Lia ZifyBool ZifyNat ZifyN.
From Verif Require Import Base BaseFacts Edwards25519Model LittleEndian KeygenModel KeygenProofs NumberTheory CancelModel RsaModel RsaSpec RsaNumbers RsaCrypt RsaText.
Local Open Scope Z_scope.

(** ** headers *)
Definition sept (acc : Z) (b : bytes) : Z := fold_left (fun acc c => acc * 128 + Z.of_N (b2n c) mod 128) b acc.
Lemma base128_iff : forall b s acc t rest, (s <= 5)%nat ->
  (base128 s acc b = Ok (t, rest) <->
   exists ds c, b = ds ++ c :: rest /\ Forall (fun d => 128 <= b2n d)%N ds /\ (b2n c < 128)%N /\ (s + length ds < 5)%nat /\
     t = sept acc (ds ++ [c]) /\ t <= 2 ^ 31 - 1).
Proof.
  induction b as [|x b IH]; intros s acc t rest Hs.
  - split; [discriminate|]. intros (ds & c & H & _). destruct ds; discriminate H.
  - cbn [base128]. destruct (Nat.eqb_spec s 5) as [E|E].
    + split; [discriminate|]. intros (ds & c & _ & _ & _ & L & _). lia.
    + destruct (N.ltb_spec (b2n x) 128) as [L|L].
      * split.
        -- destruct (Z.ltb_spec (2 ^ 31 - 1) (acc * 128 + b2z x mod 128)) as [X|X]; [discriminate|]. intro H.
           assert (Q : acc * 128 + b2z x mod 128 = t /\ b = rest) by (split; congruence). destruct Q as [<- <-].
           exists [], x. split; [reflexivity|]. split; [constructor|]. split; [exact L|]. split; [cbn; lia|]. split; [reflexivity|lia].
        -- intros (ds & c & Eb & F & Lc & Ls & -> & Lt). destruct ds as [|d ds].
           ++ cbn [app] in Eb. assert (Q : x = c /\ b = rest) by (split; congruence). destruct Q as [-> ->].
              cbn [app sept fold_left] in *. change (Z.of_N (b2n c)) with (b2z c) in *.
              destruct (Z.ltb_spec (2 ^ 31 - 1) (acc * 128 + b2z c mod 128)) as [X|X]; [lia|]. reflexivity.
           ++ exfalso. cbn [app] in Eb. assert (x = d) by congruence. subst d. inversion F; subst. lia.
      * rewrite IH by lia. split.
        -- intros (ds & c & -> & F & Lc & Ls & -> & Lt). exists (x :: ds), c. split; [reflexivity|]. split; [constructor; [exact L|exact F]|].
           split; [exact Lc|]. split; [cbn [length]; lia|]. split; [reflexivity|exact Lt].
        -- intros (ds & c & Eb & F & Lc & Ls & -> & Lt). destruct ds as [|d ds].
           ++ exfalso. cbn [app] in Eb. assert (x = c) by congruence. subst c. lia.
           ++ cbn [app] in Eb. assert (Q : x = d /\ b = ds ++ c :: rest) by (split; congruence). destruct Q as [-> ->].
              inversion F; subst. exists ds, c. split; [reflexivity|]. split; [assumption|]. split; [exact Lc|]. cbn [length] in Ls. split; [lia|].
              split; [reflexivity|exact Lt].
Qed.
Lemma heading_iff : forall b, (exists h inner, parse_header b = Ok (h, inner)) <-> exists c, heading c b.
Proof.
  intros [|c b].
  - split; [intros (h & i & H); discriminate H|]. intros (c & t & n & l & rest & H & _). discriminate H.
  - cbn [parse_header].
    assert (M : (b2n c mod 32 =? 31)%N = (b2z c mod 32 =? 31)).
    { unfold b2z. change 32 with (Z.of_N 32). rewrite <- N2Z.inj_mod. destruct (N.eqb_spec (b2n c mod 32) 31) as [->|X]; [reflexivity|].
      symmetry. apply Z.eqb_neq. lia. }
    split.
    + intros (h & inner & H). apply rbind_Ok in H as ((tg & b1) & Ht & H). apply rbind_Ok in H as ((n & b2) & Hn & H). clear H.
      apply parse_length_iff in Hn as (m & l & -> & -> & S & Lo). exists c. unfold heading. rewrite M.
      destruct (b2z c mod 32 =? 31).
      * apply rbind_Ok in Ht as ((t & b3) & Hb & Ht). destruct (Z.ltb_spec t 31) as [X|X]; [discriminate|].
        assert (Q : t = tg /\ b3 = l ++ b2) by (split; congruence). destruct Q as [-> ->].
        apply base128_iff in Hb as (ds & d & -> & F & Ld & Ls & Et & Lt); [|lia].
        exists (ds ++ [d]), m, l, b2. split; [rewrite <- app_assoc; reflexivity|]. split; [|split; [exact S|exact Lo]].
        exists ds, d. split; [reflexivity|]. split; [exact F|]. split; [exact Ld|]. split; [rewrite app_length; cbn [length]; lia|].
        change (septets (ds ++ [d])) with (sept 0 (ds ++ [d])). lia.
      * assert (Eb : b = l ++ b2) by congruence. subst b. exists [], m, l, b2. auto.
    + intros (c' & t & n & l & rest & Eb & Ht & S & Lo). assert (Q : c = c' /\ b = t ++ l ++ rest) by (split; congruence). destruct Q as [<- ->].
      rewrite M in Ht. assert (Hn : parse_length (l ++ rest) = Ok (Z.of_nat n, rest)) by (apply parse_length_iff; exists n, l; auto).
      destruct (b2z c mod 32 =? 31).
      * destruct Ht as (ds & d & -> & F & Ld & Ls & Lt & Lt').
        assert (Hb : base128 0 0 ((ds ++ [d]) ++ l ++ rest) = Ok (septets (ds ++ [d]), l ++ rest)).
        { apply base128_iff; [lia|]. exists ds, d. rewrite app_length in Ls. cbn [length] in Ls. split; [rewrite <- app_assoc; reflexivity|].
          split; [exact F|]. split; [exact Ld|]. split; [lia|]. split; [reflexivity|exact Lt']. }
        rewrite Hb. cbn [rbind]. destruct (Z.ltb_spec (septets (ds ++ [d])) 31); [lia|]. cbn [rbind]. rewrite Hn. cbn [rbind]. eauto.
      * subst t. cbn [app rbind]. rewrite Hn. cbn [rbind]. eauto.
Qed.
Lemma heading_first : forall c b, heading c b -> exists b', b = c :: b'.
Proof. intros c b (t & n & l & rest & -> & _). eauto. Qed.

(** an optional field *)
Lemma field_iff : forall A (conv : bytes -> res A) tag compound t b o rest, tag_byte tag compound t ->
  (parse_field tag compound true conv b = Ok (o, rest) <->
   (o = None /\ rest = b /\ left_out t b) \/
   exists content e a, o = Some a /\ b = e ++ rest /\ element t content e /\ short (length content) /\ conv content = Ok a).
Proof.
  intros A conv tag compound t b o rest T. split.
  - intro H. unfold parse_field in H. destruct b as [|x y].
    { left. split; [congruence|]. split; [congruence|]. left. reflexivity. }
    remember (x :: y) as b eqn:Eb. apply rbind_Ok in H as ((h & inner) & Hh & H).
    destruct (is_header tag compound h) eqn:I; cbn [negb] in H.
    + right. destruct (proj1 (header_iff tag compound t b h inner T) (conj Hh I)) as (b' & Eb' & Hl & _).
      destruct (Z.ltb_spec (Z.of_nat (length inner)) (hd_length h)) as [L|L]; [discriminate|]. apply rbind_Ok in H as (a & Ha & H).
      assert (Q : Some a = o /\ skipn (Z.to_nat (hd_length h)) inner = rest) by (split; congruence). destruct Q as [<- <-].
      clear Eb H. subst b. apply parse_length_iff in Hl as (n & l & -> & Hn & S & Lo). rewrite Hn, Nat2Z.id in *.
      exists (firstn n inner), (t :: l ++ firstn n inner), a. split; [reflexivity|]. split; [cbn [app]; rewrite <- app_assoc, firstn_skipn; reflexivity|].
      assert (Ln : length (firstn n inner) = n) by (rewrite firstn_length; lia).
      split; [exists l; rewrite Ln; split; [exact Lo|reflexivity]|]. split; [rewrite Ln; exact S|exact Ha].
    + left. split; [congruence|]. split; [congruence|]. right.
      destruct (proj1 (heading_iff b) (ex_intro _ h (ex_intro _ inner Hh))) as (c & Hc). exists c. split; [|exact Hc].
      intros ->. destruct Hc as (t' & n & l & r & E & Ht & S & Lo).
      assert (t' = []) as ->. { destruct T as [(_ & _ & ->)|(_ & _ & ->)]; exact Ht. }
      cbn [app] in E. assert (Hn : parse_length (l ++ r) = Ok (Z.of_nat n, r)) by (apply parse_length_iff; exists n, l; auto).
      assert (Z1 : parse_header b = Ok (Header 0 compound tag (Z.of_nat n), r) /\ is_header tag compound (Header 0 compound tag (Z.of_nat n)) = true).
      { apply (header_iff tag compound t); [exact T|]. exists (l ++ r). cbn [hd_length]. auto. }
      destruct Z1 as [Z1 Z2]. assert (h = Header 0 compound tag (Z.of_nat n)) by congruence. subst h. congruence.
  - intros [(-> & -> & [->|(c & Nc & Hc)])|(content & e & a & -> & -> & El & S & Ha)].
    + reflexivity.
    + destruct (heading_first c b Hc) as (y & Eb). destruct (proj2 (heading_iff b) (ex_intro _ c Hc)) as (h & inner & Hh).
      unfold parse_field. rewrite Hh. cbn [rbind]. destruct (is_header tag compound h) eqn:I.
      * exfalso. destruct (proj1 (header_iff tag compound t b h inner T) (conj Hh I)) as (b' & Eb' & _). apply Nc. congruence.
      * cbn [negb]. rewrite Eb. reflexivity.
    + rewrite (field_element _ conv tag compound true t content e T El S). rewrite Ha. reflexivity.
Qed.
Lemma skip_iff : forall b o rest, skip_big b = Ok (o, rest) -> maybe_integer b rest.
Proof.
  intros b o rest H. apply (field_iff _ parse_big 2 false x02 _ _ _ tag2) in H as [(_ & -> & L)|(c & e & a & _ & -> & El & _ & Ha)].
  - left. auto.
  - right. exists a, e. split; [|reflexivity]. exists c. split; [apply parse_big_iff; exact Ha|exact El].
Qed.
Lemma skip_ok : forall b rest, maybe_integer b rest -> short (length b) -> exists o, skip_big b = Ok (o, rest).
Proof.
  intros b rest [[L ->]|(z & e & I & ->)] S.
  - exists None. apply (field_iff _ parse_big 2 false x02 _ _ _ tag2). left. auto.
  - exists (Some z). apply skip_big_ok; [exact I|]. rewrite app_length in S. unfold short in *. lia.
Qed.
Lemma maybe_shorter : forall b rest, maybe_integer b rest -> (length rest <= length b)%nat.
Proof. intros b rest [[_ ->]|(z & e & _ & ->)]; [lia|]. rewrite app_length. lia. Qed.

(** ** further primes *)
Lemma additional_inv : forall b p, parse_additional b = Ok p -> exists x y c junk, integers [p; x; y] c /\ b = c ++ junk.
Proof.
  intros b p H. unfold parse_additional in H. apply rbind_Ok in H as ((p' & b1) & R1 & H). apply rbind_Ok in H as ((x & b2) & R2 & H).
  apply rbind_Ok in H as ((y & b3) & R3 & H). assert (p' = p) by congruence. subst p'. clear H.
  apply read_big_inv in R1 as (e1 & -> & I1). apply read_big_inv in R2 as (e2 & -> & I2). apply read_big_inv in R3 as (e3 & -> & I3).
  exists x, y, (e1 ++ e2 ++ e3 ++ []), b3. split.
  - exists e1, (e2 ++ e3 ++ []). split; [reflexivity|]. split; [exact I1|]. exists e2, (e3 ++ []). split; [reflexivity|]. split; [exact I2|].
    exists e3, []. split; [reflexivity|]. split; [exact I3|reflexivity].
  - rewrite app_nil_r, <- !app_assoc. reflexivity.
Qed.
Lemma additional_ok : forall x y c junk p, integers [p; x; y] c -> short (length c) -> parse_additional (c ++ junk) = Ok p.
Proof.
  intros x y c junk p (x1 & y1 & -> & I1 & x2 & y2 & -> & I2 & x3 & y3 & -> & I3 & ->) S. rewrite app_nil_r, !app_length in S. unfold short in S.
  unfold parse_additional. rewrite app_nil_r, <- !app_assoc.
  rewrite (read_big_ok p) by (try exact I1; unfold short; lia). cbn [rbind]. rewrite (read_big_ok x) by (try exact I2; unfold short; lia). cbn [rbind].
  rewrite (read_big_ok y) by (try exact I3; unfold short; lia). reflexivity.
Qed.
Lemma infos_inv : forall fuel b n ps, count_elements fuel b = Ok n -> read_elements parse_additional n b = Ok ps -> prime_infos ps b.
Proof.
  induction fuel as [|fuel IH]; intros b n ps C R; [discriminate|]. cbn [count_elements] in C. destruct b as [|x y].
  - assert (n = O) by congruence. subst n. cbn [read_elements] in R. assert (ps = []) by congruence. subst ps. reflexivity.
  - remember (x :: y) as b eqn:Eb. apply rbind_Ok in C as ((h & inner) & Hh & C). destruct (is_header 16 true h) eqn:I; cbn [negb] in C; [|discriminate].
    destruct (Z.ltb_spec (Z.of_nat (length inner)) (hd_length h)) as [L|L]; [discriminate|]. apply rbind_Ok in C as (m & C & Em).
    assert (n = S m) by congruence. subst n. cbn [read_elements] in R. apply rbind_Ok in R as ((p & b') & R1 & R). apply rbind_Ok in R as (l & R2 & R).
    assert (ps = p :: l) by congruence. subst ps.
    assert (E : b' = skipn (Z.to_nat (hd_length h)) inner).
    { unfold parse_one in R1. apply rbind_Ok in R1 as ((o & b1) & R1 & R1'). destruct o as [a|]; [|discriminate].
      assert (b1 = b') by congruence. subst b1. unfold parse_field in R1. rewrite Eb in R1. rewrite <- Eb in R1. rewrite Hh in R1. cbn [rbind] in R1. rewrite I in R1. cbn [negb] in R1.
      destruct (Z.ltb_spec (Z.of_nat (length inner)) (hd_length h)) in R1; [discriminate|]. apply rbind_Ok in R1 as (a' & _ & R1). congruence. }
    subst b'. apply (IH _ _ _ C) in R2. cbn [prime_infos].
    apply (one_iff _ parse_additional 16 true x30 _ _ _ tag16) in R1 as (content & e & E1 & El & _ & Ha).
    apply additional_inv in Ha as (u & v & c & junk & Ic & ->). exists u, v, c, junk, e, (skipn (Z.to_nat (hd_length h)) inner). auto.
Qed.
Lemma infos_ok : forall ps b fuel, prime_infos ps b -> short (length b) -> (length b < fuel)%nat ->
  count_elements fuel b = Ok (length ps) /\ read_elements parse_additional (length ps) b = Ok ps.
Proof.
  induction ps as [|p ps IH]; intros b fuel H S F; (destruct fuel as [|fuel]; [lia|]).
  - cbn [prime_infos] in H. subst b. split; reflexivity.
  - destruct H as (u & v & c & junk & e & b2 & Ic & El & -> & H). rewrite app_length in *. pose proof (element_long _ _ _ El) as L.
    assert (S0 : short (length (c ++ junk))) by (unfold short in *; lia).
    destruct (IH b2 fuel H) as [C R]; [unfold short in *; lia|lia|]. split.
    + destruct (element_header _ _ _ _ _ tag16 El S0 b2) as [Hh I]. cbn [count_elements].
      destruct (e ++ b2) as [|x y] eqn:Q; [cbn [parse_header] in Hh; discriminate|]. rewrite Hh. cbn [rbind]. rewrite I. cbn [negb hd_length].
      destruct (Z.ltb_spec (Z.of_nat (length ((c ++ junk) ++ b2))) (Z.of_nat (length (c ++ junk)))) as [X|X]; [rewrite (app_length (c ++ junk) b2) in X; lia|].
      rewrite Nat2Z.id, skipn_app, skipn_all, Nat.sub_diag. cbn [skipn app]. rewrite C. reflexivity.
    + cbn [length read_elements].
      assert (H1 : parse_one 16 true parse_additional (e ++ b2) = Ok (p, b2)).
      { apply (one_iff _ parse_additional 16 true x30 _ _ _ tag16). exists (c ++ junk), e. split; [reflexivity|]. split; [exact El|]. split; [exact S0|].
        apply (additional_ok u v); [exact Ic|]. rewrite app_length in S0. unfold short in *. lia. }
      rewrite H1. cbn [rbind]. rewrite R. reflexivity.
Qed.

(** ** the whole text *)
Lemma private_iff : forall b k, short (length b) ->
  (parse_private b = Ok k <->
   checked_numbers k /\ k = precompute (RsaKey (rk_pub k) (rk_d k) (rk_p k) (rk_q k) (rk_more k) None) /\ read_text k b).
Proof.
  intros b k S. split.
  - intro H. unfold parse_private in H. apply rbind_Ok in H as (((version & k0) & rest) & H1 & H). destruct rest; [|discriminate].
    destruct (Z.ltb_spec 1 version) as [V|V]; [discriminate|]. destruct (negb _) eqn:P in H; [discriminate|]. destruct (negb _) eqn:Q in H; [discriminate|].
    destruct (validate k0) eqn:Va; cbn [negb] in H; [|discriminate]. assert (Ek : precompute k0 = k) by congruence. clear H.
    apply (one_iff _ parse_private_fields 16 true x30 _ _ _ tag16) in H1 as (c & e & Eb & El & Sc & H1). rewrite app_nil_r in Eb. subst e.
    unfold parse_private_fields in H1.
    apply rbind_Ok in H1 as ((v & b1) & R1 & H1). apply rbind_Ok in H1 as ((n & b2) & R2 & H1). apply rbind_Ok in H1 as ((e & b3) & R3 & H1).
    apply rbind_Ok in H1 as ((d & b4) & R4 & H1). apply rbind_Ok in H1 as ((p & b5) & R5 & H1). apply rbind_Ok in H1 as ((q & b6) & R6 & H1).
    apply rbind_Ok in H1 as ((o1 & b7) & R7 & H1). apply rbind_Ok in H1 as ((o2 & b8) & R8 & H1). apply rbind_Ok in H1 as ((o3 & b9) & R9 & H1).
    apply rbind_Ok in H1 as ((more & b10) & R10 & H1).
    assert (M : maybe_primes (match more with Some l => l | None => [] end) b9).
    { apply (field_iff _ (parse_sequence_of parse_additional) 16 true x30 _ _ _ tag16) in R10 as [(-> & _ & L)|(content & e' & a & -> & -> & El' & _ & Ha)].
      - left. auto.
      - right. exists content, e', b10. split; [reflexivity|]. split; [exact El'|]. unfold parse_sequence_of in Ha. apply rbind_Ok in Ha as (m & C & R). apply (infos_inv _ _ _ _ C R). }
    set (m := match more with Some l => l | None => [] end) in *. clearbody m.
    assert (Q1 : v = version /\ RsaKey (PublicKey n e) d p q m None = k0) by (split; congruence). destruct Q1 as [-> <-]. clear H1 R10.
    assert (G : checked_numbers (RsaKey (PublicKey n e) d p q m None)).
    { apply validate_iff. split; [|exact Va]. cbn [rk_d] in *. apply negb_false_iff in P. rewrite !andb_true_iff in P. lia. }
    rewrite <- Ek. unfold read_text. cbn [precompute rk_pre rk_pub rk_d rk_p rk_q rk_more pk_n pk_e] in *.
    apply read_int_inv in R1 as (x1 & -> & I1 & V1). apply read_big_inv in R2 as (x2 & -> & I2). apply read_int_inv in R3 as (x3 & -> & I3 & _).
    apply read_big_inv in R4 as (x4 & -> & I4). apply read_big_inv in R5 as (x5 & -> & I5). apply read_big_inv in R6 as (x6 & -> & I6).
    split; [exact G|]. split; [reflexivity|].
    exists version, (x1 ++ x2 ++ x3 ++ x4 ++ x5 ++ x6 ++ []), b6, b7, b8, b9. split; [lia|]. split.
    { exists x1, (x2 ++ x3 ++ x4 ++ x5 ++ x6 ++ []). split; [reflexivity|]. split; [exact I1|]. exists x2, (x3 ++ x4 ++ x5 ++ x6 ++ []). split; [reflexivity|]. split; [exact I2|].
      exists x3, (x4 ++ x5 ++ x6 ++ []). split; [reflexivity|]. split; [exact I3|]. exists x4, (x5 ++ x6 ++ []). split; [reflexivity|]. split; [exact I4|].
      exists x5, (x6 ++ []). split; [reflexivity|]. split; [exact I5|]. exists x6, []. split; [reflexivity|]. split; [exact I6|reflexivity]. }
    split; [rewrite app_nil_r, <- !app_assoc; exact El|]. apply skip_iff in R7, R8, R9. auto.
  - intros (G & Ek & version & b1 & r1 & r2 & r3 & r4 & V & I & El & M1 & M2 & M3 & M4). pose proof (element_long _ _ _ El) as L.
    assert (H1 : parse_one 16 true parse_private_fields b = Ok ((version, RsaKey (PublicKey (pk_n (rk_pub k)) (pk_e (rk_pub k))) (rk_d k) (rk_p k) (rk_q k) (rk_more k) None), [])).
    { apply (one_iff _ parse_private_fields 16 true x30 _ _ _ tag16). exists (b1 ++ r1), b. split; [rewrite app_nil_r; reflexivity|]. split; [exact El|].
      split; [unfold short in *; lia|].
      destruct I as (v1 & w1 & -> & I1 & v2 & w2 & -> & I2 & v3 & w3 & -> & I3 & v4 & w4 & -> & I4 & v5 & w5 & -> & I5 & v6 & w6 & -> & I6 & ->).
      rewrite app_nil_r in *. rewrite <- !app_assoc in *. rewrite !app_length in L. unfold short in S. unfold parse_private_fields.
      assert (Ge : 2 <= pk_e (rk_pub k) <= 2 ^ 31 - 1) by apply G.
      rewrite (read_int_ok version) by (try exact I1; unfold short; lia). cbn [rbind].
      rewrite (read_big_ok (pk_n (rk_pub k))) by (try exact I2; unfold short; lia). cbn [rbind].
      rewrite (read_int_ok (pk_e (rk_pub k))) by (try exact I3; unfold short; lia). cbn [rbind].
      rewrite (read_big_ok (rk_d k)) by (try exact I4; unfold short; lia). cbn [rbind].
      rewrite (read_big_ok (rk_p k)) by (try exact I5; unfold short; lia). cbn [rbind].
      rewrite (read_big_ok (rk_q k)) by (try exact I6; unfold short; lia). cbn [rbind].
      pose proof (maybe_shorter _ _ M1). pose proof (maybe_shorter _ _ M2). pose proof (maybe_shorter _ _ M3).
      destruct (skip_ok _ _ M1) as (o1 & ->); [unfold short; lia|]. cbn [rbind].
      destruct (skip_ok _ _ M2) as (o2 & ->); [unfold short; lia|]. cbn [rbind].
      destruct (skip_ok _ _ M3) as (o3 & ->); [unfold short; lia|]. cbn [rbind].
      destruct M4 as [[Lo E]|(c & e & junk & -> & Ee & Pi)].
      - rewrite (proj2 (field_iff _ (parse_sequence_of parse_additional) 16 true x30 r4 None r4 tag16) (or_introl (conj eq_refl (conj eq_refl Lo)))).
        cbn [rbind]. rewrite E. reflexivity.
      - pose proof (element_long _ _ _ Ee) as Lc. rewrite app_length in *.
        assert (Sq : parse_sequence_of parse_additional c = Ok (rk_more k)).
        { unfold parse_sequence_of. destruct (infos_ok _ _ (Datatypes.S (length c)) Pi) as [C R]; [unfold short; lia|lia|]. rewrite C. exact R. }
        rewrite (proj2 (field_iff _ (parse_sequence_of parse_additional) 16 true x30 (e ++ junk) (Some (rk_more k)) junk tag16)).
        + reflexivity.
        + right. exists c, e, (rk_more k). split; [reflexivity|]. split; [reflexivity|]. split; [exact Ee|]. split; [unfold short; lia|exact Sq]. }
    unfold parse_private. rewrite H1. cbn [rbind].
    assert (Ep : PublicKey (pk_n (rk_pub k)) (pk_e (rk_pub k)) = rk_pub k) by (destruct (rk_pub k); reflexivity). rewrite Ep.
    etransitivity; [apply checks_ok; [lia|exact G]|]. f_equal. symmetry. exact Ek.
Qed.
