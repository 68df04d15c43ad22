From Coq Require Import Lia ZifyBool ZifyNat ZifyN.
From Verif Require Import Base BaseFacts JsonModel UnicodeSpec.
Ltac Zify.zify_post_hook ::= Z.to_euclidean_division_equations.

(** ** Sequences *)
Lemma beq_n : forall a b, beq a b = (b2n a =? b2n b)%N.
Proof.
  intros a b. destruct (N.eqb_spec (b2n a) (b2n b)) as [E|E].
  - apply beq_eq. apply b2n_inj. exact E.
  - destruct (beq a b) eqn:Q; [|reflexivity]. apply beq_eq in Q. congruence.
Qed.
Lemma rune2_iff : forall c d, rune2 c d = true <-> (0xC2 <= b2n c <= 0xDF /\ 0x80 <= b2n d <= 0xBF)%N.
Proof. intros c d. unfold rune2, within. lia. Qed.
Lemma rune3_iff : forall c d e, rune3 c d e = true <->
  ((b2n c = 0xE0 /\ 0xA0 <= b2n d <= 0xBF \/ (0xE1 <= b2n c <= 0xEC \/ 0xEE <= b2n c <= 0xEF) /\ 0x80 <= b2n d <= 0xBF \/ b2n c = 0xED /\ 0x80 <= b2n d <= 0x9F) /\
   0x80 <= b2n e <= 0xBF)%N.
Proof. intros c d e. unfold rune3, within. rewrite !beq_n. change (b2n xe0) with 0xE0%N. change (b2n xed) with 0xED%N. lia. Qed.
Lemma rune4_iff : forall c d e f, rune4 c d e f = true <->
  ((b2n c = 0xF0 /\ 0x90 <= b2n d <= 0xBF \/ 0xF1 <= b2n c <= 0xF3 /\ 0x80 <= b2n d <= 0xBF \/ b2n c = 0xF4 /\ 0x80 <= b2n d <= 0x8F) /\
   0x80 <= b2n e <= 0xBF /\ 0x80 <= b2n f <= 0xBF)%N.
Proof. intros c d e f. unfold rune4, within. rewrite !beq_n. change (b2n xf0) with 0xF0%N. change (b2n xf4) with 0xF4%N. lia. Qed.
Lemma unicode_nil : unicode [].
Proof. exists []. split; [constructor|reflexivity]. Qed.
Lemma unicode_cons : forall n s, scalar n -> unicode s -> unicode (rune_bytes n ++ s).
Proof. intros n s H (rs & F & ->). exists (n :: rs). split; [constructor; assumption|reflexivity]. Qed.
Lemma unicode_app : forall s t, unicode s -> unicode t -> unicode (s ++ t).
Proof.
  intros s t (rs & F & ->) (rt & G & ->). exists (rs ++ rt). split; [apply Forall_app; auto|]. rewrite flat_map_app. reflexivity.
Qed.
Lemma n2b_eq : forall c n, n = b2n c -> n2b n = c.
Proof. intros c n ->. apply n2b_b2n. Qed.
Lemma unicode_1 : forall c s, (b2n c < 128)%N -> unicode s -> unicode (c :: s).
Proof.
  intros c s H U. change (c :: s) with ([c] ++ s). replace [c] with (rune_bytes (b2n c)); [apply unicode_cons; [left; lia|exact U]|].
  unfold rune_bytes. destruct (N.ltb_spec (b2n c) 0x80); [|lia]. rewrite n2b_b2n. reflexivity.
Qed.
Lemma unicode_2 : forall c d s, rune2 c d = true -> unicode s -> unicode (c :: d :: s).
Proof.
  intros c d s H U. apply rune2_iff in H. change (c :: d :: s) with ([c; d] ++ s).
  set (n := ((b2n c - 0xC0) * 64 + (b2n d - 0x80))%N). replace [c; d] with (rune_bytes n); [apply unicode_cons; [left; lia|exact U]|].
  unfold rune_bytes. destruct (N.ltb_spec n 0x80); [lia|]. destruct (N.ltb_spec n 0x800); [|lia].
  rewrite (n2b_eq c), (n2b_eq d) by lia. reflexivity.
Qed.
Lemma unicode_3 : forall c d e s, rune3 c d e = true -> unicode s -> unicode (c :: d :: e :: s).
Proof.
  intros c d e s H U. apply rune3_iff in H. change (c :: d :: e :: s) with ([c; d; e] ++ s).
  set (n := ((b2n c - 0xE0) * 4096 + (b2n d - 0x80) * 64 + (b2n e - 0x80))%N).
  replace [c; d; e] with (rune_bytes n).
  - apply unicode_cons; [|exact U]. unfold scalar. lia.
  - unfold rune_bytes. destruct (N.ltb_spec n 0x80); [lia|]. destruct (N.ltb_spec n 0x800); [lia|]. destruct (N.ltb_spec n 0x10000); [|lia].
    rewrite (n2b_eq c), (n2b_eq d), (n2b_eq e) by lia. reflexivity.
Qed.
Lemma unicode_4 : forall c d e f s, rune4 c d e f = true -> unicode s -> unicode (c :: d :: e :: f :: s).
Proof.
  intros c d e f s H U. apply rune4_iff in H. change (c :: d :: e :: f :: s) with ([c; d; e; f] ++ s).
  set (n := ((b2n c - 0xF0) * 262144 + (b2n d - 0x80) * 4096 + (b2n e - 0x80) * 64 + (b2n f - 0x80))%N).
  replace [c; d; e; f] with (rune_bytes n).
  - apply unicode_cons; [|exact U]. unfold scalar. lia.
  - unfold rune_bytes. destruct (N.ltb_spec n 0x80); [lia|]. destruct (N.ltb_spec n 0x800); [lia|]. destruct (N.ltb_spec n 0x10000); [lia|].
    rewrite (n2b_eq c), (n2b_eq d), (n2b_eq e), (n2b_eq f) by lia. reflexivity.
Qed.
Lemma unicode_bad : forall s, unicode s -> unicode (replacement ++ s).
Proof. intros s U. apply unicode_3; [reflexivity|exact U]. Qed.

(** ** Reading a text rune by rune *)
Definition bad (c : byte) (s : bytes) : bool :=
  match s with
  | [] => true
  | d :: s2 =>
      negb (rune2 c d) &&
      match s2 with
      | [] => true
      | e :: s3 => negb (rune3 c d e) && match s3 with [] => true | f :: _ => negb (rune4 c d e f) end
      end
  end.
Lemma rune3_2 : forall c d e, rune3 c d e = true -> rune2 c d = false.
Proof. intros c d e H. apply rune3_iff in H. destruct (rune2 c d) eqn:R; [apply rune2_iff in R; lia|reflexivity]. Qed.
Lemma rune4_2 : forall c d e f, rune4 c d e f = true -> rune2 c d = false /\ rune3 c d e = false.
Proof.
  intros c d e f H. apply rune4_iff in H. destruct (rune2 c d) eqn:R; [apply rune2_iff in R; lia|].
  destruct (rune3 c d e) eqn:R'; [apply rune3_iff in R'; lia|auto].
Qed.
Lemma runes_ind : forall P : bytes -> Prop, P [] ->
  (forall c s, (b2n c < 128)%N -> P s -> P (c :: s)) ->
  (forall c d s, (128 <= b2n c)%N -> rune2 c d = true -> P s -> P (c :: d :: s)) ->
  (forall c d e s, (128 <= b2n c)%N -> rune3 c d e = true -> P s -> P (c :: d :: e :: s)) ->
  (forall c d e f s, (128 <= b2n c)%N -> rune4 c d e f = true -> P s -> P (c :: d :: e :: f :: s)) ->
  (forall c s, (128 <= b2n c)%N -> bad c s = true -> P s -> P (c :: s)) -> forall s, P s.
Proof.
  intros P H0 H1 H2 H3 H4 HB s. remember (length s) as n eqn:E. assert (L : length s <= n) by lia. clear E. revert s L.
  induction n as [|n IH]; intros s L; (destruct s as [|c s]; [exact H0|]); cbn [length] in L; [lia|].
  destruct (N.ltb_spec (b2n c) 128) as [A|A]; [apply H1; [exact A|apply IH; lia]|].
  destruct (bad c s) eqn:B; [apply HB; auto; apply IH; lia|].
  destruct s as [|d s]; [discriminate|]. cbn [bad length] in *. destruct (rune2 c d) eqn:R2; [apply H2; auto; apply IH; lia|].
  destruct s as [|e s]; [discriminate|]. cbn [length] in *. destruct (rune3 c d e) eqn:R3; [apply H3; auto; apply IH; lia|].
  destruct s as [|f s]; [discriminate|]. cbn [length] in *. destruct (rune4 c d e f) eqn:R4; [apply H4; auto; apply IH; lia|discriminate].
Qed.

(** what is left of a string that was printed and read *)
Fixpoint clean (s : bytes) : bytes :=
  match s with
  | [] => []
  | c :: s1 =>
      if (b2n c <? 128)%N then c :: clean s1
      else
        match s1 with
        | [] => replacement ++ clean s1
        | d :: s2 =>
            if rune2 c d then c :: d :: clean s2
            else
              match s2 with
              | [] => replacement ++ clean s1
              | e :: s3 =>
                  if rune3 c d e then c :: d :: e :: clean s3
                  else
                    match s3 with
                    | [] => replacement ++ clean s1
                    | f :: s4 => if rune4 c d e f then c :: d :: e :: f :: clean s4 else replacement ++ clean s1
                    end
              end
        end
  end.
Lemma lt128 : forall c, (128 <= b2n c)%N -> (b2n c <? 128)%N = false.
Proof. intros c H. apply N.ltb_ge. exact H. Qed.
Lemma clean_1 : forall c s, (b2n c < 128)%N -> clean (c :: s) = c :: clean s.
Proof. intros c s H. cbn [clean]. rewrite (proj2 (N.ltb_lt _ _) H). reflexivity. Qed.
Lemma clean_2 : forall c d s, (128 <= b2n c)%N -> rune2 c d = true -> clean (c :: d :: s) = c :: d :: clean s.
Proof. intros c d s H R. cbn [clean]. rewrite (lt128 c H), R. reflexivity. Qed.
Lemma clean_3 : forall c d e s, (128 <= b2n c)%N -> rune3 c d e = true -> clean (c :: d :: e :: s) = c :: d :: e :: clean s.
Proof. intros c d e s H R. cbn [clean]. rewrite (lt128 c H), (rune3_2 c d e R), R. reflexivity. Qed.
Lemma clean_4 : forall c d e f s, (128 <= b2n c)%N -> rune4 c d e f = true -> clean (c :: d :: e :: f :: s) = c :: d :: e :: f :: clean s.
Proof. intros c d e f s H R. destruct (rune4_2 c d e f R) as [R2 R3]. cbn [clean]. rewrite (lt128 c H), R2, R3, R. reflexivity. Qed.
Lemma clean_bad : forall c s, (128 <= b2n c)%N -> bad c s = true -> clean (c :: s) = replacement ++ clean s.
Proof.
  intros c s H B. cbn [clean]. rewrite (lt128 c H). destruct s as [|d s]; [reflexivity|]. cbn [bad] in B. destruct (rune2 c d); [discriminate|].
  destruct s as [|e s]; [reflexivity|]. destruct (rune3 c d e); [discriminate|].
  destruct s as [|f s]; [reflexivity|]. destruct (rune4 c d e f); [discriminate|]. reflexivity.
Qed.
Lemma quote_1 : forall c s, (b2n c < 128)%N -> quote_body (c :: s) = quote_char c ++ quote_body s.
Proof. intros c s H. cbn [quote_body]. rewrite (proj2 (N.ltb_lt _ _) H). reflexivity. Qed.
Lemma quote_2 : forall c d s, (128 <= b2n c)%N -> rune2 c d = true -> quote_body (c :: d :: s) = [c; d] ++ quote_body s.
Proof. intros c d s H R. cbn [quote_body]. rewrite (lt128 c H), R. reflexivity. Qed.
Lemma quote_3 : forall c d e s, (128 <= b2n c)%N -> rune3 c d e = true -> quote_body (c :: d :: e :: s) = quote3 c d e ++ quote_body s.
Proof. intros c d e s H R. cbn [quote_body]. rewrite (lt128 c H), (rune3_2 c d e R), R. reflexivity. Qed.
Lemma quote_4 : forall c d e f s, (128 <= b2n c)%N -> rune4 c d e f = true -> quote_body (c :: d :: e :: f :: s) = [c; d; e; f] ++ quote_body s.
Proof. intros c d e f s H R. destruct (rune4_2 c d e f R) as [R2 R3]. cbn [quote_body]. rewrite (lt128 c H), R2, R3, R. reflexivity. Qed.
Lemma quote_bad : forall c s, (128 <= b2n c)%N -> bad c s = true -> quote_body (c :: s) = escaped_replacement ++ quote_body s.
Proof.
  intros c s H B. cbn [quote_body]. rewrite (lt128 c H). destruct s as [|d s]; [reflexivity|]. cbn [bad] in B. destruct (rune2 c d); [discriminate|].
  destruct s as [|e s]; [reflexivity|]. destruct (rune3 c d e); [discriminate|].
  destruct s as [|f s]; [reflexivity|]. destruct (rune4 c d e f); [discriminate|]. reflexivity.
Qed.
Lemma not_quote : forall c, (128 <= b2n c)%N -> beq c x22 = false /\ beq c x5c = false /\ (b2n c <? 32)%N = false /\ (b2n c <? 128)%N = false.
Proof. intros c H. destruct c; try (exfalso; vm_compute in H; exact (H eq_refl)); vm_compute; auto. Qed.
Ltac high c H := let N1 := fresh in let N2 := fresh in let N3 := fresh in let N4 := fresh in
  destruct (not_quote c H) as (N1 & N2 & N3 & N4); cbn [pstring]; rewrite N1, N2, N3, N4.
Lemma pstring_2 : forall c d s, (128 <= b2n c)%N -> rune2 c d = true -> pstring (c :: d :: s) = emit [c; d] (pstring s).
Proof. intros c d s H R. high c H. rewrite R. reflexivity. Qed.
Lemma pstring_3 : forall c d e s, (128 <= b2n c)%N -> rune3 c d e = true -> pstring (c :: d :: e :: s) = emit [c; d; e] (pstring s).
Proof. intros c d e s H R. high c H. rewrite (rune3_2 c d e R), R. reflexivity. Qed.
Lemma pstring_4 : forall c d e f s, (128 <= b2n c)%N -> rune4 c d e f = true -> pstring (c :: d :: e :: f :: s) = emit [c; d; e; f] (pstring s).
Proof. intros c d e f s H R. destruct (rune4_2 c d e f R) as [R2 R3]. high c H. rewrite R2, R3, R. reflexivity. Qed.
Lemma pstring_bad : forall c s, (128 <= b2n c)%N -> bad c s = true -> pstring (c :: s) = emit replacement (pstring s).
Proof.
  intros c s H B. high c H. destruct s as [|d s]; [reflexivity|]. cbn [bad] in B. destruct (rune2 c d); [discriminate|].
  destruct s as [|e s]; [reflexivity|]. destruct (rune3 c d e); [discriminate|].
  destruct s as [|f s]; [reflexivity|]. destruct (rune4 c d e f); [discriminate|]. reflexivity.
Qed.
Lemma pstring_quote_char : forall c t, (b2n c < 128)%N -> pstring (quote_char c ++ t) = emit [c] (pstring t).
Proof. intros c t H. destruct c; try (exfalso; vm_compute in H; discriminate H); reflexivity. Qed.
Lemma pstring_quote3 : forall c d e t, (128 <= b2n c)%N -> rune3 c d e = true -> pstring (quote3 c d e ++ t) = emit [c; d; e] (pstring t).
Proof.
  intros c d e t H R. unfold quote3. destruct (beq c xe2 && beq d x80 && beq e xa8) eqn:E1.
  { apply andb_prop in E1 as [E1 E3]. apply andb_prop in E1 as [E1 E2]. apply beq_eq in E1, E2, E3. subst. reflexivity. }
  destruct (beq c xe2 && beq d x80 && beq e xa9) eqn:E2.
  { apply andb_prop in E2 as [E2 E4]. apply andb_prop in E2 as [E2 E3]. apply beq_eq in E2, E3, E4. subst. reflexivity. }
  apply pstring_3; assumption.
Qed.
(** ** A string is read back clean *)
Lemma pstring_clean : forall s r, pstring (quote_body s ++ x22 :: r) = Some (clean s, r).
Proof.
  intros s r. induction s as [|c s A IH|c d s A R IH|c d e s A R IH|c d e f s A R IH|c s A R IH] using runes_ind.
  - reflexivity.
  - rewrite quote_1, clean_1, <- app_assoc, pstring_quote_char, IH by assumption. reflexivity.
  - rewrite quote_2, clean_2, <- app_assoc by assumption. cbn [app]. rewrite pstring_2, IH by assumption. reflexivity.
  - rewrite quote_3, clean_3, <- app_assoc, pstring_quote3, IH by assumption. reflexivity.
  - rewrite quote_4, clean_4, <- app_assoc by assumption. cbn [app]. rewrite pstring_4, IH by assumption. reflexivity.
  - rewrite quote_bad, clean_bad, <- app_assoc by assumption. change (pstring (escaped_replacement ++ quote_body s ++ x22 :: r)) with
      (emit replacement (pstring (quote_body s ++ x22 :: r))). rewrite IH. reflexivity.
Qed.
Lemma clean_unicode : forall s, unicode (clean s).
Proof.
  intro s. induction s as [|c s A IH|c d s A R IH|c d e s A R IH|c d e f s A R IH|c s A R IH] using runes_ind.
  - apply unicode_nil.
  - rewrite clean_1 by assumption. apply unicode_1; assumption.
  - rewrite clean_2 by assumption. apply unicode_2; assumption.
  - rewrite clean_3 by assumption. apply unicode_3; assumption.
  - rewrite clean_4 by assumption. apply unicode_4; assumption.
  - rewrite clean_bad by assumption. apply unicode_bad. exact IH.
Qed.
Lemma clean_rune : forall n s, scalar n -> clean (rune_bytes n ++ s) = rune_bytes n ++ clean s.
Proof.
  intros n s H. unfold rune_bytes, scalar in *. destruct (N.ltb_spec n 0x80); [|destruct (N.ltb_spec n 0x800); [|destruct (N.ltb_spec n 0x10000)]]; cbn [app].
  - apply clean_1. rewrite b2n_n2b. lia.
  - apply clean_2; [|apply rune2_iff]; rewrite ?b2n_n2b; lia.
  - apply clean_3; [|apply rune3_iff]; rewrite ?b2n_n2b; lia.
  - set (a := (n / 262144)%N). set (b := (n / 4096 mod 64)%N). set (c := (n / 64 mod 64)%N). set (d := (n mod 64)%N).
    assert (A : (a <= 4 /\ b < 64 /\ c < 64 /\ d < 64)%N) by lia.
    assert (B : ((a = 0 -> 16 <= b) /\ (a = 4 -> b < 16))%N) by (subst a b; clear A c d; split; intro; lia).
    clearbody a b c d. apply clean_4; [|apply rune4_iff]; rewrite ?b2n_n2b, ?N.mod_small by lia; lia.
Qed.
Lemma clean_id : forall s, unicode s -> clean s = s.
Proof.
  intros s (rs & F & ->). induction F as [|n rs H F IH]; [reflexivity|]. cbn [flat_map]. rewrite clean_rune, IH by exact H. reflexivity.
Qed.
Lemma clean_iff : forall s, clean s = s <-> unicode s.
Proof. intro s. split; [intro E; rewrite <- E; apply clean_unicode|apply clean_id]. Qed.
(** ** More input *)
Lemma emit_Some : forall t x u r, emit t x = Some (u, r) -> exists v, x = Some (v, r) /\ u = t ++ v.
Proof. intros t [[v w]|] u r H; [|discriminate]. injection H as <- <-. eauto. Qed.
Lemma cont_bad : forall d s, (0x80 <= b2n d <= 0xBF)%N -> pstring (d :: s) = emit replacement (pstring s).
Proof.
  intros d s H. apply pstring_bad; [lia|]. destruct s as [|e s]; [reflexivity|]. cbn [bad].
  destruct (rune2 d e) eqn:R; [apply rune2_iff in R; lia|]. destruct s as [|f s]; [reflexivity|]. cbn [negb andb].
  destruct (rune3 d e f) eqn:R'; [apply rune3_iff in R'; lia|]. destruct s as [|g s]; [reflexivity|]. cbn [negb andb].
  destruct (rune4 d e f g) eqn:R4; [apply rune4_iff in R4; lia|]. reflexivity.
Qed.
Lemma bad_ext : forall c s t x, bad c s = true -> pstring s = Some x -> bad c (s ++ t) = true.
Proof.
  intros c s t x B E. destruct s as [|d s]; [discriminate|]. cbn [bad app] in *. destruct (rune2 c d); [discriminate|]. cbn [negb andb] in *.
  destruct s as [|e s]; cbn [app] in *.
  - assert (N : ~ (0x80 <= b2n d <= 0xBF)%N) by (intro H; rewrite (cont_bad d [] H) in E; discriminate E).
    destruct t as [|e t]; [reflexivity|]. destruct (rune3 c d e) eqn:R; [apply rune3_iff in R; lia|]. destruct t as [|f t]; [reflexivity|].
    destruct (rune4 c d e f) eqn:R'; [apply rune4_iff in R'; lia|]. reflexivity.
  - destruct (rune3 c d e); [discriminate|]. cbn [negb andb] in *. destruct s as [|f s]; cbn [app] in *; [|exact B].
    assert (N : ~ ((0x80 <= b2n d <= 0xBF) /\ (0x80 <= b2n e <= 0xBF))%N).
    { intros [H H']. rewrite (cont_bad d [e] H), (cont_bad e [] H') in E. discriminate E. }
    destruct t as [|f t]; [reflexivity|]. destruct (rune4 c d e f) eqn:R'; [apply rune4_iff in R'; lia|]. reflexivity.
Qed.
Lemma second_ext : forall n s t u r, pstring s = Some (u, r) -> second_half n (s ++ t) = second_half n s.
Proof.
  intros n s t u r E. unfold second_half. destruct (high_surrogate n); [|reflexivity].
  assert (G : forall a b s', s = a :: b :: s' -> length s' < 4 -> beq a x5c && beq b x75 = false).
  { intros a b s' -> L. destruct (beq a x5c && beq b x75) eqn:Q; [|reflexivity]. apply andb_prop in Q as [Q1 Q2].
    apply beq_eq in Q1, Q2. subst. cbn in E. destruct s' as [|? [|? [|? [|? ?]]]]; try discriminate E. cbn in L. lia. }
  destruct s as [|a [|b s]]; cbn [app].
  - discriminate E.
  - destruct t as [|b [|c1 [|c2 [|c3 [|c4 t]]]]]; try reflexivity.
    destruct (beq a x5c && beq b x75) eqn:Q; [|reflexivity]. apply andb_prop in Q as [Q1 _]. apply beq_eq in Q1. subst. discriminate E.
  - destruct s as [|c1 [|c2 [|c3 [|c4 s]]]]; cbn [app]; [| | | |reflexivity];
      pose proof (G a b _ eq_refl) as Q; cbn [length] in Q; specialize (Q ltac:(lia)).
    + destruct t as [|d1 [|d2 [|d3 [|d4 t]]]]; rewrite ?Q; reflexivity.
    + destruct t as [|d1 [|d2 [|d3 t]]]; rewrite ?Q; reflexivity.
    + destruct t as [|d1 [|d2 t]]; rewrite ?Q; reflexivity.
    + destruct t as [|d1 t]; rewrite ?Q; reflexivity.
Qed.
Lemma pstring_ext : forall n s u r t, length s <= n -> pstring s = Some (u, r) -> pstring (s ++ t) = Some (u, r ++ t).
Proof.
  induction n as [|n IH]; intros s u r t L H; (destruct s as [|c s]; [discriminate|]); cbn [length] in L; [lia|].
  destruct (N.leb_spec 128 (b2n c)) as [A|A].
  - cbn [app]. destruct (bad c s) eqn:B.
    + rewrite pstring_bad in H by assumption. apply emit_Some in H as (v & E & ->). rewrite pstring_bad; [|exact A|eapply bad_ext; eassumption].
      apply IH with (t := t) in E; [|lia]. rewrite E. reflexivity.
    + destruct s as [|d s]; [discriminate|]. cbn [bad length app] in *. destruct (rune2 c d) eqn:R2.
      { rewrite pstring_2 in * by assumption. apply emit_Some in H as (v & E & ->). apply IH with (t := t) in E; [|lia]. rewrite E. reflexivity. }
      destruct s as [|e s]; [discriminate|]. cbn [length app] in *. destruct (rune3 c d e) eqn:R3.
      { rewrite pstring_3 in * by assumption. apply emit_Some in H as (v & E & ->). apply IH with (t := t) in E; [|lia]. rewrite E. reflexivity. }
      destruct s as [|f s]; [discriminate|]. cbn [length app] in *. destruct (rune4 c d e f) eqn:R4; [|discriminate].
      rewrite pstring_4 in * by assumption. apply emit_Some in H as (v & E & ->). apply IH with (t := t) in E; [|lia]. rewrite E. reflexivity.
  - cbn [pstring app] in *. destruct (beq c x22); [congruence|]. destruct (beq c x5c).
    + destruct s as [|e s1]; [discriminate|]. cbn [app length] in *. destruct (beq e x75).
      * destruct s1 as [|a [|b [|c1 [|d s2]]]]; try discriminate. cbn [app length] in *.
        destruct (unhex4 a b c1 d) as [m|]; [|discriminate].
        destruct (second_half m s2) as [m2|] eqn:S2.
        -- destruct s2 as [|y1 [|y2 [|y3 [|y4 [|y5 [|y6 s3]]]]]]; try discriminate. apply emit_Some in H as (v & E & ->).
           assert (Q : second_half m ((y1 :: y2 :: y3 :: y4 :: y5 :: y6 :: s3) ++ t) = Some m2) by exact S2.
           rewrite Q. cbn [app length] in *. apply IH with (t := t) in E; [|lia]. rewrite E. reflexivity.
        -- apply emit_Some in H as (v & E & ->). rewrite (second_ext m s2 t _ _ E), S2. apply IH with (t := t) in E; [|lia]. rewrite E. reflexivity.
      * destruct (unescape e); [|discriminate]. apply emit_Some in H as (v & E & ->). apply IH with (t := t) in E; [|lia]. rewrite E. reflexivity.
    + destruct (b2n c <? 32)%N; [discriminate|]. rewrite (proj2 (N.ltb_lt _ _) A) in *.
      apply emit_Some in H as (v & E & ->). apply IH with (t := t) in E; [|lia]. rewrite E. reflexivity.
Qed.
