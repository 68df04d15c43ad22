(** Proofs: the key expansion of crypto/aes, and AES as a function of the key and the block. *)
From Coq Require Import Lia ZifyBool ZifyNat ZifyN.
From Verif Require Import Base BaseFacts Sha256 CfbModel CfbProofs AesModel AesSpec AesField AesBlock.
Local Opaque padd pmul sbox word.

(** ** Lists that grow by one entry at a time *)
Section Grow.
  Context {A : Type}.
  Variable f : list A -> A.
  Fixpoint grow (n : nat) (l : list A) : list A :=
    match n with O => l | S n => grow n (l ++ [f l]) end.

  Lemma grow_prefix : forall n l, firstn (length l) (grow n l) = l.
  Proof.
    induction n as [|n IH]; intro l; cbn [grow]; [apply firstn_all|].
    pose proof (IH (l ++ [f l])) as H. rewrite app_length in H. cbn [length] in H.
    rewrite <- (Nat.min_l (length l) (length l + 1)) by lia.
    rewrite <- firstn_firstn, H. rewrite firstn_app, Nat.sub_diag, firstn_all, firstn_O. apply app_nil_r.
  Qed.
  Lemma grow_length : forall n l, length (grow n l) = length l + n.
  Proof. induction n as [|n IH]; intro l; cbn [grow]; [lia|]. rewrite IH, app_length. cbn. lia. Qed.
  Lemma grow_low : forall n l i d, i < length l -> nth i (grow n l) d = nth i l d.
  Proof.
    intros n l i d Hi. rewrite <- (grow_prefix n l) at 2. rewrite <- (firstn_skipn (length l) (grow n l)) at 1.
    apply app_nth1. rewrite firstn_length, grow_length. lia.
  Qed.
  Lemma grow_next : forall n l i d, length l <= i < length l + n -> nth i (grow n l) d = f (firstn i (grow n l)).
  Proof.
    induction n as [|n IH]; intros l i d Hi; [lia|]. cbn [grow].
    destruct (Nat.eq_dec i (length l)) as [->|Ne].
    - rewrite grow_low by (rewrite app_length; cbn; lia). rewrite app_nth2, Nat.sub_diag by lia. cbn [nth]. f_equal.
      pose proof (grow_prefix n (l ++ [f l])) as H. rewrite app_length in H. cbn [length] in H.
      rewrite <- (Nat.min_l (length l) (length l + 1)) at 1 by lia. rewrite <- firstn_firstn, H.
      rewrite firstn_app, Nat.sub_diag, firstn_all, firstn_O. symmetry. apply app_nil_r.
    - apply IH. rewrite app_length. cbn. lia.
  Qed.
End Grow.

Lemma nth_firstn_low : forall {A} (l : list A) i j d, i < j -> nth i (firstn j l) d = nth i l d.
Proof.
  intros A l i j d H. destruct (Nat.le_gt_cases (length l) j) as [L|L]; [rewrite firstn_all2 by exact L; reflexivity|].
  rewrite <- (firstn_skipn j l) at 2. symmetry. apply app_nth1. rewrite firstn_length. lia.
Qed.

Lemma expand_is_grow : forall n nk l, expand_from n nk l = grow (next_word nk) n l.
Proof. induction n as [|n IH]; intros nk l; [reflexivity|]. cbn [expand_from grow]. apply IH. Qed.

(** ** Words *)
Lemma word_of_xors : forall a b, length a = 4 -> length b = 4 -> N.lxor (word_of a) (word_of b) = word_of (xors a b).
Proof.
  intros a b Ha Hb. destruct (four a Ha) as (? & ? & ? & ? & ->). destruct (four b Hb) as (? & ? & ? & ? & ->).
  unfold word_of. cbn [nth]. rewrite word_xor. reflexivity.
Qed.
Lemma word_of_sub : forall a, length a = 4 -> subw (word_of a) = word_of (sub_bytes a).
Proof.
  intros a Ha. destruct (four a Ha) as (? & ? & ? & ? & ->). unfold word_of, subw. cbn [nth].
  rewrite sbox_of_words. reflexivity.
Qed.
Lemma word_of_rot : forall a, length a = 4 -> rotw (word_of a) = word_of (rot_word a).
Proof.
  intros a Ha. destruct (four a Ha) as (? & ? & ? & ? & ->). unfold word_of. cbn [nth]. rewrite rot_of_word. reflexivity.
Qed.
Lemma word_of_rcon : forall i, 1 <= i <= 16 ->
  N.land (N.shiftl (nth (i - 1) powx 0%N) 24) 0xffffffff = word_of (rcon i).
Proof.
  intros i Hi. rewrite at_powx by exact Hi. unfold rcon, word_of. cbn [nth].
  generalize (Nat.iter (i - 1) xtime x01). intro b. change 0xffffffff%N with (N.ones 32). rewrite N.land_ones, N.shiftl_mul_pow2.
  Local Transparent word. unfold word. change (b2n x00) with 0%N. pose proof (b2n_lt b).
  change (2 ^ 24)%N with 16777216%N. change (2 ^ 32)%N with 4294967296%N. rewrite N.mod_small by lia. lia.
Qed.

(** the word of 5.2 after the words before it *)
Definition word_step (nk i : nat) (w : nat -> bytes) : bytes :=
  xors (w (i - nk))
    (if (i mod nk =? 0)%nat then xors (sub_bytes (rot_word (w (i - 1)))) (rcon (i / nk))
     else if (6 <? nk)%nat && (i mod nk =? 4)%nat then sub_bytes (w (i - 1))
     else w (i - 1)).

Lemma word_step_length : forall nk i w, 0 < nk <= i -> length (w (i - nk)) = 4 -> length (w (i - 1)) = 4 ->
  length (word_step nk i w) = 4.
Proof.
  intros nk i w H A B. unfold word_step. rewrite xors_length, A.
  destruct (i mod nk =? 0).
  - rewrite xors_length, sub_bytes_length. destruct (four _ B) as (? & ? & ? & ? & ->). reflexivity.
  - destruct ((6 <? nk) && (i mod nk =? 4)); [rewrite sub_bytes_length|]; rewrite B; reflexivity.
Qed.

Lemma rot_length : forall a, length a = 4 -> length (rot_word a) = 4.
Proof. intros a Ha. destruct (four a Ha) as (? & ? & ? & ? & ->). reflexivity. Qed.

Lemma next_word_step : forall nk w l, 4 <= nk <= length l -> length l / nk <= 16 ->
  (forall j, j < length l -> length (w j) = 4 /\ nth j l 0%N = word_of (w j)) ->
  next_word nk l = word_of (word_step nk (length l) w).
Proof.
  intros nk w l Hl Hq H. unfold next_word, word_step.
  destruct (H (length l - nk) ltac:(lia)) as [La Ea]. destruct (H (length l - 1) ltac:(lia)) as [Lb Eb].
  rewrite Ea, Eb.
  assert (Q : 1 <= length l / nk) by (apply Nat.div_le_lower_bound; lia).
  destruct (length l mod nk =? 0).
  - rewrite word_of_rot, word_of_sub, word_of_rcon, word_of_xors, word_of_xors by
      (repeat first [assumption|rewrite xors_length|rewrite sub_bytes_length|rewrite rot_length|reflexivity|lia]).
    reflexivity.
  - destruct ((6 <? nk) && (length l mod nk =? 4)).
    + rewrite word_of_sub, word_of_xors by (rewrite ?sub_bytes_length; assumption). reflexivity.
    + rewrite word_of_xors by assumption. reflexivity.
Qed.

(** ** The expanded key *)
Definition key_words (key : bytes) : nat := length key / 4.

Lemma key_sizes : forall key, aes_key key -> length key = 4 * key_words key /\ 4 <= key_words key <= 8.
Proof. intros key [H|[H|H]]; unfold key_words; rewrite H; split; cbn; lia. Qed.

Lemma expand_length : forall key, aes_key key -> length (expand_key_go key) = 4 * (key_words key + 7).
Proof.
  intros key H. destruct (key_sizes key H) as [L B]. unfold expand_key_go. fold (key_words key).
  rewrite expand_is_grow, grow_length, map_length, seq_length. lia.
Qed.

Lemma first_words : forall key i, aes_key key -> i < key_words key ->
  length (firstn 4 (skipn (4 * i) key)) = 4 /\ be_uint32 key (4 * i) = word_of (firstn 4 (skipn (4 * i) key)).
Proof.
  intros key i H Hi. destruct (key_sizes key H) as [L B].
  assert (E : length (skipn (4 * i) key) >= 4) by (rewrite skipn_length; lia).
  split; [rewrite firstn_length; lia|]. rewrite be_word. unfold word_of.
  assert (G : forall j, j < 4 -> nth j (firstn 4 (skipn (4 * i) key)) x00 = nth (4 * i + j) key x00).
  { intros j Hj. rewrite nth_firstn_low by exact Hj.
    rewrite <- (firstn_skipn (4 * i) key) at 2.
    rewrite app_nth2 by (rewrite firstn_length; lia). f_equal. rewrite firstn_length. lia. }
  rewrite !G by lia. rewrite Nat.add_0_r. reflexivity.
Qed.

Lemma expand_key : forall key w, aes_key key -> schedule key w -> is_key (expand_key_go key) w (4 * (key_words key + 7)).
Proof.
  intros key w H [S1 S2]. fold (key_words key) in S1, S2. destruct (key_sizes key H) as [L B].
  unfold is_key. intro i. induction i as [i IH] using lt_wf_ind. intro Hi.
  unfold expand_key_go. fold (key_words key). rewrite expand_is_grow.
  set (l0 := map (fun i => be_uint32 key (4 * i)) (seq 0 (key_words key))).
  assert (L0 : length l0 = key_words key) by (unfold l0; rewrite map_length, seq_length; reflexivity).
  destruct (Nat.lt_ge_cases i (key_words key)) as [C|C].
  - rewrite S1 by exact C. destruct (first_words key i H C) as [F1 F2]. split; [exact F1|].
    rewrite grow_low by (rewrite L0; exact C). unfold l0.
    rewrite (nth_indep _ 0%N (be_uint32 key (4 * 0))) by (rewrite map_length, seq_length; exact C).
    rewrite (map_nth (fun i => be_uint32 key (4 * i))), seq_nth by exact C. exact F2.
  - rewrite grow_next by (rewrite L0; lia).
    assert (E : length (firstn i (grow (next_word (key_words key)) (length key + 28 - key_words key) l0)) = i)
      by (rewrite firstn_length, grow_length, L0; lia).
    rewrite S2 by lia.
    assert (Q : i / key_words key <= 16).
    { assert (i / key_words key < 17); [|lia]. apply Nat.div_lt_upper_bound; lia. }
    change (xors (w (i - key_words key)) _) with (word_step (key_words key) i w).
    split.
    + apply word_step_length; [lia| |]; apply IH; lia.
    + rewrite (next_word_step _ w) by
        (first [rewrite E; lia|intros j Hj; rewrite E in Hj; destruct (IH j Hj ltac:(lia)) as [A1 A2];
          split; [exact A1|rewrite nth_firstn_low by exact Hj; rewrite <- A2; unfold expand_key_go; fold (key_words key);
          rewrite expand_is_grow; reflexivity]]).
      rewrite E. reflexivity.
Qed.

(** every key has its words *)
Definition words_from (nk : nat) (l : list bytes) : bytes := word_step nk (length l) (fun i => nth i l []).
Lemma schedule_exists : forall key, aes_key key -> exists w, schedule key w.
Proof.
  intros key H. destruct (key_sizes key H) as [L B].
  set (l0 := map (fun i => firstn 4 (skipn (4 * i) key)) (seq 0 (key_words key))).
  assert (L0 : length l0 = key_words key) by (unfold l0; rewrite map_length, seq_length; reflexivity).
  set (g := grow (words_from (key_words key)) (length key + 28 - key_words key) l0).
  exists (fun i => nth i g []). unfold schedule. fold (key_words key). split.
  - intros i Hi. unfold g. rewrite grow_low by (rewrite L0; exact Hi). unfold l0.
    rewrite (nth_indep _ [] (firstn 4 (skipn (4 * 0) key))) by (rewrite map_length, seq_length; exact Hi).
    rewrite (map_nth (fun i => firstn 4 (skipn (4 * i) key))), seq_nth by exact Hi. reflexivity.
  - intros i Hi. change (nth i g [] = word_step (key_words key) i (fun i => nth i g [])).
    unfold g at 1. rewrite grow_next by (rewrite L0; lia). fold g. unfold words_from.
    assert (E : length (firstn i g) = i) by (unfold g; rewrite firstn_length, grow_length, L0; lia).
    rewrite E. unfold word_step. rewrite !nth_firstn_low by lia. reflexivity.
Qed.

(** ** AES *)
Lemma aes_go : forall key block out, aes_key key -> length block = 16 ->
  (aes key block out <-> out = encrypt_block_go (expand_key_go key) block).
Proof.
  intros key block out H Hb. destruct (key_sizes key H) as [L B]. split.
  - intros (w & S & ->). symmetry. fold (key_words key). apply block_cipher; [exact Hb| |lia|].
    + rewrite expand_length by exact H. lia.
    + replace (key_words key + 6 + 1) with (key_words key + 7) by lia. apply expand_key; assumption.
  - intros ->. destruct (schedule_exists key H) as [w S]. exists w. split; [exact S|]. fold (key_words key).
    apply block_cipher; [exact Hb| |lia|].
    + rewrite expand_length by exact H. lia.
    + replace (key_words key + 6 + 1) with (key_words key + 7) by lia. apply expand_key; assumption.
Qed.

Lemma aes_back : forall key w block, aes_key key -> schedule key w -> length block = 16 ->
  inv_cipher (length key / 4 + 6) w (cipher (length key / 4 + 6) w block) = block.
Proof.
  intros key w block H S Hb. destruct (key_sizes key H) as [L B]. fold (key_words key).
  apply inv_cipher_cipher; [|exact Hb]. intros i Hi.
  apply (round_key_length (expand_key_go key) w (4 * (key_words key + 7))); [apply expand_key; assumption|lia].
Qed.

Lemma aes_length : forall key block, aes_key key -> length block = 16 ->
  length (encrypt_block_go (expand_key_go key) block) = 16.
Proof. intros key block H Hb. unfold encrypt_block_go. destruct (middle_rounds _ _ _ _) as [[? ? ? ?] ?]. reflexivity. Qed.

Lemma aes_injective : forall key b b' out, aes_key key -> length b = 16 -> length b' = 16 ->
  aes key b out -> aes key b' out -> b = b'.
Proof.
  intros key b b' out H Hb Hb' A A'. apply aes_go in A'; [|assumption..]. subst out.
  apply aes_go in A; [|assumption..].
  destruct (schedule_exists key H) as [w S]. assert (E : forall x, length x = 16 ->
    encrypt_block_go (expand_key_go key) x = cipher (length key / 4 + 6) w x).
  { intros x Hx. symmetry. apply aes_go; [assumption..|]. exists w. split; [exact S|reflexivity]. }
  rewrite !E in A by assumption. rewrite <- (aes_back key w b H S Hb), <- (aes_back key w b' H S Hb'), A. reflexivity.
Qed.
