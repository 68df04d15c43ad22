(** Proofs: golang.org/x/crypto/blake2b computes BLAKE2b, and blake2x.go BLAKE2Xb. *)
From Coq Require Import Lia ZifyBool ZifyNat ZifyN ZArith.
From Verif Require Import Base BaseFacts Sha256 HashModel SignModel LittleEndian Primes25519 Edwards25519Model KeygenModel KeygenSpec Blake2Spec.
Local Open Scope N_scope.

Lemma sixteen_words : forall v : list N, length v = 16%nat ->
  exists a b c d e f g h i j k l m n o p, v = [a; b; c; d; e; f; g; h; i; j; k; l; m; n; o; p].
Proof.
  intros s H. do 16 (destruct s as [|? s]; [discriminate|]). destruct s; [|discriminate]. repeat eexists.
Qed.

(** where the words of a round are in the permuted table *)
Definition permuted (s : list nat) : list nat := map (fun i => nth i s O) [0; 2; 4; 6; 1; 3; 5; 7; 8; 10; 12; 14; 9; 11; 13; 15]%nat.

Lemma table_permuted : precomputed = map (fun i => permuted (nth (i mod 10)%nat sigma [])) (seq 0 12).
Proof. vm_compute. reflexivity. Qed.

Local Opaque plus64 turn64 wadd wrotr N.lxor.
Lemma plus_wadd : plus64 = wadd. Proof. Local Transparent plus64 wadd. reflexivity. Local Opaque plus64 wadd. Qed.
Lemma turn_wrotr : turn64 = wrotr. Proof. Local Transparent turn64 wrotr. reflexivity. Local Opaque turn64 wrotr. Qed.

Lemma wadd_swap : forall a b x, wadd (wadd a x) b = wadd (wadd a b) x.
Proof.
  intros. Local Transparent wadd. unfold wadd. Local Opaque wadd.
  rewrite !N.add_mod_idemp_l by discriminate. f_equal. lia.
Qed.

(** half of the mixing function, with one word of the message *)
Definition hA (a b c d x r1 r2 : N) : N := wadd (wadd a b) x.
Definition hD (a b c d x r1 r2 : N) : N := wrotr (N.lxor d (hA a b c d x r1 r2)) r1.
Definition hC (a b c d x r1 r2 : N) : N := wadd c (hD a b c d x r1 r2).
Definition hB (a b c d x r1 r2 : N) : N := wrotr (N.lxor b (hC a b c d x r1 r2)) r2.

Lemma mix_halves : forall a b c d x y, mix_words (a, b, c, d) x y =
  let a1 := hA a b c d x 32 24 in let b1 := hB a b c d x 32 24 in
  let c1 := hC a b c d x 32 24 in let d1 := hD a b c d x 32 24 in
  (hA a1 b1 c1 d1 y 16 63, hB a1 b1 c1 d1 y 16 63, hC a1 b1 c1 d1 y 16 63, hD a1 b1 c1 d1 y 16 63).
Proof. reflexivity. Qed.

Lemma half_0 : forall m s i r1 r2 v0 v1 v2 v3 v4 v5 v6 v7 v8 v9 v10 v11 v12 v13 v14 v15,
  mix m s [v0; v1; v2; v3; v4; v5; v6; v7; v8; v9; v10; v11; v12; v13; v14; v15] (i, 0%nat, 4%nat, 8%nat, 12%nat, r1, r2) =
  [hA v0 v4 v8 v12 (nth (nth i s O) m 0) r1 r2; v1; v2; v3; hB v0 v4 v8 v12 (nth (nth i s O) m 0) r1 r2; v5; v6; v7; hC v0 v4 v8 v12 (nth (nth i s O) m 0) r1 r2; v9; v10; v11; hD v0 v4 v8 v12 (nth (nth i s O) m 0) r1 r2; v13; v14; v15].
Proof.
  intros. unfold hB, hC, hD, hA. rewrite <- (wadd_swap v0 v4), <- plus_wadd, <- turn_wrotr. reflexivity.
Qed.
Lemma half_1 : forall m s i r1 r2 v0 v1 v2 v3 v4 v5 v6 v7 v8 v9 v10 v11 v12 v13 v14 v15,
  mix m s [v0; v1; v2; v3; v4; v5; v6; v7; v8; v9; v10; v11; v12; v13; v14; v15] (i, 1%nat, 5%nat, 9%nat, 13%nat, r1, r2) =
  [v0; hA v1 v5 v9 v13 (nth (nth i s O) m 0) r1 r2; v2; v3; v4; hB v1 v5 v9 v13 (nth (nth i s O) m 0) r1 r2; v6; v7; v8; hC v1 v5 v9 v13 (nth (nth i s O) m 0) r1 r2; v10; v11; v12; hD v1 v5 v9 v13 (nth (nth i s O) m 0) r1 r2; v14; v15].
Proof.
  intros. unfold hB, hC, hD, hA. rewrite <- (wadd_swap v1 v5), <- plus_wadd, <- turn_wrotr. reflexivity.
Qed.
Lemma half_2 : forall m s i r1 r2 v0 v1 v2 v3 v4 v5 v6 v7 v8 v9 v10 v11 v12 v13 v14 v15,
  mix m s [v0; v1; v2; v3; v4; v5; v6; v7; v8; v9; v10; v11; v12; v13; v14; v15] (i, 2%nat, 6%nat, 10%nat, 14%nat, r1, r2) =
  [v0; v1; hA v2 v6 v10 v14 (nth (nth i s O) m 0) r1 r2; v3; v4; v5; hB v2 v6 v10 v14 (nth (nth i s O) m 0) r1 r2; v7; v8; v9; hC v2 v6 v10 v14 (nth (nth i s O) m 0) r1 r2; v11; v12; v13; hD v2 v6 v10 v14 (nth (nth i s O) m 0) r1 r2; v15].
Proof.
  intros. unfold hB, hC, hD, hA. rewrite <- (wadd_swap v2 v6), <- plus_wadd, <- turn_wrotr. reflexivity.
Qed.
Lemma half_3 : forall m s i r1 r2 v0 v1 v2 v3 v4 v5 v6 v7 v8 v9 v10 v11 v12 v13 v14 v15,
  mix m s [v0; v1; v2; v3; v4; v5; v6; v7; v8; v9; v10; v11; v12; v13; v14; v15] (i, 3%nat, 7%nat, 11%nat, 15%nat, r1, r2) =
  [v0; v1; v2; hA v3 v7 v11 v15 (nth (nth i s O) m 0) r1 r2; v4; v5; v6; hB v3 v7 v11 v15 (nth (nth i s O) m 0) r1 r2; v8; v9; v10; hC v3 v7 v11 v15 (nth (nth i s O) m 0) r1 r2; v12; v13; v14; hD v3 v7 v11 v15 (nth (nth i s O) m 0) r1 r2].
Proof.
  intros. unfold hB, hC, hD, hA. rewrite <- (wadd_swap v3 v7), <- plus_wadd, <- turn_wrotr. reflexivity.
Qed.
Lemma half_4 : forall m s i r1 r2 v0 v1 v2 v3 v4 v5 v6 v7 v8 v9 v10 v11 v12 v13 v14 v15,
  mix m s [v0; v1; v2; v3; v4; v5; v6; v7; v8; v9; v10; v11; v12; v13; v14; v15] (i, 0%nat, 5%nat, 10%nat, 15%nat, r1, r2) =
  [hA v0 v5 v10 v15 (nth (nth i s O) m 0) r1 r2; v1; v2; v3; v4; hB v0 v5 v10 v15 (nth (nth i s O) m 0) r1 r2; v6; v7; v8; v9; hC v0 v5 v10 v15 (nth (nth i s O) m 0) r1 r2; v11; v12; v13; v14; hD v0 v5 v10 v15 (nth (nth i s O) m 0) r1 r2].
Proof.
  intros. unfold hB, hC, hD, hA. rewrite <- (wadd_swap v0 v5), <- plus_wadd, <- turn_wrotr. reflexivity.
Qed.
Lemma half_5 : forall m s i r1 r2 v0 v1 v2 v3 v4 v5 v6 v7 v8 v9 v10 v11 v12 v13 v14 v15,
  mix m s [v0; v1; v2; v3; v4; v5; v6; v7; v8; v9; v10; v11; v12; v13; v14; v15] (i, 1%nat, 6%nat, 11%nat, 12%nat, r1, r2) =
  [v0; hA v1 v6 v11 v12 (nth (nth i s O) m 0) r1 r2; v2; v3; v4; v5; hB v1 v6 v11 v12 (nth (nth i s O) m 0) r1 r2; v7; v8; v9; v10; hC v1 v6 v11 v12 (nth (nth i s O) m 0) r1 r2; hD v1 v6 v11 v12 (nth (nth i s O) m 0) r1 r2; v13; v14; v15].
Proof.
  intros. unfold hB, hC, hD, hA. rewrite <- (wadd_swap v1 v6), <- plus_wadd, <- turn_wrotr. reflexivity.
Qed.
Lemma half_6 : forall m s i r1 r2 v0 v1 v2 v3 v4 v5 v6 v7 v8 v9 v10 v11 v12 v13 v14 v15,
  mix m s [v0; v1; v2; v3; v4; v5; v6; v7; v8; v9; v10; v11; v12; v13; v14; v15] (i, 2%nat, 7%nat, 8%nat, 13%nat, r1, r2) =
  [v0; v1; hA v2 v7 v8 v13 (nth (nth i s O) m 0) r1 r2; v3; v4; v5; v6; hB v2 v7 v8 v13 (nth (nth i s O) m 0) r1 r2; hC v2 v7 v8 v13 (nth (nth i s O) m 0) r1 r2; v9; v10; v11; v12; hD v2 v7 v8 v13 (nth (nth i s O) m 0) r1 r2; v14; v15].
Proof.
  intros. unfold hB, hC, hD, hA. rewrite <- (wadd_swap v2 v7), <- plus_wadd, <- turn_wrotr. reflexivity.
Qed.
Lemma half_7 : forall m s i r1 r2 v0 v1 v2 v3 v4 v5 v6 v7 v8 v9 v10 v11 v12 v13 v14 v15,
  mix m s [v0; v1; v2; v3; v4; v5; v6; v7; v8; v9; v10; v11; v12; v13; v14; v15] (i, 3%nat, 4%nat, 9%nat, 14%nat, r1, r2) =
  [v0; v1; v2; hA v3 v4 v9 v14 (nth (nth i s O) m 0) r1 r2; hB v3 v4 v9 v14 (nth (nth i s O) m 0) r1 r2; v5; v6; v7; v8; hC v3 v4 v9 v14 (nth (nth i s O) m 0) r1 r2; v10; v11; v12; v13; hD v3 v4 v9 v14 (nth (nth i s O) m 0) r1 r2; v15].
Proof.
  intros. unfold hB, hC, hD, hA. rewrite <- (wadd_swap v3 v4), <- plus_wadd, <- turn_wrotr. reflexivity.
Qed.

Local Opaque hA hB hC hD.
Lemma round_permuted : forall m s v, length v = 16%nat -> fold_left (mix m (permuted s)) steps v = blake_round m s v.
Proof.
  intros m s v Hv.
  destruct (sixteen_words v Hv) as (a & b & c & d & e & f & g & h & i & j & k & l & n & o & p & q & ->).
  unfold blake_round. rewrite !mix_halves. cbv zeta.
  unfold steps. cbn [fold_left].
  rewrite half_0, half_1, half_2, half_3, half_0, half_1, half_2, half_3, half_4, half_5, half_6, half_7, half_4, half_5, half_6, half_7.
  reflexivity.
Qed.

Lemma round_length : forall m s v, length v = 16%nat -> length (blake_round m s v) = 16%nat.
Proof.
  intros m s v Hv.
  destruct (sixteen_words v Hv) as (a & b & c & d & e & f & g & h & i & j & k & l & n & o & p & q & ->).
  unfold blake_round. rewrite !mix_halves. cbv zeta. reflexivity.
Qed.

Lemma fold_same : forall (A B C : Type) (P : A -> Prop) (g : A -> B -> A) (r : A -> C -> A) (p : C -> B),
  (forall i v, P v -> g v (p i) = r v i) -> (forall i v, P v -> P (r v i)) ->
  forall l v, P v -> fold_left g (map p l) v = fold_left r l v.
Proof.
  intros A B C P g r p H1 H2. induction l as [|i l IH]; intros v Hv; [reflexivity|]. cbn [map fold_left].
  rewrite H1 by exact Hv. apply IH, H2, Hv.
Qed.

Lemma rounds_permuted : forall m (f : nat -> list nat) l v, length v = 16%nat ->
  fold_left (fun v s => fold_left (mix m s) steps v) (map (fun i => permuted (f i)) l) v =
  fold_left (fun v i => blake_round m (f i) v) l v.
Proof.
  intros m f. apply (fold_same (list N) (list nat) nat (fun v => length v = 16%nat)
    (fun v s => fold_left (mix m s) steps v) (fun v i => blake_round m (f i) v) (fun i => permuted (f i))).
  - intros i v Hv. apply round_permuted, Hv.
  - intros i v Hv. apply round_length, Hv.
Qed.

Definition word_at (i : nat) (l : bytes) : N := Z.to_N (le_val (firstn 8 (skipn (8 * i) l))).
Lemma skipn_twice : forall (A : Type) (l : list A) a b, skipn a (skipn b l) = skipn (b + a) l.
Proof.
  intros A l a b. revert l. induction b as [|b IH]; intro l; [reflexivity|].
  destruct l as [|x l]; [cbn; apply skipn_nil|]. cbn [skipn Nat.add]. apply IH.
Qed.
Lemma word_at_S : forall i l, word_at (S i) l = word_at i (skipn 8 l).
Proof.
  intros i l. unfold word_at. rewrite skipn_twice.
  replace (8 * S i)%nat with (8 + 8 * i)%nat by lia. reflexivity.
Qed.
Lemma uint64s_map : forall n l, uint64s n l = map (fun i => word_at i l) (seq 0 n).
Proof.
  induction n as [|n IH]; intro l; [reflexivity|]. cbn [uint64s seq map]. apply (f_equal2 cons); [reflexivity|].
  rewrite IH, <- seq_shift, map_map. apply map_ext. intro i. symmetry. apply word_at_S.
Qed.

Lemma eight_words : forall v : list N, length v = 8%nat -> exists a b c d e f g h, v = [a; b; c; d; e; f; g; h].
Proof.
  intros s H. do 8 (destruct s as [|? s]; [discriminate|]). destruct s; [|discriminate]. repeat eexists.
Qed.

(** one block *)
Definition v_start (h : list N) (k0 k1 w6 : N) : list N :=
  h ++ [0x6A09E667F3BCC908; 0xBB67AE8584CAA73B; 0x3C6EF372FE94F82B; 0xA54FF53A5F1D36F1;
        N.lxor 0x510E527FADE682D1 k0; N.lxor 0x9B05688C2B3E6C1F k1; w6; 0x5BE0CD19137E2179].

Lemma v_start_length : forall h k0 k1 w, length h = 8%nat -> length (v_start h k0 k1 w) = 16%nat.
Proof. intros. unfold v_start. rewrite app_length, H. reflexivity. Qed.
Lemma folded_length : forall h v, length (map (fun i => N.lxor (N.lxor (nth i h 0) (nth i v 0)) (nth (i + 8) v 0)) (seq 0 8)) = 8%nat.
Proof. intros. rewrite map_length, seq_length. reflexivity. Qed.
Lemma code_start : forall h k0 k1 flag, length h = 8%nat ->
  let v := h ++ iv in let v := upd 12 (N.lxor (nth 12 v 0) k0) v in let v := upd 13 (N.lxor (nth 13 v 0) k1) v in
  upd 14 (N.lxor (nth 14 v 0) flag) v = v_start h k0 k1 (N.lxor 0x1F83D9ABFB41BD6B flag).
Proof.
  intros h k0 k1 flag Hh. destruct (eight_words h Hh) as (h0 & h1 & h2 & h3 & h4 & h5 & h6 & h7 & ->). reflexivity.
Qed.

Definition folded (h v : list N) : list N :=
  map (fun i => N.lxor (N.lxor (nth i h 0) (nth i v 0)) (nth (i + 8) v 0)) (seq 0 8).
Lemma code_folded : forall h v,
  map (fun i => N.lxor (nth i h 0) (N.lxor (nth i v 0) (nth (i + 8) v 0))) (seq 0 8) = folded h v.
Proof. intros. apply map_ext. intro i. symmetry. apply N.lxor_assoc. Qed.

Definition rounds_of (block : bytes) (v : list N) : list N :=
  fold_left (fun v i => blake_round (block_words block) (nth (i mod 10)%nat sigma []) v) (seq 0 12) v.
Lemma code_rounds : forall block v, length v = 16%nat ->
  fold_left (fun v s => fold_left (mix (uint64s 16 block) s) steps v) precomputed v = rounds_of block v.
Proof.
  intros block v Hv. rewrite table_permuted, uint64s_map.
  apply (rounds_permuted (block_words block) (fun i => nth (i mod 10)%nat sigma []) (seq 0 12) v Hv).
Qed.

Definition end_word (f : bool) : N := if f then N.lxor 0x1F83D9ABFB41BD6B (2 ^ 64 - 1) else 0x1F83D9ABFB41BD6B.
Lemma end_word_is : forall f : bool, N.lxor 0x1F83D9ABFB41BD6B (if f then 2 ^ 64 - 1 else 0) = end_word f.
Proof. destruct f; reflexivity. Qed.
Lemma F_parts : forall h block t (f : bool), length h = 8%nat ->
  blake_F h block t f = folded h (rounds_of block (v_start h (t mod 2 ^ 64) (t / 2 ^ 64) (end_word f))).
Proof.
  intros h block t f Hh. destruct (eight_words h Hh) as (h0 & h1 & h2 & h3 & h4 & h5 & h6 & h7 & ->).
  unfold blake_F, blake_iv, v_start, folded, rounds_of, end_word. cbv beta iota zeta. reflexivity.
Qed.

Local Transparent plus64.
Lemma plus64_small : forall a b, plus64 a b < 2 ^ 64.
Proof. intros. apply N.mod_lt. discriminate. Qed.
Lemma plus64_is : forall a b, plus64 a b = (a + b) mod 2 ^ 64.
Proof. reflexivity. Qed.
Local Opaque plus64 rounds_of folded v_start.

Lemma hash_block_F : forall h c0 c1 (last : bool) block, length h = 8%nat ->
  let k0 := plus64 c0 128 in let k1 := if k0 <? 128 then plus64 c1 1 else c1 in
  fst (hash_block h (c0, c1) (if last then 2 ^ 64 - 1 else 0) block) = blake_F h block (k1 * 2 ^ 64 + k0) last.
Proof.
  intros h c0 c1 last block Hh k0 k1.
  assert (Hk : k0 < 2 ^ 64) by apply plus64_small.
  rewrite F_parts by exact Hh.
  assert ((k1 * 2 ^ 64 + k0) mod 2 ^ 64 = k0) as ->
    by (rewrite N.add_comm, N.mod_add by discriminate; apply N.mod_small; exact Hk).
  assert ((k1 * 2 ^ 64 + k0) / 2 ^ 64 = k1) as ->
    by (rewrite N.add_comm, N.div_add by discriminate; rewrite N.div_small by exact Hk; apply N.add_0_l).
  unfold hash_block. cbn [fst snd]. rewrite code_folded. fold k0. fold k1.
  pose proof (code_start h k0 k1 (if last then 2 ^ 64 - 1 else 0) Hh) as S. cbv zeta in S. rewrite S, end_word_is.
  rewrite code_rounds; [reflexivity|]. apply v_start_length, Hh.
Qed.

Lemma F_length : forall h block t f, length h = 8%nat -> length (blake_F h block t f) = 8%nat.
Proof. intros. rewrite F_parts by assumption. apply folded_length. Qed.

(** ** A digest of one block *)
Lemma finalize_F : forall h x, length h = 8%nat -> (length x <= 128)%nat ->
  finalize (Digest h (0, 0) x) = word_bytes (blake_F h (filled x) (N.of_nat (length x)) true).
Proof.
  intros h x Hh Hx. unfold finalize. cbn [dg_c dg_h dg_block]. unfold word_bytes. do 2 f_equal.
  change 0xffffffffffffffff with (if true then 2 ^ 64 - 1 else 0).
  rewrite (hash_block_F h _ _ true _ Hh). fold (filled x). change (fill 128 x) with (filled x).
  f_equal. set (n := N.of_nat (128 - length x)).
  assert (Hn : n <= 128) by (unfold n; lia).
  assert (E : N.of_nat (length x) = 128 - n) by (unfold n; lia). rewrite E.
  assert (H : n = 0 \/ 0 < n) by lia. rewrite !plus64_is. unfold less64, two64.
  destruct H as [->|H]; [reflexivity|].
  destruct (N.ltb_spec 0 n) as [_|X]; [|lia].
  rewrite !N.add_0_l. rewrite (N.mod_small (2 ^ 64 - n)) by lia.
  replace (2 ^ 64 - n + 128) with (128 - n + 1 * 2 ^ 64) by lia. rewrite N.mod_add by discriminate.
  rewrite (N.mod_small (128 - n)) by lia. destruct (N.ltb_spec (128 - n) 128) as [_|X]; [|lia].
  rewrite (N.mod_small (2 ^ 64 - 1)) by lia. replace (2 ^ 64 - 1 + 1) with (2 ^ 64) by lia.
  rewrite N.mod_same by discriminate. lia.
Qed.

Lemma one_block : forall h t x h', (length x <= 128)%nat -> blake_data h t x h' ->
  h' = blake_F h (filled x) (t + N.of_nat (length x)) true.
Proof.
  intros h t x h' Hx H. destruct H as [h t x L|h t x y h' L Ny H]; [reflexivity|].
  exfalso. rewrite app_length, L in Hx. destruct y; [apply Ny; reflexivity|cbn in Hx; lia].
Qed.

(** ** BLAKE2Xb *)
Lemma start_length : forall p, length (blake_start p) = 8%nat.
Proof. intro p. unfold blake_start. rewrite map_length, seq_length. reflexivity. Qed.

Definition root_start (k : N) : list N :=
  upd 1 (N.lxor (nth 1 iv 0) (N.shiftl 0xffffffff 32))
    (upd 0 (N.lxor (nth 0 iv 0) (N.lor (N.lor (N.lor 64 (N.shiftl k 8)) (N.shiftl 1 16)) (N.shiftl 1 24))) iv).
Fixpoint same_words (a b : list N) : bool :=
  match a, b with [], [] => true | x :: a, y :: b => N.eqb x y && same_words a b | _, _ => false end.
Lemma same_words_eq : forall a b, same_words a b = true -> a = b.
Proof.
  induction a as [|x a IH]; intros [|y b] H; try discriminate; [reflexivity|]. cbn in H.
  apply andb_prop in H as [H1 H2]. apply N.eqb_eq in H1. rewrite H1, (IH b H2). reflexivity.
Qed.
Lemma root_starts : forall k, (k <= 64)%nat -> root_start (N.of_nat k) = blake_start (params 64 (N.of_nat k) 1 1 0 0 (2 ^ 32 - 1) 0 0).
Proof.
  intros k Hk. apply same_words_eq.
  assert (H : forallb (fun k => same_words (root_start (N.of_nat k)) (blake_start (params 64 (N.of_nat k) 1 1 0 0 (2 ^ 32 - 1) 0 0))) (seq 0 65) = true)
    by (vm_compute; reflexivity).
  rewrite forallb_forall in H. apply (H k). apply in_seq. lia.
Qed.
Lemma block_start : map (fun p => N.lxor (fst p) (snd p)) (combine iv (uint64s 8 (xof_config 0))) =
  blake_start (params 64 0 0 0 64 0 (2 ^ 32 - 1) 0 64).
Proof. vm_compute. reflexivity. Qed.

Lemma root_iff : forall key root, (length key <= 64)%nat -> (blake2xb_root key root <-> root = xof_root key).
Proof.
  intros key root Hk.
  set (data := if (length key =? 0)%nat then [] else filled key).
  assert (L : (length data <= 128)%nat).
  { unfold data. destruct (length key =? 0)%nat; [cbn; lia|]. unfold filled. rewrite app_length, repeat_length. lia. }
  assert (E : xof_root key = word_bytes (blake_F (blake_start (params 64 (N.of_nat (length key)) 1 1 0 0 (2 ^ 32 - 1) 0 0))
                                                 (filled data) (N.of_nat (length data)) true)).
  { unfold xof_root, reset. cbn [dg_h dg_c dg_block].
    change (upd 1 _ _) with (root_start (N.of_nat (length key))). rewrite root_starts by exact Hk.
    rewrite finalize_F; [|apply start_length|].
    - assert ((if 0 <? N.of_nat (length key) then fill 128 key else []) = data) as ->; [|reflexivity].
      unfold data. change (fill 128 key) with (filled key).
      destruct (N.ltb_spec 0 (N.of_nat (length key))), (Nat.eqb_spec (length key) 0); try reflexivity; lia.
    - destruct (0 <? N.of_nat (length key)); [|cbn; lia]. unfold fill. rewrite app_length, repeat_length. lia. }
  rewrite E. unfold blake2xb_root. fold data. split.
  - intros (h & H & ->). apply one_block in H; [|exact L]. subst h. reflexivity.
  - intros ->. eexists. split; [|reflexivity]. apply (Blake_last _ 0 data L).
Qed.

Lemma words_length : forall h, length h = 8%nat -> length (word_bytes h) = 64%nat.
Proof.
  intros h Hh. unfold word_bytes. destruct (eight_words h Hh) as (h0 & h1 & h2 & h3 & h4 & h5 & h6 & h7 & ->).
  cbn [map concat]. rewrite !app_length, !le_bytes_length. reflexivity.
Qed.
Lemma xof_root_F : forall key, (length key <= 64)%nat ->
  exists h, length h = 8%nat /\ xof_root key = word_bytes h.
Proof.
  intros key Hk. destruct (proj2 (root_iff key (xof_root key) Hk) eq_refl) as (h & H & E).
  exists h. split; [|exact E]. apply one_block in H.
  - subst h. apply F_length, start_length.
  - destruct (length key =? 0)%nat; [cbn; lia|]. unfold filled. rewrite app_length, repeat_length. lia.
Qed.
Lemma root_length : forall key, (length key <= 64)%nat -> length (xof_root key) = 64%nat.
Proof. intros key Hk. destruct (xof_root_F key Hk) as (h & Lh & ->). apply words_length, Lh. Qed.

Lemma block_iff : forall root out, length root = 64%nat -> (blake2xb_block root 0 out <-> out = xof_block root 0).
Proof.
  intros root out L.
  assert (E : xof_block root 0 = word_bytes (blake_F (blake_start (params 64 0 0 0 64 0 (2 ^ 32 - 1) 0 64))
                                                     (filled root) (N.of_nat (length root)) true)).
  { unfold xof_block. rewrite block_start. apply finalize_F; [apply start_length|lia]. }
  rewrite E. unfold blake2xb_block. split.
  - intros (h & H & ->). apply one_block in H; [|lia]. subst h. reflexivity.
  - intros ->. eexists. split; [|reflexivity]. apply Blake_last. lia.
Qed.

(** what is read is BLAKE2Xb *)
Lemma xof_read_blake : forall key n out, (length key <= 64)%nat ->
  (blake2xb key n out <-> out = xof_read key n).
Proof.
  intros key n out Hk. unfold blake2xb, xof_read. split.
  - intros (root & block & H1 & H2 & ->). apply root_iff in H1; [|exact Hk]. subst root.
    apply block_iff in H2; [|apply root_length, Hk]. subst block. reflexivity.
  - intros ->. exists (xof_root key), (xof_block (xof_root key) 0). repeat split.
    + apply root_iff; [exact Hk|reflexivity].
    + apply block_iff; [apply root_length, Hk|reflexivity].
Qed.

Lemma output_blake : forall d out, blake2xb (sha_256 d) 32 out <-> out = output d.
Proof. intros d out. apply xof_read_blake. rewrite sha_256_length. lia. Qed.
