(** Proofs about libs/hashtree. *)
From Coq Require Import Lia ZifyBool ZifyNat ZifyN Permutation.
From Verif Require Import Base BaseFacts Sha512 HashModel HashTreeModel HashSpec HashProofs.

(** ** Perfect consistent trees *)
Inductive perfect : nat -> leaf -> Prop :=
| P_leaf : forall h, length h = 64 -> perfect 0 (LLeaf h)
| P_node : forall d h l r,
    perfect d l -> perfect d r -> h = from_bytes (leaf_head l ++ leaf_head r) ->
    perfect (S d) (LNode h l r).

Lemma perfect_head_length : forall d x, perfect d x -> length (leaf_head x) = 64.
Proof. intros d x H. destruct H; cbn; [assumption|]. subst. apply from_bytes_length. Qed.

Lemma perfect_leaves_length : forall d x, perfect d x -> length (leaf_leaves x) = 2 ^ d.
Proof.
  intros d x H. induction H; cbn [leaf_leaves]; [reflexivity|].
  rewrite app_length, IHperfect1, IHperfect2. cbn. lia.
Qed.

Lemma perfect_height : forall d x, perfect d x -> leaf_height x = d.
Proof. intros d x H. induction H; cbn; congruence. Qed.

Lemma perfect_merkle : forall d x, perfect d x -> MerkleRoot (map leaf_head (leaf_leaves x)) (leaf_head x).
Proof.
  intros d x H. induction H; cbn [leaf_leaves leaf_head map].
  - constructor.
  - rewrite map_app. subst. constructor; try assumption.
    rewrite !map_length. rewrite (perfect_leaves_length _ _ H), (perfect_leaves_length _ _ H0). reflexivity.
Qed.

Lemma children_spec : forall n d ls,
  length ls = 2 * n -> Forall (perfect d) ls ->
  exists cs, children ls = Ok cs /\ length cs = n /\ Forall (perfect (S d)) cs /\
    flat_map leaf_leaves cs = flat_map leaf_leaves ls.
Proof.
  induction n as [|n IH]; intros d ls HL HF.
  - destruct ls; [|cbn in HL; lia]. exists []. repeat split; try reflexivity. constructor.
  - destruct ls as [|l [|r ls]]; cbn in HL; try lia.
    inversion HF as [|? ? Hl HF']; subst. inversion HF' as [|? ? Hr HF'']; subst.
    destruct (IH d ls) as (cs & Hc & Hn & HP & Hf); [lia|assumption|].
    exists (child l r :: cs). cbn [children]. rewrite Hc. cbn [rbind]. repeat split.
    + cbn. lia.
    + constructor; [|exact HP]. unfold child. constructor; auto.
    + cbn [flat_map]. rewrite Hf. unfold child. cbn [leaf_leaves]. rewrite app_assoc. reflexivity.
Qed.

Lemma children_length : forall n ls cs, length ls <= n -> children ls = Ok cs -> 2 * length cs = length ls.
Proof.
  induction n as [|n IH]; intros ls cs HL H.
  - destruct ls; [|cbn in HL; lia]. cbn in H. injection H as <-. reflexivity.
  - destruct ls as [|l [|r ls]]; cbn in H; try discriminate.
    + injection H as <-. reflexivity.
    + apply rbind_Ok in H as (cs' & H1 & H2). injection H2 as <-. cbn [length] in *.
      specialize (IH ls cs'). cbn [length] in *. rewrite <- IH; [lia|lia|assumption].
Qed.

(** Fuel of at least the length of the list never runs out. *)
Lemma leaves_fuel : forall f f' ls, length ls <= f -> length ls <= f' ->
  leaves_hashtree_f f ls = leaves_hashtree_f f' ls.
Proof.
  induction f as [|f IH]; intros f' ls Hf Hf'.
  - destruct ls; [|cbn in Hf; lia]. destruct f'; reflexivity.
  - destruct ls as [|a [|b [|c ls]]]; try (destruct f'; reflexivity).
    destruct f' as [|f']; [cbn in Hf'; lia|].
    change (leaves_hashtree_f (S f) (a :: b :: c :: ls)) with
      (rbind (children (a :: b :: c :: ls)) (leaves_hashtree_f f)).
    change (leaves_hashtree_f (S f') (a :: b :: c :: ls)) with
      (rbind (children (a :: b :: c :: ls)) (leaves_hashtree_f f')).
    destruct (children (a :: b :: c :: ls)) as [cs| |] eqn:E; try reflexivity.
    cbn [rbind]. apply children_length with (n := length (a :: b :: c :: ls)) in E; [|lia].
    cbn [length] in *. apply IH; lia.
Qed.

Lemma leaves_hashtree_spec : forall k d fuel ls,
  length ls = 2 ^ S k -> k <= fuel -> Forall (perfect d) ls ->
  exists t, leaves_hashtree_f fuel ls = Ok t /\
    perfect (d + k) (ht_left t) /\ perfect (d + k) (ht_right t) /\
    ht_head t = from_bytes (leaf_head (ht_left t) ++ leaf_head (ht_right t)) /\
    ht_block_leaves t = flat_map leaf_leaves ls.
Proof.
  induction k as [|k IH]; intros d fuel ls HL Hf HP.
  - destruct ls as [|l [|r [|? ls]]]; cbn in HL; try lia.
    inversion HP as [|? ? Hl HP']; subst. inversion HP' as [|? ? Hr HP'']; subst.
    exists (parent_hashtree l r). rewrite Nat.add_0_r.
    split; [destruct fuel; reflexivity|]. cbn. rewrite app_nil_r. repeat split; assumption.
  - assert (H4 : 4 <= length ls).
    { rewrite HL. rewrite !Nat.pow_succ_r'. pose proof (Nat.pow_nonzero 2 k). lia. }
    destruct (children_spec (2 ^ S k) d ls) as (cs & Hc & Hn & HPc & Hfl); [rewrite HL; reflexivity|exact HP|].
    destruct fuel as [|fuel]; [lia|].
    destruct (IH (S d) fuel cs Hn) as (t & Ht & H1 & H2 & H3 & H5); [lia|exact HPc|].
    exists t. split.
    + destruct ls as [|a [|b [|c ls]]]; cbn [length] in H4; try lia.
      change (leaves_hashtree_f (S fuel) (a :: b :: c :: ls)) with
        (rbind (children (a :: b :: c :: ls)) (leaves_hashtree_f fuel)).
      rewrite Hc. exact Ht.
    + replace (d + S k) with (S d + k) by lia. repeat split; try assumption. rewrite H5. exact Hfl.
Qed.

Lemma flat_map_leaf : forall l, flat_map leaf_leaves (map LLeaf l) = map LLeaf l.
Proof. induction l as [|x l IH]; [reflexivity|]. cbn. rewrite IH. reflexivity. Qed.

Lemma map_head_leaf : forall l, map leaf_head (map LLeaf l) = l.
Proof. induction l as [|x l IH]; [reflexivity|]. cbn. rewrite IH. reflexivity. Qed.

Definition all64 (l : list hash) : Prop := Forall (fun h => length h = 64) l.

Lemma pow2_gt : forall k, k < 2 ^ k.
Proof. intro k. apply Nat.pow_gt_lin_r. lia. Qed.

(** Building from 2^k hashes, k >= 1. *)
Lemma tree_of_hashes : forall k l, length l = 2 ^ S k -> all64 l ->
  exists t, leaves_hashtree (map LLeaf l) = Ok t /\
    perfect k (ht_left t) /\ perfect k (ht_right t) /\
    ht_head t = from_bytes (leaf_head (ht_left t) ++ leaf_head (ht_right t)) /\
    ht_block_leaves t = map LLeaf l.
Proof.
  intros k l HL H64.
  destruct (leaves_hashtree_spec k 0 (length (map LLeaf l)) (map LLeaf l)) as (t & Ht & H1 & H2 & H3 & H4).
  - rewrite map_length. exact HL.
  - rewrite map_length, HL. pose proof (pow2_gt (S k)). lia.
  - apply Forall_forall. intros x Hx. apply in_map_iff in Hx as (h & <- & Hh).
    constructor. unfold all64 in H64. rewrite Forall_forall in H64. apply H64. exact Hh.
  - exists t. rewrite flat_map_leaf in H4. repeat split; assumption.
Qed.

(** ** Powers of two *)
Lemma land_pow2 : forall k, N.land (2 ^ k) (2 ^ k - 1) = 0%N.
Proof.
  intro k. replace (2 ^ k - 1)%N with (N.ones k) by (rewrite N.ones_equiv; lia).
  rewrite N.land_ones. apply N.mod_same. apply N.pow_nonzero. lia.
Qed.

Lemma land_not_pow2 : forall n, n <> 0%N -> N.land n (n - 1) = 0%N -> n = (2 ^ N.log2 n)%N.
Proof.
  intros n Hn H.
  pose proof (N.log2_spec n ltac:(lia)) as [H1 H2].
  destruct (N.eq_dec n (2 ^ N.log2 n)) as [E|NE]; [exact E|exfalso].
  assert (Hb1 : N.testbit n (N.log2 n) = true) by (apply N.bit_log2; exact Hn).
  assert (Hb2 : N.testbit (n - 1) (N.log2 n) = true).
  { replace (N.log2 n) with (N.log2 (n - 1)).
    - apply N.bit_log2. pose proof (N.pow_nonzero 2 (N.log2 n)). lia.
    - apply N.log2_unique; [lia|]. lia. }
  assert (Hb : N.testbit (N.land n (n - 1)) (N.log2 n) = true) by (rewrite N.land_spec, Hb1, Hb2; reflexivity).
  rewrite H in Hb. rewrite N.bits_0 in Hb. discriminate.
Qed.

Lemma is_pow2_spec : forall n, is_pow2 n = true <-> exists k, n = 2 ^ k.
Proof.
  intro n. unfold is_pow2. rewrite andb_true_iff, negb_true_iff, Nat.eqb_neq, N.eqb_eq. split.
  - intros [H1 H2]. apply land_not_pow2 in H2; [|lia].
    exists (N.to_nat (N.log2 (N.of_nat n))). apply Nat2N.inj. rewrite Nat2N.inj_pow, N2Nat.id. exact H2.
  - intros [k ->]. split; [apply Nat.pow_nonzero; lia|]. rewrite Nat2N.inj_pow. apply land_pow2.
Qed.

Definition log2c (n : nat) : nat := Nat.max 1 (Nat.log2_up n).

(** Length of the padded list. *)
Lemma resize_length : forall l, 2 <= length l ->
  resize l = l ++ repeat (from_bytes []) (2 ^ Nat.log2_up (length l) - length l) /\
  length (resize l) = 2 ^ Nat.log2_up (length l) /\ 1 <= Nat.log2_up (length l).
Proof.
  intros l HL. assert (H0 : 1 <= Nat.log2_up (length l)).
  { change 1 with (Nat.log2_up 2). apply Nat.log2_up_le_mono. exact HL. }
  pose proof (Nat.log2_up_spec (length l) ltac:(lia)) as [_ HU].
  assert (E : resize l = l ++ repeat (from_bytes []) (2 ^ Nat.log2_up (length l) - length l)).
  { unfold resize, next_pow2. destruct (is_pow2 (length l)) eqn:E; [|reflexivity].
    apply is_pow2_spec in E as [k E]. rewrite E. rewrite Nat.log2_up_pow2 by lia.
    rewrite Nat.sub_diag. cbn. rewrite app_nil_r. reflexivity. }
  split; [exact E|]. split; [|exact H0]. rewrite E, app_length, repeat_length. lia.
Qed.

Definition norm (data : list bytes) : list bytes :=
  if Nat.leb (length data) 1 then data ++ [[]] else data.

Lemma log2_up_minimal : forall n j, 1 <= j -> n <= 2 ^ j -> 2 <= n -> 2 ^ Nat.log2_up n <= 2 ^ j.
Proof.
  intros n j Hj Hn H2. apply Nat.pow_le_mono_r; [lia|]. apply Nat.log2_up_le_pow2; lia.
Qed.

Lemma block_of_data_spec : forall data, data <> [] ->
  exists k, smallest_pow2 (length data) (2 ^ k) k /\
    block_of_data data = map from_bytes data ++ repeat (from_bytes []) (2 ^ k - length data) /\
    length (block_of_data data) = 2 ^ k /\ all64 (block_of_data data).
Proof.
  intros data Hne. unfold block_of_data. fold (norm data).
  destruct (Nat.leb_spec (length data) 1) as [H1|H1].
  - destruct data as [|a [|b data]]; [contradiction| |cbn in H1; lia].
    exists 1. split; [|split; [|split]].
    + unfold smallest_pow2. repeat split; try (cbn; lia). intros j Hj _.
      change (2 ^ 1) with 2. change 2 with (2 ^ 1) at 1. apply Nat.pow_le_mono_r; lia.
    + reflexivity.
    + reflexivity.
    + cbn. repeat constructor; apply from_bytes_length.
  - unfold norm. destruct (Nat.leb_spec (length data) 1); [lia|].
    destruct (resize_length (map from_bytes data)) as (E & EL & E1); [rewrite map_length; lia|].
    rewrite map_length in *. exists (Nat.log2_up (length data)). split; [|split; [|split]].
    + pose proof (Nat.log2_up_spec (length data) ltac:(lia)) as [_ HU].
      unfold smallest_pow2. repeat split; try assumption.
      intros j Hj Hn. apply log2_up_minimal; lia.
    + exact E.
    + exact EL.
    + rewrite E. apply Forall_app. split.
      * apply Forall_forall. intros x Hx. apply in_map_iff in Hx as (y & <- & _). apply from_bytes_length.
      * apply Forall_forall. intros x Hx. apply repeat_spec in Hx. subst. apply from_bytes_length.
Qed.

Lemma build_spec : forall data, data <> [] ->
  exists t k, hashtree_of_blocks data = Ok t /\
    smallest_pow2 (length data) (2 ^ k) k /\
    ht_block_leaves t = map LLeaf (block_of_data data) /\
    block_of_data data = map from_bytes data ++ repeat (from_bytes []) (2 ^ k - length data) /\
    ht_length t = 2 ^ k /\ ht_height t = k + 1 /\
    all64 (block_of_data data) /\
    perfect (k - 1) (ht_left t) /\ perfect (k - 1) (ht_right t) /\
    ht_head t = from_bytes (leaf_head (ht_left t) ++ leaf_head (ht_right t)).
Proof.
  intros data Hne. destruct (block_of_data_spec data Hne) as (k & Hk & E & EL & E64).
  assert (K : exists k', k = S k') by (destruct k; [destruct Hk; lia|eauto]). destruct K as [k' ->].
  destruct (tree_of_hashes k' (block_of_data data) EL E64) as (t & Ht & H1 & H2 & H3 & H4).
  exists t, (S k'). replace (S k' - 1) with k' by lia. repeat split; try assumption; try (apply Hk).
  - unfold ht_length. rewrite H4, map_length, EL. reflexivity.
  - unfold ht_height. rewrite (perfect_height _ _ H1). lia.
Qed.

Lemma tree_merkle : forall k t, perfect k (ht_left t) -> perfect k (ht_right t) ->
  ht_head t = from_bytes (leaf_head (ht_left t) ++ leaf_head (ht_right t)) ->
  MerkleRoot (leaf_hashes t) (ht_head t).
Proof.
  intros k t H1 H2 H3. unfold leaf_hashes, ht_block_leaves. rewrite map_app, H3.
  constructor.
  - rewrite !map_length, (perfect_leaves_length _ _ H1), (perfect_leaves_length _ _ H2). reflexivity.
  - apply (perfect_merkle k). exact H1.
  - apply (perfect_merkle k). exact H2.
Qed.

(** C03 *)
Lemma build_tree : forall data, data <> [] ->
  exists t k,
    hashtree_of_blocks data = Ok t /\
    smallest_pow2 (length data) (ht_length t) k /\
    ht_height t = k + 1 /\
    Forall (fun l => exists h, l = LLeaf h) (ht_block_leaves t) /\
    leaf_hashes t = map from_bytes data ++ repeat (sha512 []) (ht_length t - length data) /\
    MerkleRoot (leaf_hashes t) (ht_head t).
Proof.
  intros data Hne. destruct (build_spec data Hne) as (t & k & Ht & Hk & Hl & Hb & HL & Hh & H64 & H1 & H2 & H3).
  exists t, k. rewrite HL. repeat split; try assumption; try (apply Hk).
  - rewrite Hl. apply Forall_forall. intros x Hx. apply in_map_iff in Hx as (h & <- & _). eauto.
  - unfold leaf_hashes. rewrite Hl, map_head_leaf, Hb. reflexivity.
  - apply (tree_merkle (k - 1)); assumption.
Qed.

Lemma build_empty_panics : hashtree_of_blocks [] = Panic.
Proof. reflexivity. Qed.

(** ** Compact form (C04) *)
Lemma compact_rebuild : forall data t, hashtree_of_blocks data = Ok t ->
  leaves_hashtree (c_leaves (ht_compact t)) = Ok t.
Proof.
  intros data t Ht. destruct data as [|a data]; [discriminate|].
  destruct (build_spec (a :: data)) as (t' & k & Ht' & _ & Hl & _); [discriminate|].
  assert (t' = t) by congruence. subst t'.
  unfold ht_compact. cbn [c_leaves]. rewrite Hl. exact Ht.
Qed.

Fixpoint leaf64 (x : leaf) : Prop :=
  match x with
  | LLeaf h => length h = 64
  | LNode h l r => length h = 64 /\ leaf64 l /\ leaf64 r
  end.

Lemma leaf_json_roundtrip : forall x, leaf64 x -> leaf_of_json (json_of_leaf x) = Ok x.
Proof.
  induction x as [h|h l IHl r IHr]; intro H; cbn [json_of_leaf leaf_of_json].
  - rewrite from_string_hash_string by exact H. reflexivity.
  - destruct H as (H1 & H2 & H3). rewrite from_string_hash_string by exact H1. cbn [rbind].
    rewrite (IHl H2). cbn [rbind]. rewrite (IHr H3). reflexivity.
Qed.

Lemma perfect_leaf64 : forall d x, perfect d x -> leaf64 x.
Proof.
  intros d x H. induction H; cbn; [assumption|]. subst. repeat split; auto. apply from_bytes_length.
Qed.

Lemma compact_json_roundtrip : forall c, length (c_head c) = 64 -> Forall leaf64 (c_leaves c) ->
  compact_of_json (json_of_compact c) = Ok c.
Proof.
  intros [h ls] Hh Hl. cbn in *. unfold compact_of_json, json_of_compact. cbn.
  rewrite from_string_hash_string by exact Hh. cbn.
  replace (rmapM leaf_of_json (map json_of_leaf ls)) with (Ok ls); [reflexivity|].
  symmetry. apply rmapM_Ok_iff. induction Hl; cbn; constructor; auto. apply leaf_json_roundtrip. assumption.
Qed.

Lemma built_compact64 : forall data t, hashtree_of_blocks data = Ok t ->
  length (c_head (ht_compact t)) = 64 /\ Forall leaf64 (c_leaves (ht_compact t)).
Proof.
  intros data t Ht. destruct data as [|a data]; [discriminate|].
  destruct (build_spec (a :: data)) as (t' & k & Ht' & _ & Hl & _ & _ & _ & H64 & _ & _ & H3); [discriminate|].
  assert (t' = t) by congruence. subst t'. unfold ht_compact. cbn [c_head c_leaves]. split.
  - rewrite H3. apply from_bytes_length.
  - rewrite Hl. unfold all64 in H64. rewrite Forall_forall in *. intros x Hx.
    apply in_map_iff in Hx as (h & <- & Hh). cbn. apply H64. exact Hh.
Qed.

Lemma built_compact_json : forall data t, hashtree_of_blocks data = Ok t ->
  compact_of_json (json_of_compact (ht_compact t)) = Ok (ht_compact t).
Proof. intros data t Ht. apply compact_json_roundtrip; eapply built_compact64; eassumption. Qed.

Lemma built_tree_json : forall data t, hashtree_of_blocks data = Ok t ->
  hashtree_of_json (json_of_hashtree t) = Ok t.
Proof.
  intros data t Ht. destruct data as [|a data]; [discriminate|].
  destruct (build_spec (a :: data)) as (t' & k & Ht' & _ & _ & _ & _ & _ & _ & H1 & H2 & H3); [discriminate|].
  assert (t' = t) by congruence. subst t'. destruct t as [h l r]. cbn in *.
  unfold hashtree_of_json, json_of_hashtree. cbn.
  rewrite from_string_hash_string by (rewrite H3; apply from_bytes_length). cbn.
  rewrite (leaf_json_roundtrip l) by (eapply perfect_leaf64; eassumption). cbn.
  rewrite (leaf_json_roundtrip r) by (eapply perfect_leaf64; eassumption). reflexivity.
Qed.

(** ** The head commits to the leaves (C05) *)
Definition some_collision (xs ys : list bytes) : Prop :=
  exists x y, In x xs /\ In y ys /\ length x = 128 /\ length y = 128 /\ sha_collision x y.

Lemma some_collision_mono : forall xs ys xs' ys', incl xs xs' -> incl ys ys' ->
  some_collision xs ys -> some_collision xs' ys'.
Proof.
  intros xs ys xs' ys' H1 H2 (x & y & Hx & Hy & H). exists x, y. repeat split; try apply H; auto.
Qed.

Lemma pair_commit : forall a b c d : hash,
  length a = 64 -> length b = 64 -> length c = 64 -> length d = 64 ->
  from_bytes (a ++ b) = from_bytes (c ++ d) ->
  (a = c /\ b = d) \/ (length (a ++ b) = 128 /\ length (c ++ d) = 128 /\ sha_collision (a ++ b) (c ++ d)).
Proof.
  intros a b c d Ha Hb Hc Hd H.
  assert (L1 : length (a ++ b) = 128) by (rewrite app_length; lia).
  assert (L2 : length (c ++ d) = 128) by (rewrite app_length; lia).
  apply from_bytes_inj_not64 in H; [|lia|lia].
  destruct H as [H|H]; [left|right; auto]. apply app_inj_len in H; [exact H|lia].
Qed.

Lemma perfect_commit : forall d x y, perfect d x -> perfect d y -> leaf_head x = leaf_head y ->
  leaf_leaves x = leaf_leaves y \/ some_collision (node_inputs x) (node_inputs y).
Proof.
  induction d as [|d IH]; intros x y Hx Hy H.
  - inversion Hx; inversion Hy; subst. cbn in H. subst. left. reflexivity.
  - inversion Hx as [|? hx lx rx Hlx Hrx Ehx]; inversion Hy as [|? hy ly ry Hly Hry Ehy]; subst.
    cbn [leaf_head leaf_leaves node_inputs] in *.
    apply pair_commit in H; try (eapply perfect_head_length; eassumption).
    destruct H as [[El Er]|(L1 & L2 & HC)].
    + destruct (IH _ _ Hlx Hly El) as [E1|C1].
      * destruct (IH _ _ Hrx Hry Er) as [E2|C2].
        -- left. congruence.
        -- right. eapply some_collision_mono; [| |exact C2]; intros z Hz; right; apply in_or_app; right; exact Hz.
      * right. eapply some_collision_mono; [| |exact C1]; intros z Hz; right; apply in_or_app; left; exact Hz.
    + right. eexists. eexists. split; [left; reflexivity|]. split; [left; reflexivity|]. auto.
Qed.

Lemma tree_commit : forall k t u,
  perfect k (ht_left t) -> perfect k (ht_right t) -> perfect k (ht_left u) -> perfect k (ht_right u) ->
  ht_head t = from_bytes (leaf_head (ht_left t) ++ leaf_head (ht_right t)) ->
  ht_head u = from_bytes (leaf_head (ht_left u) ++ leaf_head (ht_right u)) ->
  ht_head t = ht_head u ->
  ht_block_leaves t = ht_block_leaves u \/ some_collision (tree_inputs t) (tree_inputs u).
Proof.
  intros k t u H1 H2 H3 H4 Ht Hu H.
  assert (Pt : perfect (S k) (LNode (ht_head t) (ht_left t) (ht_right t))) by (constructor; assumption).
  assert (Pu : perfect (S k) (LNode (ht_head u) (ht_left u) (ht_right u))) by (constructor; assumption).
  apply (perfect_commit _ _ _ Pt Pu). exact H.
Qed.

Lemma smallest_pow2_unique : forall n m k, smallest_pow2 n (2 ^ k) k -> m = 2 ^ k -> forall k', m = 2 ^ k' -> k = k'.
Proof. intros n m k _ H k' H'. subst. apply (Nat.pow_inj_r 2); lia. Qed.

Lemma built_commit : forall d1 d2 t u,
  hashtree_of_blocks d1 = Ok t -> hashtree_of_blocks d2 = Ok u ->
  ht_length t = ht_length u -> ht_head t = ht_head u ->
  leaf_hashes t = leaf_hashes u \/ some_collision (tree_inputs t) (tree_inputs u).
Proof.
  intros d1 d2 t u Ht Hu HL HH.
  destruct d1 as [|a1 d1]; [discriminate|]. destruct d2 as [|a2 d2]; [discriminate|].
  destruct (build_spec (a1 :: d1)) as (t' & k & Ht' & _ & _ & _ & L1 & _ & _ & P1 & P2 & P3); [discriminate|].
  destruct (build_spec (a2 :: d2)) as (u' & k' & Hu' & _ & _ & _ & L2 & _ & _ & Q1 & Q2 & Q3); [discriminate|].
  assert (t' = t) by congruence. assert (u' = u) by congruence. subst t' u'.
  assert (k = k') by (apply (Nat.pow_inj_r 2); lia). subst k'.
  destruct (tree_commit (k - 1) t u) as [E|C]; try assumption.
  - left. unfold leaf_hashes. rewrite E. reflexivity.
  - right. exact C.
Qed.

(** ** Padding and inner nodes (C06) *)
Lemma smallest_unique : forall n k k', smallest_pow2 n (2 ^ k) k -> smallest_pow2 n (2 ^ k') k' -> k = k'.
Proof.
  intros n k k' (A1 & _ & A2 & A3) (B1 & _ & B2 & B3). apply (Nat.pow_inj_r 2); [lia|].
  apply Nat.le_antisymm; auto.
Qed.

Lemma padding_same_block : forall data,
  data <> [] -> (forall k, 1 <= k -> length data <> 2 ^ k) -> block_of_data (data ++ [[]]) = block_of_data data.
Proof.
  intros data Hne Hn.
  destruct (block_of_data_spec data Hne) as (k & Hk & E & _).
  destruct (block_of_data_spec (data ++ [[]])) as (k' & Hk' & E' & _); [destruct data; discriminate|].
  rewrite app_length in Hk'. cbn [length] in Hk'.
  assert (Hlt : length data + 1 <= 2 ^ k).
  { destruct Hk as (K1 & _ & K2 & _). specialize (Hn k K1). lia. }
  assert (k' = k).
  { apply (smallest_unique (length data + 1)); [exact Hk'|].
    destruct Hk as (K1 & _ & K2 & K3). unfold smallest_pow2. repeat split; auto.
    intros j Hj H. apply K3; [exact Hj|lia]. }
  subst k'. rewrite E', E. rewrite map_app, app_length, <- app_assoc. f_equal. cbn [length map app].
  replace (2 ^ k - length data) with (S (2 ^ k - (length data + 1))) by lia. reflexivity.
Qed.

Lemma padding_same_tree : forall data,
  data <> [] -> (forall k, 1 <= k -> length data <> 2 ^ k) ->
  hashtree_of_blocks (data ++ [[]]) = hashtree_of_blocks data.
Proof. intros. unfold hashtree_of_blocks. rewrite padding_same_block by assumption. reflexivity. Qed.

(** Four blocks against the two 128-byte inner strings. *)
Lemma inner_nodes_as_blocks : forall a b c d,
  exists t u,
    hashtree_of_blocks [a; b; c; d] = Ok t /\
    hashtree_of_blocks [from_bytes a ++ from_bytes b; from_bytes c ++ from_bytes d] = Ok u /\
    ht_head t = ht_head u.
Proof.
  intros a b c d. eexists. eexists. split; [reflexivity|]. split; [reflexivity|]. reflexivity.
Qed.

(** Same number of blocks, same head. *)
Lemma same_length_commit : forall d1 d2 t u,
  hashtree_of_blocks d1 = Ok t -> hashtree_of_blocks d2 = Ok u ->
  length d1 = length d2 -> ht_head t = ht_head u ->
  map from_bytes d1 = map from_bytes d2 \/ some_collision (tree_inputs t) (tree_inputs u).
Proof.
  intros d1 d2 t u Ht Hu HL HH.
  destruct d1 as [|a1 d1]; [discriminate|]. destruct d2 as [|a2 d2]; [discriminate|].
  destruct (build_spec (a1 :: d1)) as (t' & k & Ht' & K1 & E1 & B1 & L1 & _); [discriminate|].
  destruct (build_spec (a2 :: d2)) as (u' & k' & Hu' & K2 & E2 & B2 & L2 & _); [discriminate|].
  assert (t' = t) by congruence. assert (u' = u) by congruence. subst t' u'.
  rewrite HL in K1. assert (k = k') by (eapply smallest_unique; eassumption). subst k'.
  destruct (built_commit _ _ t u Ht Hu) as [E|C]; [congruence|exact HH| |right; exact C].
  left. unfold leaf_hashes in E. rewrite E1, E2, !map_head_leaf, B1, B2 in E.
  apply app_inj_len in E; [apply E|]. rewrite !map_length. exact HL.
Qed.

Lemma map_from_bytes_inj : forall d1 d2, map from_bytes d1 = map from_bytes d2 ->
  d1 = d2 \/ exists i x y, nth_error d1 i = Some x /\ nth_error d2 i = Some y /\ hash_coincidence x y.
Proof.
  induction d1 as [|a d1 IH]; intros [|b d2] H; try discriminate; [left; reflexivity|].
  cbn in H. injection H as Hab H. destruct (from_bytes_inj _ _ Hab) as [->|C].
  - destruct (IH _ H) as [->|(i & x & y & H1 & H2 & HC)]; [left; reflexivity|].
    right. exists (S i), x, y. auto.
  - right. exists 0, a, b. auto.
Qed.

(** ** Order (C07) *)
Lemma order_map_get : forall data m d,
  (forall x, In x data -> from_bytes x = from_bytes d -> x = d) ->
  In d data \/ aget bseq (hash_string (from_bytes d)) m = Some d ->
  aget bseq (hash_string (from_bytes d)) (fold_left (fun m d => aput (hash_string (from_bytes d)) d m) data m) = Some d.
Proof.
  induction data as [|a data IH]; intros m d Hinj H; cbn [fold_left].
  - destruct H as [[]|H]. exact H.
  - apply IH; [intros x Hx; apply Hinj; right; exact Hx|].
    destruct (in_dec bytes_eq_dec d data) as [Hd|Hd]; [left; exact Hd|right].
    destruct (bytes_eq_dec (from_bytes a) (from_bytes d)) as [E|NE].
    + rewrite E. rewrite (Hinj a (or_introl eq_refl) E).
      apply aget_aput_eq. apply bseq_eq.
    + rewrite aget_aput_neq.
      * destruct H as [[->|H]|H]; [contradiction|contradiction|exact H].
      * apply bseq_eq.
      * intro E. apply hash_string_inj in E. congruence.
Qed.

Lemma order_map_none : forall data m h,
  (forall x, In x data -> from_bytes x <> h) -> aget bseq (hash_string h) m = None ->
  aget bseq (hash_string h) (fold_left (fun m d => aput (hash_string (from_bytes d)) d m) data m) = None.
Proof.
  induction data as [|a data IH]; intros m h Hn H; cbn [fold_left]; [exact H|].
  apply IH; [intros x Hx; apply Hn; right; exact Hx|].
  rewrite aget_aput_neq; [exact H|apply bseq_eq|].
  intro E. apply hash_string_inj in E. apply (Hn a); [left; reflexivity|congruence].
Qed.

Lemma order_loop_app : forall m a b, order_loop m (a ++ b) = order_loop m a ++ order_loop m b.
Proof.
  intros m. induction a as [|x a IH]; intro b; [reflexivity|]. cbn [map order_loop leaf_head app repeat].
  destruct (aget bseq (hash_string (leaf_head x)) m); cbn [app]; rewrite IH; reflexivity.
Qed.

Lemma order_loop_data : forall m data,
  (forall d, In d data -> aget bseq (hash_string (from_bytes d)) m = Some d) ->
  order_loop m (map LLeaf (map from_bytes data)) = data.
Proof.
  intros m. induction data as [|a data IH]; intro H; [reflexivity|]. cbn [map order_loop leaf_head app repeat].
  rewrite (H a (or_introl eq_refl)). rewrite IH; [reflexivity|]. intros d Hd. apply H. right. exact Hd.
Qed.

Lemma order_loop_repeat_none : forall m h n, aget bseq (hash_string h) m = None ->
  order_loop m (map LLeaf (repeat h n)) = [].
Proof. intros m h n H. induction n as [|n IH]; [reflexivity|]. cbn [map order_loop leaf_head app repeat]. rewrite H. exact IH. Qed.

Lemma order_loop_repeat_some : forall m h n d, aget bseq (hash_string h) m = Some d ->
  order_loop m (map LLeaf (repeat h n)) = repeat d n.
Proof. intros m h n d H. induction n as [|n IH]; [reflexivity|]. cbn [map order_loop leaf_head app repeat]. rewrite H, IH. reflexivity. Qed.

(** [hash_faithful data]: different blocks of [data] have different hashes. *)
Definition hash_faithful (data : list bytes) : Prop :=
  forall x y, In x data -> In y data -> from_bytes x = from_bytes y -> x = y.

Definition padded (data : list bytes) : Prop := forall k, 1 <= k -> length data <> 2 ^ k.

Lemma order_permutation : forall data data' t,
  hashtree_of_blocks data = Ok t ->
  hash_faithful data ->
  (padded data -> ~ In (sha512 []) (map from_bytes data)) ->
  Permutation data data' ->
  ht_order t data' = Ok data.
Proof.
  intros data data' t Ht Hf Hp HP.
  destruct data as [|a0 data0]; [discriminate|]. set (data := a0 :: data0) in *.
  destruct (build_spec data) as (t' & k & Ht' & Hk & El & Eb & _); [discriminate|].
  assert (t' = t) by congruence. subst t'.
  unfold ht_order. rewrite El, Eb, map_app, order_loop_app.
  assert (Hget : forall d, In d data -> aget bseq (hash_string (from_bytes d)) (order_map data') = Some d).
  { intros d Hd. unfold order_map. apply order_map_get.
    - intros x Hx E. apply Hf; [|exact Hd|exact E]. eapply Permutation_in; [apply Permutation_sym, HP|exact Hx].
    - left. eapply Permutation_in; eassumption. }
  rewrite order_loop_data by exact Hget.
  assert (Hpad : order_loop (order_map data') (map LLeaf (repeat (from_bytes []) (2 ^ k - length data))) = []).
  { destruct (Nat.eq_dec (length data) (2 ^ k)) as [E|NE].
    - rewrite E, Nat.sub_diag. reflexivity.
    - apply order_loop_repeat_none. apply order_map_none; [|reflexivity].
      intros x Hx E. apply Hp.
      + intros j Hj Ej. destruct Hk as (K1 & _ & K2 & K3). specialize (K3 j Hj). lia.
      + apply in_map_iff. exists x. split; [exact E|].
        eapply Permutation_in; [apply Permutation_sym, HP|exact Hx]. }
  rewrite Hpad, app_nil_r. rewrite (Permutation_length HP), Nat.eqb_refl. reflexivity.
Qed.

(** A padded tree that contains the empty block rejects its own data. *)
Lemma order_rejects_own_data : forall data, In [] data -> padded data ->
  exists t, hashtree_of_blocks data = Ok t /\ ht_order t data = Err.
Proof.
  intros data Hin Hp. destruct (build_spec data) as (t & k & Ht & Hk & El & Eb & _).
  { intro E. subst. destruct Hin. }
  exists t. split; [exact Ht|]. unfold ht_order. rewrite El, Eb, map_app, order_loop_app.
  assert (Hsome : forall d, In d data -> exists v, aget bseq (hash_string (from_bytes d)) (order_map data) = Some v).
  { intros d Hd. unfold order_map. clear - Hd. generalize (@nil (bytes * bytes)).
    revert d Hd. induction data as [|a data IH] using rev_ind; intros d Hd m; [destruct Hd|].
    rewrite fold_left_app. cbn [fold_left].
    destruct (bytes_eq_dec (from_bytes d) (from_bytes a)) as [E|NE].
    - rewrite E. exists a. apply aget_aput_eq. apply bseq_eq.
    - rewrite aget_aput_neq; [|apply bseq_eq|intro E; apply hash_string_inj in E; contradiction].
      apply IH. apply in_app_or in Hd as [Hd|[->|[]]]; [exact Hd|contradiction]. }
  assert (HL1 : length (order_loop (order_map data) (map LLeaf (map from_bytes data))) = length data).
  { clear - Hsome. set (m := order_map data) in *. clearbody m.
    induction data as [|a data IH]; [reflexivity|]. cbn [map order_loop leaf_head].
    destruct (Hsome a (or_introl eq_refl)) as [v ->]. cbn. f_equal. apply IH.
    intros d Hd. apply Hsome. right. exact Hd. }
  destruct (Hsome [] Hin) as [v Hv].
  rewrite (order_loop_repeat_some _ _ _ _ Hv). rewrite app_length, HL1, repeat_length.
  destruct Hk as (K1 & _ & K2 & _). specialize (Hp k K1).
  destruct (Nat.eqb_spec (length data + (2 ^ k - length data)) (length data)); [lia|reflexivity].
Qed.

(** ** Decoding does not recompute heads (C08) *)
Lemma json_any_head : forall h hl hr, length h = 64 -> length hl = 64 -> length hr = 64 ->
  hashtree_of_json (JHashTree (hash_string h)
    (NNode (JLeaf (hash_string hl) NNil) (JLeaf (hash_string hr) NNil))) =
  Ok (HashTree h (LLeaf hl) (LLeaf hr)).
Proof.
  intros h hl hr H1 H2 H3. unfold hashtree_of_json. cbn.
  rewrite !from_string_hash_string by assumption. reflexivity.
Qed.

Lemma merkle_nonempty : forall l h, MerkleRoot l h -> l <> [].
Proof.
  intros l h H. induction H as [|a b x y HL Ha IHa Hb IHb]; [discriminate|].
  destruct a; [contradiction|discriminate].
Qed.

Lemma merkle_one : forall a h, MerkleRoot [a] h -> h = a.
Proof.
  intros a h H. inversion H as [|x y p q HL Hp Hq E1 E2]; [reflexivity|]. exfalso.
  apply merkle_nonempty in Hp. apply merkle_nonempty in Hq.
  destruct x as [|? [|? ?]], y; cbn in *; try contradiction; discriminate.
Qed.

Lemma merkle_two : forall a b h, MerkleRoot [a; b] h -> h = from_bytes (a ++ b).
Proof.
  intros a b h H. inversion H as [|x y p q HL Hp Hq E1 E2]. subst h.
  assert (L : length (x ++ y) = 2) by (rewrite E1; reflexivity). rewrite app_length in L.
  destruct x as [|x1 [|x2 x]], y as [|y1 [|y2 y]]; cbn in HL, L; try lia.
  cbn in E1. injection E1 as -> ->.
  apply merkle_one in Hp. apply merkle_one in Hq. subst. reflexivity.
Qed.

Lemma json_inconsistent : forall h hl hr, length h = 64 -> length hl = 64 -> length hr = 64 ->
  h <> from_bytes (hl ++ hr) ->
  exists j t, hashtree_of_json j = Ok t /\ ht_head t = h /\ leaf_hashes t = [hl; hr] /\
    ~ MerkleRoot (leaf_hashes t) (ht_head t).
Proof.
  intros h hl hr H1 H2 H3 HN. eexists. eexists. split; [exact (json_any_head h hl hr H1 H2 H3)|].
  split; [reflexivity|]. split; [reflexivity|]. cbn. intro M. apply merkle_two in M. contradiction.
Qed.

Lemma padding_refuted : forall data,
  data <> [] -> (forall k, 1 <= k -> length data <> 2 ^ k) ->
  exists t, hashtree_of_blocks data = Ok t /\ hashtree_of_blocks (data ++ [[]]) = Ok t.
Proof.
  intros data H1 H2. destruct (build_spec data H1) as (t & k & Ht & _). exists t. split; [exact Ht|].
  rewrite padding_same_tree by assumption. exact Ht.
Qed.

Lemma inner_refuted : forall a b c d,
  exists p q t u,
    hashtree_of_blocks [a; b; c; d] = Ok t /\ hashtree_of_blocks [p; q] = Ok u /\ ht_head t = ht_head u.
Proof.
  intros a b c d. destruct (inner_nodes_as_blocks a b c d) as (t & u & H). eauto.
Qed.

Lemma same_length_blocks : forall d1 d2 t u,
  hashtree_of_blocks d1 = Ok t -> hashtree_of_blocks d2 = Ok u ->
  length d1 = length d2 -> ht_head t = ht_head u ->
  d1 = d2 \/
  (exists i x y, nth_error d1 i = Some x /\ nth_error d2 i = Some y /\ hash_coincidence x y) \/
  some_collision (tree_inputs t) (tree_inputs u).
Proof.
  intros d1 d2 t u Ht Hu HL HH. destruct (same_length_commit d1 d2 t u Ht Hu HL HH) as [E|C]; [|auto].
  destruct (map_from_bytes_inj _ _ E); auto.
Qed.

Lemma three_not_pow2 : forall k, 1 <= k -> 3 <> 2 ^ k.
Proof.
  intros [|[|k]] H; [lia|cbn; lia|]. rewrite !Nat.pow_succ_r'. lia.
Qed.

Lemma order_loop_sound : forall data m ls,
  (forall h d, aget bseq h m = Some d -> In d data /\ h = hash_string (from_bytes d)) ->
  Forall (fun d => In d data /\ In (from_bytes d) (map leaf_head ls)) (order_loop m ls).
Proof.
  intros data m ls H. induction ls as [|l ls IH]; [constructor|]. cbn [order_loop map].
  assert (IH' : Forall (fun d => In d data /\ In (from_bytes d) (leaf_head l :: map leaf_head ls)) (order_loop m ls)).
  { eapply Forall_impl; [|exact IH]. intros d [H1 H2]. split; [exact H1|right; exact H2]. }
  destruct (aget bseq (hash_string (leaf_head l)) m) as [d|] eqn:E; [|exact IH'].
  constructor; [|exact IH']. apply H in E as [H1 H2]. split; [exact H1|]. left.
  apply hash_string_inj. exact H2.
Qed.

Lemma order_map_sound : forall data h d, aget bseq h (order_map data) = Some d ->
  In d data /\ h = hash_string (from_bytes d).
Proof.
  intros data h d. unfold order_map.
  assert (G : forall l m, (forall h d, aget bseq h m = Some d -> In d data /\ h = hash_string (from_bytes d)) ->
    incl l data -> forall h d,
    aget bseq h (fold_left (fun m d => aput (hash_string (from_bytes d)) d m) l m) = Some d ->
    In d data /\ h = hash_string (from_bytes d)).
  { induction l as [|a l IH]; intros m Hm Hl h' d'; cbn [fold_left]; [apply Hm|].
    apply IH; [|intros z Hz; apply Hl; right; exact Hz].
    intros h2 d2 H2. unfold aput in H2. cbn [aget] in H2. destruct (bseq h2 (hash_string (from_bytes a))) eqn:E.
    - injection H2 as <-. apply bseq_eq in E. split; [apply Hl; left; reflexivity|exact E].
    - apply Hm. exact H2. }
  apply G; [discriminate|apply incl_refl].
Qed.

Lemma order_sound : forall t data out, ht_order t data = Ok out ->
  length out = length data /\ Forall (fun d => In d data /\ In (from_bytes d) (leaf_hashes t)) out.
Proof.
  intros t data out H. unfold ht_order in H.
  destruct (Nat.eqb_spec (length (order_loop (order_map data) (ht_block_leaves t))) (length data)); [|discriminate].
  injection H as <-. split; [assumption|]. apply order_loop_sound. apply order_map_sound.
Qed.

Lemma rebuilt_consistent : forall hs k t,
  Forall (fun h => length h = 64) hs -> length hs = 2 ^ S k ->
  leaves_hashtree (map LLeaf hs) = Ok t -> leaf_hashes t = hs /\ MerkleRoot hs (ht_head t).
Proof.
  intros hs k t H64 HL Ht. destruct (tree_of_hashes k hs HL H64) as (t' & Ht' & H1 & H2 & H3 & H4).
  assert (t' = t) by congruence. subst t'.
  assert (E : leaf_hashes t = hs) by (unfold leaf_hashes; rewrite H4; apply map_head_leaf).
  split; [exact E|]. rewrite <- E. apply (tree_merkle k); assumption.
Qed.

(** ** When rebuilding panics *)
Lemma children_odd : forall n ls, length ls = 2 * n + 1 -> children ls = Panic.
Proof.
  induction n as [|n IH]; intros ls H.
  - destruct ls as [|a [|b ls]]; cbn in H; try lia. reflexivity.
  - destruct ls as [|a [|b ls]]; cbn in H; try lia. cbn. rewrite IH by lia. reflexivity.
Qed.

Lemma children_even : forall n ls, length ls = 2 * n -> exists cs, children ls = Ok cs /\ length cs = n.
Proof.
  induction n as [|n IH]; intros ls H.
  - destruct ls; [|cbn in H; lia]. exists []. auto.
  - destruct ls as [|a [|b ls]]; cbn in H; try lia.
    destruct (IH ls) as (cs & Hc & Hn); [lia|]. exists (child a b :: cs). cbn. rewrite Hc. cbn. auto.
Qed.

Lemma leaves_hashtree_cases : forall fuel ls, length ls <= fuel ->
  ((exists k, 1 <= k /\ length ls = 2 ^ k) /\ exists t, leaves_hashtree_f fuel ls = Ok t) \/
  ((forall k, 1 <= k -> length ls <> 2 ^ k) /\ leaves_hashtree_f fuel ls = Panic).
Proof.
  induction fuel as [|fuel IH]; intros ls HL.
  - destruct ls; [|cbn in HL; lia]. right. split; [|reflexivity].
    intros k _ H. cbn in H. pose proof (Nat.pow_nonzero 2 k). lia.
  - destruct ls as [|a [|b [|c ls]]].
    + right. split; [|reflexivity]. intros k _ H. cbn in H. pose proof (Nat.pow_nonzero 2 k). lia.
    + right. split; [|reflexivity]. intros [|k] Hk H; [lia|]. cbn [length] in H.
      rewrite Nat.pow_succ_r' in H. lia.
    + left. split; [exists 1; split; [lia|reflexivity]|]. eexists. reflexivity.
    + change (leaves_hashtree_f (S fuel) (a :: b :: c :: ls)) with
        (rbind (children (a :: b :: c :: ls)) (leaves_hashtree_f fuel)).
      destruct (Nat.Even_or_Odd (length (a :: b :: c :: ls))) as [[n E]|[n E]].
      * destruct (children_even n _ E) as (cs & Hc & Hn). rewrite Hc. cbn [rbind].
        destruct (IH cs) as [[(k & Hk & Ek) Ht]|[Hk Ht]]; [cbn [length] in *; lia| |].
        -- left. split; [|exact Ht]. exists (S k). split; [lia|]. rewrite Nat.pow_succ_r', E. lia.
        -- right. split; [|exact Ht]. intros [|[|k]] Hk' H; [lia|cbn in H; lia|].
           apply (Hk (S k)); [lia|]. rewrite Nat.pow_succ_r' in H. lia.
      * rewrite (children_odd n _ E). cbn [rbind]. right. split; [|reflexivity].
        intros [|k] Hk H; [lia|]. rewrite Nat.pow_succ_r' in H. lia.
Qed.

Lemma rebuild_panics : forall ls,
  (forall k, 1 <= k -> length ls <> 2 ^ k) <-> leaves_hashtree ls = Panic.
Proof.
  intro ls. unfold leaves_hashtree.
  destruct (leaves_hashtree_cases (length ls) ls (le_n _)) as [[(k & Hk & E) [t Ht]]|[H1 H2]].
  - split; intro H; [exfalso; exact (H k Hk E)|congruence].
  - tauto.
Qed.
