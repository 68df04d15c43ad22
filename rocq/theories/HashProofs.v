(** Proofs about libs/hash. *)
From Coq Require Import Lia ZifyBool ZifyNat ZifyN.
From Verif Require Import Base BaseFacts Sha512 HashModel HashTreeModel HashSpec.

Lemma from_bytes_length : forall x, length (from_bytes x) = 64.
Proof.
  intro x. unfold from_bytes. destruct (Nat.eqb_spec (length x) 64); [assumption|apply sha512_length].
Qed.

Lemma FromBytes_ok : forall x, FromBytes x = Ok (from_bytes x).
Proof.
  intro x. unfold FromBytes.
  change (if Nat.eqb (length x) 64 then x else sha512 x) with (from_bytes x).
  rewrite from_bytes_length. cbn. rewrite app_nil_r. reflexivity.
Qed.

Lemma FromMultiBytes_ok : forall x, FromMultiBytes x = Ok (from_multi x).
Proof. intro x. apply FromBytes_ok. Qed.

Lemma FromString_from_string : forall s, FromString s = from_string s.
Proof.
  intro s. unfold FromString, from_string. destruct (hex_decode s); cbn; [apply FromBytes_ok|..]; reflexivity.
Qed.

Lemma from_bytes_64 : forall x, length x = 64 -> from_bytes x = x.
Proof. intros x H. unfold from_bytes. rewrite H. reflexivity. Qed.

Lemma from_bytes_not64 : forall x, length x <> 64 -> from_bytes x = sha512 x.
Proof. intros x H. unfold from_bytes. destruct (Nat.eqb_spec (length x) 64); congruence. Qed.

Lemma from_string_hash_string : forall h, length h = 64 -> from_string (hash_string h) = Ok h.
Proof.
  intros h H. unfold from_string, hash_string. rewrite hex_decode_encode. cbn.
  rewrite from_bytes_64 by exact H. reflexivity.
Qed.

Lemma from_string_length : forall s h, from_string s = Ok h -> length h = 64.
Proof.
  intros s h H. unfold from_string in H. apply rbind_Ok in H as (b & _ & H). injection H as <-.
  apply from_bytes_length.
Qed.

Lemma from_string_no_panic : forall s, from_string s <> Panic.
Proof.
  intros s. unfold from_string. pose proof (hex_decode_no_panic s).
  destruct (hex_decode s); cbn; congruence.
Qed.

Lemma hash_string_inj : forall a b, hash_string a = hash_string b -> a = b.
Proof. intros a b H. apply hex_encode_inj. exact H. Qed.

Lemma hash_string_length : forall h, length h = 64 -> length (hash_string h) = 128.
Proof. intros h H. unfold hash_string. rewrite hex_encode_length, H. reflexivity. Qed.

Lemma compare_eq : forall a b, compare a b = true <-> a = b.
Proof. intros a b. apply bseq_eq. Qed.

(** Equal hashes: equal inputs or a coincidence of one of the three listed kinds. *)
Lemma from_bytes_inj : forall x y, from_bytes x = from_bytes y -> x = y \/ hash_coincidence x y.
Proof.
  intros x y H. destruct (bytes_eq_dec x y) as [E|N]; [left; exact E|right; split; [exact N|]].
  unfold from_bytes in H.
  destruct (Nat.eqb_spec (length x) 64), (Nat.eqb_spec (length y) 64); auto; congruence.
Qed.

Lemma from_bytes_inj_not64 : forall x y,
  length x <> 64 -> length y <> 64 -> from_bytes x = from_bytes y -> x = y \/ sha_collision x y.
Proof.
  intros x y Hx Hy H. rewrite !from_bytes_not64 in H by assumption.
  destruct (bytes_eq_dec x y) as [E|N]; [left; exact E|right; split; assumption].
Qed.

(** ** Path *)
Lemma join_suffix : forall d e, exists p, join d e = p ++ e.
Proof.
  intros [|x d] e; cbn.
  - exists []. reflexivity.
  - exists (x :: d ++ [x2f]). cbn. rewrite <- app_assoc. reflexivity.
Qed.

Lemma hash_path_suffix : forall h, exists p, hash_path h = p ++ hash_string h.
Proof.
  intro h. unfold hash_path. destruct (path_loop (hash_string h) 0 [] []) as [out cur].
  destruct cur; apply join_suffix.
Qed.

Lemma hash_path_inj : forall a b, length a = 64 -> length b = 64 -> hash_path a = hash_path b -> a = b.
Proof.
  intros a b Ha Hb H. destruct (hash_path_suffix a) as [p Hp]. destruct (hash_path_suffix b) as [q Hq].
  rewrite Hp, Hq in H. apply app_inj_len_r in H as [_ H].
  - apply hash_string_inj. exact H.
  - rewrite !hash_string_length by assumption. reflexivity.
Qed.

Lemma FromBytes_inj : forall x y, FromBytes x = FromBytes y -> x = y \/ hash_coincidence x y.
Proof. intros x y H. rewrite !FromBytes_ok in H. injection H as H. apply from_bytes_inj. exact H. Qed.

Lemma FromBytes_inj_same : forall x y, (length x = 64 <-> length y = 64) ->
  FromBytes x = FromBytes y -> x = y \/ sha_collision x y.
Proof.
  intros x y HL H. rewrite !FromBytes_ok in H. injection H as H.
  destruct (Nat.eq_dec (length x) 64) as [E|NE].
  - left. rewrite !from_bytes_64 in H by tauto. exact H.
  - apply from_bytes_inj_not64; tauto.
Qed.

Lemma from_bytes_self_collision : forall x, length x <> 64 ->
  sha512 x <> x /\ FromBytes x = FromBytes (sha512 x).
Proof.
  intros x H. split.
  - intro E. apply H. rewrite <- E. apply sha512_length.
  - rewrite !FromBytes_ok. f_equal. rewrite from_bytes_not64 by exact H.
    rewrite from_bytes_64 by apply sha512_length. reflexivity.
Qed.
