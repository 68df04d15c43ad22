(** Proofs about the CFB encryption. *)
From Coq Require Import Lia ZifyBool ZifyNat ZifyN.
From Verif Require Import Base BaseFacts CfbModel.

Lemma lxor_lt_256 : forall a b, (a < 256)%N -> (b < 256)%N -> (N.lxor a b < 256)%N.
Proof.
  intros a b Ha Hb. destruct (N.eq_dec (N.lxor a b) 0) as [->|NZ]; [lia|].
  change 256%N with (2 ^ 8)%N in *. apply N.log2_lt_pow2; [lia|].
  eapply N.le_lt_trans; [apply N.log2_lxor|]. apply N.max_lub_lt.
  - destruct (N.eq_dec a 0) as [->|?]; [cbn; lia|apply N.log2_lt_pow2; lia].
  - destruct (N.eq_dec b 0) as [->|?]; [cbn; lia|apply N.log2_lt_pow2; lia].
Qed.

Lemma bxor_n : forall a b, b2n (bxor a b) = N.lxor (b2n a) (b2n b).
Proof.
  intros a b. unfold bxor. rewrite b2n_n2b. apply N.mod_small.
  apply lxor_lt_256; apply b2n_lt.
Qed.

Lemma bxor_assoc : forall a b c, bxor (bxor a b) c = bxor a (bxor b c).
Proof. intros. apply b2n_inj. rewrite !bxor_n. apply N.lxor_assoc. Qed.

Lemma bxor_comm : forall a b, bxor a b = bxor b a.
Proof. intros. apply b2n_inj. rewrite !bxor_n. apply N.lxor_comm. Qed.

Lemma bxor_cancel : forall a b, bxor (bxor a b) b = a.
Proof.
  intros. apply b2n_inj. rewrite !bxor_n, N.lxor_assoc, N.lxor_nilpotent, N.lxor_0_r. reflexivity.
Qed.

Section CfbProofs.
  Variable H256 : bytes -> bytes.
  Variable AES : bytes -> bytes -> bytes.

  Lemma cfb_length : forall dec key m ks next, length (cfb AES dec key ks next m) = length m.
  Proof.
    intros dec key. induction m as [|p m IH]; intros ks next; [reflexivity|].
    cbn [cfb]. destruct ks; cbn [length]; rewrite IH; reflexivity.
  Qed.

  Lemma cfb_roundtrip : forall key m ks next,
    cfb AES true key ks next (cfb AES false key ks next m) = m.
  Proof.
    intros key. induction m as [|p m IH]; intros ks next; [reflexivity|].
    cbn [cfb]. destruct ks as [|k ks]; cbn [cfb hd tl].
    - rewrite bxor_cancel, IH. reflexivity.
    - rewrite bxor_cancel, IH. reflexivity.
  Qed.

  Lemma decrypt_encrypt : forall pw iv m, length iv = 16 ->
    decrypt H256 AES pw (encrypt H256 AES pw iv m) = Ok m.
  Proof.
    intros pw iv m Hiv. unfold decrypt, encrypt. rewrite b64_decode_encode. cbn [rbind].
    rewrite app_length, cfb_length, Hiv.
    destruct (Nat.ltb_spec (16 + length m) 16); [lia|].
    rewrite firstn_app, Hiv, Nat.sub_diag, firstn_all2 by lia.
    rewrite skipn_app, Hiv, Nat.sub_diag, skipn_all2 by lia.
    cbn [firstn skipn app]. rewrite app_nil_r, cfb_roundtrip. reflexivity.
  Qed.

  Lemma encrypt_text : forall pw iv m, length iv = 16 ->
    exists ct, b64_decode (encrypt H256 AES pw iv m) = Ok ct /\ length ct = 16 + length m /\ firstn 16 ct = iv.
  Proof.
    intros pw iv m Hiv. eexists. split; [apply b64_decode_encode|]. split.
    - rewrite app_length, cfb_length, Hiv. reflexivity.
    - rewrite firstn_app, Hiv, Nat.sub_diag, firstn_all2 by lia. cbn. apply app_nil_r.
  Qed.

  Lemma decrypt_never_rejects : forall pw text,
    (exists m, decrypt H256 AES pw text = Ok m) <->
    (exists ct, b64_decode text = Ok ct /\ 16 <= length ct).
  Proof.
    intros pw text. unfold decrypt. destruct (b64_decode text) as [ct| |] eqn:E; cbn [rbind].
    - destruct (Nat.ltb_spec (length ct) 16) as [L|L]; split.
      + intros [m H]. discriminate.
      + intros (ct' & H & H'). injection H as <-. lia.
      + intros _. eauto.
      + intros _. eauto.
    - split; [intros [m H]|intros (ct & H & _)]; discriminate.
    - split; [intros [m H]|intros (ct & H & _)]; discriminate.
  Qed.

  (** The last plaintext byte follows the last ciphertext byte. *)
  Lemma cfb_dec_last : forall key c ks next,
    exists k, forall x, cfb AES true key ks next (c ++ [x]) = cfb AES true key ks next c ++ [bxor x k].
  Proof.
    intros key. induction c as [|p c IH]; intros ks next.
    - destruct ks as [|k ks].
      + eexists. intro x. cbn. reflexivity.
      + eexists. intro x. cbn. reflexivity.
    - cbn [app cfb]. destruct ks as [|k ks]; cbn [hd tl].
      + destruct (IH (tl (AES key next)) ([] ++ [p])) as [k' Hk]. exists k'. intro x. rewrite Hk. reflexivity.
      + destruct (IH ks (next ++ [p])) as [k' Hk]. exists k'. intro x. rewrite Hk. reflexivity.
  Qed.

  Lemma cfb_enc_last : forall key m ks next b,
    exists c, cfb AES false key ks next (m ++ [b]) = cfb AES false key ks next m ++ [c].
  Proof.
    intros key. induction m as [|p m IH]; intros ks next b.
    - destruct ks; cbn; eauto.
    - cbn [app cfb]. destruct ks as [|k ks]; cbn [hd tl].
      + destruct (IH (tl (AES key next)) ([] ++ [bxor p (hd x00 (AES key next))]) b) as [c Hc].
        exists c. rewrite Hc. reflexivity.
      + destruct (IH ks (next ++ [bxor p k]) b) as [c Hc]. exists c. rewrite Hc. reflexivity.
  Qed.

  (** Without the password, from the text alone, one computes a text that
      decrypts to the message with its last byte changed by a chosen mask. *)
  Definition flip_last (d : byte) (text : bytes) : bytes :=
    match b64_decode text with
    | Ok ct => b64_encode (removelast ct ++ [bxor (last ct x00) d])
    | _ => text
    end.

  Lemma decrypt_malleable : forall pw iv m b d, length iv = 16 ->
    decrypt H256 AES pw (flip_last d (encrypt H256 AES pw iv (m ++ [b]))) = Ok (m ++ [bxor b d]).
  Proof.
    intros pw iv m b d Hiv. unfold flip_last, encrypt. rewrite b64_decode_encode.
    destruct (cfb_enc_last (H256 pw) m [] iv b) as [c Hc]. rewrite Hc, app_assoc.
    rewrite removelast_last, last_last.
    unfold decrypt. rewrite b64_decode_encode. cbn [rbind].
    rewrite <- app_assoc. rewrite app_length, Hiv. destruct (Nat.ltb_spec (16 + length (cfb AES false (H256 pw) [] iv m ++ [bxor c d])) 16); [lia|].
    rewrite firstn_app, Hiv, Nat.sub_diag, firstn_all2 by lia.
    rewrite skipn_app, Hiv, Nat.sub_diag, skipn_all2 by lia.
    cbn [firstn skipn app]. rewrite app_nil_r.
    destruct (cfb_dec_last (H256 pw) (cfb AES false (H256 pw) [] iv m) [] iv) as [k Hk].
    rewrite Hk, cfb_roundtrip. f_equal. f_equal.
    pose proof (cfb_roundtrip (H256 pw) (m ++ [b]) [] iv) as R. rewrite Hc, Hk, cfb_roundtrip in R.
    apply app_inv_head in R. injection R as R. f_equal.
    rewrite bxor_assoc, (bxor_comm d k), <- bxor_assoc, R. reflexivity.
  Qed.
End CfbProofs.
