(** Proofs: the CFB stream of crypto/cipher, and what encrypted texts are. *)
From Coq Require Import Lia ZifyBool ZifyNat ZifyN.
From Verif Require Import Base BaseFacts Sha256 CfbModel CfbProofs AesModel AesSpec AesField AesBlock AesKey.
Local Opaque padd pmul sbox.

Lemma xor_bytes_xors : forall a b, xor_bytes a b = xors a b.
Proof. induction a as [|x a IH]; intros [|y b]; cbn [xor_bytes xors]; [reflexivity..|]. rewrite padd_bxor, IH. reflexivity. Qed.

Lemma xors_cut : forall a b n, xors (firstn n a) b = firstn n (xors a b).
Proof.
  induction a as [|x a IH]; intros b n; [rewrite !firstn_nil; reflexivity|].
  destruct n; [reflexivity|]. destruct b; [reflexivity|]. cbn [firstn xors]. rewrite IH. reflexivity.
Qed.
Lemma xors_app : forall a a' k, length a = length k -> xors (a ++ a') k = xors a k.
Proof.
  induction a as [|x a IH]; intros a' [|y k] H; cbn in *; try discriminate; [destruct a'; reflexivity|].
  rewrite IH by lia. reflexivity.
Qed.
Lemma xors_short : forall a k n, length a <= n -> xors a (firstn n k) = xors a k.
Proof.
  induction a as [|x a IH]; intros k n H; [reflexivity|]. destruct n; [cbn in H; lia|].
  destruct k; [reflexivity|]. cbn [firstn xors] in *. rewrite IH by (cbn in H; lia). reflexivity.
Qed.

Section Stream.
  Variable enc : bytes -> bytes.
  Hypothesis enc_length : forall b, length b = 16 -> length (enc b) = 16.
  Variable key : bytes.

  (** the bytes of one key block, then the rest *)
  Lemma cfb_keys : forall dec ks next m,
    cfb (fun _ => enc) dec key ks next m =
    xors m ks ++ cfb (fun _ => enc) dec key [] (next ++ firstn (length ks) (if dec then m else xors m ks)) (skipn (length ks) m).
  Proof.
    intro dec. induction ks as [|k ks IH]; intros next m.
    - destruct m; cbn [length firstn skipn xors app]; rewrite ?firstn_O, app_nil_r; reflexivity.
    - destruct m as [|p m]; [reflexivity|]. cbn [cfb hd tl xors length skipn app]. rewrite padd_bxor, IH.
      rewrite <- app_assoc. f_equal. f_equal. destruct dec; cbn [firstn app]; reflexivity.
  Qed.

  Lemma cfb_start : forall dec next m, length next = 16 ->
    cfb (fun _ => enc) dec key [] next m =
    xors m (enc next) ++ cfb (fun _ => enc) dec key [] (firstn 16 (if dec then m else xors m (enc next))) (skipn 16 m).
  Proof.
    intros dec next m Hn. pose proof (enc_length next Hn) as L.
    destruct m as [|p m]; [reflexivity|].
    pose proof (cfb_keys dec (enc next) [] (p :: m)) as K. rewrite L in K. cbn [app] in K.
    rewrite <- K. cbn [cfb]. destruct (enc next); [discriminate|reflexivity].
  Qed.

  Lemma copy_whole : forall dst src, length dst <= length src -> copy_at dst 0 src = firstn (length dst) src.
  Proof.
    intros dst src H. unfold copy_at. cbn [firstn app Nat.add]. rewrite Nat.sub_0_r, Nat.min_l by exact H.
    rewrite skipn_all2 by lia. apply app_nil_r.
  Qed.

  Lemma stream_cfb : forall fuel dec out next src, length next = 16 -> length out = 16 -> length src <= fuel ->
    xor_key_stream fuel enc dec (CfbState out next 16) src = Some (cfb (fun _ => enc) dec key [] next src).
  Proof.
    induction fuel as [|fuel IH]; intros dec out next src Hn Ho Hs.
    - destruct src; [reflexivity|cbn in Hs; lia].
    - destruct src as [|p src']; [reflexivity|]. set (src := p :: src') in *.
      rewrite (cfb_start dec next src Hn). pose proof (enc_length next Hn) as L.
      assert (Hpos : 0 < length src) by (unfold src; cbn; lia).
      unfold xor_key_stream; fold xor_key_stream. unfold src at 1. rewrite Ho, Nat.eqb_refl.
      cbv zeta beta iota. rewrite skipn_O, !xor_bytes_xors.
      assert (PL : length (xors src (enc next)) = Nat.min (length src) 16) by (rewrite xors_length, L; reflexivity).
      destruct (Nat.le_gt_cases 16 (length src)) as [C|C].
      + assert (E : (0 + length (xors src (enc next))) = 16) by lia. rewrite E.
        assert (N : (if dec then (if dec then copy_at next 0 src else next)
                     else copy_at (if dec then copy_at next 0 src else next) 0 (xors src (enc next))) =
                    firstn 16 (if dec then src else xors src (enc next))).
        { destruct dec; rewrite copy_whole by lia; rewrite Hn; reflexivity. }
        rewrite N. replace (length (xors src (enc next))) with 16 by lia.
        rewrite IH; [reflexivity|..].
        * destruct dec; rewrite firstn_length; lia.
        * exact L.
        * rewrite skipn_length. lia.
      + rewrite (skipn_all2 (n := length (xors src (enc next)))) by lia.
        rewrite (skipn_all2 (n := 16)) by lia. destruct fuel; reflexivity.
  Qed.
End Stream.

(** ** The standard *)
Section Standard.
  Variable key : bytes.
  Hypothesis Hkey : aes_key key.
  Let E := encrypt_block_go (expand_key_go key).

  Lemma E_length : forall b, length b = 16 -> length (E b) = 16.
  Proof. intros b Hb. apply aes_length; assumption. Qed.

  Lemma standard_cfb : forall prev p c, length prev = 16 -> cfb128 (aes key) prev p c ->
    c = cfb (fun _ => E) false key [] prev p.
  Proof.
    intros prev p c Hp H. induction H as [prev o p L A|prev o p p' c' L A H IH].
    - apply aes_go in A; [|assumption..]. subst o. rewrite (cfb_start E E_length) by exact Hp.
      rewrite (skipn_all2 (n := 16)) by exact L. cbn [cfb]. rewrite app_nil_r. reflexivity.
    - apply aes_go in A; [|assumption..]. subst o. change (encrypt_block_go (expand_key_go key) prev) with (E prev) in *. pose proof (E_length prev Hp) as EL.
      rewrite (cfb_start E E_length) by exact Hp.
      rewrite xors_app by lia. rewrite skipn_app, L, Nat.sub_diag, skipn_all2, skipn_O by lia. cbn [app].
      f_equal. rewrite (firstn_all2 (n := 16)) by (rewrite xors_length; lia). apply IH. rewrite xors_length. lia.
  Qed.

  Lemma cfb_standard : forall n prev p, length p <= n -> length prev = 16 ->
    cfb128 (aes key) prev p (cfb (fun _ => E) false key [] prev p).
  Proof.
    induction n as [|n IH]; intros prev p Hn Hp; pose proof (E_length prev Hp) as EL;
      (assert (A : aes key prev (E prev)) by (apply aes_go; [assumption..|reflexivity])).
    - destruct p; [|cbn in Hn; lia]. apply (Cfb_last _ prev (E prev) []); [cbn; lia|exact A].
    - rewrite (cfb_start E E_length) by exact Hp. destruct (Nat.le_gt_cases (length p) 16) as [C|C].
      + rewrite (skipn_all2 (n := 16)) by exact C. cbn [cfb]. rewrite app_nil_r. apply Cfb_last; assumption.
      + rewrite <- (firstn_skipn 16 p) at 1.
        assert (F : length (firstn 16 p) = 16) by (rewrite firstn_length; lia).
        replace (xors p (E prev)) with (xors (firstn 16 p) (E prev)).
        2: { rewrite <- (firstn_skipn 16 p) at 2. symmetry. apply xors_app. lia. }
        apply Cfb_more; [exact F|exact A|].
        replace (firstn 16 (xors (firstn 16 p) (E prev))) with (xors (firstn 16 p) (E prev))
          by (symmetry; apply firstn_all2; rewrite xors_length; lia).
        apply IH.
        * rewrite skipn_length. lia.
        * rewrite xors_length. lia.
  Qed.

  Lemma cfb_iff : forall prev p c, length prev = 16 ->
    (cfb128 (aes key) prev p c <-> c = cfb (fun _ => E) false key [] prev p).
  Proof. intros. split; [apply standard_cfb; assumption|]. intros ->. apply (cfb_standard (length p)); auto. Qed.

  (** decryption undoes it, in both directions *)
  Lemma cfb_dec_enc : forall c ks next,
    cfb (fun _ => E) false key ks next (cfb (fun _ => E) true key ks next c) = c.
  Proof.
    induction c as [|p c IH]; intros ks next; [reflexivity|]. cbn [cfb].
    destruct ks as [|k ks]; cbn [cfb hd tl]; rewrite bxor_cancel, IH; reflexivity.
  Qed.
  Lemma cfb_dec_iff : forall prev p c, length prev = 16 ->
    (cfb128 (aes key) prev p c <-> p = cfb (fun _ => E) true key [] prev c).
  Proof.
    intros prev p c Hp. rewrite cfb_iff by exact Hp. split; intros ->.
    - symmetry. apply (cfb_roundtrip (fun _ => E)).
    - symmetry. apply cfb_dec_enc.
  Qed.
End Standard.

(** ** The functions of the package *)
Definition aes_block (key block : bytes) : bytes := encrypt_block_go (expand_key_go key) block.

Local Opaque encrypt_block_go expand_key_go sha_256.

Lemma pass_key : forall pw, aes_key (sha_256 pw).
Proof. intro pw. right. right. apply sha_256_length. Qed.

Lemma new_cipher_iff : forall key xk, new_cipher key = Ok xk <-> aes_key key /\ xk = expand_key_go key.
Proof.
  intros key xk. unfold new_cipher, aes_key.
  destruct (Nat.eqb_spec (length key) 16), (Nat.eqb_spec (length key) 24), (Nat.eqb_spec (length key) 32); cbn [orb];
    split; try (intro H; injection H as <-; split; [lia|reflexivity]); try (intros [_ ->]; reflexivity);
    try discriminate; try (intros [H _]; lia).
Qed.
Lemma new_cipher_error : forall key, new_cipher key = Err <-> ~ aes_key key.
Proof.
  intro key. unfold new_cipher, aes_key.
  destruct (Nat.eqb_spec (length key) 16), (Nat.eqb_spec (length key) 24), (Nat.eqb_spec (length key) 32); cbn [orb];
    split; try discriminate; try lia; intros; try reflexivity; exfalso; lia.
Qed.

Lemma new_cipher_no_panic : forall key, new_cipher key <> Panic.
Proof. intro key. unfold new_cipher. destruct (_ || _)%bool; intro H; discriminate H. Qed.
Lemma cipher_blocks : forall key, (new_cipher key = Err <-> ~ aes_key key) /\
  (forall xk, new_cipher key = Ok xk -> forall block out, length block = 16 ->
     (encrypt_block_go xk block = out <-> aes key block out)).
Proof.
  intro key. split; [apply new_cipher_error|]. intros xk H block out Hb. apply new_cipher_iff in H as [Hk ->].
  rewrite (aes_go key block out Hk Hb). split; intro E; symmetry; exact E.
Qed.

Lemma cfb_ext : forall A B key dec m ks next, (forall b, A key b = B key b) ->
  cfb A dec key ks next m = cfb B dec key ks next m.
Proof.
  intros A B key dec. induction m as [|p m IH]; intros ks next H; [reflexivity|]. cbn [cfb].
  destruct ks; rewrite ?H, IH by exact H; reflexivity.
Qed.

Lemma go_cfb : forall pw dec m ks next,
  cfb (fun _ => encrypt_block_go (expand_key_go (sha_256 pw))) dec (sha_256 pw) ks next m = cfb aes_block dec (sha_256 pw) ks next m.
Proof. intros. apply cfb_ext. reflexivity. Qed.

Lemma go_encrypt_model : forall pw iv m, length iv = 16 ->
  go_encrypt pw (Some iv) m = Some (Ok (encrypt sha_256 aes_block pw iv m)).
Proof.
  intros pw iv m Hiv. unfold go_encrypt. rewrite (proj2 (new_cipher_iff _ _) (conj (pass_key pw) eq_refl)).
  unfold new_cfb. rewrite (stream_cfb _ (fun b Hb => aes_length _ b (pass_key pw) Hb) (sha_256 pw)) by
    (first [exact Hiv|reflexivity|lia]).
  unfold encrypt. rewrite (go_cfb pw). reflexivity.
Qed.

Lemma go_encrypt_no_iv : forall pw m, go_encrypt pw None m = Some Err.
Proof. intros. unfold go_encrypt. rewrite (proj2 (new_cipher_iff _ _) (conj (pass_key pw) eq_refl)). reflexivity. Qed.

Lemma go_decrypt_model : forall pw t, go_decrypt pw t = Some (decrypt sha_256 aes_block pw t).
Proof.
  intros pw t. unfold go_decrypt, decrypt. destruct (b64_decode t) as [ct| |]; [|reflexivity..]. cbn [rbind].
  rewrite (proj2 (new_cipher_iff _ _) (conj (pass_key pw) eq_refl)).
  destruct (Nat.ltb_spec (length ct) 16) as [L|L]; [reflexivity|].
  unfold new_cfb. rewrite (stream_cfb _ (fun b Hb => aes_length _ b (pass_key pw) Hb) (sha_256 pw)) by
    (first [rewrite firstn_length; lia|reflexivity|rewrite skipn_length; lia]).
  rewrite (go_cfb pw). reflexivity.
Qed.

Lemma go_encrypt_iff : forall pw iv m t, length iv = 16 ->
  (go_encrypt pw (Some iv) m = Some (Ok t) <->
   exists c, cfb128 (aes (sha_256 pw)) iv m c /\ t = b64_encode (iv ++ c)).
Proof.
  intros pw iv m t Hiv. rewrite go_encrypt_model by exact Hiv. split.
  - intro H. exists (cfb aes_block false (sha_256 pw) [] iv m). split; [|unfold encrypt in H; congruence].
    apply cfb_iff; [apply pass_key|exact Hiv|]. symmetry. apply go_cfb.
  - intros (c & H & ->). apply cfb_iff in H; [|apply pass_key|exact Hiv]. subst c. rewrite go_cfb. reflexivity.
Qed.

Lemma go_decrypt_iff : forall pw t m,
  go_decrypt pw t = Some (Ok m) <->
  exists iv c, b64_decode t = Ok (iv ++ c) /\ length iv = 16 /\ cfb128 (aes (sha_256 pw)) iv m c.
Proof.
  intros pw t m. rewrite go_decrypt_model. unfold decrypt. destruct (b64_decode t) as [ct| |] eqn:Et; cbn [rbind].
  - destruct (Nat.ltb_spec (length ct) 16) as [L|L].
    + split; [discriminate|]. intros (iv & c & H & Hiv & _). assert (ct = iv ++ c) as -> by congruence.
      rewrite app_length in L. lia.
    + split.
      * intro H. exists (firstn 16 ct), (skipn 16 ct). rewrite firstn_skipn. split; [reflexivity|].
        assert (F : length (firstn 16 ct) = 16) by (rewrite firstn_length; lia). split; [exact F|].
        apply cfb_dec_iff; [apply pass_key|exact F|].
        assert (m = cfb aes_block true (sha_256 pw) [] (firstn 16 ct) (skipn 16 ct)) as -> by congruence. symmetry. apply go_cfb.
      * intros (iv & c & H & Hiv & S). assert (ct = iv ++ c) as -> by congruence.
        rewrite firstn_app, skipn_app, Hiv, Nat.sub_diag, firstn_O, skipn_O, firstn_all2, skipn_all2, app_nil_r by lia.
        apply cfb_dec_iff in S; [|apply pass_key|exact Hiv]. subst m. rewrite go_cfb. reflexivity.
  - split; [discriminate|]. intros (iv & c & H & _). discriminate.
  - split; [discriminate|]. intros (iv & c & H & _). discriminate.
Qed.

Lemma go_decrypt_ends : forall pw t, (exists m, go_decrypt pw t = Some (Ok m)) \/ go_decrypt pw t = Some Err.
Proof.
  intros pw t. rewrite go_decrypt_model. unfold decrypt.
  destruct (b64_decode t) as [ct| |] eqn:E; cbn [rbind]; [|right; reflexivity|].
  - destruct (Nat.ltb (length ct) 16); [right; reflexivity|left; eexists; reflexivity].
  - exfalso. exact (b64_decode_no_panic t E).
Qed.

(** ** Consequences *)
Lemma head_block : forall key iv m c, aes_key key -> length iv = 16 -> 16 <= length m ->
  cfb128 (aes key) iv m c -> firstn 16 c = xors (firstn 16 m) (aes_block key iv).
Proof.
  intros key iv m c Hk Hiv Hm H. apply standard_cfb in H; [|assumption..]. subst c.
  pose proof (aes_length key iv Hk Hiv) as L.
  rewrite (cfb_start _ (fun b Hb => aes_length _ b Hk Hb)) by exact Hiv. fold (aes_block key iv) in *.
  rewrite firstn_app, xors_length, L, Nat.min_r, Nat.sub_diag, firstn_O, app_nil_r by exact Hm.
  symmetry. apply xors_cut.
Qed.

Lemma xors_assoc : forall a b c, xors a (xors b c) = xors (xors a b) c.
Proof.
  induction a as [|x a IH]; intros [|y b] [|z c]; cbn [xors]; [reflexivity..|]. rewrite padd_assoc, IH. reflexivity.
Qed.
Lemma xors_comm : forall a b, xors a b = xors b a.
Proof. induction a as [|x a IH]; intros [|y b]; cbn [xors]; [reflexivity..|]. rewrite padd_comm, IH. reflexivity. Qed.

Lemma xors_same : forall a b k k', length a = 16 -> length b = 16 -> length k = 16 -> length k' = 16 ->
  (xors (xors a k) (xors b k') = xors a b <-> k = k').
Proof.
  intros a b k k' Ha Hb Hk Hk'. split; intro H.
  - assert (L : forall x y, length x = 16 -> length y = 16 -> length (xors x y) = 16)
      by (intros; rewrite xors_length; lia).
    assert (P : xors (xors a k) (xors b k') = xors (xors k k') (xors a b)).
    { rewrite (xors_comm (xors k k')). rewrite <- !xors_assoc. f_equal. rewrite !xors_assoc. rewrite (xors_comm k b). reflexivity. }
    rewrite P in H. assert (E : xors k k' = xors (xors a b) (xors a b)).
    { rewrite <- H at 1. symmetry. apply xors_twice. rewrite !L by assumption. lia. }
    rewrite <- (xors_twice k k') by lia. rewrite E, xors_comm, xors_assoc. apply xors_twice. rewrite L by assumption. lia.
  - subst k'. rewrite (xors_comm b k), xors_assoc. rewrite xors_twice by (rewrite ?xors_length; lia). reflexivity.
Qed.

(** two texts of one password show the sum of the first blocks of the messages exactly when
    their initialization vectors are the same *)
Lemma key_stream_repeats : forall pw iv iv' m m' c c', length iv = 16 -> length iv' = 16 -> 16 <= length m -> 16 <= length m' ->
  go_encrypt pw (Some iv) m = Some (Ok (b64_encode (iv ++ c))) ->
  go_encrypt pw (Some iv') m' = Some (Ok (b64_encode (iv' ++ c'))) ->
  (xors (firstn 16 c) (firstn 16 c') = xors (firstn 16 m) (firstn 16 m') <-> iv = iv').
Proof.
  intros pw iv iv' m m' c c' Hiv Hiv' Hm Hm' H H'.
  apply go_encrypt_iff in H as (d & S & D); [|exact Hiv]. apply go_encrypt_iff in H' as (d' & S' & D'); [|exact Hiv'].
  assert (U : forall x y, b64_encode x = b64_encode y -> x = y).
  { intros x y Hxy. pose proof (b64_decode_encode x) as A. rewrite Hxy, b64_decode_encode in A. congruence. }
  apply U, app_inv_head in D. apply U, app_inv_head in D'. subst d d'.
  rewrite (head_block _ _ _ _ (pass_key pw) Hiv Hm S), (head_block _ _ _ _ (pass_key pw) Hiv' Hm' S').
  pose proof (aes_length _ iv (pass_key pw) Hiv) as L. pose proof (aes_length _ iv' (pass_key pw) Hiv') as L'.
  fold (aes_block (sha_256 pw) iv) in L. fold (aes_block (sha_256 pw) iv') in L'.
  assert (M : length (firstn 16 m) = 16) by (rewrite firstn_length; lia).
  assert (M' : length (firstn 16 m') = 16) by (rewrite firstn_length; lia).
  rewrite (xors_same _ _ _ _ M M' L L'). split.
  - intro E. apply (aes_injective (sha_256 pw) iv iv' (aes_block (sha_256 pw) iv)); [apply pass_key|exact Hiv|exact Hiv'|..];
      (apply aes_go; [apply pass_key|assumption|]); [unfold aes_block; reflexivity|unfold aes_block in E; exact E].
  - intros ->. reflexivity.
Qed.

(** a text cut at either end is the text of the message cut at the same end *)
Lemma cut_front : forall pw iv c m, length iv = 16 -> 16 <= length c ->
  go_decrypt pw (b64_encode (iv ++ c)) = Some (Ok m) -> go_decrypt pw (b64_encode c) = Some (Ok (skipn 16 m)).
Proof.
  intros pw iv c m Hiv Hc H. apply go_decrypt_iff in H as (iv1 & c1 & E & H1 & S).
  rewrite b64_decode_encode in E. assert (E' : iv ++ c = iv1 ++ c1) by congruence.
  assert (iv = iv1) as <-.
  { pose proof (f_equal (firstn 16) E') as F. rewrite !firstn_app, Hiv, H1, Nat.sub_diag, !firstn_O, !app_nil_r, !firstn_all2 in F by lia. exact F. }
  apply app_inv_head in E'. subst c1. clear E H1.
  apply go_decrypt_iff. exists (firstn 16 c), (skipn 16 c). rewrite b64_decode_encode, firstn_skipn.
  split; [reflexivity|]. assert (F : length (firstn 16 c) = 16) by (rewrite firstn_length; lia). split; [exact F|].
  apply cfb_dec_iff; [apply pass_key|exact F|]. apply cfb_dec_iff in S; [|apply pass_key|exact Hiv]. subst m.
  rewrite (cfb_start _ (fun b Hb => aes_length _ b (pass_key pw) Hb)) by exact Hiv.
  pose proof (aes_length _ iv (pass_key pw) Hiv) as L.
  rewrite skipn_app, xors_length, L, Nat.min_r, Nat.sub_diag, skipn_O by exact Hc.
  rewrite skipn_all2 by (rewrite xors_length; lia). reflexivity.
Qed.

Lemma cfb_prefix : forall A dec key n m ks next, cfb A dec key ks next (firstn n m) = firstn n (cfb A dec key ks next m).
Proof.
  intros A dec key. induction n as [|n IH]; intros m ks next; [reflexivity|].
  destruct m as [|p m]; [reflexivity|]. cbn [firstn cfb]. destruct ks; cbn [firstn]; rewrite IH; reflexivity.
Qed.

Lemma cut_end : forall pw iv c m n, length iv = 16 ->
  go_decrypt pw (b64_encode (iv ++ c)) = Some (Ok m) -> go_decrypt pw (b64_encode (iv ++ firstn n c)) = Some (Ok (firstn n m)).
Proof.
  intros pw iv c m n Hiv H. rewrite go_decrypt_model in *. unfold decrypt in *. rewrite b64_decode_encode in *. cbn [rbind] in *.
  rewrite !app_length, Hiv in *. change (Nat.ltb (16 + length c) 16) with false in H.
  change (Nat.ltb (16 + length (firstn n c)) 16) with false.
  rewrite !firstn_app, !skipn_app, !Hiv, !Nat.sub_diag, !firstn_O, !skipn_O, !firstn_all2, !skipn_all2, !app_nil_r in * by lia.
  cbn [app] in *. rewrite cfb_prefix. do 3 f_equal. congruence.
Qed.
