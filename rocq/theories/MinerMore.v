From Coq Require Import Lia ZifyBool ZifyNat ZifyN SpecFloat.
From Verif Require Import Base BaseFacts Sha512 HashModel HashProofs EntitiesModel SignModel FloatModel FloatFacts PiastresModel
  PiastresSpec PiastresProofs JsonModel JsonProofs TimeModel FloatText MemJsonModel MemSpec MemJsonProofs TransferModel StoreModel StoreSpec StoreRefuted StoreMore MinerModel MinerSpec MinerProofs.

Section WithCurve.
Context {C : Curve}.
Lemma block_unmined : forall now (b : block) created d, length (bk_hash b) = 64 -> ~ leading_zeros d (bk_hash b) ->
  exists mb, mined_block_now now (Some b) [] created = Ok mb /\ mb_block mb = b /\ ~ leading_zeros d (mb_hash mb).
Proof.
  intros now b created d L H. destruct (block_unchecked now b [] created) as (mb & E & Eb & _ & Eh). exists mb.
  split; [exact E|]. split; [exact Eb|]. rewrite (Eh L eq_refl). exact H.
Qed.
Lemma link_unmined : forall now (l : chain_link) created d, length (ln_hash l) = 64 -> ~ leading_zeros d (ln_hash l) ->
  exists ml, mined_link_now now (Some l) [] created = Ok ml /\ ml_link ml = l /\ ~ leading_zeros d (ml_hash ml).
Proof.
  intros now b created d L H. destruct (link_unchecked now b [] created) as (mb & E & Eb & _ & Eh). exists mb.
  split; [exact E|]. split; [exact Eb|]. rewrite (Eh L eq_refl). exact H.
Qed.
Lemma unmined_stored : forall (U : obj C -> Prop) d mb d', universe All U -> reach All U d -> U (OMBlock mb) ->
  ready d (OMBlock mb) -> mblock_save mb (Fs d []) = (Ok tt, Fs d' []) ->
  forall n, ~ leading_zeros n (mb_hash mb) ->
  exists mb', mblock_retrieve (mb_hash mb) d' = Ok mb' /\ mb_mining mb' = mb_mining mb /\ ~ leading_zeros n (mb_hash mb').
Proof.
  intros U d mb d' HU R Um Rd E n H. destruct (mblock_saved U d mb [] HU R Um Rd) as (_ & _ & S). rewrite E in S. cbn [fst snd fs_disk] in S.
  destruct (S eq_refl d' (steps_none _ _ _)) as (mb' & Er & Eh & _ & Em). exists mb'. split; [exact Er|]. split; [exact Em|]. rewrite Eh. exact H.
Qed.
Lemma mined_block_check : forall now (b : block) mining created mb, mined_block_now now (Some b) mining created = Ok mb ->
  forall d, leading_zeros d (mb_hash mb) <-> leading_zeros d (from_bytes (bk_hash b ++ mining)).
Proof.
  intros now b mining created mb E d. apply mined_block_now_iff in E as (b' & Eb & ->). injection Eb as <-.
  unfold mb_hash, from_multi. cbn [mb_im im_hash concat]. rewrite app_nil_r. reflexivity.
Qed.
Lemma miner_block_writes : forall wild fuel created mined trx s r s',
  miner_block wild fuel created mined trx s = Some (r, s') -> s' = s \/ exists mb, mblock_save mb s = (r, s').
Proof.
  intros wild fuel created mined trx s r s' H. unfold miner_block, mine_run in H.
  repeat match type of H with
  | lift_run ?x _ _ = _ => destruct x as [?| |]; cbn [lift_run] in H; [|injection H as <- <-; left; reflexivity..]
  | match ?m with Some _ => _ | None => _ end = _ => destruct m as [?|]; [|discriminate]
  end.
  injection H as H. right. eexists. exact H.
Qed.
Lemma miner_link_writes : forall fuel created mined prev next s r s',
  miner_link fuel created mined prev next s = Some (r, s') -> s' = s \/ exists ml, mlink_save ml s = (r, s').
Proof.
  intros fuel created mined prev next s r s' H. unfold miner_link, mine_run in H.
  repeat match type of H with
  | lift_run ?x _ _ = _ => destruct x as [?| |]; cbn [lift_run] in H; [|injection H as <- <-; left; reflexivity..]
  | match ?m with Some _ => _ | None => _ end = _ => destruct m as [?|]; [|discriminate]
  end.
  injection H as H. right. eexists. exact H.
Qed.
Lemma inserted_not_mined : forall (U : obj C -> Prop) d (c : chain) fl s', universe Base U -> runs U empty d ->
  (forall o, In o (op_objs (OpInsert c)) -> U o) -> good_chain readable unicode c ->
  chain_retrieve d = Err -> chain_insert c (Fs d fl) = (Ok tt, s') ->
  forall wild fuel created mined trx, exists r, miner_block wild fuel created mined trx s' = Some (r, s') /\ r <> Ok tt.
Proof.
  intros U d c fl s' HU R Uc G E H wild fuel created mined trx. apply miner_block_no_chain. intros c' Ec.
  rewrite (chain_insert_lost U d c fl s' HU R Uc G E H) in Ec. discriminate.
Qed.
Lemma inserted_not_linked : forall (U : obj C -> Prop) d (c : chain) fl s', universe Base U -> runs U empty d ->
  (forall o, In o (op_objs (OpInsert c)) -> U o) -> good_chain readable unicode c ->
  chain_retrieve d = Err -> chain_insert c (Fs d fl) = (Ok tt, s') ->
  forall fuel created mined prev next, miner_link fuel created mined prev next s' = Some (Err, s').
Proof.
  intros U d c fl s' HU R Uc G E H fuel created mined prev next. unfold miner_link.
  rewrite (chain_insert_lost U d c fl s' HU R Uc G E H). reflexivity.
Qed.
Lemma link_index_lost : forall fuel created mined prev next s s',
  miner_link fuel created mined prev next s = Some (Ok tt, s') ->
  exists ph p ml, from_string prev = Ok ph /\ mlink_retrieve ph (fs_disk s) = Ok p /\ mlink_save ml s = (Ok tt, s') /\
    ln_prev (ml_link ml) = ml_hash p /\ ln_index (ml_link ml) <> (ln_index (ml_link p) + 1)%N.
Proof.
  intros fuel created mined prev next s s' H. apply miner_link_result in H as (ph & nh & c & p & b & ml & H1 & _ & _ & H2 & _ & H3 & _ & H4 & _ & _ & _ & H5).
  exists ph, p, ml. do 4 (split; [assumption|]). rewrite H4. lia.
Qed.
End WithCurve.

Lemma difficulty_below_base : exists base increase, positive increase /\ (base < 2 ^ 64)%N /\
  forall wild, (difficulty wild base increase 1 < base)%N.
Proof.
  exists (2 ^ 53 + 1)%N, (S754_finite false 4503599627370496 (-53)). split; [split; reflexivity|]. split; [reflexivity|].
  intro wild. unfold difficulty.
  assert (E : f_to_uint (f_add (trx_sum (S754_finite false 4503599627370496 (-53)) 1) (f_of_Z (Z.of_N (2 ^ 53 + 1)))) = Some (2 ^ 53)%N)
    by (vm_compute; reflexivity).
  rewrite E. reflexivity.
Qed.
Lemma f_add_nan : forall x, f_add x S754_nan = S754_nan.
Proof. intros [| | |]; reflexivity. Qed.
Lemma difficulty_nan : forall now base lnk b created, (0 < base)%N -> (0 < lnk)%N ->
  (exists g, genesis_now now base S754_nan lnk (Some b) created = Ok g) /\ forall n wild, 0 < n -> difficulty wild base S754_nan n = wild S754_nan.
Proof.
  intros now base lnk b created Hb Hl. split.
  - eexists. apply genesis_now_iff. exists b. repeat split; assumption.
  - intros n wild Hn. unfold difficulty. destruct n as [|n]; [lia|]. cbn [trx_sum].
    assert (E : f_mul (f_of_Z (Z.of_nat (S n))) S754_nan = S754_nan) by (destruct (f_of_Z (Z.of_nat (S n))); reflexivity).
    rewrite E, f_add_nan. reflexivity.
Qed.
