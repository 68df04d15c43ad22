From Coq Require Import Lia ZifyBool ZifyNat ZifyN SpecFloat.
From Verif Require Import Base BaseFacts Sha512 HashModel HashProofs EntitiesModel SignModel FloatModel FloatFacts PiastresModel
  PiastresSpec PiastresProofs StoreModel MinerModel MinerSpec.

(** ** Loops *)
Lemma seek_some : forall A (g : N -> option A) k lo a, seek k lo g = Some a ->
  exists i, (lo <= i < lo + 2 ^ N.of_nat k)%N /\ g i = Some a /\ forall j, (lo <= j < i)%N -> g j = None.
Proof.
  assert (N : forall A (g : N -> option A) k lo, seek k lo g = None -> forall j, (lo <= j < lo + 2 ^ N.of_nat k)%N -> g j = None).
  { intros A g. induction k as [|k IH]; intros lo H j Hj; cbn [seek] in H.
    - change (2 ^ N.of_nat 0)%N with 1%N in Hj. replace j with lo by lia. exact H.
    - destruct (seek k lo g) eqn:E; [discriminate|]. rewrite Nat2N.inj_succ, N.pow_succ_r' in Hj.
      destruct (N.lt_ge_cases j (lo + 2 ^ N.of_nat k)) as [L|L]; [apply (IH lo E); lia|apply (IH _ H); lia]. }
  intros A g. induction k as [|k IH]; intros lo a H; cbn [seek] in H.
  - exists lo. change (2 ^ N.of_nat 0)%N with 1%N. split; [lia|]. split; [exact H|]. intros; lia.
  - rewrite Nat2N.inj_succ, N.pow_succ_r'. destruct (seek k lo g) as [b|] eqn:E.
    + injection H as <-. apply IH in E as (i & R & G & F). exists i. split; [lia|]. split; assumption.
    + apply IH in H as (i & R & G & F). exists i. split; [lia|]. split; [exact G|]. intros j Hj.
      destruct (N.lt_ge_cases j (lo + 2 ^ N.of_nat k)) as [L|L]; [apply (N _ _ _ _ E); lia|apply F; lia].
Qed.
Lemma seek_none : forall A (g : N -> option A) k lo, seek k lo g = None -> forall j, (lo <= j < lo + 2 ^ N.of_nat k)%N -> g j = None.
Proof.
  intros A g. induction k as [|k IH]; intros lo H j Hj; cbn [seek] in H.
  - change (2 ^ N.of_nat 0)%N with 1%N in Hj. replace j with lo by lia. exact H.
  - destruct (seek k lo g) eqn:E; [discriminate|]. rewrite Nat2N.inj_succ, N.pow_succ_r' in Hj.
    destruct (N.lt_ge_cases j (lo + 2 ^ N.of_nat k)) as [L|L]; [apply (IH lo E); lia|apply (IH _ H); lia].
Qed.
Lemma seek_first : forall A (g : N -> option A) k lo a, g lo = Some a -> seek k lo g = Some a.
Proof. intros A g. induction k as [|k IH]; intros lo a H; cbn [seek]; [exact H|]. rewrite (IH _ _ H). reflexivity. Qed.

(** ** Prefixes *)
Lemma has_prefix_zeros : forall n s, has_prefix s (repeat x00 n) = true <-> forall i, i < n -> nth_error s i = Some x00.
Proof.
  induction n as [|n IH]; intro s; cbn [repeat has_prefix]; [split; [intros; lia|reflexivity]|]. destruct s as [|c s].
  - split; [discriminate|]. intro H. specialize (H 0 ltac:(lia)). discriminate.
  - rewrite Bool.andb_true_iff, IH, beq_eq. split.
    + intros [<- H] [|i] L; [reflexivity|]. apply H. lia.
    + intro H. split; [specialize (H 0 ltac:(lia)); injection H as <-; reflexivity|]. intros i L. apply (H (S i)). lia.
Qed.
Lemma prefix_small : forall d, (d < 2 ^ 63)%N -> prefix d = repeat x00 (N.to_nat d).
Proof. intros d H. unfold prefix, int_of_u64. destruct (N.ltb_spec d (2 ^ 63)); [|lia]. f_equal. lia. Qed.
Lemma prefix_large : forall d, (2 ^ 63 <= d < 2 ^ 64)%N -> prefix d = [].
Proof. intros d H. unfold prefix, int_of_u64. destruct (N.ltb_spec d (2 ^ 63)); [lia|]. replace (Z.to_nat _) with 0 by lia. reflexivity. Qed.
Lemma has_prefix_difficulty : forall d s, (d < 2 ^ 63)%N -> has_prefix s (prefix d) = true <-> leading_zeros d s.
Proof. intros d s H. rewrite prefix_small by exact H. apply has_prefix_zeros. Qed.

(** ** Mining *)
Lemma itoa_small : forall i, (i <= 2147483647)%N -> itoa_u64 i = itoa (Z.of_N i).
Proof. intros i H. unfold itoa_u64, int_of_u64. destruct (N.ltb_spec i (2 ^ 63)); [reflexivity|lia]. Qed.
Lemma try_hash_eq : forall base tries i, try_hash base tries i = from_bytes (base ++ tries ++ itoa_u64 i).
Proof.
  intros base tries i. unfold try_hash, from_multi. destruct tries; cbn [concat app]; rewrite ?app_nil_r; reflexivity.
Qed.
Section Rec.
Variables (pre base : bytes).
Let hit (s : bytes) : Prop := has_prefix (from_bytes (base ++ s)) pre = true.
Lemma zeros_shift : forall tries k i, (tries ++ itoa_u64 0) ++ candidate k i = tries ++ candidate (S k) i.
Proof. intros tries k i. change (itoa_u64 0) with [x30]. rewrite <- app_assoc. reflexivity. Qed.
Lemma mine_rec_spec : forall fuel tries,
  match mine_rec fuel pre base tries with
  | None => forall k i, k < fuel -> tried i -> ~ hit (tries ++ candidate k i)
  | Some r => exists k i, k < fuel /\ tried i /\ r = Ok (tries ++ candidate k i) /\ hit (tries ++ candidate k i) /\
      forall k' i', before k' i' k i -> tried i' -> ~ hit (tries ++ candidate k' i')
  end.
Proof.
  induction fuel as [|fuel IH]; intro tries; cbn [mine_rec]; [intros; lia|].
  destruct (seek 31 0 (fun i => if has_prefix (try_hash base tries i) pre then Some i else None)) as [i|] eqn:E.
  - apply seek_some in E as (j & R & G & F). change (2 ^ N.of_nat 31)%N with 2147483648%N in R.
    destruct (has_prefix (try_hash base tries j) pre) eqn:P; [|discriminate]. injection G as ->.
    assert (T : tried i) by (unfold tried; lia). rewrite try_hash_eq in P. rewrite itoa_small in * by exact T.
    exists 0, i. split; [lia|]. split; [exact T|]. split; [reflexivity|]. split; [exact P|].
    intros k' i' [B|[-> B]] T' H; [lia|]. specialize (F i' ltac:(lia)). rewrite try_hash_eq, itoa_small in F by exact T'.
    unfold hit, candidate in H. cbn [repeat app] in H. rewrite H in F. discriminate.
  - assert (Z0 : forall i, tried i -> ~ hit (tries ++ candidate 0 i)).
    { intros i T H. assert (G := seek_none _ _ _ _ E i ltac:(change (2 ^ N.of_nat 31)%N with 2147483648%N; unfold tried in T; lia)). cbn beta in G.
      rewrite try_hash_eq, itoa_small in G by exact T. unfold hit, candidate in H. cbn [repeat app] in H. rewrite H in G. discriminate. }
    clear E. specialize (IH (tries ++ itoa_u64 0)).
    destruct (mine_rec fuel pre base (tries ++ itoa_u64 0)) as [r|] eqn:Er.
    + destruct IH as (k & i & L & T & -> & H & F). rewrite zeros_shift in *.
      rewrite (seek_first _ _ 31 0%N (Some (Ok (tries ++ candidate (S k) i)))).
      2:{ change (0 <? max_tries)%N with true. cbn iota. rewrite Er. destruct (tries ++ candidate (S k) i) as [|c s] eqn:Ec; [|reflexivity].
          apply app_eq_nil in Ec as [_ Ec]. discriminate. }
      exists (S k), i. split; [lia|]. split; [exact T|]. split; [reflexivity|]. split; [exact H|].
      intros [|k'] i' B T'; [apply Z0; exact T'|]. rewrite <- zeros_shift. apply F; [|exact T']. unfold before in *. lia.
    + rewrite (seek_first _ _ 31 0%N None) by (change (0 <? max_tries)%N with true; cbn iota; rewrite Er; reflexivity).
      intros [|k] i L T; [apply Z0; exact T|]. rewrite <- zeros_shift. apply IH; [lia|exact T].
Qed.
End Rec.
Lemma mine_result : forall fuel d h r, (d < 2 ^ 63)%N -> mine fuel d h = Some r ->
  exists k i, k < fuel /\ r = Ok (candidate k i) /\ first_solution d h k i.
Proof.
  intros fuel d h r Hd H. pose proof (mine_rec_spec (prefix d) h fuel []) as S. unfold mine in H. rewrite H in S.
  destruct S as (k & i & L & T & -> & Hh & F). cbn [app] in *. exists k, i. split; [exact L|]. split; [reflexivity|].
  split; [split; [exact T|]; apply has_prefix_difficulty; assumption|].
  intros k' i' B [T' S']. apply (F k' i' B T'). apply has_prefix_difficulty; assumption.
Qed.
Lemma mine_waits : forall fuel d h k i, (d < 2 ^ 63)%N -> mine fuel d h = None -> k < fuel -> ~ solves d h k i.
Proof.
  intros fuel d h k i Hd H L [T S]. pose proof (mine_rec_spec (prefix d) h fuel []) as R. unfold mine in H. rewrite H in R.
  apply (R k i L T). apply has_prefix_difficulty; assumption.
Qed.
(** the whole behaviour *)
Lemma mine_returns : forall d h, (d < 2 ^ 63)%N ->
  (forall fuel r, mine fuel d h = Some r -> exists k i, r = Ok (candidate k i) /\ first_solution d h k i) /\
  (forall k i, first_solution d h k i -> forall fuel, (k < fuel -> mine fuel d h = Some (Ok (candidate k i))) /\ (fuel <= k -> mine fuel d h = None)).
Proof.
  intros d h Hd. split.
  - intros fuel r H. destruct (mine_result fuel d h r Hd H) as (k & i & _ & R). exists k, i. exact R.
  - intros k i [S F] fuel. split; intro L.
    + destruct (mine fuel d h) as [r|] eqn:E; [|exfalso; exact (mine_waits fuel d h k i Hd E L S)].
      destruct (mine_result fuel d h r Hd E) as (k' & i' & _ & -> & S' & F').
      assert (Q : k' = k /\ i' = i).
      { destruct (Nat.lt_total k k') as [B|[->|B]]; [exfalso; apply (F' k i); [left|]; assumption| |exfalso; apply (F k' i'); [left|]; assumption].
        destruct (N.lt_total i i') as [B|[->|B]]; [exfalso; apply (F' k' i); [right; auto|exact S]|auto|exfalso; apply (F k' i'); [right; auto|exact S']]. }
      destruct Q as [-> ->]. reflexivity.
    + destruct (mine fuel d h) as [r|] eqn:E; [exfalso|reflexivity]. destruct (mine_result fuel d h r Hd E) as (k' & i' & L' & _ & S' & _).
      apply (F k' i'); [left; lia|exact S'].
Qed.
Lemma mine_never_err : forall fuel d h r, mine fuel d h = Some r -> exists s, r = Ok s /\ s <> [].
Proof.
  intros fuel d h r H. pose proof (mine_rec_spec (prefix d) h fuel []) as S. unfold mine in H. rewrite H in S.
  destruct S as (k & i & _ & _ & -> & _). eexists. split; [reflexivity|]. cbn [app]. unfold candidate. intro E.
  apply app_eq_nil in E as [_ E]. exact (itoa_nonnil _ E).
Qed.
Lemma leading_zeros_length : forall d h, leading_zeros d h -> N.to_nat d <= length h.
Proof.
  intros d h H. destruct (Nat.le_gt_cases (N.to_nat d) (length h)) as [L|L]; [exact L|]. specialize (H (length h) L).
  assert (nth_error h (length h) <> None) by congruence. apply nth_error_Some in H0. lia.
Qed.
Lemma mine_impossible : forall fuel d h, (64 < d < 2 ^ 63)%N -> mine fuel d h = None.
Proof.
  intros fuel d h H. destruct (mine fuel d h) as [r|] eqn:E; [|reflexivity].
  destruct (mine_result fuel d h r ltac:(lia) E) as (k & i & _ & _ & [_ S] & _). apply leading_zeros_length in S. rewrite from_bytes_length in S. lia.
Qed.
Lemma mine_huge : forall fuel d h, (2 ^ 63 <= d < 2 ^ 64)%N -> mine (S fuel) d h = Some (Ok (s2b "0")).
Proof.
  intros fuel d h H. unfold mine. rewrite prefix_large by exact H. cbn [mine_rec].
  rewrite (seek_first _ _ 31 0%N 0%N); reflexivity.
Qed.

(** ** The mined objects *)
Section WithCurve.
Context {C : Curve}.
Lemma mined_block_meets : forall fuel d (b : block) s now created mb, (d < 2 ^ 63)%N ->
  mine fuel d (bk_hash b) = Some (Ok s) -> mined_block_now now (Some b) s created = Ok mb -> leading_zeros d (mb_hash mb).
Proof.
  intros fuel d b s now created mb Hd H E. apply mined_block_now_iff in E as (b' & Eb & ->). injection Eb as <-.
  destruct (mine_result fuel d _ _ Hd H) as (k & i & _ & Es & [_ S] & _). injection Es as ->.
  unfold mb_hash, from_multi. cbn [mb_im im_hash concat]. rewrite app_nil_r. exact S.
Qed.
Lemma mined_link_meets : forall fuel d (l : chain_link) s now created ml, (d < 2 ^ 63)%N ->
  mine fuel d (ln_hash l) = Some (Ok s) -> mined_link_now now (Some l) s created = Ok ml -> leading_zeros d (ml_hash ml).
Proof.
  intros fuel d l s now created mb Hd H E. apply mined_link_now_iff in E as (b' & Eb & ->). injection Eb as <-.
  destruct (mine_result fuel d _ _ Hd H) as (k & i & _ & Es & [_ S] & _). injection Es as ->.
  unfold ml_hash, from_multi. cbn [ml_im im_hash concat]. rewrite app_nil_r. exact S.
Qed.
Lemma block_unchecked : forall now (b : block) mining created, exists mb,
  mined_block_now now (Some b) mining created = Ok mb /\ mb_block mb = b /\ mb_mining mb = mining /\
  (length (bk_hash b) = 64 -> mining = [] -> mb_hash mb = bk_hash b).
Proof.
  intros now b mining created. eexists. split; [apply mined_block_now_iff; exists b; split; reflexivity|].
  split; [reflexivity|]. split; [reflexivity|]. intros L ->. unfold mb_hash, from_multi. cbn [mb_im im_hash concat app].
  rewrite app_nil_r. apply from_bytes_64. exact L.
Qed.
Lemma link_unchecked : forall now (l : chain_link) mining created, exists ml,
  mined_link_now now (Some l) mining created = Ok ml /\ ml_link ml = l /\ ml_mining ml = mining /\
  (length (ln_hash l) = 64 -> mining = [] -> ml_hash ml = ln_hash l).
Proof.
  intros now b mining created. eexists. split; [apply mined_link_now_iff; exists b; split; reflexivity|].
  split; [reflexivity|]. split; [reflexivity|]. intros L ->. unfold ml_hash, from_multi. cbn [ml_im im_hash concat app].
  rewrite app_nil_r. apply from_bytes_64. exact L.
Qed.

(** ** The application *)
Lemma rmapM_ok : forall A B (f : A -> res B) l ys, rmapM f l = Ok ys -> Forall2 (fun x y => f x = Ok y) l ys.
Proof.
  intros A B f. induction l as [|x l IH]; intros ys H; cbn [rmapM] in H.
  - injection H as <-. constructor.
  - destruct (f x) as [y| |] eqn:E; try discriminate. cbn [rbind] in H. destruct (rmapM f l) as [zs| |] eqn:El; try discriminate.
    cbn [rbind] in H. injection H as <-. constructor; [exact E|]. apply IH. reflexivity.
Qed.
Lemma pairwise_length : forall A B (R : A -> B -> Prop) l m, Forall2 R l m -> length l = length m.
Proof. intros A B R l m H. induction H; cbn [length]; congruence. Qed.
Lemma lift_run_inv : forall A (x : res A) k s out, lift_run x k s = Some out -> fst out = Ok tt -> exists a, x = Ok a /\ k a s = Some out.
Proof. intros A [a| |] k s out H E; cbn [lift_run] in H; [exists a; auto|injection H as <-; discriminate|injection H as <-; discriminate]. Qed.
Lemma miner_block_result : forall wild fuel created mined trx s s',
  miner_block wild fuel created mined trx s = Some (Ok tt, s') ->
  exists hs ts c mb, Forall2 (fun t h => from_string t = Ok h) trx hs /\ Forall2 (fun h t => trx_retrieve h (fs_disk s) = Ok t) hs ts /\
    chain_retrieve (fs_disk s) = Ok c /\ ts <> [] /\
    bk_genesis (mb_block mb) = ch_genesis c /\ bk_trx (mb_block mb) = ts /\ bk_additional (mb_block mb) = 0%N /\
    im_created (bk_im (mb_block mb)) = created /\ im_created (mb_im mb) = mined /\
    (let d := difficulty wild (gn_base (ch_genesis c)) (gn_increase (ch_genesis c)) (length trx) in (d < 2 ^ 63)%N -> leading_zeros d (mb_hash mb)) /\
    mblock_save mb s = (Ok tt, s').
Proof.
  intros wild fuel created mined trx s s' H. unfold miner_block in H.
  apply lift_run_inv in H as (hs & E1 & H); [|reflexivity]. apply lift_run_inv in H as (ts & E2 & H); [|reflexivity].
  apply lift_run_inv in H as (c & E3 & H); [|reflexivity]. cbn zeta in H. apply lift_run_inv in H as (b & E4 & H); [|reflexivity].
  unfold mine_run in H. destruct (mine _ _ _) as [r|] eqn:Em; [|discriminate]. apply lift_run_inv in H as (m & -> & H); [|reflexivity].
  apply lift_run_inv in H as (mb & E5 & H); [|reflexivity]. injection H as H.
  apply rmapM_ok in E1. apply rmapM_ok in E2. pose proof E4 as E4'. apply block_now_iff in E4 as (g & Eg & Nt & ->). injection Eg as <-.
  exists hs, ts, c, mb. pose proof E5 as E5'. apply mined_block_now_iff in E5 as (b' & Eb & ->). injection Eb as <-.
  split.
  { clear - E1. induction E1; constructor; [rewrite <- FromString_from_string; assumption|assumption]. }
  split; [exact E2|]. split; [exact E3|]. split; [exact Nt|]. do 5 (split; [reflexivity|]). split; [|exact H].
  assert (Ln : length ts = length trx) by (rewrite <- (pairwise_length _ _ _ _ _ E2), <- (pairwise_length _ _ _ _ _ E1); reflexivity).
  rewrite <- Ln. intros d Hd. exact (mined_block_meets fuel d _ m 0 _ _ Hd Em E5').
Qed.
Lemma miner_link_result : forall fuel created mined prev next s s',
  miner_link fuel created mined prev next s = Some (Ok tt, s') ->
  exists ph nh c p b ml, from_string prev = Ok ph /\ from_string next = Ok nh /\ chain_retrieve (fs_disk s) = Ok c /\
    mlink_retrieve ph (fs_disk s) = Ok p /\ block_retrieve nh (fs_disk s) = Ok b /\
    ln_prev (ml_link ml) = ml_hash p /\ ln_next (ml_link ml) = b /\ ln_index (ml_link ml) = 0%N /\
    im_created (ln_im (ml_link ml)) = created /\ im_created (ml_im ml) = mined /\
    (let d := gn_link (ch_genesis c) in (d < 2 ^ 63)%N -> leading_zeros d (ml_hash ml)) /\
    mlink_save ml s = (Ok tt, s').
Proof.
  intros fuel created mined prev next s s' H. unfold miner_link in H.
  apply lift_run_inv in H as (c & E1 & H); [|reflexivity]. apply lift_run_inv in H as (ph & E2 & H); [|reflexivity].
  apply lift_run_inv in H as (nh & E3 & H); [|reflexivity]. apply lift_run_inv in H as (p & E4 & H); [|reflexivity].
  apply lift_run_inv in H as (b & E5 & H); [|reflexivity]. apply lift_run_inv in H as (l & E6 & H); [|reflexivity].
  unfold mine_run in H. destruct (mine _ _ _) as [r|] eqn:Em; [|discriminate]. apply lift_run_inv in H as (m & -> & H); [|reflexivity].
  apply lift_run_inv in H as (ml & E7 & H); [|reflexivity]. injection H as H.
  rewrite FromString_from_string in E2, E3. apply link_now_iff in E6 as (p' & n' & Ep & En & ->). injection Ep as <-. injection En as <-.
  exists ph, nh, c, p, b, ml. pose proof E7 as E7'. apply mined_link_now_iff in E7 as (l' & El & ->). injection El as <-.
  split; [exact E2|]. split; [exact E3|]. split; [exact E1|]. split; [exact E4|]. split; [exact E5|].
  do 5 (split; [reflexivity|]). split; [|exact H]. intros d Hd. exact (mined_link_meets fuel d _ m 0 _ _ Hd Em E7').
Qed.
(** whatever happens, everything but the final save leaves the disk alone *)
Lemma miner_block_no_chain : forall wild fuel created mined trx s, (forall c, chain_retrieve (C := C) (fs_disk s) <> Ok c) ->
  exists r, miner_block wild fuel created mined trx s = Some (r, s) /\ r <> Ok tt.
Proof.
  intros wild fuel created mined trx s H. unfold miner_block.
  destruct (rmapM FromString trx) as [hs| |]; cbn [lift_run]; [|eexists; split; [reflexivity|discriminate]..].
  destruct (trxs_retrieve hs (fs_disk s)) as [ts| |]; cbn [lift_run]; [|eexists; split; [reflexivity|discriminate]..].
  destruct (chain_retrieve (fs_disk s)) as [c| |] eqn:E; cbn [lift_run]; [exfalso; exact (H c eq_refl)|eexists; split; [reflexivity|discriminate]..].
Qed.
Lemma miner_link_no_chain : forall fuel created mined prev next s, (forall c, chain_retrieve (C := C) (fs_disk s) <> Ok c) ->
  exists r, miner_link fuel created mined prev next s = Some (r, s) /\ r <> Ok tt.
Proof.
  intros fuel created mined prev next s H. unfold miner_link.
  destruct (chain_retrieve (fs_disk s)) as [c| |] eqn:E; cbn [lift_run]; [exfalso; exact (H c eq_refl)|eexists; split; [reflexivity|discriminate]..].
Qed.
End WithCurve.

(** ** Difficulty *)
Lemma f_to_uint_holds : forall x v, holds x v ->
  f_to_uint x = if (v / 2 ^ 1074 <? 2 ^ 64)%Z then Some (Z.to_N (v / 2 ^ 1074)) else None.
Proof.
  intros x v [s|m e B]; [reflexivity|]. apply bounded_spec in B as [B L]. cbn [f_to_uint].
  assert (E : f_trunc m e = (units m e / 2 ^ 1074)%Z).
  { unfold f_trunc, units. destruct (Z.leb_spec 0 e) as [G|G].
    - rewrite Z.pow_add_r, Z.mul_assoc, Z.div_mul by (try lia; apply Z.pow_nonzero; lia). reflexivity.
    - assert (E2 : (2 ^ 1074 = 2 ^ (- e) * 2 ^ (e + 1074))%Z) by (rewrite <- Z.pow_add_r by lia; f_equal; ring).
      rewrite E2, Z.div_mul_cancel_r by (apply Z.pow_nonzero; lia). reflexivity. }
  rewrite E. assert (P : (0 <= units m e / 2 ^ 1074)%Z) by (apply Z.div_pos; [apply Z.lt_le_incl, units_pos; lia|apply pow_pos'; lia]).
  revert P. generalize (units m e / 2 ^ 1074)%Z. intros t P. cbn [negb andb]. destruct (Z.eqb_spec t 0) as [->|N]; [reflexivity|]. reflexivity.
Qed.
Lemma positive_cases : forall x, positive x -> x = S754_infinity false \/ exists v, holds x v.
Proof.
  intros [s|[]| |s m e] [V P]; cbn in V, P; try discriminate; auto.
  right. destruct s; [discriminate|]. exists (units m e). constructor. exact V.
Qed.
Definition over (x : float64) : Prop := x = S754_infinity false \/ exists v, holds x v.
Lemma add_over : forall x y, over x -> over y -> over (f_add x y) /\
  (forall v, holds (f_add x y) v -> exists a b, holds x a /\ holds y b /\ v = rnd (a + b)).
Proof.
  assert (NI : forall v, ~ holds (S754_infinity false) v) by (intros v H; inversion H).
  intros x y [->|[a Hx]] [->|[b Hy]].
  - split; [left; reflexivity|]. intros v H. apply NI in H as [].
  - assert (E : f_add (S754_infinity false) y = S754_infinity false) by (destruct Hy; reflexivity). rewrite E.
    split; [left; reflexivity|]. intros v H. apply NI in H as [].
  - assert (E : f_add x (S754_infinity false) = S754_infinity false) by (destruct Hx; reflexivity). rewrite E.
    split; [left; reflexivity|]. intros v H. apply NI in H as [].
  - destruct (add_holds x y a b Hx Hy) as [[E _]|H].
    + rewrite E. split; [left; reflexivity|]. intros v H. apply NI in H as [].
    + split; [right; eauto|]. intros v H'. exists a, b. split; [exact Hx|]. split; [exact Hy|].
      revert H H'. generalize (f_add x y). intros z H H'. destruct H; inversion H'; reflexivity.
Qed.
Lemma holds_fun : forall x v w, holds x v -> holds x w -> v = w.
Proof. intros x v w [s|m e B] H; inversion H; reflexivity. Qed.
Lemma rnd_nonneg_mono : forall v w, (0 <= v <= w)%Z -> (rnd v <= rnd w)%Z.
Proof.
  intros v w H. destruct (Z.eq_dec v 0) as [->|N]; [|apply rnd_mono; lia]. change (rnd 0) with 0%Z.
  destruct (Z.eq_dec w 0) as [->|N']; [reflexivity|]. pose proof (rnd_pos w). lia.
Qed.
Section Difficulty.
Variables (inc : float64) (Pi : positive inc).
Lemma index_over : forall n, (0 < Z.of_nat n < 2 ^ 64)%Z -> over (f_mul (f_of_Z (Z.of_nat n)) inc).
Proof.
  intros n H. destruct (positive_cases inc Pi) as [E|[v Hv]].
  - rewrite E. destruct (of_Z_normal _ H) as (m & e & -> & _). left. reflexivity.
  - apply (mul_holds _ inc v H Hv).
Qed.
Lemma sum_over : forall n, (Z.of_nat n < 2 ^ 64)%Z -> over (trx_sum inc n).
Proof.
  induction n as [|n IH]; intro H; cbn [trx_sum]; [right; exists 0%Z; constructor|].
  apply add_over; [apply IH; lia|apply index_over; lia].
Qed.
Lemma sum_mono : forall n n' v', n <= n' -> (Z.of_nat n' < 2 ^ 64)%Z -> holds (trx_sum inc n') v' ->
  exists v, holds (trx_sum inc n) v /\ (v <= v')%Z.
Proof.
  intros n n' v' L. revert v'. induction L as [|n' L IH]; intros v' H Hv'; [exists v'; split; [exact Hv'|lia]|].
  cbn [trx_sum] in Hv'. destruct (add_over (trx_sum inc n') (f_mul (f_of_Z (Z.of_nat (S n'))) inc)) as [_ Q]; [apply sum_over; lia|apply index_over; lia|].
  destruct (Q _ Hv') as (a & b & Ha & Hb & ->). destruct (IH a ltac:(lia) Ha) as (v & Hv & Lv). exists v. split; [exact Hv|].
  pose proof (holds_pos _ _ Ha). pose proof (holds_pos _ _ Hb). rewrite <- (rnd_fixed _ _ Ha) in Lv.
  etransitivity; [exact Lv|]. apply rnd_nonneg_mono. lia.
Qed.
Lemma total_mono : forall base n n' v', (base < 2 ^ 64)%N -> n <= n' -> (Z.of_nat n' < 2 ^ 64)%Z ->
  holds (f_add (trx_sum inc n') (f_of_Z (Z.of_N base))) v' ->
  exists v, holds (f_add (trx_sum inc n) (f_of_Z (Z.of_N base))) v /\ (rnd (Z.of_N base * 2 ^ 1074) <= v <= v')%Z.
Proof.
  intros base n n' v' Hb L H Hv'. pose proof (of_Z_holds (Z.of_N base) ltac:(lia)) as Bh.
  destruct (add_over (trx_sum inc n') (f_of_Z (Z.of_N base))) as [_ Q]; [apply sum_over; lia|right; eauto|].
  destruct (Q _ Hv') as (a' & b & Ha' & Hb' & ->). rewrite (holds_fun _ _ _ Hb' Bh) in *. clear Hb' Q b.
  destruct (sum_mono n n' a' L H Ha') as (a & Ha & La). pose proof (holds_pos _ _ Ha). pose proof (holds_pos _ _ Bh).
  destruct (add_holds _ _ _ _ Ha Bh) as [[_ Ov]|Hs].
  - exfalso. pose proof (holds_below _ _ Hv'). pose proof (rnd_nonneg_mono (a + rnd (Z.of_N base * 2 ^ 1074)) (a' + rnd (Z.of_N base * 2 ^ 1074)) ltac:(lia)). lia.
  - eexists. split; [exact Hs|]. split; [|apply rnd_nonneg_mono; lia]. rewrite <- (rnd_fixed _ _ Bh) at 1. apply rnd_nonneg_mono. lia.
Qed.
Lemma determined_spec : forall base n, (base < 2 ^ 64)%N -> (Z.of_nat n < 2 ^ 64)%Z -> determined base inc n ->
  exists v, holds (f_add (trx_sum inc n) (f_of_Z (Z.of_N base))) v /\ (v / 2 ^ 1074 < 2 ^ 64)%Z /\
    forall w, difficulty w base inc n = Z.to_N (v / 2 ^ 1074).
Proof.
  intros base n Hb H D. pose proof (of_Z_holds (Z.of_N base) ltac:(lia)) as Bh.
  destruct (add_over (trx_sum inc n) (f_of_Z (Z.of_N base)) (sum_over n H) (or_intror (ex_intro _ _ Bh))) as [[E|[v Hv]] _].
  - exfalso. specialize (D (fun _ => 0%N) (fun _ => 1%N)). unfold difficulty in D. rewrite E in D. discriminate.
  - exists v. split; [exact Hv|]. unfold determined, difficulty in *. rewrite (f_to_uint_holds _ _ Hv) in *.
    destruct (Z.ltb_spec (v / 2 ^ 1074) (2 ^ 64)) as [L|L]; [split; [exact L|reflexivity]|].
    exfalso. specialize (D (fun _ => 0%N) (fun _ => 1%N)). discriminate.
Qed.
Lemma difficulty_grows : forall base n n' w, (base < 2 ^ 64)%N -> n <= n' -> (Z.of_nat n' < 2 ^ 64)%Z -> determined base inc n' ->
  determined base inc n /\ (difficulty w base inc n <= difficulty w base inc n')%N.
Proof.
  intros base n n' w Hb L H D. destruct (determined_spec base n' Hb H D) as (v' & Hv' & R' & E').
  destruct (total_mono base n n' v' Hb L H Hv') as (v & Hv & [_ Lv]).
  assert (M : (v / 2 ^ 1074 <= v' / 2 ^ 1074)%Z) by (apply Z.div_le_mono; [apply pow_pos'; lia|exact Lv]).
  assert (E : forall w, difficulty w base inc n = Z.to_N (v / 2 ^ 1074)).
  { intro w'. unfold difficulty. rewrite (f_to_uint_holds _ _ Hv). destruct (Z.ltb_spec (v / 2 ^ 1074) (2 ^ 64)); [reflexivity|lia]. }
  split; [intros w1 w2; rewrite !E; reflexivity|]. rewrite E, E'. lia.
Qed.
Lemma difficulty_base : forall base n w, (base <= 2 ^ 53)%N -> (Z.of_nat n < 2 ^ 64)%Z -> determined base inc n ->
  (base <= difficulty w base inc n)%N.
Proof.
  intros base n w Hb H D. destruct (determined_spec base n ltac:(lia) H D) as (v & Hv & R & E). rewrite E.
  destruct (total_mono base n n v ltac:(lia) (le_n n) H Hv) as (v2 & Hv2 & [Lb Lv]). rewrite of_Z_exact in Lb by lia.
  assert (M : (Z.of_N base * 2 ^ 1074 / 2 ^ 1074 <= v / 2 ^ 1074)%Z) by (apply Z.div_le_mono; [apply pow_pos'; lia|lia]).
  rewrite Z.div_mul in M by (apply Z.pow_nonzero; lia). lia.
Qed.
Lemma difficulty_none : forall base w, (base <= 2 ^ 53)%N -> difficulty w base inc 0 = base.
Proof.
  intros base w Hb. unfold difficulty. cbn [trx_sum].
  assert (Bh := of_Z_holds (Z.of_N base) ltac:(lia)). rewrite of_Z_exact in Bh by lia.
  destruct (add_holds (S754_zero false) _ _ _ (holds_zero false) Bh) as [[_ Ov]|Hs].
  - exfalso. pose proof (holds_below _ _ Bh). rewrite Z.add_0_l, (rnd_fixed _ _ Bh) in Ov. lia.
  - rewrite Z.add_0_l, (rnd_fixed _ _ Bh) in Hs. rewrite (f_to_uint_holds _ _ Hs), Z.div_mul by (apply Z.pow_nonzero; lia).
    destruct (Z.ltb_spec (Z.of_N base) (2 ^ 64)); [lia|]. exfalso. lia.
Qed.
End Difficulty.
