(** Consequences of the store invariant in the form the properties state them, and the
    paths of states. *)
From Coq Require Import Lia ZifyBool ZifyNat ZifyN.
From Verif Require Import Base BaseFacts HashModel HashSpec HashProofs SignModel ToyCurve EntitiesModel FloatModel PiastresModel PiastresSpec
  PiastresProofs JsonModel JsonProofs TimeModel FloatText MemJsonModel MemSpec MemJsonProofs JsonFixtures TransferModel FileModel FileSpec
  FileProofs StoreModel StoreSpec StoreProofs StoreInvariant StoreHistory StoreTheorems StoreRefuted StoreFixtures.

Section WithCurve.
Context {C : Curve}.
Lemma unless_ok : forall A (r : disk -> res A) a s x, r (fs_disk s) = Ok x -> unless r a s = (Ok tt, s).
Proof. intros A r a s x H. unfold unless. rewrite H. reflexivity. Qed.
Lemma save_again : forall (o o' : obj C) s, kind_of o <> KGenesis -> retrieve_obj (kind_of o) (hash_of o) (fs_disk s) = Ok o' ->
  save_obj o s = (Ok tt, s).
Proof.
  intros o o' s NG H.
  destruct o; cbn [kind_of hash_of retrieve_obj save_obj] in *; try (destruct NG; reflexivity);
    match type of H with rmap _ ?x = _ => destruct x as [y| |] eqn:E; try discriminate end;
    eapply unless_ok; exact E.
Qed.
Lemma save_twice : forall m (U : obj C -> Prop) d o fl fl', universe m U -> reach m U d -> U o -> covers m (kind_of o) ->
  kind_of o <> KGenesis -> ready d o -> fst (save_obj o (Fs d fl)) = Ok tt ->
  let d' := fs_disk (snd (save_obj o (Fs d fl))) in save_obj o (Fs d' fl') = (Ok tt, Fs d' fl').
Proof.
  intros m U d o fl fl' HU R Uo K NG Rd O d'. destruct (save_later m U d o fl HU R Uo K NG Rd) as (_ & _ & P).
  destruct (P O d' (steps_none _ _ _)) as (o' & E & _). exact (save_again o o' (Fs d' fl') NG E).
Qed.
Lemma runs_app : forall (U : obj C -> Prop) d1 d2 d3, runs U d1 d2 -> runs U d2 d3 -> runs U d1 d3.
Proof. intros U d1 d2 d3 H1 H2. induction H2 as [|d x fl S IH Uo]; [exact H1|]. apply runs_op; assumption. Qed.
Lemma runs_stable : forall (U : obj C -> Prop) d d' k h o, universe Base U -> runs U empty d -> runs U d d' -> covers Base k ->
  retrieve_obj k h d = Ok o -> retrieve_obj k h d' = Ok o.
Proof.
  intros U d d' k h o HU R S K E. destruct (runs_inv Base U HU empty d eq_refl (inv_empty Base U) R) as [I _].
  destruct (runs_inv Base U HU d d' eq_refl I S) as [_ X]. exact (retrieve_ext Base d d' X k h o K E).
Qed.
Lemma base_any_operations : forall (U : obj C -> Prop) d o fl, universe Base U -> runs U empty d -> U o ->
  kind_of o = KLock \/ kind_of o = KBill ->
  fst (save_obj o (Fs d fl)) <> Panic /\ (fl = [] -> fst (save_obj o (Fs d fl)) = Ok tt) /\
  (fst (save_obj o (Fs d fl)) = Ok tt -> forall d', runs U (fs_disk (snd (save_obj o (Fs d fl)))) d' ->
   exists o', retrieve_obj (kind_of o) (hash_of o) d' = Ok o' /\ same o' o).
Proof.
  intros U d o fl HU R Uo K. destruct (runs_inv Base U HU empty d eq_refl (inv_empty Base U) R) as [I _].
  assert (Kc : covers Base (kind_of o)) by (destruct K as [-> | ->]; exact Logic.I).
  destruct (save_ok Base U HU d o fl I Uo Kc) as (NP & Po & F).
  { destruct K as [-> | ->]; discriminate. }
  { intros g Hg. destruct o; try discriminate Hg; destruct K as [K|K]; discriminate K. }
  split; [exact NP|]. split; [exact F|]. intros O d' S. destruct (Po O) as (o' & E & Sm). exists o'. split; [|exact Sm].
  eapply (runs_stable U); [exact HU| |exact S|exact Kc|exact E].
  apply (runs_op U empty d (OpSave o) fl R). intros p [<-|[]]. exact Uo.
Qed.
Lemma low_saved : forall (U : obj C -> Prop) d o fl, universe Low U -> reach Low U d -> U o ->
  kind_of o = KLock \/ kind_of o = KBill \/ kind_of o = KExpense ->
  fst (save_obj o (Fs d fl)) <> Panic /\ (fl = [] -> fst (save_obj o (Fs d fl)) = Ok tt) /\
  (fst (save_obj o (Fs d fl)) = Ok tt -> forall d', steps Low U (fs_disk (snd (save_obj o (Fs d fl)))) d' ->
   exists o', retrieve_obj (kind_of o) (hash_of o) d' = Ok o' /\ same o' o).
Proof.
  intros U d o fl HU R Uo K. apply save_later; auto.
  - destruct K as [-> | [-> | ->]]; exact I.
  - destruct K as [-> | [-> | ->]]; discriminate.
  - intros g Hg. destruct o; try discriminate Hg; destruct K as [K|[K|K]]; discriminate K.
Qed.
Ltac later H := let NP := fresh in let F := fresh in let P := fresh in
  destruct H as (NP & F & P); split; [exact NP|]; split; [exact F|];
  let O := fresh in let d' := fresh in let S := fresh in intros O d' S; let o' := fresh in let E := fresh in let Sm := fresh in
  destruct (P O d' S) as (o' & E & Sm); cbn [kind_of hash_of retrieve_obj] in E;
  let y := fresh in
  match type of E with rmap _ ?x = _ => destruct x as [y| |]; try discriminate E end; injection E as <-; exists y; split; [reflexivity|exact Sm].
Lemma trx_saved : forall (U : obj C -> Prop) d t fl, universe Low U -> reach Low U d -> U (OTrx t) ->
  fst (trx_save t (Fs d fl)) <> Panic /\ (fl = [] -> fst (trx_save t (Fs d fl)) = Ok tt) /\
  (fst (trx_save t (Fs d fl)) = Ok tt -> forall d', steps Low U (fs_disk (snd (trx_save t (Fs d fl)))) d' ->
   exists t', trx_retrieve (tx_hash t) d' = Ok t' /\ trx_eq t' t).
Proof.
  intros U d t fl HU R Uo.
  assert (H := save_later Low U d (OTrx t) fl HU R Uo Logic.I ltac:(discriminate) ltac:(intros g Hg; discriminate Hg)). later H.
Qed.
Lemma block_saved : forall (U : obj C -> Prop) d b fl, universe All U -> reach All U d -> U (OBlock b) -> ready d (OBlock b) ->
  fst (block_save b (Fs d fl)) <> Panic /\ (fl = [] -> fst (block_save b (Fs d fl)) = Ok tt) /\
  (fst (block_save b (Fs d fl)) = Ok tt -> forall d', steps All U (fs_disk (snd (block_save b (Fs d fl)))) d' ->
   exists b', block_retrieve (bk_hash b) d' = Ok b' /\ block_eq b' b).
Proof.
  intros U d b fl HU R Uo Rd. assert (H := save_later All U d (OBlock b) fl HU R Uo Logic.I ltac:(discriminate) Rd). later H.
Qed.
Lemma mblock_saved : forall (U : obj C -> Prop) d b fl, universe All U -> reach All U d -> U (OMBlock b) -> ready d (OMBlock b) ->
  fst (mblock_save b (Fs d fl)) <> Panic /\ (fl = [] -> fst (mblock_save b (Fs d fl)) = Ok tt) /\
  (fst (mblock_save b (Fs d fl)) = Ok tt -> forall d', steps All U (fs_disk (snd (mblock_save b (Fs d fl)))) d' ->
   exists b', mblock_retrieve (mb_hash b) d' = Ok b' /\ mblock_eq b' b).
Proof.
  intros U d b fl HU R Uo Rd. assert (H := save_later All U d (OMBlock b) fl HU R Uo Logic.I ltac:(discriminate) Rd). later H.
Qed.
Lemma link_saved : forall (U : obj C -> Prop) d b fl, universe All U -> reach All U d -> U (OLink b) -> ready d (OLink b) ->
  fst (link_save b (Fs d fl)) <> Panic /\ (fl = [] -> fst (link_save b (Fs d fl)) = Ok tt) /\
  (fst (link_save b (Fs d fl)) = Ok tt -> forall d', steps All U (fs_disk (snd (link_save b (Fs d fl)))) d' ->
   exists b', link_retrieve (ln_hash b) d' = Ok b' /\ link_eq b' b).
Proof.
  intros U d b fl HU R Uo Rd. assert (H := save_later All U d (OLink b) fl HU R Uo Logic.I ltac:(discriminate) Rd). later H.
Qed.
Lemma mlink_saved : forall (U : obj C -> Prop) d b fl, universe All U -> reach All U d -> U (OMLink b) -> ready d (OMLink b) ->
  fst (mlink_save b (Fs d fl)) <> Panic /\ (fl = [] -> fst (mlink_save b (Fs d fl)) = Ok tt) /\
  (fst (mlink_save b (Fs d fl)) = Ok tt -> forall d', steps All U (fs_disk (snd (mlink_save b (Fs d fl)))) d' ->
   exists b', mlink_retrieve (ml_hash b) d' = Ok b' /\ mlink_eq b' b).
Proof.
  intros U d b fl HU R Uo Rd. assert (H := save_later All U d (OMLink b) fl HU R Uo Logic.I ltac:(discriminate) Rd). later H.
Qed.

(** ** Genesis *)
Lemma genesis_saved : forall (U : obj C -> Prop) d g, universe Base U -> runs U empty d -> U (OGenesis g) ->
  (genesis_retrieve d = Err /\ outcome (OGenesis g) d = Ok tt /\
     exists g', genesis_retrieve (saved (OGenesis g) d) = Ok g' /\ genesis_eq g' g) \/
  (exists g', genesis_retrieve d = Ok g').
Proof.
  intros U d g HU R. apply (genesis_save_works Base U HU).
  exact (proj1 (runs_inv Base U HU empty d eq_refl (inv_empty Base U) R)).
Qed.
Lemma genesis_stable : forall (U : obj C -> Prop) d d' g, universe Base U -> runs U empty d -> genesis_retrieve d = Ok g ->
  runs U d d' -> genesis_retrieve d' = Ok g.
Proof.
  intros U d d' g HU R E S. destruct (runs_inv Base U HU empty d eq_refl (inv_empty Base U) R) as [I _].
  destruct (runs_inv Base U HU d d' eq_refl I S) as [_ X]. exact (genesis_ext Base d d' X g E).
Qed.
Lemma genesis_second : forall d g g' fl, genesis_retrieve d = Ok g -> genesis_save g' (Fs d fl) = (Err, Fs d fl).
Proof. intros d g g' fl E. unfold genesis_save. cbn [fs_disk]. rewrite E. reflexivity. Qed.
Lemma universe_base : forall m (U : obj C -> Prop), universe m U -> universe Base U.
Proof.
  intros m U HU. assert (K : forall k, covers Base k -> covers m k) by (intros [] H; destruct m; try contradiction; exact I).
  constructor.
  - apply (u_parts m U HU).
  - intros o Uo H. apply (u_proper m U HU o Uo). apply K. exact H.
  - intros o p Uo Up H. apply (u_determined m U HU o p Uo Up). apply K. exact H.
Qed.
End WithCurve.

(** ** The paths of states *)
(** heights whose path is their own: a valid rune, not a dot, not a slash *)
Definition plain_height (n : N) : Prop := (n <= 1114111 /\ ~ (55296 <= n <= 57343) /\ n <> 46 /\ n <> 47)%N.
Lemma state_paths_collide : forall chain n n',
  ((1114111 < n)%N \/ (55296 <= n <= 57343)%N) -> ((1114111 < n')%N \/ (55296 <= n' <= 57343)%N) ->
  state_file chain n = state_file chain n'.
Proof.
  assert (H : forall n, ((1114111 < n)%N \/ (55296 <= n <= 57343)%N) -> rune_text n = utf8 65533).
  { intros n [H|H]; [apply high_rune|apply surrogate_rune]; exact H. }
  intros chain n n' A B. unfold state_file, state_path. rewrite (H n A), (H n' B). reflexivity.
Qed.
Lemma rune_cases : forall n, plain_height n ->
  (n < 128 /\ rune_text n = [n2b n])%N \/
  (128 <= n < 2048 /\ rune_text n = [n2b (192 + n / 64); n2b (128 + n mod 64)])%N \/
  (2048 <= n < 65536 /\ rune_text n = [n2b (224 + n / 4096); n2b (128 + (n / 64) mod 64); n2b (128 + n mod 64)])%N \/
  (65536 <= n <= 1114111 /\
   rune_text n = [n2b (240 + n / 262144); n2b (128 + (n / 4096) mod 64); n2b (128 + (n / 64) mod 64); n2b (128 + n mod 64)])%N.
Proof.
  intros n (H1 & H2 & _). unfold rune_text. destruct (N.ltb_spec n 65536).
  - unfold utf8. assert (E : ((0xD800 <=? n) && (n <=? 0xDFFF))%N = false) by lia. rewrite E.
    destruct (N.ltb_spec n 0x80); [left; auto|right]. destruct (N.ltb_spec n 0x800); [left; auto|right]. left. auto.
  - right. right. right. destruct (N.leb_spec n 1114111); [auto|lia].
Qed.
Lemma cons_inj : forall A (a b : A) l l', a :: l = b :: l' -> a = b /\ l = l'.
Proof. intros A a b l l' H. injection H as -> ->. auto. Qed.
Lemma rune_inj : forall n n', plain_height n -> plain_height n' -> rune_text n = rune_text n' -> n = n'.
Proof.
  intros n n' P P' E.
  destruct (rune_cases n P) as [(L & R)|[(L & R)|[(L & R)|(L & R)]]], (rune_cases n' P') as [(L' & R')|[(L' & R')|[(L' & R')|(L' & R')]]];
    rewrite R, R' in E; clear R R'; try discriminate E; repeat (let E1 := fresh in apply cons_inj in E as [E1 E]);
    repeat match goal with H : n2b _ = n2b _ |- _ => apply n2b_inj in H; [|clear - L L'; lia|clear - L L'; lia] end; clear P P'; lia.
Qed.
Lemma rune_flat : forall n, plain_height n -> flat_name (rune_text n).
Proof.
  intros n P. assert (H : forall x, (x < 256)%N -> x <> 47%N -> n2b x <> x2f).
  { intros x L D E. apply (f_equal b2n) in E. rewrite b2n_n2b, N.mod_small in E by exact L. apply D. exact E. }
  assert (H' : forall x, (x < 256)%N -> x <> 46%N -> n2b x <> x2e).
  { intros x L D E. apply (f_equal b2n) in E. rewrite b2n_n2b, N.mod_small in E by exact L. apply D. exact E. }
  pose proof P as (_ & _ & D46 & D47).
  destruct (rune_cases n P) as [(L & ->)|[(L & ->)|[(L & ->)|(L & ->)]]]; (split; [discriminate|split; [|split]]).
  - intros [E|[]]. apply H in E; auto; lia.
  - intro E. apply cons_inj in E as [E _]. apply H' in E; auto; lia.
  - discriminate.
  - intros [E|[E|[]]]; apply H in E; auto; lia.
  - discriminate.
  - intro E. apply cons_inj in E as [E _]. apply H' in E; auto; lia.
  - intros [E|[E|[E|[]]]]; apply H in E; auto; lia.
  - discriminate.
  - discriminate.
  - intros [E|[E|[E|[E|[]]]]]; apply H in E; auto; lia.
  - discriminate.
  - discriminate.
Qed.
Lemma clean_two : forall a b, flat_name a -> flat_name b -> clean [[]; a; b] = [a; b].
Proof.
  assert (H : forall acc n, flat_name n -> clean_step acc n = acc ++ [n]).
  { intros acc n (H1 & H2 & H3 & H4). unfold clean_step. destruct n as [|x n]; [contradiction|].
    destruct (bseq _ _) eqn:E; [apply bseq_eq in E; contradiction|]. destruct (bseq (x :: n) [x2e; x2e]) eqn:E'; [apply bseq_eq in E'; contradiction|].
    reflexivity. }
  intros a b Ha Hb. unfold clean. cbn [fold_left]. rewrite (H _ b Hb), (H _ a Ha). reflexivity.
Qed.
Lemma state_path_plain : forall c n, hash64 c -> plain_height n -> state_path c n = [hash_string c; rune_text n].
Proof.
  intros c n Hc P. pose proof (hash_string_flat c Hc) as F. pose proof (rune_flat n P) as G.
  unfold state_path, fpath. cbn [app]. rewrite split_app by apply F. rewrite (split_none x2f (rune_text n)) by apply G. apply clean_two; assumption.
Qed.
Lemma state_file_inj : forall c c' n n', hash64 c -> hash64 c' -> plain_height n -> plain_height n' ->
  state_file c n = state_file c' n' -> c = c' /\ n = n'.
Proof.
  intros c c' n n' Hc Hc' P P' E. unfold state_file in E. rewrite !state_path_plain in E by assumption.
  cbn [map concat app] in E. injection E as E. rewrite !app_nil_r in E.
  apply app_inj_len in E as [E1 E2]; [|rewrite !hash_string_length by assumption; reflexivity].
  split; [apply hash_string_inj; exact E1|]. injection E2 as E2. apply rune_inj; assumption.
Qed.
Lemma state_dot_slash : forall chain, hash64 chain -> state_file chain 46 = state_file chain 47.
Proof.
  intros c Hc. pose proof (hash_string_flat c Hc) as F. unfold state_file, state_path, fpath. cbn [app].
  rewrite !split_app by apply F. reflexivity.
Qed.

(** ** The example history *)
Lemma plain_case : forall l mb, plain_mlink = Ok l -> plain_mblock = Ok mb -> let U := fun o => In o (subobjects l mb) in
  universe All U /\ U (OMLink l) /\ U (OMBlock mb) /\ exists d, reach All U d /\ ready d (OMLink l) /\ ready d (OMBlock mb).
Proof.
  intros l mb El Emb U. pose proof (plain_universe l mb El Emb) as HU. fold U in HU. set (g := bk_genesis (ln_next (ml_link l))).
  assert (Ug : U (OGenesis g)) by (cbn; tauto).
  assert (Eg : bk_genesis (mb_block mb) = g).
  { unfold g. apply rget_Ok in El as (lk & El & Em). apply rget_Ok in El as (b & Eb & El). apply rget_Ok in Emb as (b' & Eb' & Emb).
    assert (b' = b) by congruence. subst b'. apply link_now_iff in El as (p & n & _ & E2 & ->). injection E2 as <-.
    apply mined_link_now_iff in Em as (x & E1 & ->). injection E1 as <-. apply mined_block_now_iff in Emb as (y & E1 & ->). injection E1 as <-.
    reflexivity. }
  split; [exact HU|]. split; [unfold U, subobjects; rewrite !in_app_iff; cbn; tauto|].
  split; [unfold U, subobjects; rewrite !in_app_iff; cbn; tauto|].
  exists (@saved toy (OGenesis g) empty). split.
  { unfold saved. apply steps_save; [apply steps_none|exact Ug|]. intros _ g0 H. discriminate. }
  destruct (genesis_save_works All U HU empty g (inv_empty All U) Ug) as [(_ & _ & g' & E & Sm)|(g' & E)]; [|discriminate E].
  split; intros g0 H; cbn [genesis_of] in H; injection H as <-; exists g'; (split; [exact E|]).
  - apply Sm.
  - rewrite Eg. apply Sm.
Qed.
