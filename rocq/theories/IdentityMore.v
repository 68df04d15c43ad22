(** Whatever the identity stores return is Unicode. *)
From Coq Require Import Lia ZifyBool ZifyNat ZifyN.
From Verif Require Import Base BaseFacts HashModel EntitiesModel SignModel JsonModel JsonProofs UnicodeProofs TimeModel MemJsonModel CodecProofs MemSpec MemJsonProofs JsonMore
  IdentityModel IdentitySpec IdentityProofs.

Lemma entry_unicode : forall h d t, part_retrieve d_tentry h d = Ok t -> unicode (te_name t) /\ unicode (te_description t).
Proof.
  intros h d t H. unfold part_retrieve in H. apply rbind_Ok in H as (js & _ & H). unfold unmarshal in H.
  destruct (jparse js) as [j|] eqn:J; [|discriminate H]. apply jparse_worded in J. unfold d_tentry in H.
  apply rbind_Ok in H as (m & D & H). pose proof (dstruct_worded _ _ J D) as F.
  apply rbind_Ok in H as (x1 & _ & H). apply rbind_Ok in H as (x2 & E2 & H). apply rbind_Ok in H as (x3 & _ & H).
  apply rbind_Ok in H as (x4 & E4 & H). apply rbind_Ok in H as (x5 & _ & H). unfold tentry_now in H.
  destruct (negb (bseq x2 [])); [|discriminate H]. destruct (0 <? length x3)%nat; [|discriminate H]. injection H as <-.
  cbn [te_name te_description]. split; eapply field_worded; eassumption.
Qed.
Lemma identity_unicode : forall now h seed d t, tidentity_retrieve now h seed d = Ok t ->
  unicode (td_seed t) /\ unicode (td_name t) /\ unicode (td_root t).
Proof.
  intros now h seed d t H. unfold tidentity_retrieve in H. apply rbind_Ok in H as (js & _ & H). unfold unmarshal in H.
  destruct (jparse js) as [j|] eqn:J; [|discriminate H]. apply jparse_worded in J. unfold d_tidentity in H.
  apply rbind_Ok in H as (m & D & H). pose proof (dstruct_worded _ _ J D) as F.
  apply rbind_Ok in H as (x1 & _ & H). apply rbind_Ok in H as (x2 & E2 & H). apply rbind_Ok in H as (x3 & E3 & H).
  apply rbind_Ok in H as (x4 & E4 & H). apply rbind_Ok in H as (x5 & _ & H). apply rbind_Ok in H as (x6 & _ & H).
  apply rbind_Ok in H as (x7 & _ & H). unfold tidentity_now in H.
  destruct (negb (bseq x2 [])); [|discriminate H]. destruct (negb (bseq x3 [])); [|discriminate H]. destruct (negb (bseq x4 [])); [|discriminate H].
  apply rbind_Ok in H as (mu & _ & H). injection H as <-. cbn [td_seed td_name td_root].
  repeat match goal with |- _ /\ _ => split end; eapply field_worded; eassumption.
Qed.
Ltac members' :=
  apply jstruct_yes; repeat (constructor; [cbn [snd]|]); try apply Forall_nil;
  try first [apply jstr_yes | apply jhash_yes | apply jhashes_yes | (apply jtime_yes; assumption)].
(** objects with other texts are saved, and never returned by any history *)
Lemma entry_lost : forall t d, ~ unicode (te_name t) -> dated (im_created (te_im t)) ->
  yes (part_save e_tentry (fun t => im_hash (te_im t)) t d) /\ forall h d', part_retrieve d_tentry h d' <> Ok t.
Proof.
  intros t d U D. split.
  - assert (Y : yes (marshal e_tentry t)) by (apply marshal_yes; members'). destruct Y as [js Y]. eexists. unfold part_save. rewrite Y. reflexivity.
  - intros h d' E. apply U. exact (proj1 (entry_unicode h d' t E)).
Qed.
Lemma identity_lost : forall t d, ~ (unicode (td_seed t) /\ unicode (td_name t) /\ unicode (td_root t)) -> dated (mu_created (td_mu t)) ->
  yes (tidentity_save t d) /\ forall now h seed d', tidentity_retrieve now h seed d' <> Ok t.
Proof.
  intros t d U D. split.
  - assert (Y : yes (marshal e_tidentity t)) by (apply marshal_yes; members'). destruct Y as [js Y]. eexists. unfold tidentity_save. rewrite Y. reflexivity.
  - intros now h seed d' E. apply U. exact (identity_unicode now h seed d' t E).
Qed.
