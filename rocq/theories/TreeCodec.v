(** Any tree document, nested or not, comes back from its text (for C107). *)
From Coq Require Import Lia ZifyBool ZifyNat ZifyN.
From Verif Require Import Base BaseFacts Sha512 HashModel HashSpec HashProofs HashTreeModel HashTreeProofs EntitiesModel FloatModel JsonModel JsonProofs TimeModel
  MemJsonModel CodecProofs MemJsonProofs TransferModel TransferProofs.

Scheme jleaf_ind2 := Induction for jleaf Sort Prop with jnode_ind2 := Induction for jnode Sort Prop.
Combined Scheme jtree_ind from jleaf_ind2, jnode_ind2.

(** every text in it is Unicode *)
Fixpoint unicode_leaf (x : jleaf) : Prop := match x with JNil => True | JLeaf h n => unicode h /\ unicode_node n end
with unicode_node (x : jnode) : Prop := match x with NNil => True | NNode l r => unicode_leaf l /\ unicode_leaf r end.

Definition d_jnode (fuel : nat) : list json -> res (option jnode) := dptr (fun js =>
  let! m := dstruct js in
  let! l := field "left" (d_jleaf fuel) m in
  let! r := field "right" (d_jleaf fuel) m in
  Ok (NNode l r)).
Definition as_node (x : jnode) : option jnode := match x with NNil => None | n => Some n end.

Lemma leaf_back :
  (forall x j, unicode_leaf x -> e_jleaf x = Ok j -> plain j /\ forall f, jdepth j < f -> d_jleaf f [j] = Ok x) /\
  (forall x j, unicode_node x -> e_jnode x = Ok j -> plain j /\ forall f, jdepth j < S f -> d_jnode f [j] = Ok (as_node x)).
Proof.
  apply jtree_ind.
  - intros j _ E. injection E as <-. split; [constructor|]. intros [|f] H; [lia|]. reflexivity.
  - intros hd n IH j [U1 U2] E. cbn [e_jleaf] in E. apply jstruct_Ok in E as (m & -> & E). jmembers.
    match goal with H : jstr hd = Ok ?a |- _ => destruct (fc_str hd a U1 H) as [S1 S2]; clear H end.
    match goal with H : e_jnode n = Ok ?a |- _ => destruct (IH a U2 H) as [N1 N2]; clear H end.
    split; [plain_members|]. intros [|f] H; [lia|]. cbn [d_jleaf]. unfold dptr at 1. cbn [dpoints app]. tdecode.
    cbn [jdepth map fold_right snd] in H. specialize (N2 f ltac:(lia)). unfold d_jnode, field in N2. rewrite N2. cbn [rbind]. destruct n; reflexivity.
  - intros j _ E. injection E as <-. split; [constructor|]. intros f H. reflexivity.
  - intros l IHl r IHr j [U1 U2] E. cbn [e_jnode] in E. apply jstruct_Ok in E as (m & -> & E). jmembers.
    match goal with H : e_jleaf l = Ok ?a, K : e_jleaf r = Ok ?b |- _ => destruct (IHl a U1 H) as [L1 L2]; destruct (IHr b U2 K) as [R1 R2]; clear H K end.
    split; [plain_members|]. intros f H. unfold d_jnode, dptr. cbn [dpoints app]. tdecode. cbn [jdepth map fold_right snd] in H.
    rewrite L2 by lia. cbn [rbind]. rewrite R2 by lia. reflexivity.
Qed.
Lemma leaf_codec : fcodec unicode_leaf e_jleaf (fun js => d_jleaf (S (jdepths js)) js).
Proof.
  intros x j U E. destruct (proj1 leaf_back x j U E) as [P H]. split; [|exact P]. apply H. unfold jdepths. cbn [map fold_right]. lia.
Qed.
Lemma leaf_yes : (forall x, yes (e_jleaf x)) /\ (forall x, yes (e_jnode x)).
Proof.
  apply jtree_ind; [eexists; reflexivity| |eexists; reflexivity|]; intros; cbn [e_jleaf e_jnode]; apply jstruct_yes; repeat constructor; cbn [snd]; try assumption.
  apply jstr_yes.
Qed.
Definition unicode_compact (x : jcompact) : Prop := unicode (jc_head x) /\ Forall unicode_leaf (jc_leaves x).
Lemma compact_codec : codec unicode_compact e_jcompact d_jcompact.
Proof.
  intros [hd ls] j [U1 U2] E. cbn [jc_head jc_leaves] in *. unfold e_jcompact in E. pose proof fc_str.
  pose proof (codec_fcodec _ _ _ _ (list_codec _ _ _ _ leaf_codec)) as KL.
  apply jstruct_Ok in E as (m & -> & E). jmembers. cbn [jc_head jc_leaves] in *. facts. split; [|split; [plain_members|discriminate]].
  unfold d_jcompact. tdecode. reflexivity.
Qed.
Lemma compact_kept : forall x, unicode_compact x -> exists s, marshal e_jcompact x = Ok s /\ unmarshal d_jcompact s = Ok x.
Proof.
  intros x U. assert (Y : yes (marshal e_jcompact x)).
  { apply marshal_yes. unfold e_jcompact. apply jstruct_yes. repeat constructor; cbn [snd]; [apply jstr_yes|].
    apply jlist_yes. intros l _. apply leaf_yes. }
  destruct Y as [s E]. exists s. split; [exact E|]. exact (unmarshal_marshal _ _ _ _ x s compact_codec U E).
Qed.
