From Coq Require Import Lia ZifyBool ZifyNat ZifyN.
From Verif Require Import Base BaseFacts HashModel SignModel EntitiesModel JsonModel TimeModel MemJsonModel MemJsonProofs TransferModel MemberSpec MemberProofs
  GrammarSpec CalendarSpec DocumentSpec DocumentProofs StoredSpec StoredProofs StoredCrash IdentityModel CancelModel OwnSpec.

Lemma keys_decodes : forall C : Curve, decodes (@dpks C) keys_of.
Proof. intro C. exact (bind_decodes _ _ _ _ _ _ (list_decodes _ _ _ str_decodes) (Forall2_same _ _ _ _ (fun a b => iff_refl _))). Qed.
Ltac own_projections := cbn [te_im te_name te_trx te_description ts_im ts_incoming ts_outgoing tw_im tw_bill tw_pks td_mu td_seed td_name td_root td_wallets td_buckets
  tn_im tn_expense tn_lock tn_sigs im_hash im_created mu_hash mu_created mu_updated] in *.
Ltac own_forward d H := unfold d in H; unfold says_entity;
  let m := fresh "m" in let Em := fresh "Em" in apply rbind_Ok in H as (m & Em & H); exists m; split; [apply dstruct_iff; exact Em|];
  repeat (let a := fresh "a" in let Ea := fresh "Ea" in apply rbind_Ok in H as (a & Ea & H)).
Ltac own_backward d m := unfold d; unfold says_entity in *;
  match goal with Em : members_of _ m |- _ => apply dstruct_iff in Em; rewrite Em; cbn [rbind]; clear Em end;
  repeat match goal with K : _ /\ _ |- _ => destruct K end;
  repeat match goal with |- rbind (field ?n ?d m) _ = _ =>
     match goal with K : member ?R n m ?a |- _ =>
       let E := fresh "E" in assert (E : field n d m = Ok a) by (revert K; apply field_iff; [stored_known|vm_compute; reflexivity]);
       rewrite E; cbn [rbind]; clear E end end.
Lemma bseq_no : forall a : bytes, a <> [] -> bseq a [] = false.
Proof. intros [|x a] H; [destruct H; reflexivity|reflexivity]. Qed.
Lemma bseq_no' : forall a : bytes, negb (bseq a []) = true -> a <> [].
Proof. intros [|x a] H; [discriminate H|discriminate]. Qed.
Lemma guard_Ok : forall A (b : bool) (r : res A) x, (if b then r else Err) = Ok x -> b = true /\ r = Ok x.
Proof. intros A [|] r x H; [auto|discriminate H]. Qed.
Ltac conjuncts := repeat match goal with |- (_ /\ _) => split end.

Lemma tentry_decodes : decodes d_tentry says_tentry.
Proof.
  intros js x. unfold says_tentry. split.
  - intro H. own_forward d_tentry H. unfold tentry_now in H. apply guard_Ok in H as [N H]. apply guard_Ok in H as [L H]. injection H as <-. own_projections.
    conjuncts; first [to_member|apply bseq_no'; exact N|intros ->; discriminate L].
  - intros (m & Em & H). destruct x as [[h c] n t d]. own_projections. own_backward d_tentry m. unfold tentry_now.
    rewrite bseq_no by assumption. destruct t; [congruence|]. reflexivity.
Qed.
Lemma tstatement_decodes : decodes d_tstatement says_tstatement.
Proof.
  intros js x. unfold says_tstatement. split.
  - intro H. own_forward d_tstatement H. unfold tstatement_now in H. injection H as <-. own_projections. conjuncts; to_member.
  - intros (m & Em & H). destruct x as [[h c] n t]. own_projections. own_backward d_tstatement m. reflexivity.
Qed.
Lemma twbill_decodes : forall C : Curve, decodes (@d_twbill C) says_twbill.
Proof.
  intros C js x. unfold says_twbill. pose proof (keys_decodes C) as KD. split.
  - intro H. own_forward (@d_twbill) H. unfold twbill_now in H. apply guard_Ok in H as [L H]. injection H as <-. own_projections.
    conjuncts; first [to_member|intros ->; discriminate L].
  - intros (m & Em & H). destruct x as [[h c] b p]. own_projections. own_backward (@d_twbill) m. unfold twbill_now. destruct p; [congruence|]. reflexivity.
Qed.
Lemma twallet_never : forall js, d_twallet js = Err.
Proof.
  intro js. assert (H : d_twallet js <> Panic).
  { unfold d_twallet. no_panic. apply rbind_no_panic; [|discriminate]. unfold twallet_now. destruct (negb _); discriminate. }
  destruct (d_twallet js) as [x| |] eqn:E; [|reflexivity|congruence]. unfold d_twallet in E.
  repeat (let a := fresh "a" in let Ea := fresh "Ea" in apply rbind_Ok in E as (a & Ea & E)). unfold twallet_now in Ea6. destruct (negb _); discriminate Ea6.
Qed.
Lemma tidentity_decodes : forall now, decodes (d_tidentity now) (says_tidentity now).
Proof.
  intros now js x. unfold says_tidentity. split.
  - intro H. own_forward d_tidentity H. unfold tidentity_now in H. apply guard_Ok in H as [N1 H]. apply guard_Ok in H as [N2 H]. apply guard_Ok in H as [N3 H].
    apply rbind_Ok in H as (mu & Em' & H). injection H as <-. unfold mutable_now in Em'. destruct (_ >? _)%Z eqn:L; [discriminate Em'|]. injection Em' as <-.
    own_projections. conjuncts; first [to_member|reflexivity|apply bseq_no'; assumption|lia].
  - intros (m & Em & H). destruct x as [[h c u] s n r w b]. own_projections. own_backward d_tidentity m. subst u. unfold tidentity_now.
    rewrite !bseq_no by assumption. cbn [negb]. unfold mutable_now. destruct (Z.gtb_spec c now); [lia|]. reflexivity.
Qed.
Lemma tcancel_decodes : forall C : Curve, decodes (@d_tcancel C) says_tcancel.
Proof.
  intros C js x. unfold says_tcancel. pose proof (sigs_decodes C) as SD. split.
  - intro H. own_forward (@d_tcancel) H. unfold tcancel_now in H. destruct a2 as [|g gs]; [discriminate H|]. cbn [immutable_now rbind] in H. injection H as <-.
    own_projections. conjuncts; first [to_member|discriminate].
  - intros (m & Em & H). destruct x as [[h c] e l g]. own_projections. own_backward (@d_tcancel) m. unfold tcancel_now. destruct g; [congruence|]. reflexivity.
Qed.
Lemma scalar_no_panic : forall (C : Curve) s, scalar_of_string C s <> Panic.
Proof. intros C s. unfold scalar_of_string. apply rbind_no_panic; [apply hex_decode_no_panic|]. intros b _. unfold of_opt. destruct (sdec C b); discriminate. Qed.
Lemma dpks_no_panic : forall (C : Curve) js, @dpks C js <> Panic.
Proof. intros C js. apply rbind_no_panic; [apply dlist_no_panic, dstr_no_panic|intros; apply rmapM_no_panic; intros; apply scalar_no_panic]. Qed.
Lemma own_no_panic : forall js, d_tentry js <> Panic /\ d_tstatement js <> Panic /\ (forall now, d_tidentity now js <> Panic) /\
  forall C : Curve, @d_twbill C js <> Panic /\ @d_tcancel C js <> Panic.
Proof.
  intro js. split; [|split; [|split; [intro now|intro C; split]]].
  - unfold d_tentry. no_panic. unfold tentry_now. repeat destruct (negb _); repeat destruct (_ <? _)%nat; discriminate.
  - unfold d_tstatement. no_panic. discriminate.
  - unfold d_tidentity. no_panic. unfold tidentity_now. destruct (negb (bseq a1 [])); [|discriminate]. destruct (negb _); [|discriminate]. destruct (negb _); [|discriminate].
    apply rbind_no_panic; [|discriminate]. unfold mutable_now. destruct (_ >? _)%Z; discriminate.
  - unfold d_twbill. repeat (apply rbind_no_panic; [unfold field; first [apply dpks_no_panic|apply dstruct_no_panic|apply dhash_no_panic|apply dtime_no_panic]|intros ? _]).
    unfold twbill_now. destruct (_ <? _)%nat; discriminate.
  - unfold d_tcancel. no_panic. unfold tcancel_now. match goal with |- match ?l with _ => _ end <> _ => destruct l; discriminate end.
Qed.
