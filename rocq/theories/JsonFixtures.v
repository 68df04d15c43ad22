(** Objects over the toy curve for the examples, from a lock up to a mined link. *)
From Coq Require Import Lia SpecFloat.
From Verif Require Import Base BaseFacts Sha512 HashModel HashProofs EntitiesModel SignModel SignSpec ToyCurve SignProofs
  FloatModel PiastresModel PiastresSpec PiastresProofs Properties_Piastres JsonModel JsonProofs TimeModel FloatText
  MemJsonModel CodecProofs MemSpec MemJsonProofs.

(** A mined link over a block with a genesis and one transaction whose fee spends the
    bill of the genesis. *)
Definition toy_genesis : res genesis :=
  rget (toy_bill 5 100) (fun b => genesis_now 0 3 (S754_finite false 4503599627370496 (-53)) 2 (Some b) None).
Definition toy_fee : res (@expense toy) :=
  rget (toy_bill 5 100) (fun b => rget (toy_sig b 5) (fun s => rget (toy_lock 11) (fun lk => rget (toy_lock 5) (fun rl =>
  rget (content_now 0 60 [b] (Some lk) (Some rl) (Some 1600000000123450000%Z)) (fun c => @expense_now toy 0 (Some c) (Some [s])))))).
Definition toy_address : res address := address_now 0 (Some (rhash 1)) [rhash 2; rhash 3] None None.
Definition toy_trx : res (@transaction toy) :=
  rget toy_fee (fun e => rget toy_address (fun a => transaction_now 7 (Some a) (Some (rhash 4)) [e] None)).
Definition toy_block : res (@block toy) :=
  rget toy_genesis (fun g => rget toy_trx (fun t => block_now 8 (Some g) 3 [t] None)).
Definition toy_link : res (@chain_link toy) := rget toy_block (fun b => link_now 9 (Some (rhash 6)) (Some b) 1 None).
Definition toy_mlink : res (@mined_link toy) := rget toy_link (fun l => mined_link_now 10 (Some l) (s2b "4f") None).

Lemma toy_lock_good : forall o l, toy_lock o = Ok l -> good_lock l /\ dated_lock l.
Proof.
  intros o l E. split.
  - exists 0%Z, (map (pstr toy) [mk 3; mk o]), None. split; [|exact E]. repeat constructor; apply (pstr_length _ _ _ _ toy_laws).
  - apply lock_now_iff in E as (_ & _ & ->). split; vm_compute; congruence.
Qed.
Lemma rget_Ok : forall A B (x : res A) (f : A -> res B) b, rget x f = Ok b -> exists a, x = Ok a /\ f a = Ok b.
Proof. intros A B [a| |] f b H; try discriminate. eauto. Qed.
Lemma toy_bill_good : forall o a b, is_u64 a -> toy_bill o a = Ok b -> good_bill b /\ dated_bill b.
Proof.
  intros o a b U E. apply rget_Ok in E as (l & El & E). apply toy_lock_good in El as [G D]. split.
  - exists 0%Z, l, a, None. auto.
  - apply bill_now_iff in E as (l' & E' & _ & ->). injection E' as <-. split; [exact D|]. split; vm_compute; congruence.
Qed.

Ltac in_years := split; vm_compute; congruence.
Lemma toy_genesis_good : forall g, toy_genesis = Ok g -> good_genesis g /\ dated_genesis g.
Proof.
  intros g E. apply rget_Ok in E as (b & Eb & E). apply toy_bill_good in Eb as [G D]; [|reflexivity]. split.
  - do 6 eexists. split; [|split; [|split; [exact G|exact E]]]; reflexivity.
  - apply genesis_now_iff in E as (b' & E' & _ & _ & _ & ->). injection E' as <-. split; [exact D|]. split; [|in_years].
    split; [reflexivity|split; [split; discriminate|right; discriminate]].
Qed.
Lemma toy_fee_good : forall e, toy_fee = Ok e -> good_expense readable e /\ dated_expense e.
Proof.
  intros e E. apply rget_Ok in E as (b & Eb & E). apply toy_bill_good in Eb as [G D]; [|reflexivity].
  apply rget_Ok in E as (sig & Es & E). apply rget_Ok in E as (lk & El & E). apply toy_lock_good in El as [Gl Dl].
  apply rget_Ok in E as (rl & Er & E). apply toy_lock_good in Er as [Gr Dr]. apply rget_Ok in E as (c & Ec & E). split.
  - exists 0%Z, c, [sig]. split; [|split; [|exact E]].
    + do 6 eexists. split; [|split; [|split; [|split; [|exact Ec]]]]; auto; [reflexivity|].
      intros r Hr. injection Hr as <-. exact Gr.
    + constructor; [|constructor]. apply (ring_sign_reduced _ _ _ _ toy_laws) in Es as [R1 R2].
      apply (ring_of_ring_string _ _ _ _ toy_laws); assumption.
  - pose proof (content_value _ _ _ _ _ _ _ Ec) as (H1 & _ & _ & H2 & _ & H3 & _).
    destruct (expense_fields _ _ _ _ E) as (H4 & _ & _).
    unfold dated_expense. rewrite H4.
    destruct (content_times _ _ _ _ _ _ _ Ec) as (T1 & T2 & T3).
    split; [rewrite H1; auto|]. split; [|split].
    + split; [|rewrite T2; in_years]. injection H2 as ->. exact Dl.
    + intros r Hr. split; [|rewrite (T3 r Hr); in_years]. rewrite Hr in H3. injection H3 as ->. exact Dr.
    + rewrite T1. in_years.
Qed.
Lemma toy_trx_good : forall t, toy_trx = Ok t -> good_trx readable t /\ dated_trx t.
Proof.
  intros t E. apply rget_Ok in E as (e & Ee & E). apply toy_fee_good in Ee as [G D].
  apply rget_Ok in E as (a & Ea & E). assert (Ga : good_address a).
  { do 5 eexists. split; [|split; [|split; [|exact Ea]]].
    - intros h H. injection H as <-. apply rhash_64.
    - repeat constructor; apply rhash_64.
    - discriminate. }
  assert (Da : dated_address a).
  { apply address_now_iff in Ea as (_ & ->). in_years. }
  split.
  - do 5 eexists. split; [|split; [|split; [|exact E]]].
    + intros h H. injection H as <-. exact Ga.
    + intros h H. injection H as <-. apply rhash_64.
    + constructor; [exact G|constructor].
  - apply transaction_now_iff in E as (_ & ->). split; [|split; [|in_years]].
    + intros h H. injection H as <-. exact Da.
    + constructor; [exact D|constructor].
Qed.
Lemma toy_block_good : forall b, toy_block = Ok b -> good_block readable b /\ dated_block b.
Proof.
  intros b E. apply rget_Ok in E as (g & Eg & E). apply toy_genesis_good in Eg as [G D].
  apply rget_Ok in E as (t & Et & E). apply toy_trx_good in Et as [Gt Dt]. split.
  - do 5 eexists. split; [exact G|]. split; [|split; [|exact E]]; [reflexivity|auto].
  - apply block_now_iff in E as (g' & Eg & _ & ->). injection Eg as <-. split; [exact D|]. split; [|in_years].
    constructor; [exact Dt|constructor].
Qed.
Lemma toy_link_good : forall b, toy_link = Ok b -> good_link readable b /\ dated_link b.
Proof.
  intros l E. apply rget_Ok in E as (b & Eb & E). apply toy_block_good in Eb as [G D]. split.
  - do 5 eexists. split; [|split; [exact G|split; [|exact E]]]; [apply rhash_64|reflexivity].
  - apply link_now_iff in E as (p & n & E1 & E2 & ->). injection E1 as <-. injection E2 as <-. split; [exact D|in_years].
Qed.
Lemma toy_mlink_good : forall b, toy_mlink = Ok b -> good_mined_link readable unicode b /\ dated_mined_link b.
Proof.
  intros l E. apply rget_Ok in E as (b & Eb & E). apply toy_link_good in Eb as [G D]. split.
  - do 4 eexists. split; [exact G|split; [|exact E]]. apply unicode_dec. reflexivity.
  - apply mined_link_now_iff in E as (p & E1 & ->). injection E1 as <-. split; [exact D|in_years].
Qed.
Lemma is_ok_ex : forall A (x : res A), is_ok x = true -> exists a, x = Ok a.
Proof. intros A [a| |] H; try discriminate. eauto. Qed.
