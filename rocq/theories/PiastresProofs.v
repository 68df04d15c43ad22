From Coq Require Import Lia ZifyBool ZifyNat ZifyN SpecFloat.
From Verif Require Import Base BaseFacts Sha512 HashModel HashTreeModel HashSpec HashProofs EntitiesModel
  SignModel SignSpec SignProofs FloatModel PiastresModel PiastresSpec.

(** ** Maps filled from lists *)
Lemma existsb_bseq : forall x l, existsb (bseq x) l = true <-> In x l.
Proof.
  intros x l. rewrite existsb_exists. split.
  - intros (y & Hy & E). apply bseq_eq in E. subst. exact Hy.
  - intro H. exists x. split; [exact H|apply bseq_refl].
Qed.
Lemma existsb_bseq_false : forall x l, existsb (bseq x) l = false <-> ~ In x l.
Proof. intros x l. rewrite <- existsb_bseq. destruct (existsb (bseq x) l); split; congruence. Qed.

Lemma map_keys_in : forall l x, In x (map_keys l) <-> In x l.
Proof.
  induction l as [|a l IH]; intro x; cbn [map_keys]; [tauto|].
  destruct (existsb (bseq a) (map_keys l)) eqn:E; cbn [In].
  - apply existsb_bseq in E. rewrite IH in *. split; [auto|]. intros [<-|H]; auto.
  - rewrite IH. tauto.
Qed.
Lemma map_keys_nodup : forall l, NoDup (map_keys l).
Proof.
  induction l as [|a l IH]; cbn [map_keys]; [constructor|].
  destruct (existsb (bseq a) (map_keys l)) eqn:E; [exact IH|].
  apply existsb_bseq_false in E. constructor; assumption.
Qed.
Lemma map_keys_le : forall l, length (map_keys l) <= length l.
Proof.
  induction l as [|a l IH]; cbn [map_keys]; [lia|].
  destruct (existsb (bseq a) (map_keys l)); cbn [length]; lia.
Qed.
Lemma map_keys_length : forall l, length (map_keys l) = length l <-> NoDup l.
Proof.
  induction l as [|a l IH]; cbn [map_keys].
  - split; [constructor|reflexivity].
  - pose proof (map_keys_le l) as L. destruct (existsb (bseq a) (map_keys l)) eqn:E; cbn [length].
    + split; [lia|]. intro H. apply existsb_bseq in E. rewrite map_keys_in in E. inversion H; contradiction.
    + apply existsb_bseq_false in E. rewrite map_keys_in in E. split; intro H.
      * constructor; [exact E|]. apply IH. lia.
      * inversion H as [|? ? ? H2]. apply IH in H2. lia.
Qed.
Lemma nodup_map_string : forall l, NoDup (map hash_string l) <-> NoDup l.
Proof.
  intro l. split; [apply NoDup_map_inv|].
  induction l as [|a l IH]; intro H; cbn; constructor; inversion H as [|? ? H1 H2]; subst.
  - intro Hin. apply in_map_iff in Hin as (b & E & Hb). apply hash_string_inj in E. congruence.
  - apply IH. exact H2.
Qed.

(** ** What the builders return *)
Lemma immutable_now_some : forall now h created,
  immutable_now now (Some h) created = Ok (Immutable h (time_of now created)).
Proof. reflexivity. Qed.

Lemma lock_now_iff : forall now keys created l, lock_now now keys created = Ok l <->
  keys <> [] /\ NoDup keys /\ l = Lock (Immutable (from_multi keys) (time_of now created)) keys.
Proof.
  intros now keys created l. unfold lock_now. rewrite FromMultiBytes_ok. cbn [rbind].
  rewrite immutable_now_some. cbn [rbind]. unfold mp_keys.
  rewrite <- (nodup_map_string keys), <- map_keys_length, map_length.
  destruct (Nat.ltb_spec 0 (length keys)) as [L|L].
  - destruct (Nat.eqb_spec (length (map_keys (map hash_string keys))) (length keys)) as [E|E].
    + split.
      * intro H. injection H as <-. repeat split; [|exact E]. intros ->. cbn in L. lia.
      * intros (_ & _ & ->). reflexivity.
    + split; [discriminate|]. intros (_ & H & _). contradiction.
  - destruct keys; [|cbn in L; lia]. split; [discriminate|]. intros (H & _). congruence.
Qed.

Lemma bill_now_iff : forall now lk amount created b, bill_now now lk amount created = Ok b <->
  exists l, lk = Some l /\ (0 < amount)%N /\
    b = Bill (Immutable (from_multi [lk_hash l; itoa_u64 amount]) (time_of now created)) l amount.
Proof.
  intros now [l|] amount created b; cbn [bill_now].
  - rewrite FromMultiBytes_ok. cbn [rbind]. rewrite immutable_now_some. cbn [rbind].
    destruct (N.ltb_spec 0 amount) as [L|L]; split.
    + intro H. injection H as <-. exists l. auto.
    + intros (l' & E & _ & ->). injection E as ->. reflexivity.
    + discriminate.
    + intros (l' & _ & L' & _). lia.
  - split; [discriminate|]. intros (l & H & _). discriminate.
Qed.

Definition content_parts (amount : N) (from : list bill) (l : lock) (rem : option lock) : list bytes :=
  [lk_hash l; itoa_u64 amount] ++ map bl_hash from ++ map lk_hash (opt_list rem).

Lemma content_now_iff : forall now amount from lk rem created c,
  content_now now amount from lk rem created = Ok c <->
  exists l, lk = Some l /\ (0 < amount)%N /\ (amount <= total_u64 from)%N /\
    (match rem with Some _ => amount <> total_u64 from | None => amount = total_u64 from end) /\
    let t := time_of now created in
    c = Content (Immutable (from_multi (content_parts amount from l rem)) t) from
          (Bill (Immutable (from_multi [lk_hash l; itoa_u64 amount]) t) l amount)
          (match rem with
           | Some r => Some (Bill (Immutable (from_multi [lk_hash r; itoa_u64 (total_u64 from - amount)]) t)
                              r (total_u64 from - amount))
           | None => None
           end).
Proof.
  intros now amount from [l|] rem created c; unfold content_now.
  2:{ split; [discriminate|]. intros (l & H & _). discriminate. }
  rewrite FromMultiBytes_ok. cbn [rbind]. rewrite immutable_now_some. cbn [rbind im_created].
  unfold bill_now. rewrite !FromMultiBytes_ok. cbn [rbind]. rewrite !immutable_now_some. cbn [rbind].
  fold (content_parts amount from l rem).
  destruct (N.ltb_spec (total_u64 from) amount) as [L1|L1].
  { split; [discriminate|]. intros (l' & _ & _ & H & _). lia. }
  destruct rem as [r|].
  - destruct (N.leb_spec (total_u64 from - amount) 0) as [L2|L2].
    { split; [discriminate|]. intros (l' & _ & _ & _ & H & _). lia. }
    destruct (N.ltb_spec 0 amount) as [L3|L3]; cbn [rbind].
    + rewrite FromMultiBytes_ok. cbn [rbind]. rewrite immutable_now_some. cbn [rbind].
      destruct (N.ltb_spec 0 (total_u64 from - amount)) as [L4|L4]; [|lia]. cbn [rbind].
      split.
      * intro H. injection H as <-. exists l. repeat split; auto. lia.
      * intros (l' & E & _ & _ & _ & ->). injection E as <-. reflexivity.
    + split; [discriminate|]. intros (l' & _ & H & _). lia.
  - destruct (N.ltb_spec 0 (total_u64 from - amount)) as [L2|L2].
    { split; [discriminate|]. intros (l' & _ & _ & _ & H & _). lia. }
    destruct (N.ltb_spec 0 amount) as [L3|L3]; cbn [rbind].
    + split.
      * intro H. injection H as <-. exists l. repeat split; auto. lia.
      * intros (l' & E & _ & _ & _ & ->). injection E as <-. reflexivity.
    + split; [discriminate|]. intros (l' & _ & H & _). lia.
Qed.

Lemma address_now_iff : forall now sender recipients subject created a,
  address_now now sender recipients subject created = Ok a <->
  (sender <> None \/ recipients <> [] \/ subject <> None) /\
  a = Address (Immutable (from_multi (opt_list sender ++ recipients ++ opt_list subject)) (time_of now created))
        sender recipients subject.
Proof.
  intros now sender recipients subject created a. unfold address_now. rewrite FromMultiBytes_ok. cbn [rbind].
  rewrite immutable_now_some. cbn [rbind].
  destruct sender as [s|], recipients as [|r rs], subject as [u|]; (split; [intro H|intros [H1 H2]]);
    try discriminate; try (injection H as <-); try (subst a; reflexivity);
    try (split; [|reflexivity]); try (left; discriminate); try (right; left; discriminate);
    try (right; right; discriminate).
  destruct H1 as [H1|[H1|H1]]; congruence.
Qed.

Section WithCurve.
Context {C : Curve}.

Lemma expense_now_iff : forall now ct sigs (e : expense), expense_now now ct sigs = Ok e <->
  exists c ss, ct = Some c /\ sigs = Some ss /\ length ss = length (ct_from c) /\
    unlock_all (ct_from c) ss = Ok tt /\
    e = Expense (Immutable (from_multi (ct_hash c :: map (ring_string C) ss)) (im_created (ct_im c))) c ss.
Proof.
  intros now [c|] [ss|] e; cbn [expense_now];
    try (split; [discriminate|intros (c' & ss' & H1 & H2 & _); discriminate]).
  rewrite FromMultiBytes_ok. cbn [rbind]. rewrite immutable_now_some. cbn [rbind time_of].
  destruct (Nat.eqb_spec (length ss) (length (ct_from c))) as [E|E].
  - destruct (unlock_all (ct_from c) ss) as [[]| |] eqn:U; cbn [rbind]; split.
    + intro H. injection H as <-. exists c, ss. auto.
    + intros (c' & ss' & E1 & E2 & _ & _ & ->). injection E1 as <-. injection E2 as <-. reflexivity.
    + discriminate.
    + intros (c' & ss' & E1 & E2 & _ & U' & _). injection E1 as <-. injection E2 as <-. congruence.
    + discriminate.
    + intros (c' & ss' & E1 & E2 & _ & U' & _). injection E1 as <-. injection E2 as <-. congruence.
  - split; [discriminate|]. intros (c' & ss' & E1 & E2 & L & _). injection E1 as <-. injection E2 as <-. contradiction.
Qed.

Lemma transaction_now_iff : forall now addr bucket fees created (t : transaction),
  transaction_now now addr bucket fees created = Ok t <->
  (addr <> None \/ bucket <> None \/ fees <> []) /\
  t = Transaction (Immutable (from_multi (map ad_hash (opt_list addr) ++ opt_list bucket ++ map ex_hash fees))
                     (time_of now created)) addr bucket fees.
Proof.
  intros now addr bucket fees created a. unfold transaction_now. rewrite FromMultiBytes_ok. cbn [rbind].
  rewrite immutable_now_some. cbn [rbind].
  destruct addr as [s|], bucket as [u|], fees as [|r rs]; (split; [intro H|intros [H1 H2]]);
    try discriminate; try (injection H as <-); try (subst a; reflexivity);
    try (split; [|reflexivity]); try (left; discriminate); try (right; left; discriminate);
    try (right; right; discriminate).
  destruct H1 as [H1|[H1|H1]]; congruence.
Qed.

Lemma genesis_now_iff : forall now base increase lnk b created g,
  genesis_now now base increase lnk b created = Ok g <->
  exists b', b = Some b' /\ (0 < base)%N /\ f_le_zero increase = false /\ (0 < lnk)%N /\
    g = Genesis (Immutable (from_multi [itoa_u64 base; format_f12 increase; itoa_u64 lnk; bl_hash b'])
                  (time_of now created)) b' base increase lnk.
Proof.
  intros now base increase lnk [b|] created g; unfold genesis_now.
  - rewrite FromMultiBytes_ok. cbn [rbind]. rewrite immutable_now_some. cbn [rbind].
    destruct (N.ltb_spec 0 base) as [L1|L1]; [|split; [discriminate|]; intros (b' & _ & H & _); lia].
    destruct (f_le_zero increase) eqn:F; cbn [negb]; [split; [discriminate|]; intros (b' & _ & _ & H & _); discriminate|].
    destruct (N.ltb_spec 0 lnk) as [L2|L2]; [|split; [discriminate|]; intros (b' & _ & _ & _ & H & _); lia].
    split.
    + intro H. injection H as <-. exists b. auto.
    + intros (b' & E & _ & _ & _ & ->). injection E as <-. reflexivity.
  - split; [|intros (b' & H & _); discriminate].
    intro H. destruct (0 <? base)%N, (negb (f_le_zero increase)), (0 <? lnk)%N; discriminate.
Qed.

Lemma block_now_iff : forall now gen additional trx created (b : block),
  block_now now gen additional trx created = Ok b <->
  exists g, gen = Some g /\ trx <> [] /\
    b = Block (Immutable (from_multi ([gn_hash g; itoa_u64 additional] ++ map tx_hash trx)) (time_of now created))
          g additional trx.
Proof.
  intros now [g|] additional trx created b; cbn [block_now].
  - rewrite FromMultiBytes_ok. cbn [rbind]. rewrite immutable_now_some. cbn [rbind].
    destruct trx as [|t trx]; cbn [length Nat.ltb Nat.leb].
    + split; [discriminate|]. intros (g' & _ & H & _). congruence.
    + split.
      * intro H. injection H as <-. exists g. repeat split. discriminate.
      * intros (g' & E & _ & ->). injection E as <-. reflexivity.
  - split; [discriminate|]. intros (g & H & _). discriminate.
Qed.

Lemma mined_block_now_iff : forall now bk mining created (m : mined_block),
  mined_block_now now bk mining created = Ok m <->
  exists b, bk = Some b /\
    m = MinedBlock (Immutable (from_multi [bk_hash b; mining]) (time_of now created)) b mining.
Proof.
  intros now [b|] mining created m; cbn [mined_block_now].
  - rewrite FromMultiBytes_ok. cbn [rbind]. rewrite immutable_now_some. cbn [rbind]. split.
    + intro H. injection H as <-. exists b. auto.
    + intros (b' & E & ->). injection E as <-. reflexivity.
  - split; [discriminate|]. intros (g & H & _). discriminate.
Qed.

Lemma link_now_iff : forall now prev next index created (l : chain_link),
  link_now now prev next index created = Ok l <->
  exists p n, prev = Some p /\ next = Some n /\
    l = ChainLink (Immutable (from_multi [p; bk_hash n; itoa_u64 index]) (time_of now created)) p n index.
Proof.
  intros now [p|] [n|] index created l; cbn [link_now];
    try (split; [discriminate|intros (p' & n' & H1 & H2 & _); discriminate]).
  rewrite FromMultiBytes_ok. cbn [rbind]. rewrite immutable_now_some. cbn [rbind]. split.
  - intro H. injection H as <-. exists p, n. auto.
  - intros (p' & n' & E1 & E2 & ->). injection E1 as <-. injection E2 as <-. reflexivity.
Qed.

Lemma mined_link_now_iff : forall now lk mining created (m : mined_link),
  mined_link_now now lk mining created = Ok m <->
  exists l, lk = Some l /\
    m = MinedLink (Immutable (from_multi [ln_hash l; mining]) (time_of now created)) l mining.
Proof.
  intros now [b|] mining created m; cbn [mined_link_now].
  - rewrite FromMultiBytes_ok. cbn [rbind]. rewrite immutable_now_some. cbn [rbind]. split.
    + intro H. injection H as <-. exists b. auto.
    + intros (b' & E & ->). injection E as <-. reflexivity.
  - split; [discriminate|]. intros (g & H & _). discriminate.
Qed.

Lemma chain_now_iff : forall now gen root head total created (c : chain),
  chain_now now gen root head total created = Ok c <->
  exists g r h, gen = Some g /\ root = Some r /\ head = Some h /\ (known_trx r h <= total)%N /\
    c = Chain (Immutable (from_multi [gn_hash g; mb_hash r; ml_hash h; itoa_u64 total]) (time_of now created))
          g r h total.
Proof.
  intros now [g|] [r|] [h|] total created c; cbn [chain_now];
    try (split; [discriminate|intros (g' & r' & h' & H1 & H2 & H3 & _); discriminate]).
  rewrite FromMultiBytes_ok. cbn [rbind]. rewrite immutable_now_some. cbn [rbind].
  destruct (N.ltb_spec total (known_trx r h)) as [L|L]; split.
  - discriminate.
  - intros (g' & r' & h' & E1 & E2 & E3 & L' & _). injection E2 as <-. injection E3 as <-. lia.
  - intro H. injection H as <-. exists g, r, h. auto.
  - intros (g' & r' & h' & E1 & E2 & E3 & _ & ->). injection E1 as <-. injection E2 as <-. injection E3 as <-. reflexivity.
Qed.

Lemma state_now_iff : forall now ch prev height trx created (s : state),
  state_now now ch prev height trx created = Ok s <->
  exists c p, ch = Some c /\ prev = Some p /\ (0 < height)%N /\ trx <> [] /\
    s = State (Immutable (from_multi ([c; p; itoa_u64 height] ++ map tx_hash trx)) (time_of now created))
          c p height trx.
Proof.
  intros now [c|] [p|] height trx created s; cbn [state_now];
    try (split; [discriminate|intros (c' & p' & H1 & H2 & _); discriminate]).
  rewrite FromMultiBytes_ok. cbn [rbind]. rewrite immutable_now_some. cbn [rbind].
  destruct (N.ltb_spec 0 height) as [L|L]; [|split; [discriminate|]; intros (c' & p' & _ & _ & H & _); lia].
  destruct trx as [|t trx]; cbn [length Nat.ltb Nat.leb].
  - split; [discriminate|]. intros (c' & p' & _ & _ & _ & H & _). congruence.
  - split.
    + intro H. injection H as <-. exists c, p. repeat split; auto. discriminate.
    + intros (c' & p' & E1 & E2 & _ & _ & ->). injection E1 as <-. injection E2 as <-. reflexivity.
Qed.

(** ** Unlock *)
Lemma unlock_ring_ok : forall mp ring seen r, NoDup seen -> unlock_ring mp ring seen = Ok r ->
  NoDup r /\ (forall k, In k r <-> In k seen \/ exists p, In p ring /\ k = hash_string (from_bytes (pstr C p))) /\
  (forall p, In p ring -> In (hash_string (from_bytes (pstr C p))) mp).
Proof.
  intros mp ring. induction ring as [|p ring IH]; intros seen r Hs H; cbn [unlock_ring] in H.
  - injection H as <-. split; [exact Hs|]. split.
    + intro k. split; [auto|]. intros [Hk|(p & [] & _)]. exact Hk.
    + intros p [].
  - rewrite FromBytes_ok in H. cbn [rbind] in H.
    set (kn := hash_string (from_bytes (pstr C p))) in *.
    destruct (existsb (bseq kn) mp) eqn:Em; [|discriminate]. apply existsb_bseq in Em.
    destruct (existsb (bseq kn) seen) eqn:Es.
    + apply existsb_bseq in Es. apply IH in H as (H1 & H2 & H3); [|exact Hs].
      split; [exact H1|]. split.
      * intro k. rewrite H2. split.
        -- intros [Hk|(q & Hq & E)]; [left; exact Hk|right; exists q; split; [right; exact Hq|exact E]].
        -- intros [Hk|(q & [<-|Hq] & E)]; [left; exact Hk|left; subst k; exact Es|right; exists q; auto].
      * intros q [<-|Hq]; [exact Em|apply H3; exact Hq].
    + apply existsb_bseq_false in Es. apply IH in H as (H1 & H2 & H3); [|constructor; assumption].
      split; [exact H1|]. split.
      * intro k. rewrite H2. split.
        -- intros [[<-|Hk]|(q & Hq & E)];
             [right; exists p; split; [left; reflexivity|reflexivity]|left; exact Hk|right; exists q; split; [right; exact Hq|exact E]].
        -- intros [Hk|(q & [<-|Hq] & E)]; [left; right; exact Hk|left; left; symmetry; exact E|right; exists q; auto].
      * intros q [<-|Hq]; [exact Em|apply H3; exact Hq].
Qed.

Lemma unlock_ring_succeeds : forall mp ring seen,
  (forall p, In p ring -> In (hash_string (from_bytes (pstr C p))) mp) ->
  exists r, unlock_ring mp ring seen = Ok r.
Proof.
  intros mp ring. induction ring as [|p ring IH]; intros seen H; cbn [unlock_ring]; [eauto|].
  rewrite FromBytes_ok. cbn [rbind].
  assert (E : existsb (bseq (hash_string (from_bytes (pstr C p)))) mp = true)
    by (apply existsb_bseq, H; left; reflexivity).
  rewrite E. apply IH. intros q Hq. apply H. right. exact Hq.
Qed.

Lemma same_length_incl : forall (a b : list bytes), NoDup a -> NoDup b -> incl a b ->
  (length a = length b <-> incl b a).
Proof.
  intros a b Ha Hb I. split.
  - intro E. apply NoDup_length_incl; [exact Ha|lia|exact I].
  - intro I2. pose proof (NoDup_incl_length Ha I). pose proof (NoDup_incl_length Hb I2). lia.
Qed.

Lemma unlock_iff : forall l (sig : ringsig C), unlock l sig = Ok tt <->
  same_keys l sig /\ ring_verify C sig (hash_string (lk_hash l)) = Ok true.
Proof.
  intros l sig. unfold unlock.
  assert (MP : forall k, In (hash_string k) (mp_keys (lk_keys l)) <-> In k (lk_keys l)).
  { intro k. unfold mp_keys. rewrite map_keys_in, in_map_iff. split.
    - intros (k' & E & Hk). apply hash_string_inj in E. congruence.
    - intro Hk. exists k. auto. }
  assert (MP2 : forall s, In s (mp_keys (lk_keys l)) -> exists k, s = hash_string k /\ In k (lk_keys l)).
  { intros s Hs. unfold mp_keys in Hs. apply (proj1 (map_keys_in _ _)), in_map_iff in Hs as (k & <- & Hk). eauto. }
  assert (Hv : forall v : res bool, (let! v := v in if v then Ok tt else Err) = Ok tt <-> v = Ok true).
  { intros [[|]| |]; cbn; split; congruence. }
  split.
  - intro H. apply rbind_Ok in H as (r & Hr & H).
    apply unlock_ring_ok in Hr as (H1 & H2 & H3); [|constructor].
    destruct (Nat.eqb_spec (length r) (length (mp_keys (lk_keys l)))) as [E|E]; [|discriminate].
    apply Hv in H. split; [|exact H].
    apply same_length_incl in E; [|exact H1|apply map_keys_nodup|].
    2:{ intros k Hk. apply H2 in Hk as [[]|(p & Hp & ->)]. apply H3. exact Hp. }
    intro k. split.
    + intro Hk. apply MP, E, H2 in Hk as [[]|(p & Hp & Ek)]. apply hash_string_inj in Ek. eauto.
    + intros (p & Hp & ->). apply MP, H3. exact Hp.
  - intros (S & V).
    destruct (unlock_ring_succeeds (mp_keys (lk_keys l)) (rs_ring sig) []) as [r Hr].
    { intros p Hp. apply MP, S. eauto. }
    rewrite Hr. cbn [rbind]. apply unlock_ring_ok in Hr as (H1 & H2 & H3); [|constructor].
    assert (E : length r = length (mp_keys (lk_keys l))).
    { apply same_length_incl; [exact H1|apply map_keys_nodup| |].
      - intros k Hk. apply H2 in Hk as [[]|(p & Hp & ->)]. apply H3. exact Hp.
      - intros s Hs. apply MP2 in Hs as (k & -> & Hk). apply S in Hk as (p & Hp & ->).
        apply H2. right. eauto. }
    rewrite E, Nat.eqb_refl. apply Hv. exact V.
Qed.

Lemma unlock_all_iff : forall from (sigs : list (ringsig C)), length sigs = length from ->
  (unlock_all from sigs = Ok tt <-> Forall2 (fun b s => unlock (bl_lock b) s = Ok tt) from sigs).
Proof.
  induction from as [|b from IH]; intros [|s sigs] L; try discriminate; cbn [unlock_all].
  - split; [constructor|reflexivity].
  - injection L as L. split.
    + intro H. apply rbind_Ok in H as ([] & H1 & H2). constructor; [exact H1|]. apply IH; assumption.
    + intro H. inversion H as [|? ? ? ? H1 H2]; subst. rewrite H1. cbn [rbind]. apply IH; assumption.
Qed.

Lemma expense_accepted_iff : forall now c (sigs : list (ringsig C)),
  (exists e, expense_now now (Some c) (Some sigs) = Ok e) <->
  length sigs = length (ct_from c) /\ Forall2 (fun b s => unlock (bl_lock b) s = Ok tt) (ct_from c) sigs.
Proof.
  intros now c sigs. split.
  - intros [e H]. apply expense_now_iff in H as (c' & ss & E1 & E2 & L & U & _).
    injection E1 as <-. injection E2 as <-. split; [exact L|]. apply unlock_all_iff; assumption.
  - intros [L F]. eexists. apply expense_now_iff. exists c, sigs. repeat split; auto.
    apply unlock_all_iff; assumption.
Qed.

Lemma expense_fields : forall now c (sigs : list (ringsig C)) e, expense_now now (Some c) (Some sigs) = Ok e ->
  ex_content e = c /\ ex_sigs e = sigs /\ im_created (ex_im e) = im_created (ct_im c).
Proof.
  intros now c sigs e H. apply expense_now_iff in H as (c' & ss & E1 & E2 & _ & _ & ->).
  injection E1 as <-. injection E2 as <-. auto.
Qed.
Lemma expense_needs_both : forall now ct (sigs : option (list (ringsig C))),
  ct = None \/ sigs = None -> expense_now now ct sigs = Err.
Proof. intros now [c|] [s|] [H|H]; try discriminate; reflexivity. Qed.

(** replay of the signatures for other contents over the same bills *)
Lemma signatures_replay : forall now c (sigs : list (ringsig C)) e,
  expense_now now (Some c) (Some sigs) = Ok e ->
  forall now' c', ct_from c' = ct_from c ->
  exists e', expense_now now' (Some c') (Some sigs) = Ok e' /\ ex_content e' = c'.
Proof.
  intros now c sigs e H now' c' E.
  assert (A : exists e', expense_now now' (Some c') (Some sigs) = Ok e').
  { apply expense_accepted_iff. rewrite E. apply (expense_accepted_iff now). eauto. }
  destruct A as [e' H']. exists e'. split; [exact H'|]. apply expense_fields in H'. tauto.
Qed.
Lemma content_from : forall now amount from lk rem created c,
  content_now now amount from lk rem created = Ok c -> ct_from c = from.
Proof. intros until c. intro H. apply content_now_iff in H as (l & _ & _ & _ & _ & ->). reflexivity. Qed.

Lemma replay_any_recipient : forall now now1 amount from lk rem created c (sigs : list (ringsig C)) e,
  content_now now1 amount from (Some lk) rem created = Ok c ->
  expense_now now (Some c) (Some sigs) = Ok e ->
  forall thief amount', (0 < amount' <= total_u64 from)%N ->
  exists c' e',
    content_now now1 amount' from (Some thief) (if (amount' =? total_u64 from)%N then None else Some thief) created = Ok c' /\
    expense_now now (Some c') (Some sigs) = Ok e' /\
    ex_content e' = c' /\ bl_lock (ct_to c') = thief /\ bl_amount (ct_to c') = amount' /\
    (forall r, ct_remaining c' = Some r -> bl_lock r = thief).
Proof.
  intros now now1 amount from lk rem created c sigs e Hc He thief amount' A.
  pose proof (content_from _ _ _ _ _ _ _ Hc) as Hf.
  assert (X : exists c', content_now now1 amount' from (Some thief)
      (if (amount' =? total_u64 from)%N then None else Some thief) created = Ok c').
  { eexists. apply content_now_iff. exists thief. split; [reflexivity|]. split; [lia|]. split; [lia|].
    split; [|reflexivity]. destruct (N.eqb_spec amount' (total_u64 from)); assumption. }
  destruct X as [c' Hc']. pose proof (content_from _ _ _ _ _ _ _ Hc') as Hf'.
  destruct (signatures_replay _ _ _ _ He now c') as (e' & He' & Ee); [congruence|].
  exists c', e'. split; [exact Hc'|]. split; [exact He'|]. split; [exact Ee|].
  apply content_now_iff in Hc' as (l & El & _ & _ & _ & ->). injection El as <-.
  repeat split. intros r Hr. cbn [ct_remaining] in Hr.
  destruct (N.eqb_spec amount' (total_u64 from)); [discriminate|]. injection Hr as <-. reflexivity.
Qed.
End WithCurve.

Section WithLaws.
  Context {C : Curve}.
  Variable red : Sc C -> Prop.
  Variable zero : Sc C.
  Variable sadd : Sc C -> Sc C -> Sc C.
  Variable laws : CurveLaws C red zero sadd.

  Lemma key_text_hash : forall p, from_bytes (pstr C p) = pstr C p.
  Proof. intro p. apply from_bytes_64. apply (pstr_length C red zero sadd laws). Qed.
  Lemma app_key_hash : forall p, FromString (pstr C p) = Ok (sha512 (penc C p)).
  Proof.
    intro p. rewrite key_hash_ok. rewrite from_bytes_not64; [reflexivity|].
    rewrite (penc_len _ _ _ _ laws). discriminate.
  Qed.
  Lemma app_keys : forall pks, rmapM (fun p => FromString (pstr C p)) pks = Ok (map (fun p => sha512 (penc C p)) pks).
  Proof. intro pks. apply rmapM_map_Ok. intros p _. apply app_key_hash. Qed.

  Lemma app_lock_unspendable : forall now pks created l, app_lock now pks created = Ok l ->
    forall sig : ringsig C, unlock l sig = Ok tt ->
    rs_ring sig <> [] /\
    forall q, In q (rs_ring sig) -> exists p, In p pks /\ sha512 (penc C p) = hex_encode (penc C q).
  Proof.
    intros now pks created l H sig U. unfold app_lock in H. rewrite app_keys in H. cbn [rbind] in H.
    apply lock_now_iff in H as (NE & _ & ->). apply unlock_iff in U as [S _]. unfold same_keys in S. cbn [lk_keys] in S.
    split.
    - intro E. rewrite E in S. destruct pks as [|p pks]; [apply NE; reflexivity|].
      destruct (proj1 (S (sha512 (penc C p)))) as (q & [] & _). left. reflexivity.
    - intros q Hq. assert (H : In (from_bytes (pstr C q)) (map (fun p => sha512 (penc C p)) pks)) by (apply S; eauto).
      apply in_map_iff in H as (p & E & Hp). exists p. split; [exact Hp|]. rewrite key_text_hash in E. exact E.
  Qed.

  (** locks over the text of the keys can be opened *)
  Lemma text_lock_opens : forall now ring x created l, red x -> In (public_key C x) ring ->
    lock_now now (map (pstr C) ring) created = Ok l ->
    exists sig, ring_sign C x (hash_string (lk_hash l)) ring = Ok sig /\ unlock l sig = Ok tt.
  Proof.
    intros now ring x created l Hx Hin H. apply lock_now_iff in H as (_ & _ & ->).
    destruct (ring_sign_verifies C red zero sadd laws x (hash_string (lk_hash (Lock (Immutable (from_multi (map (pstr C) ring)) (time_of now created)) (map (pstr C) ring)))) ring Hx Hin)
      as (sig & Hs & Hr & _ & Hv).
    exists sig. split; [exact Hs|]. apply unlock_iff. split; [|exact Hv].
    intro k. cbn [lk_keys]. rewrite in_map_iff, Hr. split; intros (p & A & B); exists p;
      rewrite key_text_hash in *; auto.
  Qed.
  Lemma text_lock_exists : forall now ring created, ring <> [] -> NoDup ring ->
    exists l, lock_now now (map (pstr C) ring) created = Ok l.
  Proof.
    intros now ring created NE ND. eexists. apply lock_now_iff. split; [|split; [|reflexivity]].
    - destruct ring; [congruence|discriminate].
    - clear NE. induction ND as [|p ring Hp ND IH]; cbn; constructor; [|exact IH].
      intro H. apply in_map_iff in H as (q & E & Hq). apply (pstr_inj C red zero sadd laws) in E. congruence.
  Qed.

  Lemma unlock_two_locks : forall l1 l2 (sig : ringsig C), lk_keys l1 <> [] ->
    unlock l1 sig = Ok tt -> unlock l2 sig = Ok tt ->
    lk_hash l1 = lk_hash l2 \/
    challenge_collision C (last_input C (hash_string (lk_hash l1)) (rs_ring sig) (rs_s sig) (rs_e sig))
                          (last_input C (hash_string (lk_hash l2)) (rs_ring sig) (rs_s sig) (rs_e sig)).
  Proof.
    intros l1 l2 sig NE U1 U2. apply unlock_iff in U1 as [S1 V1]. apply unlock_iff in U2 as [_ V2].
    assert (NR : rs_ring sig <> []).
    { intro E. destruct (lk_keys l1) as [|k ks] eqn:K; [congruence|].
      destruct (proj1 (S1 k)) as (p & Hp & _); [rewrite K; left; reflexivity|]. rewrite E in Hp. destruct Hp. }
    destruct (verify_two_messages C red zero sadd laws sig _ _ NR V1 V2) as [E|E].
    - left. apply hash_string_inj. exact E.
    - right. exact E.
  Qed.
End WithLaws.

(** ** Lock hashes *)
Lemma lock_single_hash : forall now k created, hash64 k ->
  exists l, lock_now now [k] created = Ok l /\ lk_hash l = k /\ lk_keys l = [k].
Proof.
  intros now k created Hk. eexists. split.
  - apply lock_now_iff. split; [discriminate|]. split; [|reflexivity]. constructor; [auto|constructor].
  - split; [|reflexivity]. unfold lk_hash, from_multi. cbn. rewrite app_nil_r. apply from_bytes_64. exact Hk.
Qed.
Lemma built_lock_hash : forall l, built_lock l ->
  lk_hash l = from_bytes (lock_text l) /\ Forall hash64 (lk_keys l) /\ NoDup (lk_keys l) /\ lk_keys l <> [].
Proof.
  intros l (now & keys & created & F & H). apply lock_now_iff in H as (NE & ND & ->). cbn. auto.
Qed.
Lemma lock_hash64 : forall l, built_lock l -> hash64 (lk_hash l).
Proof. intros l H. apply built_lock_hash in H as (-> & _). apply from_bytes_length. Qed.

Lemma lock_hash_ambiguous : forall l, built_lock l -> 2 <= length (lk_keys l) ->
  forall now created, exists l', lock_now now [lk_hash l] created = Ok l' /\
    lk_hash l' = lk_hash l /\ ~ (forall k, In k (lk_keys l') <-> In k (lk_keys l)).
Proof.
  intros l B L now created. destruct (lock_single_hash now (lk_hash l) created) as (l' & H1 & H2 & H3).
  { apply lock_hash64. exact B. }
  exists l'. split; [exact H1|]. split; [exact H2|]. intro S. rewrite H3 in S.
  apply built_lock_hash in B as (_ & _ & ND & _).
  destruct (lk_keys l) as [|a [|b ks]]; cbn in L; try lia.
  assert (Ha : In a [lk_hash l]) by (apply S; left; reflexivity).
  assert (Hb : In b [lk_hash l]) by (apply S; right; left; reflexivity).
  destruct Ha as [Ha|[]], Hb as [Hb|[]]. inversion ND as [|? ? N _]. apply N. left. congruence.
Qed.

Lemma lock_hash_commits : forall l1 l2, built_lock l1 -> built_lock l2 ->
  (length (lk_keys l1) = 1 <-> length (lk_keys l2) = 1) -> lk_hash l1 = lk_hash l2 ->
  lk_keys l1 = lk_keys l2 \/ sha_collision (lock_text l1) (lock_text l2).
Proof.
  intros l1 l2 B1 B2 S H. apply built_lock_hash in B1 as (E1 & F1 & _ & _). apply built_lock_hash in B2 as (E2 & F2 & _ & _).
  rewrite E1, E2 in H. unfold lock_text in *.
  assert (L1 := concat_len 64 _ F1). assert (L2 := concat_len 64 _ F2).
  destruct (FromBytes_inj_same (concat (lk_keys l1)) (concat (lk_keys l2))) as [E|E].
  - rewrite L1, L2. lia.
  - rewrite !FromBytes_ok. congruence.
  - left. apply (concat_inj_len 64) in E; auto. lia.
  - right. exact E.
Qed.

(** ** Value *)
Lemma total_value : forall bs, total_u64 bs = (value bs mod 2 ^ 64)%N.
Proof.
  intro bs. unfold total_u64.
  assert (G : forall l t, (t < 2 ^ 64)%N -> fold_left (fun t b => u64 (t + bl_amount b)) l t = ((t + value l) mod 2 ^ 64)%N).
  { induction l as [|b l IH]; intros t Ht; cbn [fold_left].
    - unfold value. cbn. rewrite N.add_0_r. symmetry. apply N.mod_small. exact Ht.
    - rewrite IH by (apply N.mod_lt; discriminate). unfold u64. rewrite N.add_mod_idemp_l by discriminate.
      f_equal. unfold value. cbn [map fold_right]. lia. }
  rewrite G by reflexivity. f_equal.
Qed.

Lemma content_value : forall now amount from lk rem created c,
  content_now now amount from lk rem created = Ok c ->
  ct_from c = from /\ bl_amount (ct_to c) = amount /\ (0 < amount)%N /\
  Some (bl_lock (ct_to c)) = lk /\
  paid c = (value from mod 2 ^ 64)%N /\
  option_map bl_lock (ct_remaining c) = rem /\
  (forall r, ct_remaining c = Some r -> (0 < bl_amount r)%N).
Proof.
  intros now amount from lk rem created c H. apply content_now_iff in H as (l & -> & P & L & R & ->).
  unfold paid. cbn [ct_from ct_to ct_remaining bl_amount bl_lock]. rewrite <- total_value.
  repeat split; auto.
  - destruct rem; cbn [bl_amount]; lia.
  - destruct rem; reflexivity.
  - intros r Hr. destruct rem; [|discriminate]. injection Hr as <-. cbn [bl_amount]. lia.
Qed.

Lemma content_accepts : forall now amount from lk rem created,
  (exists c, content_now now amount from lk rem created = Ok c) <->
  lk <> None /\ (0 < amount)%N /\ (amount <= value from mod 2 ^ 64)%N /\
  (rem = None <-> amount = (value from mod 2 ^ 64)%N).
Proof.
  intros now amount from lk rem created. rewrite <- total_value. split.
  - intros [c H]. apply content_now_iff in H as (l & -> & P & L & R & _).
    repeat split; try discriminate; auto; destruct rem; try congruence; try contradiction.
  - intros (NE & P & L & R). destruct lk as [l|]; [|congruence]. eexists. apply content_now_iff. exists l.
    repeat split; auto. destruct rem; [|apply R; reflexivity]. intro E. apply R in E. discriminate.
Qed.

Lemma value_app : forall a b, value (a ++ b) = (value a + value b)%N.
Proof. intros a b. unfold value. induction a as [|x a IH]; cbn [app map fold_right]; [reflexivity|]. rewrite IH. lia. Qed.
Lemma value_cons : forall x b, value (x :: b) = (bl_amount x + value b)%N.
Proof. reflexivity. Qed.

Lemma distinct_value_nodup : forall bs seen, NoDup (map bl_hash bs) ->
  (forall b, In b bs -> ~ In (bl_hash b) seen) -> distinct_value seen bs = value bs.
Proof.
  induction bs as [|b bs IH]; intros seen ND H; [reflexivity|]. cbn [distinct_value].
  assert (E : existsb (bseq (bl_hash b)) seen = false) by (apply existsb_bseq_false, H; left; reflexivity).
  rewrite E, value_cons. cbn [map] in ND. inversion ND as [|? ? N1 N2]; subst. rewrite IH; [reflexivity|exact N2|].
  intros b' Hb [F|F]; [apply N1; rewrite F; apply in_map; exact Hb|]. apply (H b'); [right; exact Hb|exact F].
Qed.

Lemma no_money_distinct : forall now amount from lk rem created c,
  content_now now amount from lk rem created = Ok c -> NoDup (map bl_hash from) ->
  (paid c <= distinct_value [] from)%N.
Proof.
  intros now amount from lk rem created c H ND. apply content_value in H as (_ & _ & _ & _ & P & _).
  rewrite distinct_value_nodup; [|exact ND|intros b _ []]. rewrite P. apply N.mod_le. discriminate.
Qed.

Lemma money_from_nothing : forall {C : Curve} now b (sig : ringsig C) lk created,
  (0 < bl_amount b)%N -> (2 * bl_amount b < 2 ^ 64)%N -> unlock (bl_lock b) sig = Ok tt ->
  exists c e, content_now now (2 * bl_amount b) [b; b] (Some lk) None created = Ok c /\
    expense_now now (Some c) (Some [sig; sig]) = Ok e /\ ex_content e = c /\
    paid c = (2 * bl_amount b)%N /\ distinct_value [] (ct_from c) = bl_amount b.
Proof.
  intros C now b sig lk created P L U.
  assert (V : value [b; b] = (2 * bl_amount b)%N) by (unfold value; cbn [map fold_right]; lia).
  assert (X : exists c, content_now now (2 * bl_amount b) [b; b] (Some lk) None created = Ok c).
  { apply content_accepts. rewrite V, N.mod_small by exact L. repeat split; try discriminate; lia. }
  destruct X as [c Hc]. pose proof (content_value _ _ _ _ _ _ _ Hc) as (F & _ & _ & _ & Pd & _).
  assert (Y : exists e, expense_now now (Some c) (Some [sig; sig]) = Ok e).
  { apply expense_accepted_iff. rewrite F. split; [reflexivity|]. repeat constructor; exact U. }
  destruct Y as [e He]. exists c, e. split; [exact Hc|]. split; [exact He|].
  split; [apply expense_fields in He; tauto|].
  split; [rewrite Pd, V; apply N.mod_small; exact L|]. rewrite F. cbn [distinct_value existsb].
  rewrite bseq_refl. cbn [orb]. lia.
Qed.

(** ** Hashes of encodings with one decimal number *)
Lemma dec_len : forall n, is_u64 n -> 1 <= length (dec n) <= 20.
Proof. exact itoa_u64_length. Qed.
Lemma dec_inj : forall a b, is_u64 a -> is_u64 b -> dec a = dec b -> a = b.
Proof. exact itoa_u64_inj. Qed.

Lemma mid_inj : forall a1 a2 n1 n2 r1 r2, length a1 = length a2 -> is_u64 n1 -> is_u64 n2 ->
  Forall hash64 r1 -> Forall hash64 r2 ->
  a1 ++ dec n1 ++ concat r1 = a2 ++ dec n2 ++ concat r2 -> a1 = a2 /\ n1 = n2 /\ r1 = r2.
Proof.
  intros a1 a2 n1 n2 r1 r2 LA U1 U2 F1 F2 E. apply app_inj_len in E as [-> E]; [|exact LA].
  pose proof (f_equal (@length byte) E) as L. rewrite !app_length in L.
  rewrite (concat_len 64 _ F1), (concat_len 64 _ F2) in L.
  pose proof (dec_len _ U1) as D1. pose proof (dec_len _ U2) as D2.
  apply app_inj_len in E as [E1 E2]; [|lia]. apply dec_inj in E1; auto.
  apply (concat_inj_len 64) in E2; auto. lia.
Qed.

Lemma hash_commits : forall x y, length x <> 64 -> length y <> 64 -> from_bytes x = from_bytes y ->
  x = y \/ sha_collision x y.
Proof. exact from_bytes_inj_not64. Qed.

Lemma built_bill_hash : forall b, built_bill b ->
  bl_hash b = from_bytes (bill_text b) /\ hash64 (lk_hash (bl_lock b)) /\ is_u64 (bl_amount b) /\ (0 < bl_amount b)%N.
Proof.
  intros b (now & l & amount & created & Hl & Hu & H). apply bill_now_iff in H as (l' & E & P & ->).
  injection E as <-. unfold bl_hash, bill_text, from_multi. cbn [bl_im im_hash concat bl_lock bl_amount].
  rewrite app_nil_r. auto.
Qed.
Lemma bill_hash64 : forall b, built_bill b -> hash64 (bl_hash b).
Proof. intros b H. apply built_bill_hash in H as (-> & _). apply from_bytes_length. Qed.

Lemma bill_hash_commits : forall b1 b2, built_bill b1 -> built_bill b2 -> bl_hash b1 = bl_hash b2 ->
  (lk_hash (bl_lock b1) = lk_hash (bl_lock b2) /\ bl_amount b1 = bl_amount b2) \/
  sha_collision (bill_text b1) (bill_text b2).
Proof.
  intros b1 b2 B1 B2 H. apply built_bill_hash in B1 as (E1 & L1 & U1 & _). apply built_bill_hash in B2 as (E2 & L2 & U2 & _).
  rewrite E1, E2 in H. pose proof (dec_len _ U1) as D1. pose proof (dec_len _ U2) as D2.
  apply hash_commits in H as [H|H]; [|right; exact H|..].
  - left. unfold bill_text in H. unfold hash64 in *. apply app_inj_len in H as [H1 H2]; [|congruence].
    apply dec_inj in H2; auto.
  - unfold bill_text, hash64 in *. rewrite app_length. lia.
  - unfold bill_text, hash64 in *. rewrite app_length. lia.
Qed.

Definition rem_hash (c : content) : list hash :=
  match ct_remaining c with Some b => [lk_hash (bl_lock b)] | None => [] end.
Lemma built_content_hash : forall c, built_content c ->
  ct_hash c = from_bytes (content_text c) /\
  content_text c = lk_hash (bl_lock (ct_to c)) ++ dec (bl_amount (ct_to c)) ++
                   concat (map bl_hash (ct_from c) ++ rem_hash c) /\
  hash64 (lk_hash (bl_lock (ct_to c))) /\ is_u64 (bl_amount (ct_to c)) /\ Forall built_bill (ct_from c) /\
  Forall hash64 (rem_hash c) /\ paid c = (value (ct_from c) mod 2 ^ 64)%N /\
  (forall r, ct_remaining c = Some r -> (0 < bl_amount r)%N).
Proof.
  intros c (now & amount & from & l & rem & created & U & Hl & Hb & Hr & H).
  pose proof (content_value _ _ _ _ _ _ _ H) as (V1 & V2 & V3 & V4 & V5 & V6 & V7).
  apply content_now_iff in H as (l' & E & P & L & R & ->). injection E as <-.
  unfold ct_hash, content_text, rem_hash, from_multi, content_parts in *. cbn [ct_im im_hash ct_to ct_from ct_remaining bl_lock bl_amount] in *.
  rewrite concat_app.
  repeat split; auto.
  - f_equal. destruct rem as [r|]; cbn [opt_list map app concat]; rewrite !concat_app; cbn [concat];
      rewrite ?app_nil_r, <- ?app_assoc; reflexivity.
  - destruct rem as [r|]; rewrite ?concat_app; cbn [concat bl_lock]; rewrite ?app_nil_r; reflexivity.
  - destruct rem as [r|]; constructor; [|constructor]. apply Hr. reflexivity.
Qed.
Lemma content_hash64 : forall c, built_content c -> hash64 (ct_hash c).
Proof. intros c H. apply built_content_hash in H as (-> & _). apply from_bytes_length. Qed.

Lemma same_bills_value : forall l1 l2, Forall built_bill l1 -> Forall built_bill l2 ->
  map bl_hash l1 = map bl_hash l2 -> value l1 = value l2 \/ bill_collision_in l1 l2.
Proof.
  induction l1 as [|b1 l1 IH]; intros [|b2 l2] F1 F2 E; try discriminate; [left; reflexivity|].
  inversion F1 as [|? ? A1 B1]; inversion F2 as [|? ? A2 B2]; subst. injection E as E1 E2.
  apply bill_hash_commits in E1 as [[_ E1]|E1]; auto.
  - destruct (IH l2 B1 B2 E2) as [E|(i & x & y & X & Y & Cc)].
    + left. rewrite !value_cons. congruence.
    + right. exists (S i), x, y. auto.
  - right. exists 0, b1, b2. auto.
Qed.

Lemma collision_prefix : forall l1 l2 l3, bill_collision_in l1 l2 -> bill_collision_in l1 (l2 ++ l3).
Proof.
  intros l1 l2 l3 (i & x & y & X & Y & Cc). exists i, x, y. repeat split; auto; try apply Cc.
  rewrite nth_error_app1; [exact Y|]. apply nth_error_Some. congruence.
Qed.
Lemma collision_sym : forall l1 l2, bill_collision_in l1 l2 -> bill_collision_in l2 l1.
Proof.
  intros l1 l2 (i & x & y & X & Y & Cc & D). exists i, y, x. repeat split; auto.
Qed.

Lemma extra_input : forall c1 c2, built_content c1 -> built_content c2 ->
  (value (ct_from c1) < 2 ^ 64)%N -> (value (ct_from c2) < 2 ^ 64)%N ->
  bl_amount (ct_to c1) = bl_amount (ct_to c2) ->
  ct_remaining c1 <> None -> ct_remaining c2 = None ->
  map bl_hash (ct_from c1) ++ rem_hash c1 = map bl_hash (ct_from c2) ++ rem_hash c2 ->
  bill_collision_in (ct_from c1) (ct_from c2).
Proof.
  intros c1 c2 B1 B2 O1 O2 A R1 R2 E.
  apply built_content_hash in B1 as (_ & _ & _ & _ & F1 & _ & P1 & Q1).
  apply built_content_hash in B2 as (_ & _ & _ & _ & F2 & _ & P2 & Q2).
  rewrite N.mod_small in P1, P2 by assumption. unfold paid, rem_hash in *.
  destruct (ct_remaining c1) as [r1|]; [|congruence]. rewrite R2 in *. rewrite app_nil_r in E.
  destruct (ct_from c2) as [|z zs] eqn:Z using rev_ind.
  { destruct (map bl_hash (ct_from c1)); discriminate. }
  clear IHzs Z. rewrite map_app in E. cbn [map] in E. apply app_inj_tail in E as [E _].
  apply Forall_app in F2 as [F2 F3]. destruct (same_bills_value _ _ F1 F2 E) as [V|V].
  - exfalso. rewrite value_app, value_cons in P2. inversion F3 as [|? ? F4 _]; subst.
    apply built_bill_hash in F4 as (_ & _ & _ & F4). specialize (Q1 r1 eq_refl). lia.
  - apply collision_prefix. exact V.
Qed.

Lemma content_hash_commits : forall c1 c2, built_content c1 -> built_content c2 ->
  (value (ct_from c1) < 2 ^ 64)%N -> (value (ct_from c2) < 2 ^ 64)%N ->
  ct_hash c1 = ct_hash c2 ->
  (lk_hash (bl_lock (ct_to c1)) = lk_hash (bl_lock (ct_to c2)) /\
   bl_amount (ct_to c1) = bl_amount (ct_to c2) /\
   map bl_hash (ct_from c1) = map bl_hash (ct_from c2) /\
   option_map (fun b => lk_hash (bl_lock b)) (ct_remaining c1) =
   option_map (fun b => lk_hash (bl_lock b)) (ct_remaining c2)) \/
  sha_collision (content_text c1) (content_text c2) \/
  bill_collision_in (ct_from c1) (ct_from c2).
Proof.
  intros c1 c2 B1 B2 O1 O2 H.
  pose proof (built_content_hash _ B1) as (E1 & T1 & L1 & U1 & F1 & R1 & P1 & Q1).
  pose proof (built_content_hash _ B2) as (E2 & T2 & L2 & U2 & F2 & R2 & P2 & Q2).
  assert (G : forall c, Forall built_bill (ct_from c) -> Forall hash64 (rem_hash c) ->
    Forall hash64 (map bl_hash (ct_from c) ++ rem_hash c)).
  { intros c F R. apply Forall_app. split; [|exact R]. apply Forall_map. eapply Forall_impl; [|exact F].
    intros b Hb. apply bill_hash64. exact Hb. }
  rewrite E1, E2 in H. pose proof (dec_len _ U1) as D1. pose proof (dec_len _ U2) as D2. unfold hash64 in *.
  apply hash_commits in H as [H|H]; [|right; left; exact H|rewrite T1, !app_length; lia|rewrite T2, !app_length; lia].
  rewrite T1, T2 in H. apply mid_inj in H as (H1 & H2 & H3); auto; [|congruence].
  destruct (ct_remaining c1) as [r1|] eqn:Z1, (ct_remaining c2) as [r2|] eqn:Z2.
  - left. unfold rem_hash in H3. rewrite Z1, Z2 in H3. apply app_inj_tail in H3 as [H3 H4].
    repeat split; auto. cbn. congruence.
  - right. right. apply extra_input; auto; congruence.
  - right. right. apply collision_sym. apply extra_input; auto; congruence.
  - left. unfold rem_hash in H3. rewrite Z1, Z2, !app_nil_r in H3. auto.
Qed.

(** ** Addresses and transactions *)
Lemma opt_bytes_concat : forall o, opt_bytes o = concat (opt_list o).
Proof. intros [b|]; cbn; [rewrite app_nil_r|]; reflexivity. Qed.
Lemma built_address_hash : forall a, built_address a ->
  ad_hash a = from_bytes (address_text a) /\
  address_text a = concat (opt_list (ad_sender a) ++ ad_recipients a ++ opt_list (ad_subject a)) /\
  Forall hash64 (opt_list (ad_sender a) ++ ad_recipients a ++ opt_list (ad_subject a)).
Proof.
  intros a (now & s & r & u & created & Hs & Hr & Hu & H). apply address_now_iff in H as (_ & ->).
  unfold ad_hash, address_text, from_multi. cbn [ad_im im_hash ad_sender ad_recipients ad_subject].
  rewrite !opt_bytes_concat, !concat_app. repeat split.
  apply Forall_app. split; [destruct s; constructor; auto|]. apply Forall_app. split; [exact Hr|].
  destruct u; constructor; auto.
Qed.
Lemma address_hash_ambiguous : forall now s rs u created,
  exists a1 a2, address_now now (Some s) rs u created = Ok a1 /\
    address_now now None (s :: rs) u created = Ok a2 /\
    ad_hash a1 = ad_hash a2 /\ ad_sender a1 <> ad_sender a2 /\ ad_recipients a1 <> ad_recipients a2.
Proof.
  intros now s rs u created. do 2 eexists. split; [|split].
  - apply address_now_iff. split; [left; discriminate|reflexivity].
  - apply address_now_iff. split; [right; left; discriminate|reflexivity].
  - split; [reflexivity|]. cbn [ad_sender ad_recipients]. split; [discriminate|].
    intro E. apply (f_equal (@length hash)) in E. cbn in E. lia.
Qed.
Lemma parts_inj : forall A (s1 s2 : list A) r1 r2 u1 u2, length s1 = length s2 -> length u1 = length u2 ->
  s1 ++ r1 ++ u1 = s2 ++ r2 ++ u2 -> s1 = s2 /\ r1 = r2 /\ u1 = u2.
Proof.
  intros A s1 s2 r1 r2 u1 u2 L1 L2 E. apply app_inj_len in E as [-> E]; [|exact L1].
  apply app_inj_len_r in E as [-> ->]; auto.
Qed.
Lemma opt_list_inj : forall {A} (a b : option A), opt_list a = opt_list b -> a = b.
Proof. intros A [a|] [b|] H; cbn in H; congruence. Qed.
Lemma opt_list_len : forall {A} (a b : option A), (a = None <-> b = None) -> length (opt_list a) = length (opt_list b).
Proof.
  intros A [a|] [b|] H; try reflexivity; exfalso.
  - assert (X : Some a = None) by (apply H; reflexivity). discriminate X.
  - assert (X : Some b = None) by (apply H; reflexivity). discriminate X.
Qed.
Lemma parts_hash : forall x y, Forall hash64 x -> Forall hash64 y -> (length x = 1 <-> length y = 1) ->
  from_bytes (concat x) = from_bytes (concat y) -> x = y \/ sha_collision (concat x) (concat y).
Proof.
  intros x y Fx Fy L H. assert (L1 := concat_len 64 _ Fx). assert (L2 := concat_len 64 _ Fy).
  destruct (FromBytes_inj_same (concat x) (concat y)) as [E|E].
  - rewrite L1, L2. lia.
  - rewrite !FromBytes_ok. congruence.
  - left. apply (concat_inj_len 64) in E; auto. lia.
  - right. exact E.
Qed.

Lemma address_hash_commits : forall a1 a2, built_address a1 -> built_address a2 ->
  (ad_sender a1 = None <-> ad_sender a2 = None) -> (ad_subject a1 = None <-> ad_subject a2 = None) ->
  (address_parts a1 = 1 <-> address_parts a2 = 1) -> ad_hash a1 = ad_hash a2 ->
  (ad_sender a1 = ad_sender a2 /\ ad_recipients a1 = ad_recipients a2 /\ ad_subject a1 = ad_subject a2) \/
  sha_collision (address_text a1) (address_text a2).
Proof.
  intros a1 a2 B1 B2 S U P H. apply built_address_hash in B1 as (E1 & T1 & F1). apply built_address_hash in B2 as (E2 & T2 & F2).
  rewrite E1, E2, T1, T2 in H. rewrite T1, T2. unfold address_parts in P. apply parts_hash in H as [H|H]; auto.
  - left. apply parts_inj in H as (H1 & H2 & H3); [|apply opt_list_len; assumption..].
    apply opt_list_inj in H1. apply opt_list_inj in H3. auto.
  - rewrite !app_length. lia.
Qed.

Section Objects.
Context {C : Curve}.

Lemma built_transaction_hash : forall t : transaction, built_transaction t ->
  tx_hash t = from_bytes (transaction_text t) /\
  transaction_text t = concat (map ad_hash (opt_list (tx_address t)) ++ opt_list (tx_bucket t) ++ map ex_hash (tx_fees t)) /\
  Forall hash64 (map ad_hash (opt_list (tx_address t)) ++ opt_list (tx_bucket t) ++ map ex_hash (tx_fees t)).
Proof.
  intros t (now & a & b & fs & created & Ha & Hb & Hf & H). apply transaction_now_iff in H as (_ & ->).
  unfold tx_hash, transaction_text, from_multi. cbn [tx_im im_hash tx_address tx_bucket tx_fees].
  rewrite opt_bytes_concat, !concat_app. repeat split.
  - destruct a; cbn; [rewrite app_nil_r|]; reflexivity.
  - destruct a; cbn; [rewrite app_nil_r|]; reflexivity.
  - apply Forall_app. split; [destruct a; constructor; auto|]. apply Forall_app.
    split; [destruct b; constructor; auto|]. apply Forall_map. exact Hf.
Qed.
Lemma transaction_hash64 : forall t : transaction, built_transaction t -> hash64 (tx_hash t).
Proof. intros c H. apply built_transaction_hash in H as (-> & _). apply from_bytes_length. Qed.
Lemma transaction_hash_ambiguous : forall now a (fees : list expense) created,
  exists t1 t2, transaction_now now (Some a) None fees created = Ok t1 /\
    transaction_now now None (Some (ad_hash a)) fees created = Ok t2 /\
    tx_hash t1 = tx_hash t2 /\ tx_address t1 <> tx_address t2 /\ tx_bucket t1 <> tx_bucket t2.
Proof.
  intros now a fees created. do 2 eexists. split; [|split].
  - apply transaction_now_iff. split; [left; discriminate|reflexivity].
  - apply transaction_now_iff. split; [right; left; discriminate|reflexivity].
  - split; [reflexivity|]. split; discriminate.
Qed.
Lemma transaction_hash_commits : forall t1 t2 : transaction, built_transaction t1 -> built_transaction t2 ->
  (tx_address t1 = None <-> tx_address t2 = None) -> (tx_bucket t1 = None <-> tx_bucket t2 = None) ->
  (transaction_parts t1 = 1 <-> transaction_parts t2 = 1) -> tx_hash t1 = tx_hash t2 ->
  (option_map ad_hash (tx_address t1) = option_map ad_hash (tx_address t2) /\
   tx_bucket t1 = tx_bucket t2 /\ map ex_hash (tx_fees t1) = map ex_hash (tx_fees t2)) \/
  sha_collision (transaction_text t1) (transaction_text t2).
Proof.
  intros t1 t2 B1 B2 S U P H. apply built_transaction_hash in B1 as (E1 & T1 & F1).
  apply built_transaction_hash in B2 as (E2 & T2 & F2).
  rewrite E1, E2, T1, T2 in H. rewrite T1, T2. unfold transaction_parts in P. apply parts_hash in H as [H|H]; auto.
  - left. apply app_inj_len in H as [H1 H2]; [|rewrite !map_length; apply opt_list_len; assumption].
    apply app_inj_len in H2 as [H2 H3]; [|apply opt_list_len; assumption].
    apply opt_list_inj in H2. repeat split; auto.
    destruct (tx_address t1), (tx_address t2); cbn in *; congruence.
  - rewrite !app_length, !map_length. lia.
Qed.

(** ** Blocks, links, chains, states *)
Ltac hash64_len := unfold hash64 in *; rewrite ?app_length; cbn [length]; lia.

Lemma built_block_hash : forall b : block, built_block b ->
  bk_hash b = from_bytes (block_text b) /\ hash64 (gn_hash (bk_genesis b)) /\ is_u64 (bk_additional b) /\
  Forall hash64 (map tx_hash (bk_trx b)) /\ bk_trx b <> [].
Proof.
  intros b (now & g & add & trx & created & Hg & Hu & Ht & H). apply block_now_iff in H as (g' & E & NE & ->).
  injection E as <-. unfold bk_hash, block_text, from_multi. cbn. repeat split; auto. apply Forall_map. exact Ht.
Qed.
Lemma block_hash64 : forall b : block, built_block b -> hash64 (bk_hash b).
Proof. intros b H. apply built_block_hash in H as (-> & _). apply from_bytes_length. Qed.
Lemma block_hash_commits : forall b1 b2 : block, built_block b1 -> built_block b2 -> bk_hash b1 = bk_hash b2 ->
  (gn_hash (bk_genesis b1) = gn_hash (bk_genesis b2) /\ bk_additional b1 = bk_additional b2 /\
   map tx_hash (bk_trx b1) = map tx_hash (bk_trx b2)) \/
  sha_collision (block_text b1) (block_text b2).
Proof.
  intros b1 b2 B1 B2 H. apply built_block_hash in B1 as (E1 & L1 & U1 & F1 & _).
  apply built_block_hash in B2 as (E2 & L2 & U2 & F2 & _).
  pose proof (dec_len _ U1) as D1. pose proof (dec_len _ U2) as D2.
  rewrite E1, E2 in H. unfold block_text in *. apply hash_commits in H as [H|H]; [|right; exact H|hash64_len|hash64_len].
  left. apply mid_inj in H; auto. congruence.
Qed.

Lemma mined_text_commits : forall h1 h2 m1 m2, hash64 h1 -> hash64 h2 ->
  from_bytes (h1 ++ m1) = from_bytes (h2 ++ m2) ->
  (h1 = h2 /\ m1 = m2) \/ hash_coincidence (h1 ++ m1) (h2 ++ m2).
Proof.
  intros h1 h2 m1 m2 L1 L2 H. apply from_bytes_inj in H as [H|H]; [|right; exact H].
  left. apply app_inj_len in H; auto. unfold hash64 in *. congruence.
Qed.
Lemma mined_text_collision : forall h1 h2 m1 m2, hash64 h1 -> hash64 h2 -> (m1 = [] <-> m2 = []) ->
  from_bytes (h1 ++ m1) = from_bytes (h2 ++ m2) ->
  (h1 = h2 /\ m1 = m2) \/ sha_collision (h1 ++ m1) (h2 ++ m2).
Proof.
  intros h1 h2 m1 m2 L1 L2 M H. unfold hash64 in *.
  destruct (FromBytes_inj_same (h1 ++ m1) (h2 ++ m2)) as [E|E].
  - rewrite !app_length, L1, L2. destruct m1, m2; cbn; try lia; split; intro; exfalso.
    + assert (X : b :: m2 = []) by (apply M; reflexivity). discriminate X.
    + assert (X : b :: m2 = []) by (apply M; reflexivity). discriminate X.
    + assert (X : b :: m1 = []) by (apply M; reflexivity). discriminate X.
    + assert (X : b :: m1 = []) by (apply M; reflexivity). discriminate X.
  - rewrite !FromBytes_ok. congruence.
  - left. apply app_inj_len in E; auto. congruence.
  - right. exact E.
Qed.

Lemma built_mined_block_hash : forall b : mined_block, built_mined_block b ->
  mb_hash b = from_bytes (mined_block_text b) /\ hash64 (bk_hash (mb_block b)).
Proof.
  intros b (now & bk & m & created & Hb & H). apply mined_block_now_iff in H as (b' & E & ->). injection E as <-.
  unfold mb_hash, mined_block_text, from_multi. cbn [mb_im im_hash mb_block mb_mining concat]. rewrite app_nil_r. auto.
Qed.
Lemma mined_block_hash64 : forall b : mined_block, built_mined_block b -> hash64 (mb_hash b).
Proof. intros b H. apply built_mined_block_hash in H as (-> & _). apply from_bytes_length. Qed.
Lemma mined_block_hash_commits : forall b1 b2 : mined_block, built_mined_block b1 -> built_mined_block b2 ->
  (mb_mining b1 = [] <-> mb_mining b2 = []) -> mb_hash b1 = mb_hash b2 ->
  (bk_hash (mb_block b1) = bk_hash (mb_block b2) /\ mb_mining b1 = mb_mining b2) \/
  sha_collision (mined_block_text b1) (mined_block_text b2).
Proof.
  intros b1 b2 B1 B2 M H. apply built_mined_block_hash in B1 as (E1 & L1). apply built_mined_block_hash in B2 as (E2 & L2).
  rewrite E1, E2 in H. apply mined_text_collision; auto.
Qed.
Lemma mined_block_hash_any : forall b1 b2 : mined_block, built_mined_block b1 -> built_mined_block b2 ->
  mb_hash b1 = mb_hash b2 ->
  (bk_hash (mb_block b1) = bk_hash (mb_block b2) /\ mb_mining b1 = mb_mining b2) \/
  hash_coincidence (mined_block_text b1) (mined_block_text b2).
Proof.
  intros b1 b2 B1 B2 H. apply built_mined_block_hash in B1 as (E1 & L1). apply built_mined_block_hash in B2 as (E2 & L2).
  rewrite E1, E2 in H. apply mined_text_commits; auto.
Qed.

Lemma built_link_hash : forall l : chain_link, built_link l ->
  ln_hash l = from_bytes (link_text l) /\ hash64 (ln_prev l) /\ hash64 (bk_hash (ln_next l)) /\ is_u64 (ln_index l).
Proof.
  intros l (now & p & n & i & created & Hp & Hn & Hu & H). apply link_now_iff in H as (p' & n' & E1 & E2 & ->).
  injection E1 as <-. injection E2 as <-. unfold ln_hash, link_text, from_multi.
  cbn [ln_im im_hash ln_prev ln_next ln_index concat]. rewrite app_nil_r. auto.
Qed.
Lemma link_hash64 : forall l : chain_link, built_link l -> hash64 (ln_hash l).
Proof. intros b H. apply built_link_hash in H as (-> & _). apply from_bytes_length. Qed.
Lemma link_hash_commits : forall l1 l2 : chain_link, built_link l1 -> built_link l2 -> ln_hash l1 = ln_hash l2 ->
  (ln_prev l1 = ln_prev l2 /\ bk_hash (ln_next l1) = bk_hash (ln_next l2) /\ ln_index l1 = ln_index l2) \/
  sha_collision (link_text l1) (link_text l2).
Proof.
  intros l1 l2 B1 B2 H. apply built_link_hash in B1 as (E1 & P1 & N1 & U1). apply built_link_hash in B2 as (E2 & P2 & N2 & U2).
  pose proof (dec_len _ U1) as D1. pose proof (dec_len _ U2) as D2. unfold link_text in *.
  rewrite E1, E2 in H. apply hash_commits in H as [H|H]; [|right; exact H|hash64_len|hash64_len].
  left. unfold hash64 in *. apply app_inj_len in H as [H1 H]; [|congruence]. apply app_inj_len in H as [H2 H3]; [|congruence].
  apply dec_inj in H3; auto.
Qed.

Lemma built_mined_link_hash : forall b : mined_link, built_mined_link b ->
  ml_hash b = from_bytes (mined_link_text b) /\ hash64 (ln_hash (ml_link b)).
Proof.
  intros b (now & bk & m & created & Hb & H). apply mined_link_now_iff in H as (b' & E & ->). injection E as <-.
  unfold ml_hash, mined_link_text, from_multi. cbn [ml_im im_hash ml_link ml_mining concat]. rewrite app_nil_r. auto.
Qed.
Lemma mined_link_hash64 : forall b : mined_link, built_mined_link b -> hash64 (ml_hash b).
Proof. intros b H. apply built_mined_link_hash in H as (-> & _). apply from_bytes_length. Qed.
Lemma mined_link_hash_commits : forall b1 b2 : mined_link, built_mined_link b1 -> built_mined_link b2 ->
  (ml_mining b1 = [] <-> ml_mining b2 = []) -> ml_hash b1 = ml_hash b2 ->
  (ln_hash (ml_link b1) = ln_hash (ml_link b2) /\ ml_mining b1 = ml_mining b2) \/
  sha_collision (mined_link_text b1) (mined_link_text b2).
Proof.
  intros b1 b2 B1 B2 M H. apply built_mined_link_hash in B1 as (E1 & L1). apply built_mined_link_hash in B2 as (E2 & L2).
  rewrite E1, E2 in H. apply mined_text_collision; auto.
Qed.
Lemma mined_link_hash_any : forall b1 b2 : mined_link, built_mined_link b1 -> built_mined_link b2 ->
  ml_hash b1 = ml_hash b2 ->
  (ln_hash (ml_link b1) = ln_hash (ml_link b2) /\ ml_mining b1 = ml_mining b2) \/
  hash_coincidence (mined_link_text b1) (mined_link_text b2).
Proof.
  intros b1 b2 B1 B2 H. apply built_mined_link_hash in B1 as (E1 & L1). apply built_mined_link_hash in B2 as (E2 & L2).
  rewrite E1, E2 in H. apply mined_text_commits; auto.
Qed.
(** an unmined object has the hash of what it wraps *)
Lemma empty_mining_hash : forall now (b : block) created m, hash64 (bk_hash b) ->
  mined_block_now now (Some b) [] created = Ok m -> mb_hash m = bk_hash b.
Proof.
  intros now b created m L H. apply mined_block_now_iff in H as (b' & E & ->). injection E as <-.
  unfold mb_hash, from_multi. cbn [mb_im im_hash concat app]. rewrite app_nil_r. apply from_bytes_64. exact L.
Qed.

Lemma built_chain_hash : forall c : chain, built_chain c ->
  ch_hash c = from_bytes (chain_text c) /\ hash64 (gn_hash (ch_genesis c)) /\ hash64 (mb_hash (ch_root c)) /\
  hash64 (ml_hash (ch_head c)) /\ is_u64 (ch_total c).
Proof.
  intros c (now & g & r & h & t & created & Hg & Hr & Hh & Hu & H).
  apply chain_now_iff in H as (g' & r' & h' & E1 & E2 & E3 & _ & ->).
  injection E1 as <-. injection E2 as <-. injection E3 as <-. unfold ch_hash, chain_text, from_multi.
  cbn [ch_im im_hash ch_genesis ch_root ch_head ch_total concat]. rewrite app_nil_r. auto.
Qed.
Lemma chain_hash_commits : forall c1 c2 : chain, built_chain c1 -> built_chain c2 -> ch_hash c1 = ch_hash c2 ->
  (gn_hash (ch_genesis c1) = gn_hash (ch_genesis c2) /\ mb_hash (ch_root c1) = mb_hash (ch_root c2) /\
   ml_hash (ch_head c1) = ml_hash (ch_head c2) /\ ch_total c1 = ch_total c2) \/
  sha_collision (chain_text c1) (chain_text c2).
Proof.
  intros c1 c2 B1 B2 H. apply built_chain_hash in B1 as (E1 & G1 & R1 & H1 & U1).
  apply built_chain_hash in B2 as (E2 & G2 & R2 & H2 & U2).
  pose proof (dec_len _ U1) as D1. pose proof (dec_len _ U2) as D2. unfold chain_text in *.
  rewrite E1, E2 in H. apply hash_commits in H as [H|H]; [|right; exact H|hash64_len|hash64_len].
  left. unfold hash64 in *. apply app_inj_len in H as [A1 H]; [|congruence].
  apply app_inj_len in H as [A2 H]; [|congruence]. apply app_inj_len in H as [A3 H]; [|congruence].
  apply dec_inj in H; auto.
Qed.

Lemma built_state_hash : forall s : state, built_state s ->
  st_hash s = from_bytes (state_text s) /\ hash64 (st_chain s) /\ hash64 (st_prev s) /\ is_u64 (st_height s) /\
  Forall hash64 (map tx_hash (st_trx s)).
Proof.
  intros s (now & c & p & h & trx & created & Hc & Hp & Hu & Ht & H).
  apply state_now_iff in H as (c' & p' & E1 & E2 & _ & _ & ->).
  injection E1 as <-. injection E2 as <-. unfold st_hash, state_text, from_multi. cbn. repeat split; auto.
  apply Forall_map. exact Ht.
Qed.
Lemma state_hash_commits : forall s1 s2 : state, built_state s1 -> built_state s2 -> st_hash s1 = st_hash s2 ->
  (st_chain s1 = st_chain s2 /\ st_prev s1 = st_prev s2 /\ st_height s1 = st_height s2 /\
   map tx_hash (st_trx s1) = map tx_hash (st_trx s2)) \/
  sha_collision (state_text s1) (state_text s2).
Proof.
  intros s1 s2 B1 B2 H. apply built_state_hash in B1 as (E1 & C1 & P1 & U1 & F1).
  apply built_state_hash in B2 as (E2 & C2 & P2 & U2 & F2).
  pose proof (dec_len _ U1) as D1. pose proof (dec_len _ U2) as D2. unfold state_text in *.
  rewrite E1, E2 in H. apply hash_commits in H as [H|H]; [|right; exact H|hash64_len|hash64_len].
  left. unfold hash64 in C1, C2, P1, P2. apply app_inj_len in H as [A1 H]; [|congruence].
  apply mid_inj in H as (A2 & A3 & A4); auto. congruence.
Qed.
End Objects.

(** ** Genesis *)
Definition numch (b : byte) : Prop := is_digit b \/ b = x2d.

Lemma first_non : forall (P : byte -> Prop) a1 a2 c1 c2 r1 r2, Forall P a1 -> Forall P a2 -> ~ P c1 -> ~ P c2 ->
  a1 ++ c1 :: r1 = a2 ++ c2 :: r2 -> a1 = a2 /\ c1 = c2 /\ r1 = r2.
Proof.
  intros P. induction a1 as [|x a1 IH]; intros [|y a2] c1 c2 r1 r2 F1 F2 N1 N2 E; cbn in E; injection E as E1 E2.
  - auto.
  - exfalso. subst. inversion F2; contradiction.
  - exfalso. subst. inversion F1; contradiction.
  - inversion F1; inversion F2; subst. destruct (IH a2 c1 c2 r1 r2) as (-> & -> & ->); auto.
Qed.

Lemma pad12_len : forall n, (0 <= n < 10 ^ 12)%Z -> length (pad_left 12 (itoa n)) = 12.
Proof.
  intros n H. unfold pad_left. rewrite app_length, repeat_length.
  assert (L : length (itoa n) <= 12); [|lia].
  unfold itoa. destruct n as [|p|p]; cbn [Z.to_int]; [cbn; lia| |lia].
  rewrite uint_bytes_length. apply pos_to_uint_len. change (10 ^ N.of_nat 12)%N with 1000000000000%N.
  change (10 ^ 12)%Z with 1000000000000%Z in H. lia.
Qed.

(** the part of a number's text behind its first character that is neither a digit
    nor a minus has a length that depends on that character only *)
Definition tail_len (c : byte) : nat := if beq c x2e then 12 else if beq c x4e then 2 else 3.
Lemma format_shape : forall x, f_le_zero x = false ->
  exists a c r, format_f12 x = a ++ c :: r /\ Forall numch a /\ ~ numch c /\ length r = tail_len c.
Proof.
  intros [s|s| |s m e] H.
  - destruct s; discriminate.
  - destruct s; [discriminate|]. exists [], x2b, (s2b "Inf"). repeat split; [constructor|].
    unfold numch, is_digit, b2n. cbn. intros [X|X]; [lia|discriminate].
  - exists [], x4e, (s2b "aN"). repeat split; [constructor|].
    unfold numch, is_digit, b2n. cbn. intros [X|X]; [lia|discriminate].
  - destruct s; [discriminate|]. cbn [format_f12 app]. unfold fixed12.
    exists (itoa (scaled12 m e / 10 ^ 12)), x2e, (pad_left 12 (itoa (scaled12 m e mod 10 ^ 12))).
    split; [reflexivity|]. split; [apply itoa_chars|]. split.
    + unfold numch, is_digit, b2n. cbn. intros [X|X]; [lia|discriminate].
    + apply pad12_len. apply Z.mod_pos_bound. reflexivity.
Qed.

Lemma built_genesis_hash : forall g, built_genesis g ->
  gn_hash g = from_bytes (genesis_text g) /\ is_u64 (gn_base g) /\ is_u64 (gn_link g) /\
  hash64 (bl_hash (gn_bill g)) /\ f_le_zero (gn_increase g) = false.
Proof.
  intros g (now & base & inc & lnk & b & created & Ub & Ul & Hb & H).
  apply genesis_now_iff in H as (b' & E & _ & F & _ & ->). injection E as <-.
  unfold gn_hash, genesis_text, from_multi. cbn [gn_im im_hash gn_base gn_increase gn_link gn_bill concat].
  rewrite app_nil_r. auto.
Qed.
Lemma genesis_hash64 : forall g, built_genesis g -> hash64 (gn_hash g).
Proof. intros c H. apply built_genesis_hash in H as (-> & _). apply from_bytes_length. Qed.

Lemma genesis_hash_commits : forall g1 g2, built_genesis g1 -> built_genesis g2 -> gn_hash g1 = gn_hash g2 ->
  (bl_hash (gn_bill g1) = bl_hash (gn_bill g2) /\ gn_link g1 = gn_link g2 /\
   dec (gn_base g1) ++ format_f12 (gn_increase g1) = dec (gn_base g2) ++ format_f12 (gn_increase g2) /\
   (length (dec (gn_base g1)) = length (dec (gn_base g2)) ->
    gn_base g1 = gn_base g2 /\ format_f12 (gn_increase g1) = format_f12 (gn_increase g2))) \/
  sha_collision (genesis_text g1) (genesis_text g2).
Proof.
  intros g1 g2 B1 B2 H. apply built_genesis_hash in B1 as (E1 & U1 & V1 & L1 & F1).
  apply built_genesis_hash in B2 as (E2 & U2 & V2 & L2 & F2).
  pose proof (dec_len _ U1) as D1. pose proof (dec_len _ U2) as D2. unfold hash64 in *.
  rewrite E1, E2 in H. unfold genesis_text in *.
  apply hash_commits in H as [H|H]; [|right; exact H|rewrite !app_length; lia|rewrite !app_length; lia].
  left. destruct (format_shape _ F1) as (a1 & c1 & r1 & S1 & N1 & C1 & R1).
  destruct (format_shape _ F2) as (a2 & c2 & r2 & S2 & N2 & C2 & R2).
  rewrite S1, S2 in H. rewrite <- !app_assoc in H. cbn [app] in H. rewrite !(app_assoc (dec _) _ (_ :: _)) in H.
  apply (first_non numch) in H as (A & -> & B); auto;
    [|apply Forall_app; split; [apply itoa_chars|assumption]|apply Forall_app; split; [apply itoa_chars|assumption]].
  apply app_inj_len in B as [-> B]; [|congruence]. apply app_inj_len_r in B as [B ->]; [|congruence].
  apply dec_inj in B; auto. split; [reflexivity|]. split; [exact B|].
  rewrite S1, S2, !app_assoc, A. split; [reflexivity|]. intro L. apply app_inj_len in A as [A ->]; [|exact L].
  apply dec_inj in A; auto.
Qed.

Lemma genesis_same_text : forall now b lnk created base1 base2 inc1 inc2,
  (0 < base1)%N -> (0 < base2)%N -> f_le_zero inc1 = false -> f_le_zero inc2 = false -> (0 < lnk)%N ->
  dec base1 ++ format_f12 inc1 = dec base2 ++ format_f12 inc2 ->
  exists g1 g2, genesis_now now base1 inc1 lnk (Some b) created = Ok g1 /\
    genesis_now now base2 inc2 lnk (Some b) created = Ok g2 /\ gn_hash g1 = gn_hash g2 /\
    gn_base g1 = base1 /\ gn_base g2 = base2 /\ gn_increase g1 = inc1 /\ gn_increase g2 = inc2.
Proof.
  intros now b lnk created base1 base2 inc1 inc2 B1 B2 I1 I2 L E. do 2 eexists. split; [|split].
  - apply genesis_now_iff. exists b. repeat split; auto.
  - apply genesis_now_iff. exists b. repeat split; auto.
  - repeat split. unfold gn_hash, from_multi. cbn [gn_im im_hash concat]. f_equal. fold (dec base1). fold (dec base2).
    rewrite !(app_assoc (dec _)), E. reflexivity.
Qed.
