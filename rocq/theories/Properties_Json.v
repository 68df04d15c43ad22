(** Properties C53-C55: JSON forms of the piastres objects. *)
From Coq Require Import SpecFloat.
From Verif Require Import Base BaseFacts Sha512 HashModel HashProofs EntitiesModel SignModel SignSpec ToyCurve SignProofs
  FloatModel PiastresModel PiastresSpec PiastresProofs Properties_Piastres JsonModel JsonProofs TimeModel FloatText
  MemJsonModel CodecProofs MemSpec MemJsonProofs JsonMore JsonFixtures.

(** ** C53 *)
(** Every object made by the builders all the way down, with times in the years 0
    to 9999, has a text, and the text decodes to the object itself. *)
Theorem C53_lock : forall l, good_lock l -> dated_lock l ->
  exists s, lock_to_text l = Ok s /\ lock_of_text s = Ok l.
Proof. exact (text_round _ _ _ _ _ (fun l D => marshal_yes _ _ _ (e_lock_yes l D)) lock_text_back). Qed.
Print Assumptions C53_lock.
Theorem C53_bill : forall b, good_bill b -> dated_bill b ->
  exists s, bill_to_text b = Ok s /\ bill_of_text s = Ok b.
Proof. exact (text_round _ _ _ _ _ (fun l D => marshal_yes _ _ _ (e_bill_yes l D)) bill_text_back). Qed.
Print Assumptions C53_bill.
Theorem C53_content : forall c, good_content c -> dated_content c ->
  exists s, content_to_text c = Ok s /\ content_of_text s = Ok c.
Proof. exact (text_round _ _ _ _ _ (fun l D => marshal_yes _ _ _ (e_content_yes l D)) content_text_back). Qed.
Print Assumptions C53_content.
Theorem C53_address : forall a, good_address a -> dated_address a ->
  exists s, address_to_text a = Ok s /\ address_of_text s = Ok a.
Proof. exact (text_round _ _ _ _ _ (fun l D => marshal_yes _ _ _ (e_address_yes l D)) address_text_back). Qed.
Print Assumptions C53_address.
Theorem C53_genesis : forall g, good_genesis g -> dated_genesis g ->
  exists s, genesis_to_text g = Ok s /\ genesis_of_text s = Ok g.
Proof. exact (text_round _ _ _ _ _ (fun l D => marshal_yes _ _ _ (e_genesis_yes l D)) genesis_text_back). Qed.
Print Assumptions C53_genesis.
(** signatures as RingSign makes them are [readable]: C16_ring_text, C16_ring_sign_reduced *)
Theorem C53_expense : forall (C : Curve) (e : @expense C), good_expense readable e -> dated_expense e ->
  exists s, expense_to_text e = Ok s /\ expense_of_text s = Ok e.
Proof. exact (fun C => text_round _ _ _ _ _ (fun l D => marshal_yes _ _ _ (@e_expense_yes C l D)) (@expense_text_back C)). Qed.
Print Assumptions C53_expense.
Theorem C53_transaction : forall (C : Curve) (t : @transaction C), good_trx readable t -> dated_trx t ->
  exists s, trx_to_text t = Ok s /\ trx_of_text s = Ok t.
Proof. exact (fun C => text_round _ _ _ _ _ (fun l D => marshal_yes _ _ _ (@e_trx_yes C l D)) (@trx_text_back C)). Qed.
Print Assumptions C53_transaction.
Theorem C53_block : forall (C : Curve) (b : @block C), good_block readable b -> dated_block b ->
  exists s, block_to_text b = Ok s /\ block_of_text s = Ok b.
Proof. exact (fun C => text_round _ _ _ _ _ (fun l D => marshal_yes _ _ _ (@e_block_yes C l D)) (@block_text_back C)). Qed.
Print Assumptions C53_block.
Theorem C53_link : forall (C : Curve) (l : @chain_link C), good_link readable l -> dated_link l ->
  exists s, link_to_text l = Ok s /\ link_of_text s = Ok l.
Proof. exact (fun C => text_round _ _ _ _ _ (fun l D => marshal_yes _ _ _ (@e_link_yes C l D)) (@link_text_back C)). Qed.
Print Assumptions C53_link.
Theorem C53_mined_link_partial : forall (C : Curve) (l : @mined_link C), good_mined_link readable unicode l -> dated_mined_link l ->
  exists s, mlink_to_text l = Ok s /\ mlink_of_text s = Ok l.
Proof. exact (fun C => text_round _ _ _ _ _ (fun l D => marshal_yes _ _ _ (@e_mlink_yes C l D)) (@mlink_text_back C)). Qed.
Print Assumptions C53_mined_link_partial.
(** Encode and Decode of the mined link adapter; missing: other mining texts *)
Theorem C53_encode_partial : forall (C : Curve) (l : @mined_link C), good_mined_link readable unicode l -> dated_mined_link l ->
  exists t, encode_mlink l = Ok t /\ decode_mlink t = Ok (Some l).
Proof.
  exact (fun C l G D => match marshal_yes _ _ _ (e_mlink_yes l D) with ex_intro _ s E => mlink_encode_back l s G E end).
Qed.
Print Assumptions C53_encode_partial.
(** A mining text that is not Unicode comes back as another one, without an error. *)
Theorem C53_refuted_not_unicode : forall (C : Curve) (l : @mined_link C), good_mined_link readable any l -> dated_mined_link l ->
  ~ unicode (ml_mining l) ->
  exists t l', encode_mlink l = Ok t /\ decode_mlink t = Ok (Some l') /\ ml_mining l' <> ml_mining l.
Proof. exact @mlink_not_unicode. Qed.
Print Assumptions C53_refuted_not_unicode.
(** A lock outside those years has no text: Marshal reports an error. *)
Theorem C53_times : forall l, (exists s, lock_to_text l = Ok s) <-> dated_lock l.
Proof. exact lock_text_iff. Qed.
Print Assumptions C53_times.

Example C53_case : exists l t, toy_mlink = Ok l /\ good_mined_link readable unicode l /\ dated_mined_link l /\
  encode_mlink l = Ok t /\ decode_mlink t = Ok (Some l).
Proof.
  destruct (is_ok_ex _ toy_mlink) as [l E]; [vm_compute; reflexivity|]. destruct (toy_mlink_good l E) as [G D].
  destruct (C53_encode_partial _ l G D) as (t & T1 & T2). exists l, t. auto.
Qed.
(** mining texts: e with acute accent, the line separator U+2028 and a character of four bytes; a
    lone byte of Latin-1 *)
Definition with_mining (m : bytes) : res (@mined_link toy) := rget toy_mlink (fun l => mined_link_now 0 (Some (ml_link l)) m (Some 7%Z)).
Definition back_mining (m : bytes) : res bytes :=
  rget (with_mining m) (fun l => rget (encode_mlink l) (fun t => rget (decode_mlink (C := toy) t) (fun o => match o with Some l' => Ok (ml_mining l') | None => Err end))).
Example C53_case_unicode :
  let m := [x35; xc3; xa9; xe2; x80; xa8; xf0; x9f; x98; x80] in
  unicode m /\ back_mining m = Ok m /\ ~ unicode [x35; xe9] /\ back_mining [x35; xe9] = Ok [x35; xef; xbf; xbd].
Proof.
  intro m. split; [apply UnicodeProofs.clean_iff; vm_compute; reflexivity|]. split; [vm_compute; reflexivity|].
  split; [|vm_compute; reflexivity]. intro U. apply UnicodeProofs.clean_iff in U. vm_compute in U. discriminate U.
Qed.
Example C53_case_text :
  rget toy_genesis genesis_to_text = rget (toy_bill 5 100) (fun b => rget (toy_lock 5) (fun l =>
    Ok (s2b "{""bill"":{""lock"":{""pubkeys"":[""" ++ hash_string (nth 0 (lk_keys l) []) ++ s2b """,""" ++
        hash_string (nth 1 (lk_keys l) []) ++
        s2b """],""created_on"":""1970-01-01T00:00:00Z""},""amount"":100,""created_on"":""1970-01-01T00:00:00Z""}," ++
        s2b """link_difficulty"":2,""block_difficulty_base"":3,""block_difficulty_increase_per_transaction"":0.5," ++
        s2b """created_on"":""1970-01-01T00:00:00Z""}"))).
Proof. vm_compute. reflexivity. Qed.

(** ** C27: the digits of the increase *)
(** The increase m * 2^e enters the genesis hash as the nearest multiple of 10^-12, the even
    one of two. *)
Theorem C27_increase_text : forall m e, exists i f t,
  format_f12 (S754_finite false m e) = ntoa i ++ [x2e] ++ t /\ length t = 12 /\ digits_val 0 t = Some f /\
  nearest (Z.of_N (i * 10 ^ 12 + f)) (Z.pos m * 2 ^ Z.max e 0 * 10 ^ 12) (2 ^ Z.max (- e) 0).
Proof. exact printed_nearest. Qed.
Print Assumptions C27_increase_text.
(** the other values; of these the builder lets NaN and +Inf through *)
Theorem C27_increase_text_special :
  (forall s, format_f12 (S754_zero s) = (if s then s2b "-" else []) ++ s2b "0.000000000000") /\
  (forall m e, format_f12 (S754_finite true m e) = s2b "-" ++ format_f12 (S754_finite false m e)) /\
  format_f12 S754_nan = s2b "NaN" /\
  (forall s, format_f12 (S754_infinity s) = (if s then s2b "-" else s2b "+") ++ s2b "Inf").
Proof. repeat split; intros; try destruct s; reflexivity. Qed.
Print Assumptions C27_increase_text_special.
(** 1 + 2^-13 = 1.0001220703125 (13 digits, a tie) and 0.1 *)
Example C27_case_text :
  format_f12 (S754_finite false 8193 (-13)) = s2b "1.000122070312" /\ nearest 1000122070312 (8193 * 10 ^ 12) (2 ^ 13) /\
  format_f12 (S754_finite false 3602879701896397 (-55)) = s2b "0.100000000000".
Proof. split; [vm_compute; reflexivity|]. split; [split; [vm_compute; congruence|intros _; vm_compute; reflexivity]|vm_compute; reflexivity]. Qed.

(** ** C54 *)
(** Whatever document is decoded, the object returned comes from the builders, all the
    way down: [good_X] says so (C17, C21, C23 ... say what that means). *)
Theorem C54_lock : forall s l, lock_of_text s = Ok l -> good_lock l.
Proof. exact lock_of_text_good. Qed.
Print Assumptions C54_lock.
Theorem C54_bill : forall s b, bill_of_text s = Ok b -> good_bill b.
Proof. exact bill_of_text_good. Qed.
Print Assumptions C54_bill.
Theorem C54_content : forall s c, content_of_text s = Ok c -> good_content c.
Proof. exact content_of_text_good. Qed.
Print Assumptions C54_content.
Theorem C54_address : forall s a, address_of_text s = Ok a -> good_address a.
Proof. exact address_of_text_good. Qed.
Print Assumptions C54_address.
Theorem C54_genesis : forall s g, genesis_of_text s = Ok g -> good_genesis g.
Proof. exact genesis_of_text_good. Qed.
Print Assumptions C54_genesis.
Theorem C54_expense : forall (C : Curve) s (e : @expense C), expense_of_text s = Ok e -> good_expense any_sig e.
Proof. exact @expense_of_text_good. Qed.
Print Assumptions C54_expense.
Theorem C54_expense_signed : forall (C : Curve) s (e : @expense C), expense_of_text s = Ok e ->
  Forall2 (fun b sig => same_keys (bl_lock b) sig /\ ring_verify C sig (hash_string (lk_hash (bl_lock b))) = Ok true)
    (ct_from (ex_content e)) (ex_sigs e).
Proof. exact @expense_of_text_signed. Qed.
Print Assumptions C54_expense_signed.
Theorem C54_transaction : forall (C : Curve) s (t : @transaction C), trx_of_text s = Ok t -> good_trx any_sig t.
Proof. exact @trx_of_text_good. Qed.
Print Assumptions C54_transaction.
Theorem C54_block : forall (C : Curve) s (b : @block C), block_of_text s = Ok b -> good_block any_sig b.
Proof. exact @block_of_text_good. Qed.
Print Assumptions C54_block.
Theorem C54_link : forall (C : Curve) s (l : @chain_link C), link_of_text s = Ok l -> good_link any_sig l.
Proof. exact @link_of_text_good. Qed.
Print Assumptions C54_link.
(** Decode of a mined link reports success, with an empty link, for everything that is
    no JSON text. *)
Theorem C54_refuted : forall (C : Curve) b, jparse b = None -> @decode_mlink C (b64_encode b) = Ok None.
Proof. exact garbage_decodes_all. Qed.
Print Assumptions C54_refuted.
(** missing: links returned empty *)
Theorem C54_mined_link_partial : forall (C : Curve) s (l : @mined_link C), decode_mlink s = Ok (Some l) ->
  good_mined_link any_sig unicode l.
Proof. exact @decoded_mining. Qed.
Print Assumptions C54_mined_link_partial.
(** A document followed by anything but white space is refused. *)
Theorem C54_behind_lock : forall l s t, good_lock l -> lock_to_text l = Ok s -> ~ blank t -> lock_of_text (s ++ t) = Err.
Proof. exact lock_behind. Qed.
Print Assumptions C54_behind_lock.
Theorem C54_behind_bill : forall b s t, good_bill b -> bill_to_text b = Ok s -> ~ blank t -> bill_of_text (s ++ t) = Err.
Proof. exact bill_behind. Qed.
Print Assumptions C54_behind_bill.
Theorem C54_behind_address : forall a s t, good_address a -> address_to_text a = Ok s -> ~ blank t -> address_of_text (s ++ t) = Err.
Proof. exact address_behind. Qed.
Print Assumptions C54_behind_address.
Theorem C54_behind_genesis : forall g s t, good_genesis g -> genesis_to_text g = Ok s -> ~ blank t -> genesis_of_text (s ++ t) = Err.
Proof. exact genesis_behind. Qed.
Print Assumptions C54_behind_genesis.
Theorem C54_behind_expense : forall (C : Curve) (e : @expense C) s t, good_expense readable e -> expense_to_text e = Ok s -> ~ blank t ->
  expense_of_text (C := C) (s ++ t) = Err.
Proof. exact @expense_behind. Qed.
Print Assumptions C54_behind_expense.
Theorem C54_behind_transaction : forall (C : Curve) (x : @transaction C) s t, good_trx readable x -> trx_to_text x = Ok s -> ~ blank t ->
  trx_of_text (C := C) (s ++ t) = Err.
Proof. exact @trx_behind. Qed.
Print Assumptions C54_behind_transaction.
Theorem C54_behind_block : forall (C : Curve) (b : @block C) s t, good_block readable b -> block_to_text b = Ok s -> ~ blank t ->
  block_of_text (C := C) (s ++ t) = Err.
Proof. exact @block_behind. Qed.
Print Assumptions C54_behind_block.
Theorem C54_behind_link : forall (C : Curve) (l : @chain_link C) s t, good_link readable l -> link_to_text l = Ok s -> ~ blank t ->
  link_of_text (C := C) (s ++ t) = Err.
Proof. exact @link_behind. Qed.
Print Assumptions C54_behind_link.
Example C54_case_behind :
  ~ blank (s2b " {}") /\
  rget toy_genesis (fun g => rget (genesis_to_text g) (fun s => rget (genesis_of_text (s ++ [x20; x0a])) (fun _ => Ok true))) = Ok true /\
  rget toy_genesis (fun g => rget (genesis_to_text g) (fun s => rget (genesis_of_text (s ++ s2b " {}")) (fun _ => Ok true))) = Err.
Proof.
  split; [intro B; apply blank_skip_ws in B; vm_compute in B; discriminate B|]. split; vm_compute; reflexivity.
Qed.
(** a torn text decodes to the empty link; a bill of amount 0 is refused *)
Example C54_case :
  jparse (s2b "{""link"":") = None /\
  is_ok (lock_of_text (s2b "{""pubkeys"":[""6162""],""created_on"":""2020-01-01T00:00:00Z""}")) = true /\
  lock_of_text (s2b "{""pubkeys"":[""6162"",""6162""],""created_on"":""2020-01-01T00:00:00Z""}") = Err /\
  is_ok (bill_of_text (s2b "{""lock"":{""pubkeys"":[""6162""]},""amount"":7}")) = true /\
  bill_of_text (s2b "{""lock"":{""pubkeys"":[""6162""]},""amount"":0}") = Err /\
  rget toy_fee (fun e => rget (expense_to_text e) (fun s => rget (@expense_of_text toy s) (fun e' => Ok (length (ex_sigs e'))))) = Ok 1.
Proof. repeat split; vm_compute; reflexivity. Qed.

(** ** C55 *)
(** A bill document without a lock crashes the decoder, *)
Theorem C55_refuted_missing_part : forall s x, unmarshal d_bill s = Ok x -> jb_lock x = None -> bill_of_text s = Panic.
Proof. exact no_lock_panics. Qed.
Print Assumptions C55_refuted_missing_part.
(** and so does an expense whose signature lists the keys of the lock but fewer scalars
    (the text of every such signature is readable, C16_ring_text). *)
Theorem C55_refuted_short_signature : forall (C : Curve) jc c b (sig : ringsig C) s,
  of_jcontent jc = Ok c -> ct_from c = [b] -> ring_of_string C s = Ok sig ->
  same_keys (bl_lock b) sig -> length (rs_s sig) < length (rs_ring sig) ->
  of_jexpense (C := C) (JExpense (Some jc) [s]) = Panic.
Proof. exact @short_signature_panics. Qed.
Print Assumptions C55_refuted_short_signature.
(** missing: documents with missing parts or short signatures *)
Theorem C55_flat_partial : forall s, lock_of_text s <> Panic /\ address_of_text s <> Panic.
Proof. exact flat_no_panic. Qed.
Print Assumptions C55_flat_partial.
Theorem C55_bill_partial : forall s, (forall x, unmarshal d_bill s = Ok x -> full_bill x) -> bill_of_text s <> Panic.
Proof. exact bill_text_no_panic. Qed.
Print Assumptions C55_bill_partial.
Theorem C55_expense_partial : forall (C : Curve) s, (forall x, unmarshal d_expense s = Ok x -> full_expense (C := C) x) ->
  expense_of_text (C := C) s <> Panic.
Proof. exact @expense_text_no_panic. Qed.
Print Assumptions C55_expense_partial.
Theorem C55_mined_link_partial : forall (C : Curve) s, (forall x, unmarshal d_mlink s = Ok x -> full_mlink (C := C) x) ->
  mlink_of_text (C := C) s <> Panic.
Proof. exact @mlink_text_no_panic. Qed.
Print Assumptions C55_mined_link_partial.
Definition toy_short : res bool :=
  rget (toy_bill 5 100) (fun b => rget (toy_sig b 5) (fun s => rget (toy_lock 11) (fun lk =>
  rget (content_now 0 100 [b] (Some lk) None None) (fun c =>
  let s' := @RingSig toy (rs_ring s) (tl (rs_s s)) (rs_e s) in
  rget (marshal e_expense (JExpense (Some (js_content c)) [ring_string toy s'])) (fun t =>
  rget (@expense_of_text toy t) (fun _ => Ok true)))))).
Example C55_case :
  bill_of_text (s2b "{""amount"":7}") = Panic /\ bill_of_text (s2b "null") = Panic /\
  bill_of_text (s2b "{""lock"":null,""amount"":7}") = Panic /\ bill_of_text (s2b "{""lock"":{},""amount"":7}") = Err /\
  toy_short = Panic.
Proof. repeat split; vm_compute; reflexivity. Qed.
