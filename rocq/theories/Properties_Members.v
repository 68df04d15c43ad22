(** C106: what the documents of the piastres objects are read as. *)
From Coq Require Import Lia ZifyBool ZifyNat ZifyN.
From Verif Require Import Base JsonModel MemJsonModel MemberSpec MemberProofs GrammarSpec CalendarSpec DocumentSpec DocumentProofs.

(** ** C106: json.Unmarshal fills the struct with what the document says *)
Theorem C106_lock : forall s x, unmarshal d_lock s = Ok x <-> exists j, document s j /\ says_lock [j] x.
Proof. exact (fun s x => unmarshal_iff _ _ _ s x lock_decodes). Qed.
Print Assumptions C106_lock.
Theorem C106_bill : forall s x, unmarshal d_bill s = Ok x <-> exists j, document s j /\ says_bill [j] x.
Proof. exact (fun s x => unmarshal_iff _ _ _ s x bill_decodes). Qed.
Print Assumptions C106_bill.
Theorem C106_content : forall s x, unmarshal d_content s = Ok x <-> exists j, document s j /\ says_content [j] x.
Proof. exact (fun s x => unmarshal_iff _ _ _ s x content_decodes). Qed.
Print Assumptions C106_content.
Theorem C106_expense : forall s x, unmarshal d_expense s = Ok x <-> exists j, document s j /\ says_expense [j] x.
Proof. exact (fun s x => unmarshal_iff _ _ _ s x expense_decodes). Qed.
Print Assumptions C106_expense.
Theorem C106_address : forall s x, unmarshal d_address s = Ok x <-> exists j, document s j /\ says_address [j] x.
Proof. exact (fun s x => unmarshal_iff _ _ _ s x address_decodes). Qed.
Print Assumptions C106_address.
Theorem C106_transaction : forall s x, unmarshal d_trx s = Ok x <-> exists j, document s j /\ says_transaction [j] x.
Proof. exact (fun s x => unmarshal_iff _ _ _ s x trx_decodes). Qed.
Print Assumptions C106_transaction.
Theorem C106_genesis : forall s x, unmarshal d_genesis s = Ok x <-> exists j, document s j /\ says_genesis [j] x.
Proof. exact (fun s x => unmarshal_iff _ _ _ s x genesis_decodes). Qed.
Print Assumptions C106_genesis.
Theorem C106_block : forall s x, unmarshal d_block s = Ok x <-> exists j, document s j /\ says_block [j] x.
Proof. exact (fun s x => unmarshal_iff _ _ _ s x block_decodes). Qed.
Print Assumptions C106_block.
Theorem C106_link : forall s x, unmarshal d_link s = Ok x <-> exists j, document s j /\ says_link [j] x.
Proof. exact (fun s x => unmarshal_iff _ _ _ s x link_decodes). Qed.
Print Assumptions C106_link.
Theorem C106_mined_link : forall s x, unmarshal d_mlink s = Ok x <-> exists j, document s j /\ says_mined_link [j] x.
Proof. exact (fun s x => unmarshal_iff _ _ _ s x mlink_decodes). Qed.
Print Assumptions C106_mined_link.

(** A bill whose lock is given in two parts, the second under a name with the Kelvin sign, with
    key lists that are laid over each other, and with three amounts; a null between the two
    parts of the lock drops the first. *)
Definition two_locks (between : string) : bytes :=
  s2b "{""LOCK"":{""pubkeys"":[""a"",""b""],""PubKeys"":[null,""c"",""d""]},""amount"":5,""Amount"":7,""amount"":null," ++ s2b between ++
  s2b """loc" ++ [xe2; x84; xaa] ++ s2b """:{""pubkeys"":[""e"",null],""created_on"":""1970-01-01T00:00:02Z""},""created_on"":""1970-01-01T00:00:01Z""}".
Example C106_case :
  (exists j, document (two_locks "") j /\ says_bill [j] (JBill (Some (JLock [s2b "e"; s2b "c"] (2 * 10 ^ 9))) 7 (10 ^ 9))) /\
  (exists j, document (two_locks """lock"":null,") j /\ says_bill [j] (JBill (Some (JLock [s2b "e"; []] (2 * 10 ^ 9))) 7 (10 ^ 9))) /\
  (forall x, ~ exists j, document (two_locks """amount"":-1,") j /\ says_bill [j] x).
Proof.
  split; [apply C106_bill; vm_compute; reflexivity|]. split; [apply C106_bill; vm_compute; reflexivity|].
  intros x H. apply C106_bill in H. revert H. set (r := unmarshal _ _). vm_compute in r. subst r. discriminate.
Qed.
