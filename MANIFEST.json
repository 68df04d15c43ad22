{
 "claims": [
  {
   "property": "C01",
   "status": "proved",
   "theorems": [
    "C01_from_bytes_total",
    "C01_from_multi_total",
    "C01_string_roundtrip",
    "C01_string_shape",
    "C01_compare",
    "C01_string_injective",
    "C01_path_injective",
    "C01_path_exact"
   ],
   "note": "FromBytes/FromMultiBytes total with 64 bytes, text round trip and shape, Compare is equality, String and path forms injective."
  },
  {
   "property": "C02",
   "status": "partial",
   "theorems": [
    "C02_refuted",
    "C02_injective_partial",
    "C02_coincidences_partial"
   ],
   "note": "REFUTED: FromBytes keeps 64-byte inputs unhashed, so every input x collides with sha512 x (C02_refuted). C02_injective_partial: injective up to an explicit SHA-512 collision on inputs of length other than 64; C02_coincidences_partial lists all coincidences."
  },
  {
   "property": "C03",
   "status": "proved",
   "theorems": [
    "C03_build",
    "C03_empty_panics",
    "C03_builder",
    "C03_padding"
   ],
   "note": "Every non-empty block list builds a perfect tree with a power-of-two number of leaves, the blocks first and then padding; the empty list never returns (unbounded recursion). The padded length is computed in float64: C03_padding, for up to 2^40 blocks, assuming a bound on the error of math.Log and exact powers of two from math.Pow."
  },
  {
   "property": "C04",
   "status": "proved",
   "theorems": [
    "C04_rebuild",
    "C04_compact_json",
    "C04_tree_json"
   ],
   "note": "Compact form rebuilds the same tree, also through both JSON forms."
  },
  {
   "property": "C05",
   "status": "proved",
   "theorems": [
    "C05_head_commits"
   ],
   "note": "The head is the Merkle root of the leaves; equal heads of equal-shape trees give equal leaves or an explicit hash coincidence."
  },
  {
   "property": "C06",
   "status": "partial",
   "theorems": [
    "C06_padding_refuted",
    "C06_inner_refuted",
    "C06_same_length_partial"
   ],
   "note": "REFUTED: padding makes d and d++[[]] share a head, and inner nodes can be passed as blocks. C06_same_length_partial: lists of one length are identified up to an explicit coincidence."
  },
  {
   "property": "C07",
   "status": "partial",
   "theorems": [
    "C07_order_partial",
    "C07_order_refuted",
    "C07_order_sound"
   ],
   "note": "REFUTED for padded trees whose data contains the empty block. C07_order_partial: otherwise Order restores every permutation; C07_order_sound: output only consists of given data present in the tree."
  },
  {
   "property": "C08",
   "status": "partial",
   "theorems": [
    "C08_refuted",
    "C08_rebuilt_consistent_partial",
    "C08_rebuild_panics"
   ],
   "note": "REFUTED: a decoded tree may carry any head over any leaves. C08_rebuilt_consistent_partial: the compact route recomputes a consistent tree (and panics on a non-power-of-two, C08_rebuild_panics)."
  },
  {
   "property": "C09",
   "status": "proved",
   "theorems": [
    "C09_immutable",
    "C09_mutable"
   ],
   "note": ""
  },
  {
   "property": "C10",
   "status": "proved",
   "theorems": [
    "C10_roundtrip",
    "C10_text"
   ],
   "note": "For every block cipher and key derivation."
  },
  {
   "property": "C11",
   "status": "partial",
   "theorems": [
    "C11_refuted_cut_start",
    "C11_refuted_cut_end",
    "C11_refuted_byte",
    "C11_refuted_difference",
    "C11_refuted_paste",
    "C11_other_message_partial",
    "C11_refuted_never_rejects",
    "C11_refuted_wrong_password",
    "C11_refuted_malleable",
    "C11_bad_text_partial"
   ],
   "note": "REFUTED: success of Decrypt does not depend on the password; ciphertexts are malleable. C11_bad_text_partial: texts that are not base64 of at least 16 bytes are rejected without panic. C11_refuted_byte, C11_refuted_difference and C11_refuted_paste say exactly what changes of a text and pieces of two texts do to the message; C11_other_message_partial: with the same random bytes another cipher is another message."
  },
  {
   "property": "C12",
   "status": "proved",
   "theorems": [
    "C12_ed25519",
    "C12_ring_sign"
   ],
   "note": "For every curve meeting CurveLaws and every reduced private key; C12_ed25519 is the same for the modelled edwards25519, without assumptions."
  },
  {
   "property": "C13",
   "status": "proved",
   "theorems": [
    "C13_ed25519",
    "C13_sign_recovers"
   ],
   "note": "Challenges non-zero, as in the statement. C13_ed25519: no assumption on the curve."
  },
  {
   "property": "C14",
   "status": "partial",
   "theorems": [
    "C14_refuted_ed25519",
    "C14_refuted",
    "C14_created_partial"
   ],
   "note": "REFUTED: Verify accepts every scalar for every r (non-zero challenge). C14_created_partial: values returned by createSignature passed Verify. C14_refuted_ed25519: on the modelled curve, any r with a private key and any 32 byte scalar."
  },
  {
   "property": "C15",
   "status": "partial",
   "theorems": [
    "C15_one_message_ed25519_partial",
    "C15_refuted",
    "C15_one_message_partial",
    "C15_refuted_panics",
    "C15_to_verification"
   ],
   "note": "REFUTED: the empty ring verifies every message and is decodable; a short scalar list panics. C15_one_message_partial: a non-empty ring verifying two messages gives an explicit challenge collision. C15_to_verification characterises ToVerification. Unforgeability in the cryptographic sense is not stated."
  },
  {
   "property": "C16",
   "status": "proved",
   "theorems": [
    "C16_ed25519",
    "C16_signature_text",
    "C16_ring_text",
    "C16_ring_sign_reduced",
    "C16_key_text"
   ],
   "note": "Plain signatures with r a multiple of the base and non-zero challenge; ring signatures of any size with reduced scalars; everything RingSign makes is reduced. C16_ed25519: no assumption on the curve."
  },
  {
   "property": "C17",
   "status": "proved",
   "theorems": [
    "C17_lock_built",
    "C17_unlock"
   ],
   "note": "Exact characterisation of the lock builder and of Unlock. Key hashes of the ring are FromBytes of the key text, as in the code."
  },
  {
   "property": "C18",
   "status": "partial",
   "theorems": [
    "C18_refuted_ed25519",
    "C18_text_keys_ed25519_partial",
    "C18_refuted",
    "C18_text_keys_partial"
   ],
   "note": "REFUTED: a signature opening a lock made by the applications exhibits a key whose SHA-512 digest is the hex text of a key; the example shows a key whose lock nobody can open. Proved part: locks over the key texts are opened by any owner's ring signature."
  },
  {
   "property": "C19",
   "status": "partial",
   "theorems": [
    "C19_refuted",
    "C19_commits_partial"
   ],
   "note": "REFUTED: the one-key lock over the hash of any lock has the same hash. Proved part: pairs of locks that both have one key or both have several keys."
  },
  {
   "property": "C20",
   "status": "partial",
   "theorems": [
    "C20_bound_to_lock_ed25519_partial",
    "C20_refuted",
    "C20_refuted_any_content",
    "C20_bound_to_lock_partial"
   ],
   "note": "REFUTED: accepted signatures are accepted for every other content over the same bills, in particular for any recipient and amount. Proved part: a signature is bound to the hash of the lock it opens (or an explicit challenge collision)."
  },
  {
   "property": "C21",
   "status": "proved",
   "theorems": [
    "C21_conservation",
    "C21_accepts"
   ],
   "note": "Conservation modulo 2^64 and an exact characterisation of accepted inputs."
  },
  {
   "property": "C22",
   "status": "partial",
   "theorems": [
    "C22_refuted",
    "C22_distinct_partial"
   ],
   "note": "REFUTED: any openable bill listed twice pays twice its amount. Proved part: inputs with distinct hashes."
  },
  {
   "property": "C23",
   "status": "proved",
   "theorems": [
    "C23_one_signature_each",
    "C23_fields",
    "C23_missing"
   ],
   "note": ""
  },
  {
   "property": "C24",
   "status": "proved",
   "theorems": [
    "C24_bill",
    "C24_content"
   ],
   "note": "Contents: inputs summing below 2^64, as stated."
  },
  {
   "property": "C25",
   "status": "partial",
   "theorems": [
    "C25_refuted_address",
    "C25_refuted_transaction",
    "C25_address_partial",
    "C25_transaction_partial"
   ],
   "note": "REFUTED: sender/first recipient and address/bucket are interchangeable. Proved part: pairs with the same optional parts, both or neither with a single part."
  },
  {
   "property": "C26",
   "status": "proved",
   "theorems": [
    "C26_chunk",
    "C26_block",
    "C26_mined_block",
    "C26_mined_block_any",
    "C26_link",
    "C26_mined_link",
    "C26_mined_link_any",
    "C26_chain",
    "C26_state"
   ],
   "note": "Blocks, links, mined blocks, mined links, chains, states and chunks, each with an explicit collision as the alternative."
  },
  {
   "property": "C27",
   "status": "partial",
   "theorems": [
    "C27_increase_text",
    "C27_increase_text_special",
    "C27_refuted",
    "C27_refuted_rounding",
    "C27_commits_partial"
   ],
   "note": "REFUTED: base and increase are concatenated; increases are rounded to 12 places. Proved part: bill, link difficulty and the joint text are determined; base and printed increase when the bases have the same number of digits."
  },
  {
   "property": "C28",
   "status": "proved",
   "theorems": [
    "C28_disk_is_map",
    "C28_delete_all",
    "C28_save_succeeds",
    "C28_save_then_retrieve",
    "C28_delete_present",
    "C28_delete_missing",
    "C28_flat_names_distinct",
    "C28_hash_names_flat",
    "C28_test_store_is_map",
    "C28_test_delete_all",
    "C28_flat_names_total"
   ],
   "note": "Disk store over a tree-shaped file system refines a map of the observed successes, for arbitrary names; success conditions characterised; on one-component names equal to the test store."
  },
  {
   "property": "C29",
   "status": "proved",
   "theorems": [
    "C29_save_then_retrieve",
    "C29_delete",
    "C29_delete_all",
    "C29_encrypted_is_map"
   ],
   "note": ""
  },
  {
   "property": "C30",
   "status": "proved",
   "theorems": [
    "C30_determined",
    "C30_saved_is_retrieved",
    "C30_any_operations",
    "C30_single_key_lock_hides"
   ],
   "note": "Over all Save histories with denied and torn writes (mode Low), and for locks and bills over histories of every writing operation (C30_any_operations). The history's objects are determined by their hashes; C30_determined derives that from the absence of explicit hash coincidences between their texts. C30_single_key_lock_hides shows the single-key coincidence is real."
  },
  {
   "property": "C31",
   "status": "proved",
   "theorems": [
    "C31_save_again",
    "C31_twice"
   ],
   "note": "On every store whatsoever; C31_twice for a Save following a successful one."
  },
  {
   "property": "C32",
   "status": "proved",
   "theorems": [
    "C32_nothing_dangles",
    "C32_retrieve_never_crashes",
    "C32_repeat",
    "C32_repeat_genesis",
    "C32_block_needs_genesis"
   ],
   "note": "Faults: any write refused or torn at any byte, at any point of any Save of the history. C32_block_needs_genesis shows why the genesis must be there first."
  },
  {
   "property": "C33",
   "status": "partial",
   "theorems": [
    "C33_refuted",
    "C33_refuted_hash",
    "C33_refuted_address_only",
    "C33_without_address_partial"
   ],
   "note": "REFUTED: no store returns a transaction with an address, what comes back has another hash, an address-only transaction is not saved. C33_without_address_partial: transactions without address, over all histories with faults."
  },
  {
   "property": "C34",
   "status": "proved",
   "theorems": [
    "C34_blocks",
    "C34_mined_blocks",
    "C34_links",
    "C34_mined_links",
    "C34_genesis_of_store"
   ],
   "note": "Over all histories with faults in which the genesis is saved before blocks and links; order of transactions included."
  },
  {
   "property": "C35",
   "status": "proved",
   "theorems": [
    "C35_saved",
    "C35_never_changes",
    "C35_second_save"
   ],
   "note": "Over histories of every writing operation with faults."
  },
  {
   "property": "C36",
   "status": "partial",
   "theorems": [
    "C36_refuted",
    "C36_refuted_wrong_genesis",
    "C36_file_partial"
   ],
   "note": "REFUTED: after every successful Insert Retrieve fails, and a retrieved chain always has another genesis than the one its file names. C36_file_partial: the file that Insert writes is right; what it stores beneath (genesis, root, head) is covered by C34/C35."
  },
  {
   "property": "C37",
   "status": "partial",
   "theorems": [
    "C37_refuted",
    "C37_refuted_same",
    "C37_refuted_foreign",
    "C37_file_partial"
   ],
   "note": "REFUTED: comparisons inverted (C37_refuted, C37_refuted_same, C37_refuted_foreign). C37_file_partial: an accepted update has written the file of the second chain."
  },
  {
   "property": "C38",
   "status": "partial",
   "theorems": [
    "C38_refuted",
    "C38_refuted_error",
    "C38_refuted_paths",
    "C38_refuted_dot_slash",
    "C38_paths_partial"
   ],
   "note": "REFUTED: on every reachable store Save fails for every state and nothing is ever retrieved; surrogates and heights beyond U+10FFFF share one path, as do 46 and 47. C38_paths_partial: all other heights have their own path."
  },
  {
   "property": "C39",
   "status": "proved",
   "theorems": [
    "C39_first_solution",
    "C39_mined_block",
    "C39_mined_link",
    "C39_never_returns",
    "C39_huge_demands_nothing"
   ],
   "note": "Exact characterisation of mine for every base hash and difficulty."
  },
  {
   "property": "C40",
   "status": "partial",
   "theorems": [
    "C40_refuted_blocks",
    "C40_refuted_links",
    "C40_refuted_stored",
    "C40_checkable_partial"
   ],
   "note": "REFUTED: builders and stores accept any mining text; an empty one gives the mined object the hash of the unmined one. Positive: whether a mined block meets a difficulty is decided by its block hash and text."
  },
  {
   "property": "C41",
   "status": "partial",
   "theorems": [
    "C41_grows_partial",
    "C41_at_least_base_partial",
    "C41_without_transactions_partial",
    "C41_refuted",
    "C41_refuted_nan"
   ],
   "note": "REFUTED for bases above 2^53 (rounded down) and NaN increases. Positive: for bases up to 2^53 at least the base, and never decreasing, as long as the result fits in a uint."
  },
  {
   "property": "C42",
   "status": "partial",
   "theorems": [
    "C42_split_partial",
    "C42_determined_partial",
    "C42_refuted"
   ],
   "note": "REFUTED for files shorter than the chunk size. Positive for all longer files below 2^53 bytes, through the IEEE division and floor of the code; the record determines path and content."
  },
  {
   "property": "C43",
   "status": "partial",
   "theorems": [
    "C43_refuted",
    "C43_refuted_read",
    "C43_refuted_save_file",
    "C43_refuted_save_bucket",
    "C43_transfer_partial",
    "C43_refuted_crash",
    "C43_leaves_chunks_partial"
   ],
   "note": "REFUTED: nothing is ever retrieved, files and buckets are never saved, a saved chunk crashes its next use. C43_leaves_chunks_partial says what is left on disk, C43_refuted_read which files make Retrieve crash and which are refused."
  },
  {
   "property": "C44",
   "status": "partial",
   "theorems": [
    "C44_refuted",
    "C44_refuted_file",
    "C44_chunk_partial",
    "C44_chunk_faults_partial",
    "C44_data_partial"
   ],
   "note": "REFUTED: Delete of files and buckets panics and deletes nothing. C44_chunk_partial: Delete of a chunk is exact."
  },
  {
   "property": "C45",
   "status": "proved",
   "theorems": [
    "C45_addressed",
    "C45_saved"
   ],
   "note": "All histories of Save and Delete with failed and lost writes; torn writes are C62."
  },
  {
   "property": "C46",
   "status": "partial",
   "theorems": [
    "C46_refuted",
    "C46_refuted_transfer",
    "C46_refuted_transfer_crash",
    "C46_refuted_retrieve",
    "C46_name_partial"
   ],
   "note": "REFUTED for every input: with a statement an error, without one a nil dereference; hence no stored wallet is ever retrieved. C46_refuted_transfer_crash tells the two apart."
  },
  {
   "property": "C47",
   "status": "partial",
   "theorems": [
    "C47_from_url",
    "C47_refuted",
    "C47_lines_partial",
    "C47_read_lines",
    "C47_handed_partial",
    "C47_handed_back_partial",
    "C47_url_partial",
    "C47_refuted_port",
    "C47_string",
    "C47_collection",
    "C47_add",
    "C47_history",
    "C47_refuted_first"
   ],
   "note": "REFUTED for stored peers: Retrieve gives nil after every Save (C47_refuted), no first peer can be added (C47_refuted_first), a port from 2^63 on cannot be read again (C47_refuted_port). Proved: the saved lines are the URLs in order and are handed to the adapter so (C47_handed_partial), the URL of a peer on a plain host gives it back under an explicit contract for net/url, the collection has exactly the given peers once for every map order, additions keep everything."
  },
  {
   "property": "C48",
   "status": "partial",
   "theorems": [
    "C48_refuted",
    "C48_refuted_exchanged",
    "C48_equal_partial"
   ],
   "note": "REFUTED: Authenticate passes seed and password exchanged (C48_refuted, C48_refuted_exchanged). Proved: it works if the two are equal. Identity store: any with the laws of AppSpec.v."
  },
  {
   "property": "C49",
   "status": "partial",
   "theorems": [
    "C49_refuted_lost",
    "C49_refuted_unfindable",
    "C49_kept_partial",
    "C49_delete_partial"
   ],
   "note": "REFUTED: Update loses wallets, buckets and creation time, and a new name or seed makes the identity unfindable for the application. Proved: with name and seed unchanged it stays usable; Delete removes exactly it."
  },
  {
   "property": "C50",
   "status": "partial",
   "theorems": [
    "C50_refuted",
    "C50_refuted_exchanged",
    "C50_refuted_crash",
    "C50_once_partial"
   ],
   "note": "REFUTED: Init never succeeds with the repository's wallet builder; with any working one, password and seed are exchanged and a stop between the two writes leaves a wallet without genesis, a rerun a second one. Proved: an existing genesis is never replaced."
  },
  {
   "property": "C51",
   "status": "partial",
   "theorems": [
    "C51_refuted",
    "C51_refuted_rounds",
    "C51_ended_partial"
   ],
   "note": "REFUTED: Stop never changes what a started daemon does (C51_refuted, C51_refuted_rounds). Proved: a daemon that ended by itself does nothing any more."
  },
  {
   "property": "C52",
   "status": "partial",
   "theorems": [
    "C52_refuted_newest",
    "C52_refuted_stuck",
    "C52_refuted_once",
    "C52_chosen_partial",
    "C52_fetched_partial"
   ],
   "note": "REFUTED: the newest link is never asked for, the link at the local height is asked for again, the daemon ends after the first chain that was ahead. Proved: which chain is chosen (totals below 2^63) and exactly which links are taken, in order."
  },
  {
   "property": "C53",
   "status": "partial",
   "theorems": [
    "C53_lock",
    "C53_bill",
    "C53_content",
    "C53_address",
    "C53_genesis",
    "C53_expense",
    "C53_transaction",
    "C53_block",
    "C53_link",
    "C53_mined_link_partial",
    "C53_encode_partial",
    "C53_refuted_not_unicode",
    "C53_times"
   ],
   "note": "REFUTED for mined links whose mining text is not Unicode (C53_refuted_not_unicode: it comes back as another text without an error); the mining texts the miner makes are digits. Lossless otherwise for objects made by the builders all the way down with times in years 0-9999; C53_times shows the time condition is exact for locks. Signatures must be readable back, which C16 shows for reduced scalars. The genesis increase must have a float text (excludes NaN/Inf, which Marshal refuses)."
  },
  {
   "property": "C54",
   "status": "partial",
   "theorems": [
    "C54_lock",
    "C54_bill",
    "C54_content",
    "C54_address",
    "C54_genesis",
    "C54_expense",
    "C54_expense_signed",
    "C54_transaction",
    "C54_block",
    "C54_link",
    "C54_refuted",
    "C54_mined_link_partial",
    "C54_behind_lock",
    "C54_behind_bill",
    "C54_behind_address",
    "C54_behind_genesis",
    "C54_behind_expense",
    "C54_behind_transaction",
    "C54_behind_block",
    "C54_behind_link"
   ],
   "note": "REFUTED for mined links only: Decode returns an empty link and no error for non-JSON. All other kinds proved in full; non-empty decoded mined links too."
  },
  {
   "property": "C55",
   "status": "partial",
   "theorems": [
    "C55_refuted_missing_part",
    "C55_refuted_short_signature",
    "C55_flat_partial",
    "C55_bill_partial",
    "C55_expense_partial",
    "C55_mined_link_partial"
   ],
   "note": "REFUTED: documents lacking a nested object, or with a signature with fewer scalars than keys, crash the decoder. Partial: documents without those two defects never crash it; lock and address documents never do."
  },
  {
   "property": "C56",
   "status": "partial",
   "theorems": [
    "C56_refuted",
    "C56_refuted_whole",
    "C56_refuted_crashes",
    "C56_no_fees_partial"
   ],
   "note": "REFUTED: an accepted fee needs an explicit coincidence of hashes for each bill; whole amounts are refused; crashes. Proved: transactions without fees."
  },
  {
   "property": "C57",
   "status": "proved",
   "theorems": [
    "C57_stays"
   ],
   "note": "Objects come back literally equal."
  },
  {
   "property": "C58",
   "status": "partial",
   "theorems": [
    "C58_block_partial",
    "C58_failure_writes_nothing_partial",
    "C58_refuted"
   ],
   "note": "REFUTED for the repository's own chain store after Insert (C36). Positive: what a successful Block saves, and failures before saving write nothing."
  },
  {
   "property": "C59",
   "status": "partial",
   "theorems": [
    "C59_refuted_after_insert",
    "C59_link_partial",
    "C59_failure_writes_nothing_partial",
    "C59_refuted"
   ],
   "note": "REFUTED: the index is always 0. Positive: previous link, next block and difficulty are right."
  },
  {
   "property": "C60",
   "status": "partial",
   "theorems": [
    "C60_exactly_the_files",
    "C60_long_files_partial",
    "C60_refuted"
   ],
   "note": "REFUTED totality: one short file makes the folder fail. Soundness and completeness of what is recorded hold for all trees."
  },
  {
   "property": "C61",
   "status": "partial",
   "theorems": [
    "C61_bucket",
    "C61_file_same_length_partial",
    "C61_refuted"
   ],
   "note": "REFUTED for files (path and first chunk hash not separated). Buckets, and files with paths of equal length, commit."
  },
  {
   "property": "C62",
   "status": "partial",
   "theorems": [
    "C62_refuted",
    "C62_beginning_partial",
    "C62_reported_partial"
   ],
   "note": "REFUTED: universally over data, disk and the point of the torn write. C62_beginning_partial: under all faults and after all histories of saves and deletes what is served is the beginning of saved data with that hash; C62_reported_partial: a save without an error has left all of it, and other data is never touched."
  },
  {
   "property": "C63",
   "status": "partial",
   "theorems": [
    "C63_refuted_entry",
    "C63_refuted_description",
    "C63_refuted_statement",
    "C63_refuted_identity",
    "C63_refuted_bucket",
    "C63_entry_partial",
    "C63_statement_partial",
    "C63_statement_all_partial",
    "C63_identity_partial"
   ],
   "note": "REFUTED universally, part by part; the partial theorems give what the hashes do determine once lengths and counts agree (statements: the sequence of all entries without any side condition)."
  },
  {
   "property": "C64",
   "status": "partial",
   "theorems": [
    "C64_entries_partial",
    "C64_statements_partial",
    "C64_bills_partial",
    "C64_refuted",
    "C64_refuted_not_unicode",
    "C64_refuted_entry_not_unicode",
    "C64_identity_partial",
    "C64_delete",
    "C64_delete_identity",
    "C64_deleted"
   ],
   "note": "REFUTED for the time of the last update of an identity and for texts that are not Unicode, which never come back; everything else is a refinement over all histories. The wallet store never returns anything (C46)."
  },
  {
   "property": "C65",
   "status": "partial",
   "theorems": [
    "C65_refuted",
    "C65_refuted_round",
    "C65_kept_partial",
    "C65_none_invented_partial"
   ],
   "note": "REFUTED: overlapping additions or rounds lose an addition, whatever the store and the peers. Proved for all interleavings: what was stored while nothing was under way stays; nothing is invented or stored twice."
  },
  {
   "property": "C66",
   "status": "proved",
   "theorems": [
    "C66_round"
   ],
   "note": "For all answers and map orders; the store is the one of the application layer (a list of peers)."
  },
  {
   "property": "C67",
   "status": "partial",
   "theorems": [
    "C67_refuted",
    "C67_answering_partial"
   ],
   "note": "REFUTED: one unreachable peer ends the daemon with the store unchanged. Proved: if all answer it runs for ever."
  },
  {
   "property": "C68",
   "status": "proved",
   "theorems": [
    "C68_error",
    "C68_all",
    "C68_or_nothing"
   ],
   "note": "Identity store, client and Follow are parameters of the round."
  },
  {
   "property": "C69",
   "status": "partial",
   "theorems": [
    "C69_refuted",
    "C69_path_partial"
   ],
   "note": "REFUTED: the transaction names the hash of the path, whatever the content. C69_path_partial: equal bucket hashes mean the same path."
  },
  {
   "property": "C70",
   "status": "partial",
   "theorems": [
    "C70_refuted",
    "C70_update_partial"
   ],
   "note": "REFUTED: the hash is stale after Add. Proved: it matches after Update."
  },
  {
   "property": "C71",
   "status": "partial",
   "theorems": [
    "C71_refuted",
    "C71_refuted_relative",
    "C71_added_partial",
    "C71_deleted_partial"
   ],
   "note": "REFUTED: Add does not write to the store Retrieve reads; a relative path cannot be deleted. Proved: the identity has the bucket; Delete removes exactly the buckets of the given path."
  },
  {
   "property": "C72",
   "status": "partial",
   "theorems": [
    "C72_refuted",
    "C72_ring_partial"
   ],
   "note": "REFUTED: draws for which the change is lost. Proved: for all other draws the ring keys are included."
  },
  {
   "property": "C73",
   "status": "proved",
   "theorems": [
    "C73_history",
    "C73_save",
    "C73_built",
    "C73_never_crashes",
    "C73_complete"
   ],
   "note": "Signatures as RingSign makes them are readable (C16), dates of the years 0-9999."
  },
  {
   "property": "C74",
   "status": "proved",
   "theorems": [
    "C74_decrypts",
    "C74_text",
    "C74_pair",
    "C74_hash"
   ],
   "note": "Under the contract of crypto/rsa and crypto/x509 (rsa_laws), a hypothesis met by a toy instance and proved of a model of these packages in C103. Texts have less than 2^31 bytes (the limit of encoding/asn1)."
  },
  {
   "property": "C75",
   "status": "partial",
   "theorems": [
    "C75_refuted",
    "C75_refuted_other",
    "C75_uninterrupted_partial",
    "C75_sound_partial"
   ],
   "note": "REFUTED: for any two keys there is an interleaving in which a call returns the private key of the other call with its own public key (or wholly the key of the other). Positive part: uninterrupted calls return their own key; all results come from parsed keys. Memory is taken to be sequentially consistent."
  },
  {
   "property": "C76",
   "status": "partial",
   "theorems": [
    "C76_refuted",
    "C76_refuted_stored",
    "C76_refuted_any_block",
    "C76_refuted_any_transaction"
   ],
   "note": "REFUTED: for every accepted expense and every other recipient one block holds both; the stores keep both. Positive parts of spending are C21 and C23."
  },
  {
   "property": "C77",
   "status": "partial",
   "theorems": [
    "C77_refuted",
    "C77_refuted_stored",
    "C77_conserved_partial"
   ],
   "note": "REFUTED: for every key, amount and genesis; the store needs no genesis. C77_conserved_partial: over expenses that spend each bill once and only bills made before (which no builder and no store checks), the unspent bills are worth at most the genesis bill."
  },
  {
   "property": "C78",
   "status": "partial",
   "theorems": [
    "C78_refuted",
    "C78_refuted_link",
    "C78_retrieved_partial"
   ],
   "note": "REFUTED for the builders, for any parts whatsoever. Proved: a retrieved chain has one genesis."
  },
  {
   "property": "C79",
   "status": "partial",
   "theorems": [
    "C79_refuted",
    "C79_at_least_partial"
   ],
   "note": "REFUTED: any number is believed and decides the synchronisation. Proved: never less than root and head have."
  },
  {
   "property": "C80",
   "status": "partial",
   "theorems": [
    "C80_refuted_content",
    "C80_refuted_block",
    "C80_expense_partial"
   ],
   "note": "REFUTED: any time is accepted. Proved: an expense and the bills it makes have the time of its content."
  },
  {
   "property": "C81",
   "status": "partial",
   "theorems": [
    "C81_refuted_window",
    "C81_refuted_times",
    "C81_saved_partial",
    "C81_kept_partial"
   ],
   "note": "REFUTED: for every bill there is a schedule in which it is saved, retrieved and then broken by a fault-free step; for every lock saved with times of different text lengths a complete fault-free schedule loses it. Proved for complete fault-free sessions with one object for each file."
  },
  {
   "property": "C82",
   "status": "partial",
   "theorems": [
    "C82_refuted",
    "C82_refuted_later",
    "C82_present_partial"
   ],
   "note": "REFUTED for any two geneses (C82_refuted), and also when the second Save starts after the first one returned, while the lock of the first is being saved (C82_refuted_later). C82_present_partial: where a genesis can be read and only geneses are saved, all Saves fail and nothing is written. C35 is the sequential property."
  },
  {
   "property": "C83",
   "status": "proved",
   "theorems": [
    "C83_retrieve",
    "C83_save"
   ],
   "note": "For sessions with one object for each file, creation times included (exact)."
  },
  {
   "property": "C84",
   "status": "proved",
   "theorems": [
    "C84_ends",
    "C84_no_deadlock",
    "C84_alone_save",
    "C84_alone_retrieve"
   ],
   "note": ""
  },
  {
   "property": "C85",
   "status": "partial",
   "theorems": [
    "C85_curve",
    "C85_group",
    "C85_add",
    "C85_mul_partial",
    "C85_refuted"
   ],
   "note": "REFUTED for exactly the scalars above 2^255 + 7*(2^252-1)/15 (C85_refuted). Proved: the equation of the curve, the addition formula, the group laws, and Mul as repeated addition for all others (C85_mul_partial). C95 carries this to the machine integers."
  },
  {
   "property": "C86",
   "status": "proved",
   "theorems": [
    "C86_order",
    "C86_injective",
    "C86_onto",
    "C86_prime"
   ],
   "note": "Primality of the field size and of the order is proved in the kernel (Pocklington)."
  },
  {
   "property": "C87",
   "status": "partial",
   "theorems": [
    "C87_round_trip",
    "C87_decoder",
    "C87_refuted_sign",
    "C87_refuted_above",
    "C87_unique_partial"
   ],
   "note": "REFUTED for x = 0 and for y below 19. C87_decoder is exact; C87_unique_partial the rest."
  },
  {
   "property": "C88",
   "status": "partial",
   "theorems": [
    "C88_refuted",
    "C88_round_trip_partial"
   ],
   "note": "REFUTED: fifteen numbers with any suffix. C88_round_trip_partial: printed texts."
  },
  {
   "property": "C89",
   "status": "partial",
   "theorems": [
    "C89_refuted_sign",
    "C89_refuted_ring",
    "C89_sign_partial",
    "C89_ring_sign_partial"
   ],
   "note": "REFUTED for every key above 2^255 + 7*(2^252-1)/15 (the ring version up to an explicit challenge collision). Proved for all others."
  },
  {
   "property": "C90",
   "status": "partial",
   "theorems": [
    "C90_refuted_no_owner",
    "C90_refuted_null",
    "C90_signer_partial",
    "C90_refuted_lock"
   ],
   "note": "REFUTED by the point of order two and the null point. C90_signer_partial: RingSign. Unforgeability is not stated."
  },
  {
   "property": "C91",
   "status": "partial",
   "theorems": [
    "C91_refuted",
    "C91_verify",
    "C91_subgroup_partial"
   ],
   "note": "REFUTED: exact parity for r with a component of order two. C91_verify is the exact condition for any r; C91_subgroup_partial: for r in the subgroup the answer is the same every time."
  },
  {
   "property": "C92",
   "status": "partial",
   "theorems": [
    "C92_name",
    "C92_refuted",
    "C92_refuted_reads",
    "C92_inside_partial"
   ],
   "note": "REFUTED: every file has a name. C92_name: a name is followed component by component; C92_inside_partial: names without \"..\"."
  },
  {
   "property": "C93",
   "status": "proved",
   "theorems": [
    "C93_products",
    "C93_sums",
    "C93_bytes",
    "C93_no_overflow",
    "C93_in_place"
   ],
   "note": "The straight-line functions are transcribed statement by statement (LimbCode.v, generated by tools/straightline.py from fe.go) and run by the interpreter of GoIntModel.v, which wraps around as Go does."
  },
  {
   "property": "C94",
   "status": "proved",
   "theorems": [
    "C94_exact",
    "C94_inverse",
    "C94_no_overflow",
    "C94_in_place"
   ],
   "note": "As C93, for scalar.go."
  },
  {
   "property": "C95",
   "status": "proved",
   "theorems": [
    "C95_points",
    "C95_equal",
    "C95_texts",
    "C95_ring",
    "C95_sign"
   ],
   "note": "limb25519 and ed25519 give the same texts; geScalarMultBase is left out: the signature package multiplies the base point with geScalarMult because it never passes nil."
  },
  {
   "property": "C96",
   "status": "proved",
   "theorems": [
    "C96_lock",
    "C96_bill",
    "C96_content",
    "C96_unlock",
    "C96_expense",
    "C96_address",
    "C96_transaction",
    "C96_genesis",
    "C96_block",
    "C96_mined_block",
    "C96_link",
    "C96_mined_link",
    "C96_chain",
    "C96_state",
    "C96_missing",
    "C96_chunk",
    "C96_no_data",
    "C96_file",
    "C96_bucket",
    "C96_entry",
    "C96_statement",
    "C96_identity_bucket",
    "C96_identity",
    "C96_stored",
    "C96_stored_signed",
    "C96_stored_identity",
    "C96_peer",
    "C96_key"
   ],
   "note": "builds r ok x: r is x when ok, an error otherwise. Signatures with fewer scalars than keys are left to C15 and C55; the wallet builders, which never build anything, are C46."
  },
  {
   "property": "C97",
   "status": "proved",
   "theorems": [
    "C97_lock",
    "C97_bill",
    "C97_content",
    "C97_address",
    "C97_genesis",
    "C97_expense",
    "C97_trx",
    "C97_block",
    "C97_link",
    "C97_mined_link",
    "C97_tree",
    "C97_stored_lock",
    "C97_stored_bill",
    "C97_stored_genesis",
    "C97_stored_trx",
    "C97_stored_block",
    "C97_stored_mined_block",
    "C97_stored_link",
    "C97_stored_mined_link",
    "C97_stored_chain",
    "C97_stored_state",
    "C97_stored_expense",
    "C97_stored_cancel",
    "C97_stored_entry",
    "C97_stored_statement",
    "C97_stored_wallet_bill",
    "C97_stored_wallet",
    "C97_stored_identity"
   ],
   "note": "The documents of FormatSpec.v are written out member by member; free texts are the literals of C98 and times those of C99."
  },
  {
   "property": "C98",
   "status": "proved",
   "theorems": [
    "C98_read",
    "C98_unambiguous",
    "C98_refuse",
    "C98_write",
    "C98_spelling",
    "C98_spelt_chars"
   ],
   "note": "The grammar of GrammarSpec.v is declarative (inductive relations between texts and values), with no reference to the reader of JsonModel.v. Go's limit of 10000 nested values is not in the model, and there is none in the grammar."
  },
  {
   "property": "C99",
   "status": "proved",
   "theorems": [
    "C99_date",
    "C99_day",
    "C99_read",
    "C99_refuse",
    "C99_write",
    "C99_unwritable",
    "C99_canonical",
    "C99_means",
    "C99_member",
    "C99_text"
   ],
   "note": "The calendar of CalendarSpec.v is the relation generated by 'the next day'; it does not refer to the formulas of TimeModel.v. As in Go 1.13 to 1.16, a fraction with more than nine digits is read as a number of nanoseconds, an hour can have one digit, and the parts of an offset can carry a sign; the grammar says so. Escapes inside the literal of a time are resolved before it is read, which Go does not do."
  },
  {
   "property": "C100",
   "status": "proved",
   "theorems": [
    "C100_read",
    "C100_read_err",
    "C100_write",
    "C100_write_exists",
    "C100_write_err",
    "C100_one_text",
    "C100_round_trip",
    "C100_member"
   ],
   "note": "FloatSpec.v states rounding and shortest texts over the rationals and does not refer to FloatText.v. The model is of encoding/json (floatEncoder) and strconv (ParseFloat, AppendFloat with the shortest format). Go stops counting the digits of an exponent at 10000; texts for which that matters have thousands of digits."
  },
  {
   "property": "C101",
   "status": "proved",
   "theorems": [
    "C101_create",
    "C101_output",
    "C101_read",
    "C101_panic",
    "C101_waits",
    "C101_no_err",
    "C101_even",
    "C101_half",
    "C101_generated",
    "C101_not_null",
    "C101_signs",
    "C101_distinct"
   ],
   "note": "BLAKE2b, BLAKE2Xb (vendor/golang.org/x/crypto/blake2b), random.New, Bits, Int and scalar Pick (vendor/go.dedis.ch/kyber/v3) are modelled function by function; the random source is a list of results, [None] for a failing read. That the result of [private_key_create] is [None] means that the draws given do not suffice."
  },
  {
   "property": "C102",
   "status": "partial",
   "theorems": [
    "C102_read",
    "C102_no_panic",
    "C102_back_partial",
    "C102_contract",
    "C102_refuted_user",
    "C102_refuted_path",
    "C102_refuted_brackets",
    "C102_again_partial",
    "C102_refuted_again",
    "C102_reading_adapter"
   ],
   "note": "REFUTED: a host with a user part, a path or brackets is accepted by the builder, and its URL is read as another peer ([C102_refuted_user], [_path], [_brackets], each for every safe peer as victim). [C102_back_partial] says exactly which peers are read back, [C102_read] exactly which texts are read as which peer. url.Parse, Hostname and Port of net/url (Go 1.15) are modelled in UrlModel.v; [C102_contract] discharges the hypothesis of C47. [C102_reading_adapter] says what an adapter that reads the lines would give back."
  },
  {
   "property": "C103",
   "status": "partial",
   "theorems": [
    "C103_encrypts",
    "C103_decrypts_exactly",
    "C103_roundtrip",
    "C103_generated",
    "C103_rounds",
    "C103_text",
    "C103_public_exactly",
    "C103_private_read",
    "C103_private_exactly",
    "C103_read_ready",
    "C103_no_panic",
    "C103_contract",
    "C103_refuted_equal_primes",
    "C103_refuted_unique"
   ],
   "note": "REFUTED: a text whose two primes are equal (or any two equal numbers above 2) is read, and then Decrypt panics on every cipher ([C103_refuted_equal_primes]); a private key has many texts ([C103_refuted_unique]). Everything else is proved: exact encryption and decryption, the round trip, key generation, exact reading of public and private keys, DER texts, no panic for keys of distinct primes, and the contract of C74 ([C103_contract]). crypto/rsa, crypto/x509 and encoding/asn1 of Go 1.15 are modelled in RsaModel.v; crypto/rand.Prime is a parameter that returns primes of the length asked for, the numbers drawn for the blinding are a parameter."
  },
  {
   "property": "C104",
   "status": "proved",
   "theorems": [
    "C104_block",
    "C104_no_panic",
    "C104_inverse",
    "C104_permutation",
    "C104_inverse_cipher",
    "C104_encrypt",
    "C104_encrypt_ends",
    "C104_decrypt",
    "C104_decrypt_ends",
    "C104_model",
    "C104_builder",
    "C104_key_stream"
   ],
   "note": "crypto/aes (the generic code with its tables) and the CFB stream of crypto/cipher of Go 1.15 are modelled in AesModel.v; AesSpec.v states FIPS 197 and SP 800-38A over polynomials. [C104_model] says that C10, C11 and C29, which hold for any block function, are about these functions. [C11_refuted_cut_start] and [_end] are further refutations of C11."
  },
  {
   "property": "C105",
   "status": "proved",
   "theorems": [
    "C105_history",
    "C105_stays",
    "C105_found",
    "C105_again_loses",
    "C105_sound"
   ],
   "note": "The faults of a write are those of C76: it fails, or a prefix of the text is left. Saved addresses have hashes of 64 bytes and a time in the years 0 to 9999 ([good_address], [dated_address]), as json.Marshal needs."
  },
  {
   "property": "C106",
   "status": "proved",
   "theorems": [
    "C106_lock",
    "C106_bill",
    "C106_content",
    "C106_expense",
    "C106_address",
    "C106_transaction",
    "C106_genesis",
    "C106_block",
    "C106_link",
    "C106_mined_link"
   ],
   "note": "The specification (DocumentSpec.v, MemberSpec.v) has one relation for each struct and does not mention the decoders; floats refer to C100_read. What becomes of the struct then is C53-C55."
  },
  {
   "property": "C107",
   "status": "proved",
   "theorems": [
    "C107_lock",
    "C107_bill",
    "C107_genesis",
    "C107_transaction",
    "C107_block",
    "C107_mined_block",
    "C107_link",
    "C107_mined_link",
    "C107_chain",
    "C107_state",
    "C107_expense",
    "C107_tree",
    "C107_tree_kept",
    "C107_rebuild",
    "C107_hash",
    "C107_crash_block",
    "C107_crash_state",
    "C107_no_crash"
   ],
   "note": "Success with its result, crashes and hence refusals are exact. The reading of the text of a ring signature is ring_of_string (C16), that of a float parse_float (C100)."
  },
  {
   "property": "C108",
   "status": "proved",
   "theorems": [
    "C108_entry",
    "C108_statement",
    "C108_bill",
    "C108_wallet",
    "C108_identity",
    "C108_cancel",
    "C108_no_crash"
   ],
   "note": "The reading of a private key is scalar_of_string (C88), that of a ring signature ring_of_string (C16)."
  },
  {
   "property": "C109",
   "status": "partial",
   "theorems": [
    "C109_refuted_lock",
    "C109_refuted_content",
    "C109_refuted_expense",
    "C109_refuted_mined",
    "C109_refuted_address",
    "C109_refuted_transaction",
    "C109_stays_partial",
    "C109_stays_more_partial",
    "C109_built_partial",
    "C109_built_more_partial",
    "C109_unlock_partial"
   ],
   "note": "REFUTED: the C109_refuted theorems hold for every object and every element: one assignment through the slice that PublicKeys, From, Signatures, Recipients, Fees or Transactions returns changes the object under the same hash. What holds is C109_stays_partial, C109_stays_more_partial, C109_built_partial, C109_built_more_partial and C109_unlock_partial. The pointers that Sender and Subject of an address give out are not modelled."
  },
  {
   "property": "C110",
   "status": "partial",
   "theorems": [
    "C110_kept_partial",
    "C110_refuted_seconds",
    "C110_refuted_wide",
    "C110_written",
    "C110_again_partial",
    "C110_unique",
    "C110_instants"
   ],
   "note": "REFUTED for zones whose offset has seconds (C110_refuted_seconds: another instant is read) and for offsets of a hundred hours or more (C110_refuted_wide: the document is not readable). C110_kept_partial says exactly when instant and offset come back, C110_again_partial the same for times that were read from a document, C110_written which times have a text; C110_instants ties these times to the instants of TimeModel."
  },
  {
   "property": "C111",
   "status": "partial",
   "theorems": [
    "C111_refuted_rings",
    "C111_refuted_two",
    "C111_refuted_both",
    "C111_refuted_number",
    "C111_refuted_bills",
    "C111_published",
    "C111_numbers_partial"
   ],
   "note": "REFUTED: the key is computed from two signatures, on edwards25519 ([C111_refuted_rings], [_two], [_both], [_number], [_bills]). The side conditions are that two challenges differ or are not zero; [C111_refuted_two] has only collisions of the challenge as exceptions. [C111_published] is exactly what a ring signature publishes; [C111_numbers_partial]: for messages of one length no hiding number is used twice."
  },
  {
   "property": "C112",
   "status": "partial",
   "theorems": [
    "C112_refuted",
    "C112_refuted_others",
    "C112_any_member_partial"
   ],
   "note": "REFUTED: signatures of one signer on one message are recognised, and the signer's place is where they differ ([C112_refuted]); those of others differ everywhere else ([C112_refuted_others]). [C112_any_member_partial]: the equations of a single signature fit every member."
  },
  {
   "property": "C113",
   "status": "partial",
   "theorems": [
    "C113_path",
    "C113_hash",
    "C113_every_chunk",
    "C113_folder_partial",
    "C113_refuted",
    "C113_refuted_changed"
   ],
   "note": "REFUTED: the earlier of two files with one path is not found ([C113_refuted]); a file written into the slice is not found ([C113_refuted_changed]). [C113_path] and [C113_hash] say exactly what is found; [C113_every_chunk]: for every chunk one with the same size and data is found, unless SHA-512 collides; [C113_folder_partial]: in the bucket of a folder exactly its files are found."
  },
  {
   "property": "C114",
   "status": "partial",
   "theorems": [
    "C114_apart_partial",
    "C114_refuted",
    "C114_refuted_address",
    "C114_refuted_bill",
    "C114_refuted_link"
   ],
   "note": "REFUTED: an object with one part has its hash ([C114_refuted]); every lock has the hash of an address ([C114_refuted_address]), every block or link mined with a number the hash of a bill ([C114_refuted_bill]), every link behind a block the hash of a mined block ([C114_refuted_link]). [C114_apart_partial]: each Save leaves the files of all kinds but its own and its parts' as they are."
  },
  {
   "property": "C115",
   "status": "partial",
   "theorems": [
    "C115_refuted_turned",
    "C115_turned",
    "C115_refuted_longer",
    "C115_refuted_expense",
    "C115_refuted_text",
    "C115_scalar_partial"
   ],
   "note": "REFUTED: a ring that begins elsewhere ([C115_refuted_turned], with [C115_turned] saying what it is), more scalars ([C115_refuted_longer]) and hence other expenses of the same content under other hashes ([C115_refuted_expense]); many texts ([C115_refuted_text]). [C115_scalar_partial]: a single scalar that is used cannot be replaced, unless two texts hashed at the same place have the same challenge."
  },
  {
   "property": "C116",
   "status": "partial",
   "theorems": [
    "C116_refuted_address",
    "C116_refuted_transaction",
    "C116_refuted_shared",
    "C116_kept_partial",
    "C116_create_partial",
    "C116_built_partial"
   ],
   "note": "REFUTED: for every address and transaction and every other hash ([C116_refuted_address], [C116_refuted_transaction]), and for any two addresses of one builder ([C116_refuted_shared]). [C116_kept_partial]: over all histories nothing but an assignment through its own pointers changes an object; [C116_create_partial]: Create separates. Slices are C109."
  }
 ]
}