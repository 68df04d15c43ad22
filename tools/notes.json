{
 "C01": [
  "proved",
  "FromBytes/FromMultiBytes total with 64 bytes, text round trip and shape, Compare is equality, String and path forms injective."
 ],
 "C02": [
  "partial",
  "REFUTED: FromBytes keeps 64-byte inputs unhashed, so every input x collides with sha512 x (C02_refuted). C02_injective_partial: injective up to an explicit SHA-512 collision on inputs of length other than 64; C02_coincidences_partial lists all coincidences."
 ],
 "C03": [
  "proved",
  "Every non-empty block list builds a perfect tree with a power-of-two number of leaves, the blocks first and then padding; the empty list never returns (unbounded recursion). The padded length is computed in float64: C03_padding, for up to 2^40 blocks, assuming a bound on the error of math.Log and exact powers of two from math.Pow."
 ],
 "C04": [
  "proved",
  "Compact form rebuilds the same tree, also through both JSON forms."
 ],
 "C05": [
  "proved",
  "The head is the Merkle root of the leaves; equal heads of equal-shape trees give equal leaves or an explicit hash coincidence."
 ],
 "C06": [
  "partial",
  "REFUTED: padding makes d and d++[[]] share a head, and inner nodes can be passed as blocks. C06_same_length_partial: lists of one length are identified up to an explicit coincidence."
 ],
 "C07": [
  "partial",
  "REFUTED for padded trees whose data contains the empty block. C07_order_partial: otherwise Order restores every permutation; C07_order_sound: output only consists of given data present in the tree."
 ],
 "C08": [
  "partial",
  "REFUTED: a decoded tree may carry any head over any leaves. C08_rebuilt_consistent_partial: the compact route recomputes a consistent tree (and panics on a non-power-of-two, C08_rebuild_panics)."
 ],
 "C09": [
  "proved",
  ""
 ],
 "C10": [
  "proved",
  "For every block cipher and key derivation."
 ],
 "C11": [
  "partial",
  "REFUTED: success of Decrypt does not depend on the password; ciphertexts are malleable. C11_bad_text_partial: texts that are not base64 of at least 16 bytes are rejected without panic. C11_refuted_byte, C11_refuted_difference and C11_refuted_paste say exactly what changes of a text and pieces of two texts do to the message; C11_other_message_partial: with the same random bytes another cipher is another message."
 ],
 "C28": [
  "proved",
  "Disk store over a tree-shaped file system refines a map of the observed successes, for arbitrary names; success conditions characterised; on one-component names equal to the test store."
 ],
 "C29": [
  "proved",
  ""
 ],
 "C12": [
  "proved",
  "For every curve meeting CurveLaws and every reduced private key; C12_ed25519 is the same for the modelled edwards25519, without assumptions."
 ],
 "C13": [
  "proved",
  "Challenges non-zero, as in the statement. C13_ed25519: no assumption on the curve."
 ],
 "C14": [
  "partial",
  "REFUTED: Verify accepts every scalar for every r (non-zero challenge). C14_created_partial: values returned by createSignature passed Verify. C14_refuted_ed25519: on the modelled curve, any r with a private key and any 32 byte scalar."
 ],
 "C15": [
  "partial",
  "REFUTED: the empty ring verifies every message and is decodable; a short scalar list panics. C15_one_message_partial: a non-empty ring verifying two messages gives an explicit challenge collision. C15_to_verification characterises ToVerification. Unforgeability in the cryptographic sense is not stated."
 ],
 "C16": [
  "proved",
  "Plain signatures with r a multiple of the base and non-zero challenge; ring signatures of any size with reduced scalars; everything RingSign makes is reduced. C16_ed25519: no assumption on the curve."
 ],
 "C17": [
  "proved",
  "Exact characterisation of the lock builder and of Unlock. Key hashes of the ring are FromBytes of the key text, as in the code."
 ],
 "C18": [
  "partial",
  "REFUTED: a signature opening a lock made by the applications exhibits a key whose SHA-512 digest is the hex text of a key; the example shows a key whose lock nobody can open. Proved part: locks over the key texts are opened by any owner's ring signature."
 ],
 "C19": [
  "partial",
  "REFUTED: the one-key lock over the hash of any lock has the same hash. Proved part: pairs of locks that both have one key or both have several keys."
 ],
 "C20": [
  "partial",
  "REFUTED: accepted signatures are accepted for every other content over the same bills, in particular for any recipient and amount. Proved part: a signature is bound to the hash of the lock it opens (or an explicit challenge collision)."
 ],
 "C21": [
  "proved",
  "Conservation modulo 2^64 and an exact characterisation of accepted inputs."
 ],
 "C22": [
  "partial",
  "REFUTED: any openable bill listed twice pays twice its amount. Proved part: inputs with distinct hashes."
 ],
 "C23": [
  "proved",
  ""
 ],
 "C24": [
  "proved",
  "Contents: inputs summing below 2^64, as stated."
 ],
 "C25": [
  "partial",
  "REFUTED: sender/first recipient and address/bucket are interchangeable. Proved part: pairs with the same optional parts, both or neither with a single part."
 ],
 "C26": [
  "proved",
  "Blocks, links, mined blocks, mined links, chains, states and chunks, each with an explicit collision as the alternative."
 ],
 "C27": [
  "partial",
  "REFUTED: base and increase are concatenated; increases are rounded to 12 places. Proved part: bill, link difficulty and the joint text are determined; base and printed increase when the bases have the same number of digits."
 ],
 "C53": [
  "partial",
  "REFUTED for mined links whose mining text is not Unicode (C53_refuted_not_unicode: it comes back as another text without an error); the mining texts the miner makes are digits. Lossless otherwise for objects made by the builders all the way down with times in years 0-9999; C53_times shows the time condition is exact for locks. Signatures must be readable back, which C16 shows for reduced scalars. The genesis increase must have a float text (excludes NaN/Inf, which Marshal refuses)."
 ],
 "C54": [
  "partial",
  "REFUTED for mined links only: Decode returns an empty link and no error for non-JSON. All other kinds proved in full; non-empty decoded mined links too."
 ],
 "C55": [
  "partial",
  "REFUTED: documents lacking a nested object, or with a signature with fewer scalars than keys, crash the decoder. Partial: documents without those two defects never crash it; lock and address documents never do."
 ],
 "C30": [
  "proved",
  "Over all Save histories with denied and torn writes (mode Low), and for locks and bills over histories of every writing operation (C30_any_operations). The history's objects are determined by their hashes; C30_determined derives that from the absence of explicit hash coincidences between their texts. C30_single_key_lock_hides shows the single-key coincidence is real."
 ],
 "C31": [
  "proved",
  "On every store whatsoever; C31_twice for a Save following a successful one."
 ],
 "C32": [
  "proved",
  "Faults: any write refused or torn at any byte, at any point of any Save of the history. C32_block_needs_genesis shows why the genesis must be there first."
 ],
 "C33": [
  "partial",
  "REFUTED: no store returns a transaction with an address, what comes back has another hash, an address-only transaction is not saved. C33_without_address_partial: transactions without address, over all histories with faults."
 ],
 "C34": [
  "proved",
  "Over all histories with faults in which the genesis is saved before blocks and links; order of transactions included."
 ],
 "C35": [
  "proved",
  "Over histories of every writing operation with faults."
 ],
 "C36": [
  "partial",
  "REFUTED: after every successful Insert Retrieve fails, and a retrieved chain always has another genesis than the one its file names. C36_file_partial: the file that Insert writes is right; what it stores beneath (genesis, root, head) is covered by C34/C35."
 ],
 "C37": [
  "partial",
  "REFUTED: comparisons inverted (C37_refuted, C37_refuted_same, C37_refuted_foreign). C37_file_partial: an accepted update has written the file of the second chain."
 ],
 "C38": [
  "partial",
  "REFUTED: on every reachable store Save fails for every state and nothing is ever retrieved; surrogates and heights beyond U+10FFFF share one path, as do 46 and 47. C38_paths_partial: all other heights have their own path."
 ],
 "C57": [
  "proved",
  "Objects come back literally equal."
 ],
 "C39": [
  "proved",
  "Exact characterisation of mine for every base hash and difficulty."
 ],
 "C40": [
  "partial",
  "REFUTED: builders and stores accept any mining text; an empty one gives the mined object the hash of the unmined one. Positive: whether a mined block meets a difficulty is decided by its block hash and text."
 ],
 "C41": [
  "partial",
  "REFUTED for bases above 2^53 (rounded down) and NaN increases. Positive: for bases up to 2^53 at least the base, and never decreasing, as long as the result fits in a uint."
 ],
 "C58": [
  "partial",
  "REFUTED for the repository's own chain store after Insert (C36). Positive: what a successful Block saves, and failures before saving write nothing."
 ],
 "C59": [
  "partial",
  "REFUTED: the index is always 0. Positive: previous link, next block and difficulty are right."
 ],
 "C42": [
  "partial",
  "REFUTED for files shorter than the chunk size. Positive for all longer files below 2^53 bytes, through the IEEE division and floor of the code; the record determines path and content."
 ],
 "C43": [
  "partial",
  "REFUTED: nothing is ever retrieved, files and buckets are never saved, a saved chunk crashes its next use. C43_leaves_chunks_partial says what is left on disk, C43_refuted_read which files make Retrieve crash and which are refused."
 ],
 "C44": [
  "partial",
  "REFUTED: Delete of files and buckets panics and deletes nothing. C44_chunk_partial: Delete of a chunk is exact."
 ],
 "C45": [
  "proved",
  "All histories of Save and Delete with failed and lost writes; torn writes are C62."
 ],
 "C60": [
  "partial",
  "REFUTED totality: one short file makes the folder fail. Soundness and completeness of what is recorded hold for all trees."
 ],
 "C61": [
  "partial",
  "REFUTED for files (path and first chunk hash not separated). Buckets, and files with paths of equal length, commit."
 ],
 "C62": [
  "partial",
  "REFUTED: universally over data, disk and the point of the torn write. C62_beginning_partial: under all faults and after all histories of saves and deletes what is served is the beginning of saved data with that hash; C62_reported_partial: a save without an error has left all of it, and other data is never touched."
 ],
 "C46": [
  "partial",
  "REFUTED for every input: with a statement an error, without one a nil dereference; hence no stored wallet is ever retrieved. C46_refuted_transfer_crash tells the two apart."
 ],
 "C63": [
  "partial",
  "REFUTED universally, part by part; the partial theorems give what the hashes do determine once lengths and counts agree (statements: the sequence of all entries without any side condition)."
 ],
 "C64": [
  "partial",
  "REFUTED for the time of the last update of an identity and for texts that are not Unicode, which never come back; everything else is a refinement over all histories. The wallet store never returns anything (C46)."
 ],
 "C47": [
  "partial",
  "REFUTED for stored peers: Retrieve gives nil after every Save (C47_refuted), no first peer can be added (C47_refuted_first), a port from 2^63 on cannot be read again (C47_refuted_port). Proved: the saved lines are the URLs in order and are handed to the adapter so (C47_handed_partial), the URL of a peer on a plain host gives it back under an explicit contract for net/url, the collection has exactly the given peers once for every map order, additions keep everything."
 ],
 "C51": [
  "partial",
  "REFUTED: Stop never changes what a started daemon does (C51_refuted, C51_refuted_rounds). Proved: a daemon that ended by itself does nothing any more."
 ],
 "C52": [
  "partial",
  "REFUTED: the newest link is never asked for, the link at the local height is asked for again, the daemon ends after the first chain that was ahead. Proved: which chain is chosen (totals below 2^63) and exactly which links are taken, in order."
 ],
 "C65": [
  "partial",
  "REFUTED: overlapping additions or rounds lose an addition, whatever the store and the peers. Proved for all interleavings: what was stored while nothing was under way stays; nothing is invented or stored twice."
 ],
 "C66": [
  "proved",
  "For all answers and map orders; the store is the one of the application layer (a list of peers)."
 ],
 "C67": [
  "partial",
  "REFUTED: one unreachable peer ends the daemon with the store unchanged. Proved: if all answer it runs for ever."
 ],
 "C68": [
  "proved",
  "Identity store, client and Follow are parameters of the round."
 ],
 "C48": [
  "partial",
  "REFUTED: Authenticate passes seed and password exchanged (C48_refuted, C48_refuted_exchanged). Proved: it works if the two are equal. Identity store: any with the laws of AppSpec.v."
 ],
 "C49": [
  "partial",
  "REFUTED: Update loses wallets, buckets and creation time, and a new name or seed makes the identity unfindable for the application. Proved: with name and seed unchanged it stays usable; Delete removes exactly it."
 ],
 "C50": [
  "partial",
  "REFUTED: Init never succeeds with the repository's wallet builder; with any working one, password and seed are exchanged and a stop between the two writes leaves a wallet without genesis, a rerun a second one. Proved: an existing genesis is never replaced."
 ],
 "C56": [
  "partial",
  "REFUTED: an accepted fee needs an explicit coincidence of hashes for each bill; whole amounts are refused; crashes. Proved: transactions without fees."
 ],
 "C69": [
  "partial",
  "REFUTED: the transaction names the hash of the path, whatever the content. C69_path_partial: equal bucket hashes mean the same path."
 ],
 "C70": [
  "partial",
  "REFUTED: the hash is stale after Add. Proved: it matches after Update."
 ],
 "C71": [
  "partial",
  "REFUTED: Add does not write to the store Retrieve reads; a relative path cannot be deleted. Proved: the identity has the bucket; Delete removes exactly the buckets of the given path."
 ],
 "C72": [
  "partial",
  "REFUTED: draws for which the change is lost. Proved: for all other draws the ring keys are included."
 ],
 "C73": [
  "proved",
  "Signatures as RingSign makes them are readable (C16), dates of the years 0-9999."
 ],
 "C74": [
  "proved",
  "Under the contract of crypto/rsa and crypto/x509 (rsa_laws), a hypothesis met by a toy instance and proved of a model of these packages in C103. Texts have less than 2^31 bytes (the limit of encoding/asn1)."
 ],
 "C75": [
  "partial",
  "REFUTED: for any two keys there is an interleaving in which a call returns the private key of the other call with its own public key (or wholly the key of the other). Positive part: uninterrupted calls return their own key; all results come from parsed keys. Memory is taken to be sequentially consistent."
 ],
 "C76": [
  "partial",
  "REFUTED: for every accepted expense and every other recipient one block holds both; the stores keep both. Positive parts of spending are C21 and C23."
 ],
 "C77": [
  "partial",
  "REFUTED: for every key, amount and genesis; the store needs no genesis. C77_conserved_partial: over expenses that spend each bill once and only bills made before (which no builder and no store checks), the unspent bills are worth at most the genesis bill."
 ],
 "C78": [
  "partial",
  "REFUTED for the builders, for any parts whatsoever. Proved: a retrieved chain has one genesis."
 ],
 "C79": [
  "partial",
  "REFUTED: any number is believed and decides the synchronisation. Proved: never less than root and head have."
 ],
 "C80": [
  "partial",
  "REFUTED: any time is accepted. Proved: an expense and the bills it makes have the time of its content."
 ],
 "C81": [
  "partial",
  "REFUTED: for every bill there is a schedule in which it is saved, retrieved and then broken by a fault-free step; for every lock saved with times of different text lengths a complete fault-free schedule loses it. Proved for complete fault-free sessions with one object for each file."
 ],
 "C82": [
  "partial",
  "REFUTED for any two geneses (C82_refuted), and also when the second Save starts after the first one returned, while the lock of the first is being saved (C82_refuted_later). C82_present_partial: where a genesis can be read and only geneses are saved, all Saves fail and nothing is written. C35 is the sequential property."
 ],
 "C83": [
  "proved",
  "For sessions with one object for each file, creation times included (exact)."
 ],
 "C84": [
  "proved",
  ""
 ],
 "C85": [
  "partial",
  "REFUTED for exactly the scalars above 2^255 + 7*(2^252-1)/15 (C85_refuted). Proved: the equation of the curve, the addition formula, the group laws, and Mul as repeated addition for all others (C85_mul_partial). C95 carries this to the machine integers."
 ],
 "C86": [
  "proved",
  "Primality of the field size and of the order is proved in the kernel (Pocklington)."
 ],
 "C87": [
  "partial",
  "REFUTED for x = 0 and for y below 19. C87_decoder is exact; C87_unique_partial the rest."
 ],
 "C88": [
  "partial",
  "REFUTED: fifteen numbers with any suffix. C88_round_trip_partial: printed texts."
 ],
 "C89": [
  "partial",
  "REFUTED for every key above 2^255 + 7*(2^252-1)/15 (the ring version up to an explicit challenge collision). Proved for all others."
 ],
 "C90": [
  "partial",
  "REFUTED by the point of order two and the null point. C90_signer_partial: RingSign. Unforgeability is not stated."
 ],
 "C91": [
  "partial",
  "REFUTED: exact parity for r with a component of order two. C91_verify is the exact condition for any r; C91_subgroup_partial: for r in the subgroup the answer is the same every time."
 ],
 "C92": [
  "partial",
  "REFUTED: every file has a name. C92_name: a name is followed component by component; C92_inside_partial: names without \"..\"."
 ],
 "C93": [
  "proved",
  "The straight-line functions are transcribed statement by statement (LimbCode.v, generated by tools/straightline.py from fe.go) and run by the interpreter of GoIntModel.v, which wraps around as Go does."
 ],
 "C94": [
  "proved",
  "As C93, for scalar.go."
 ],
 "C95": [
  "proved",
  "limb25519 and ed25519 give the same texts; geScalarMultBase is left out: the signature package multiplies the base point with geScalarMult because it never passes nil."
 ],
 "C96": [
  "proved",
  "builds r ok x: r is x when ok, an error otherwise. Signatures with fewer scalars than keys are left to C15 and C55; the wallet builders, which never build anything, are C46."
 ],
 "C97": [
  "proved",
  "The documents of FormatSpec.v are written out member by member; free texts are the literals of C98 and times those of C99."
 ],
 "C98": [
  "proved",
  "The grammar of GrammarSpec.v is declarative (inductive relations between texts and values), with no reference to the reader of JsonModel.v. Go's limit of 10000 nested values is not in the model, and there is none in the grammar."
 ],
 "C99": [
  "proved",
  "The calendar of CalendarSpec.v is the relation generated by 'the next day'; it does not refer to the formulas of TimeModel.v. As in Go 1.13 to 1.16, a fraction with more than nine digits is read as a number of nanoseconds, an hour can have one digit, and the parts of an offset can carry a sign; the grammar says so. Escapes inside the literal of a time are resolved before it is read, which Go does not do."
 ],
 "C100": [
  "proved",
  "FloatSpec.v states rounding and shortest texts over the rationals and does not refer to FloatText.v. The model is of encoding/json (floatEncoder) and strconv (ParseFloat, AppendFloat with the shortest format). Go stops counting the digits of an exponent at 10000; texts for which that matters have thousands of digits."
 ],
 "C101": [
  "proved",
  "BLAKE2b, BLAKE2Xb (vendor/golang.org/x/crypto/blake2b), random.New, Bits, Int and scalar Pick (vendor/go.dedis.ch/kyber/v3) are modelled function by function; the random source is a list of results, [None] for a failing read. That the result of [private_key_create] is [None] means that the draws given do not suffice."
 ],
 "C102": [
  "partial",
  "REFUTED: a host with a user part, a path or brackets is accepted by the builder, and its URL is read as another peer ([C102_refuted_user], [_path], [_brackets], each for every safe peer as victim). [C102_back_partial] says exactly which peers are read back, [C102_read] exactly which texts are read as which peer. url.Parse, Hostname and Port of net/url (Go 1.15) are modelled in UrlModel.v; [C102_contract] discharges the hypothesis of C47. [C102_reading_adapter] says what an adapter that reads the lines would give back."
 ],
 "C103": [
  "partial",
  "REFUTED: a text whose two primes are equal (or any two equal numbers above 2) is read, and then Decrypt panics on every cipher ([C103_refuted_equal_primes]); a private key has many texts ([C103_refuted_unique]). Everything else is proved: exact encryption and decryption, the round trip, key generation, exact reading of public and private keys, DER texts, no panic for keys of distinct primes, and the contract of C74 ([C103_contract]). crypto/rsa, crypto/x509 and encoding/asn1 of Go 1.15 are modelled in RsaModel.v; crypto/rand.Prime is a parameter that returns primes of the length asked for, the numbers drawn for the blinding are a parameter."
 ],
 "C104": [
  "proved",
  "crypto/aes (the generic code with its tables) and the CFB stream of crypto/cipher of Go 1.15 are modelled in AesModel.v; AesSpec.v states FIPS 197 and SP 800-38A over polynomials. [C104_model] says that C10, C11 and C29, which hold for any block function, are about these functions. [C11_refuted_cut_start] and [_end] are further refutations of C11."
 ],
 "C105": [
  "proved",
  "The faults of a write are those of C76: it fails, or a prefix of the text is left. Saved addresses have hashes of 64 bytes and a time in the years 0 to 9999 ([good_address], [dated_address]), as json.Marshal needs."
 ],
 "C106": [
  "proved",
  "The specification (DocumentSpec.v, MemberSpec.v) has one relation for each struct and does not mention the decoders; floats refer to C100_read. What becomes of the struct then is C53-C55."
 ],
 "C107": [
  "proved",
  "Success with its result, crashes and hence refusals are exact. The reading of the text of a ring signature is ring_of_string (C16), that of a float parse_float (C100)."
 ],
 "C108": [
  "proved",
  "The reading of a private key is scalar_of_string (C88), that of a ring signature ring_of_string (C16)."
 ],
 "C109": [
  "partial",
  "REFUTED: the C109_refuted theorems hold for every object and every element: one assignment through the slice that PublicKeys, From, Signatures, Recipients, Fees or Transactions returns changes the object under the same hash. What holds is C109_stays_partial, C109_stays_more_partial, C109_built_partial, C109_built_more_partial and C109_unlock_partial. The pointers that Sender and Subject of an address give out are not modelled."
 ],
 "C110": [
  "partial",
  "REFUTED for zones whose offset has seconds (C110_refuted_seconds: another instant is read) and for offsets of a hundred hours or more (C110_refuted_wide: the document is not readable). C110_kept_partial says exactly when instant and offset come back, C110_again_partial the same for times that were read from a document, C110_written which times have a text; C110_instants ties these times to the instants of TimeModel."
 ],
 "C111": [
  "partial",
  "REFUTED: the key is computed from two signatures, on edwards25519 ([C111_refuted_rings], [_two], [_both], [_number], [_bills]). The side conditions are that two challenges differ or are not zero; [C111_refuted_two] has only collisions of the challenge as exceptions. [C111_published] is exactly what a ring signature publishes; [C111_numbers_partial]: for messages of one length no hiding number is used twice."
 ],
 "C112": [
  "partial",
  "REFUTED: signatures of one signer on one message are recognised, and the signer's place is where they differ ([C112_refuted]); those of others differ everywhere else ([C112_refuted_others]). [C112_any_member_partial]: the equations of a single signature fit every member."
 ],
 "C113": [
  "partial",
  "REFUTED: the earlier of two files with one path is not found ([C113_refuted]); a file written into the slice is not found ([C113_refuted_changed]). [C113_path] and [C113_hash] say exactly what is found; [C113_every_chunk]: for every chunk one with the same size and data is found, unless SHA-512 collides; [C113_folder_partial]: in the bucket of a folder exactly its files are found."
 ],
 "C114": [
  "partial",
  "REFUTED: an object with one part has its hash ([C114_refuted]); every lock has the hash of an address ([C114_refuted_address]), every block or link mined with a number the hash of a bill ([C114_refuted_bill]), every link behind a block the hash of a mined block ([C114_refuted_link]). [C114_apart_partial]: each Save leaves the files of all kinds but its own and its parts' as they are."
 ],
 "C115": [
  "partial",
  "REFUTED: a ring that begins elsewhere ([C115_refuted_turned], with [C115_turned] saying what it is), more scalars ([C115_refuted_longer]) and hence other expenses of the same content under other hashes ([C115_refuted_expense]); many texts ([C115_refuted_text]). [C115_scalar_partial]: a single scalar that is used cannot be replaced, unless two texts hashed at the same place have the same challenge."
 ],
 "C116": [
  "partial",
  "REFUTED: for every address and transaction and every other hash ([C116_refuted_address], [C116_refuted_transaction]), and for any two addresses of one builder ([C116_refuted_shared]). [C116_kept_partial]: over all histories nothing but an assignment through its own pointers changes an object; [C116_create_partial]: Create separates. Slices are C109."
 ]
}