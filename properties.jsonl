{"id": "C01", "title": "Hash values are always 64 bytes and survive the hex round trip", "statement": "hash.Adapter.FromBytes and FromMultiBytes never fail and always yield 64 bytes; FromString(h.String()) returns h for every hash h; String is always 128 lowercase hex characters; Compare is true exactly on equal hashes; distinct hashes have distinct strings and distinct Path values.", "quantifier": "every byte string, every list of byte strings, every hash, every pair of hashes", "why_tests_cant": "the input space is all byte strings; tests can only try a few lengths, and the 64-byte special case is one length among infinitely many", "anchors": ["libs/hash/adapter.go: FromBytes, FromMultiBytes, FromString", "libs/hash/hash.go: Compare, Bytes, String, Path"]}
{"id": "C02", "title": "Hashing distinguishes inputs (collision resistance of the hash adapter)", "statement": "Two different byte strings given to hash.Adapter.FromBytes get different hashes, unless the two strings are themselves a SHA-512 collision. (Fails: a 64-byte input is returned unchanged, so x and sha512(x) always collide; what remains true is the claim for inputs of equal 64-byteness, i.e. both or neither 64 bytes long.)", "quantifier": "every pair of byte strings", "why_tests_cant": "a universally quantified statement over pairs of inputs; no test suite can search for collisions, and the failing family is only visible from the identity case", "anchors": ["libs/hash/adapter.go: FromBytes"]}
{"id": "C03", "title": "Building a hash tree keeps the blocks, in order, as its first leaves", "statement": "For every non-empty list of blocks the hash tree builds without panicking; BlockLeaves() returns the hashes of the blocks in order followed only by hashes of the empty block; the number of leaves is the smallest power of two that is at least 2 and at least the number of blocks; Height and Length agree with that number.", "quantifier": "every non-empty list of byte blocks of any length", "why_tests_cant": "quantifies over list lengths; the recursion halves the list, so an odd level would panic only for particular lengths", "anchors": ["libs/hashtree/block.go: createBlockFromData, resize, leaves", "libs/hashtree/leaves.go: HashTree, createChildrenLeaves", "libs/hashtree/hashtree.go", "libs/hashtree/parentleaf.go: BlockLeaves", "libs/hashtree/leaf.go: Leaves, Height"]}
{"id": "C04", "title": "Compacting a hash tree and rebuilding it from its leaves gives the same tree", "statement": "For every tree built from blocks, Compact().Leaves().HashTree() returns the same tree (same head, same leaves), and the JSON form of the compact tree decodes to it.", "quantifier": "every tree built from any non-empty block list", "why_tests_cant": "an equality of recursive structures for every size", "anchors": ["libs/hashtree/hashtree.go: Compact", "libs/hashtree/leaves.go: HashTree", "libs/hashtree/json_*.go", "libs/hashtree/adapter.go"]}
{"id": "C05", "title": "The head of a hash tree commits to its leaves", "statement": "If two trees with the same number of leaves have the same head then they have the same leaf hashes in the same order, or two explicit different 128-byte strings occurring in the two trees are a SHA-512 collision.", "quantifier": "every two block lists whose trees have the same number of leaves", "why_tests_cant": "security reduction over all pairs of trees", "anchors": ["libs/hashtree/leaf.go", "libs/hashtree/leaves.go: createChildLeaf", "libs/hashtree/parentleaf.go: HashTree"]}
{"id": "C06", "title": "The head of a hash tree identifies the block list", "statement": "Two different block lists never produce the same head, short of a SHA-512 collision. (Fails: padding makes [a;b;c] and [a;b;c;empty] collide, and inner nodes can be presented as blocks of a smaller tree.)", "quantifier": "every pair of block lists", "why_tests_cant": "needs a search over pairs of lists of different lengths", "anchors": ["libs/hashtree/block.go: createBlockFromData, resize", "libs/hashtree/hashtree.go"]}
{"id": "C07", "title": "Order puts shuffled blocks back in tree order", "statement": "For a tree built from any blocks, Order applied to any permutation of the blocks returns the blocks in their original order. (Fails when the tree is padded and the data contains the empty block: the tree then rejects its own data. It holds otherwise, provided different blocks of the data have different hashes; equal blocks are fine.)", "quantifier": "every block list and every permutation of it", "why_tests_cant": "all permutations of all lists", "anchors": ["libs/hashtree/hashtree.go: Order"]}
{"id": "C08", "title": "A decoded hash tree is internally consistent", "statement": "Every hash tree accepted from JSON has a head that is the hash of its leaves. (Fails: the JSON constructors copy heads without recomputing them.)", "quantifier": "every JSON hash tree document", "why_tests_cant": "all adversarial documents", "anchors": ["libs/hashtree/json_*.go", "libs/hashtree/hashtree.go: createHashTreeFromJSON", "libs/hashtree/builder.go: Now"]}
{"id": "C09", "title": "Entities carry the hash they were given and consistent times", "statement": "The immutable builder fails exactly when no hash was given, and otherwise returns the given hash and the given creation time (or the current time when none was given). The mutable builder in addition never returns an entity whose creation time is after its last update time, whatever the clock says.", "quantifier": "every combination of supplied and missing fields, every clock reading", "why_tests_cant": "the clock is an input; a test sees one reading", "anchors": ["libs/entities/immutable_builder.go: Now", "libs/entities/mutable_builder.go: Now"]}
{"id": "C10", "title": "Encrypting then decrypting with the same password returns the message", "statement": "For every password, message and random IV, Decrypt(Encrypt(m)) = m; the ciphertext text is valid base64 of 16+len(m) bytes.", "quantifier": "every message of every length, every password, every IV, every block cipher", "why_tests_cant": "all message lengths (partial last block) and all IVs", "anchors": ["libs/cryptography/encryption/encryption.go: Encrypt, Decrypt"]}
{"id": "C11", "title": "Decrypting with a wrong password or a tampered ciphertext is reported as an error", "statement": "Decrypt returns an error unless the text was produced by Encrypt with the same password. (Fails: every base64 text of at least 16 bytes decrypts without error under every password, and flipping a ciphertext byte flips the plaintext byte.)", "quantifier": "every password, every ciphertext", "why_tests_cant": "all ciphertexts", "anchors": ["libs/cryptography/encryption/encryption.go: Decrypt"]}
{"id": "C12", "title": "Ring signatures made by a ring member verify", "statement": "For every private key, every ring containing its public key (at any position, with or without repetitions) and every message, RingSign returns a signature whose Verify(message) is true and whose ring is the given ring; the error case happens exactly when the key is not in the ring.", "quantifier": "every group satisfying the group laws, every key, ring, message", "why_tests_cant": "all ring sizes and positions; the index arithmetic wraps around the ring", "anchors": ["libs/cryptography/pk/signature/privatekey.go: RingSign", "libs/cryptography/pk/signature/ringsignature.go: Verify, createRingSignature"]}
{"id": "C13", "title": "A signature recovers the signer's public key", "statement": "For every private key and message whose challenge is invertible, Sign succeeds and PublicKey(message) of the result is the signer's public key.", "quantifier": "every group satisfying the laws, every key and message", "why_tests_cant": "algebraic identity over all keys and messages", "anchors": ["libs/cryptography/pk/signature/privatekey.go: Sign", "libs/cryptography/pk/signature/signature.go: PublicKey"]}
{"id": "C14", "title": "Signature.Verify only accepts genuine signatures", "statement": "Signature.Verify rejects a pair (r,s) that was not produced by Sign. (Fails: it derives the public key from the signature itself, so it accepts every pair whenever the random challenge is invertible.)", "quantifier": "every pair (r,s), every random message", "why_tests_cant": "all pairs", "anchors": ["libs/cryptography/pk/signature/signature.go: Verify, PublicKey"]}
{"id": "C15", "title": "RingSignature.Verify only accepts signatures of some ring member", "statement": "No ring signature with an empty ring verifies, and a verified signature does not verify for an unrelated message unless the challenges collide. (Fails for the empty ring, which verifies for every message and is reachable by decoding a string.)", "quantifier": "every decoded ring signature, every message", "why_tests_cant": "adversarial inputs", "anchors": ["libs/cryptography/pk/signature/ringsignature.go: Verify", "libs/cryptography/pk/signature/ringsignature_adapter.go: ToSignature"]}
{"id": "C16", "title": "Signatures and ring signatures survive their text form", "statement": "ToSignature(s.String()) gives back s for every signature; the same for ring signatures of any non-negative ring size.", "quantifier": "every signature and ring signature", "why_tests_cant": "all ring sizes; the text form uses separators that must not occur in the encoded points", "anchors": ["libs/cryptography/pk/signature/signature.go: String", "libs/cryptography/pk/signature/adapter.go: ToSignature", "libs/cryptography/pk/signature/ringsignature.go: String", "libs/cryptography/pk/signature/ringsignature_adapter.go: ToSignature"]}
{"id": "C17", "title": "A lock opens only for a verified signature by exactly its key set", "statement": "A lock is built exactly from a non-empty list of distinct key hashes. If lock.Unlock(sig) succeeds then the set of key hashes of the signature's ring equals the lock's key set and the signature verifies on the lock's hash; conversely such a signature opens the lock.", "quantifier": "every lock, every ring signature", "why_tests_cant": "all key sets, orders and repetitions", "anchors": ["domain/memory/piastres/locks/builder.go: Now", "domain/memory/piastres/locks/lock.go: Unlock"]}
{"id": "C18", "title": "A bill locked by the application can be spent by its owner", "statement": "For the locks built by the applications (genesis Init, piastres Bucket) from the hash of the owner's public key, the owner's ring signature opens the lock. (Fails: the applications hash the decoded key bytes while Unlock compares the undecoded text, so no signature of any ring opens such a lock unless a SHA-512 output happens to be ASCII hex.)", "quantifier": "every key, every signature", "why_tests_cant": "a negative universal over all signatures", "anchors": ["application/genesis/current.go: Init", "application/identities/piastres/current.go: Bucket", "domain/memory/piastres/locks/lock.go: Unlock"]}
{"id": "C19", "title": "A lock hash identifies the set of keys", "statement": "Two locks with the same hash have the same key list, or an explicit SHA-512 collision. (Holds when both locks have at least two keys; fails in general because a single-key lock's hash is the key itself.)", "quantifier": "every pair of locks", "why_tests_cant": "all pairs", "anchors": ["domain/memory/piastres/locks/builder.go: Now"]}
{"id": "C20", "title": "A spending signature authorises only the expense it was made for", "statement": "A ring signature accepted in an expense is not accepted for an expense with a different recipient, amount or remainder. (Fails: the signed message is the lock's hash, so accepted signatures can be replayed for any other expense of the same bills.)", "quantifier": "every accepted expense, every other content over the same bills", "why_tests_cant": "all alternative contents", "anchors": ["domain/memory/piastres/expenses/builder.go: Now", "domain/memory/piastres/locks/lock.go: Unlock"]}
{"id": "C21", "title": "Expenses conserve value", "statement": "For every content accepted by the content builder: amount of the new bill plus amount of the remaining bill equals the sum of the input bills modulo 2^64, and exactly when that sum is below 2^64; the paid amount is positive and the remaining bill exists exactly when the remainder is positive.", "quantifier": "every list of input bills with any uint64 amounts, every amount, lock, remaining lock", "why_tests_cant": "all lists and 64-bit values including overflow", "anchors": ["domain/memory/piastres/expenses/content_builder.go: Now"]}
{"id": "C22", "title": "No expense creates money", "statement": "The total paid out by an accepted expense never exceeds the total of the distinct input bills. (Fails: the same bill may be listed several times as input; it holds when the inputs are pairwise distinct.)", "quantifier": "every accepted expense", "why_tests_cant": "needs an adversarial input list", "anchors": ["domain/memory/piastres/expenses/content_builder.go: Now", "domain/memory/piastres/expenses/builder.go: Now"]}
{"id": "C23", "title": "An accepted expense has one opening signature per input bill", "statement": "An expense is accepted only if it has exactly as many signatures as input bills and the i-th signature opens the i-th input bill's lock; and every such content and signature list is accepted.", "quantifier": "every content and signature list of any length", "why_tests_cant": "all lengths", "anchors": ["domain/memory/piastres/expenses/builder.go: Now"]}
{"id": "C24", "title": "Bill and content hashes commit to their contents", "statement": "Bills with equal hashes have equal lock hash and amount, or an explicit SHA-512 collision; expense contents (without 64-bit overflow) with equal hashes have the same recipient lock, amount, input bills and remaining lock hash, or an explicit collision.", "quantifier": "every pair of bills, every pair of contents", "why_tests_cant": "all pairs; the encodings concatenate variable-length decimals and hashes without separators", "anchors": ["domain/memory/piastres/bills/builder.go: Now", "domain/memory/piastres/expenses/content_builder.go: Now"]}
{"id": "C25", "title": "Transaction and address hashes commit to their contents", "statement": "Transactions (and addresses) with equal hashes have the same address, bucket and fees (sender, recipients, subject), or an explicit SHA-512 collision. (Fails: optional 64-byte parts are concatenated untagged and a single part is its own hash.)", "quantifier": "every pair of transactions, every pair of addresses", "why_tests_cant": "all pairs", "anchors": ["domain/memory/piastres/transactions/builder.go: Now", "domain/memory/piastres/transactions/addresses/builder.go: Now"]}
{"id": "C26", "title": "Block, link, mined block, mined link, chain and state hashes commit to their contents", "statement": "Two blocks (links, mined blocks, mined links, chains, states, chunks) of the same kind with equal hashes have equal components, or there is an explicit SHA-512 collision between their stated encodings (for two mined objects of which exactly one has an empty mining text: or one of the encodings is the 64-byte digest of the other).", "quantifier": "every pair of objects of the same kind", "why_tests_cant": "all pairs; a decimal number sits between fixed-size hashes without separators", "anchors": ["domain/memory/piastres/blocks/builder.go: Now", "domain/memory/piastres/links/builder.go: Now", "domain/memory/piastres/blocks/mined/builder.go: Now", "domain/memory/piastres/links/mined/builder.go: Now", "domain/memory/piastres/chains/builder.go: Now", "domain/memory/piastres/states/builder.go: Now", "domain/memory/buckets/files/chunks/builder.go: Now"]}
{"id": "C27", "title": "The genesis hash commits to the difficulty parameters", "statement": "Two genesis objects with the same hash have the same difficulty base, increase, link difficulty and bill. (Fails: base and increase are concatenated as decimals; base 1 with increase 11.5 and base 11 with increase 1.5 collide.)", "quantifier": "every pair of genesis objects", "why_tests_cant": "all pairs of parameters", "anchors": ["domain/memory/piastres/genesis/builder.go: Now"]}
{"id": "C28", "title": "File stores behave like a map", "statement": "After any sequence of Save, Delete and DeleteAll calls, Retrieve of a path returns the content of the latest Save not followed by a successful Delete of it, and fails when there is none; an operation on one path never changes another path.", "quantifier": "every sequence of operations on every set of paths", "why_tests_cant": "all histories", "anchors": ["libs/file/file_disk_service.go", "libs/file/file_disk_repository.go", "libs/file/repository_service_tests.go"]}
{"id": "C29", "title": "The encrypted file store returns what was saved", "statement": "With the same password, Retrieve after Save returns the saved content for every content and IV; Delete removes it.", "quantifier": "every content, password, IV and history", "why_tests_cant": "all contents and histories", "anchors": ["libs/file/encrypted_file_disk_service.go", "libs/file/encrypted_file_disk_repository.go"]}
{"id": "C30", "title": "Saved locks, bills and expenses can be retrieved with the same contents", "statement": "After a successful Save on a store reached only through Saves, Retrieve of the object's hash succeeds and returns an object with the same hash; its contents (keys, lock, amount, inputs, signatures, remainder) equal the saved ones, or there is an explicit SHA-512 collision (for single-key locks: a hash coincidence).", "quantifier": "every store history, every object built by the builders", "why_tests_cant": "all histories; the objects share children which may have been saved before with other timestamps", "anchors": ["domain/memory/piastres/locks/service.go, repository.go", "domain/memory/piastres/bills/service.go, repository.go", "domain/memory/piastres/expenses/service.go, repository.go, adapter.go"]}
{"id": "C31", "title": "Saving again changes nothing", "statement": "If an object is retrievable, Save of an object with the same hash succeeds and leaves every file unchanged (locks, bills, expenses, transactions, blocks, links and mined ones).", "quantifier": "every store, every object", "why_tests_cant": "all stores", "anchors": ["domain/memory/piastres/*/service.go: Save"]}
{"id": "C32", "title": "A crash during Save leaves no dangling reference", "statement": "On every store reached by Saves of which each may stop or fail at any point (between writes, or in the middle of a write leaving a torn file): every file either does not decode or belongs to an object which, with all its parts, can be retrieved; and a repeated Save of the interrupted object succeeds and makes it retrievable. For blocks and links this holds once their genesis is in the store; without it a block is written completely but not retrievable.", "quantifier": "every crash point, every object, every prior history", "why_tests_cant": "all crash points", "anchors": ["domain/memory/piastres/*/service.go: Save", "libs/file/file_disk_service.go: Save"]}
{"id": "C33", "title": "Saved transactions come back with their address", "statement": "After Save(trx), Retrieve(trx.Hash()) returns the same transaction. (Fails when the transaction has an address: the conversion drops it; address-only transactions cannot be saved at all and others come back with another hash. Holds for transactions without address.)", "quantifier": "every transaction, every store history", "why_tests_cant": "all combinations of optional parts", "anchors": ["domain/memory/piastres/transactions/adapter.go: ToTransfer", "domain/memory/piastres/transactions/repository.go: Retrieve", "domain/memory/piastres/transactions/service.go: Save"]}
{"id": "C34", "title": "Saved blocks, mined blocks, links and mined links come back identical", "statement": "With the genesis saved, after Save of a block of address-free transactions, Retrieve returns a block with the same hash, the same transactions in the same order and the same additional value; likewise links and their mined forms.", "quantifier": "every number of transactions, every store history", "why_tests_cant": "the transaction list travels through a padded hash tree, for every length", "anchors": ["domain/memory/piastres/blocks/adapter.go, repository.go, service.go", "domain/memory/piastres/blocks/mined/*", "domain/memory/piastres/links/*", "domain/memory/piastres/links/mined/*"]}
{"id": "C35", "title": "The genesis is written once", "statement": "Once a genesis is saved, no later sequence of Save calls changes what Retrieve returns; a second Save fails.", "quantifier": "every history", "why_tests_cant": "all histories", "anchors": ["domain/memory/piastres/genesis/service.go: Save", "domain/memory/piastres/genesis/repository.go: Retrieve"]}
{"id": "C36", "title": "A saved chain can be retrieved", "statement": "After Insert(chain), Retrieve returns the chain. (Fails always: Retrieve reports an error exactly when the stored genesis hash matches the genesis.)", "quantifier": "every chain and store", "why_tests_cant": "negative universal over all stores", "anchors": ["domain/memory/piastres/chains/repository.go: Retrieve", "domain/memory/piastres/chains/service.go: Insert"]}
{"id": "C37", "title": "Chain updates stay on the same genesis and root", "statement": "Update(original, updated) is refused when genesis or root differ and accepted when they are the same. (Fails: the comparisons are inverted, only updates that change both genesis and root pass.)", "quantifier": "every pair of chains", "why_tests_cant": "all pairs", "anchors": ["domain/memory/piastres/chains/service.go: Update"]}
{"id": "C38", "title": "States can be saved and are stored per chain and height", "statement": "Save(state) succeeds for every built state, and states with different (chain, height) are stored under different paths. (Fails: Save always returns an error because the conversion omits the amount, and heights are turned into file names as a rune, so e.g. 46 and 47, or all heights above 0x10FFFF, share a path.)", "quantifier": "every state; every pair of heights", "why_tests_cant": "all heights", "anchors": ["domain/memory/piastres/states/adapter.go: ToTransfer", "domain/transfers/piastres/states/builder.go: Now", "domain/transfers/piastres/states/helper.go: filePath"]}
{"id": "C39", "title": "Mining returns the first nonce that meets the difficulty", "statement": "For difficulties below 2^63, if mining returns a result string then hashing base followed by it yields the required number of leading zero bytes, the mined object's hash is that hash, and it is the first solution in the order of trying (0 to 2147483647, then the same numbers after further '0's); if there is a solution mining returns it and it never returns an error. It never returns for difficulties between 65 and 2^63 - 1, and difficulties from 2^63 on demand nothing.", "quantifier": "every base hash, difficulty and SHA-512 behaviour", "why_tests_cant": "all bases and difficulties", "anchors": ["application/miners/helper.go: mine, mineRecursively, prefix", "domain/memory/piastres/blocks/mined/builder.go"]}
{"id": "C40", "title": "Every mined block and mined link meets the genesis difficulty", "statement": "A mined block or link accepted by its builder, decoded from JSON or retrieved from the store satisfies the difficulty of the genesis. (Fails: no builder checks the mining string; an empty one gives the mined object the hash of the unmined one.)", "quantifier": "every mined object", "why_tests_cant": "adversarial inputs", "anchors": ["domain/memory/piastres/blocks/mined/builder.go: Now", "domain/memory/piastres/links/mined/builder.go: Now"]}
{"id": "C41", "title": "Block difficulty grows with the number of transactions", "statement": "The required difficulty is at least the base and never decreases when transactions are added.", "quantifier": "every base, positive increase and number of transactions", "why_tests_cant": "all values; the computation is in floating point", "anchors": ["application/miners/helper.go: difficulty"]}
{"id": "C42", "title": "Splitting a file into chunks loses no bytes", "statement": "For every file of fewer than 2^53 bytes and every positive chunk size, splitting succeeds, the chunks hold the file's bytes in order, each chunk but the last has exactly the chunk size, their recorded sizes add up to the file length, and so a file record determines the path and content, up to an explicit SHA-512 collision between parts of the two files. (Fails for files shorter than the chunk size, which yield no chunk and hence an error; holds otherwise, the last chunk being up to twice the chunk size minus one.)", "quantifier": "every file content and chunk size", "why_tests_cant": "all lengths, boundary cases at multiples", "anchors": ["application/identities/buckets/application.go: dirFileToFile"]}
{"id": "C43", "title": "Saved chunks, files and buckets can be retrieved", "statement": "After Save of a chunk, file or bucket, Retrieve returns it. (Fails: the stored form is the empty JSON object, and reading it back never returns an object. Save of a file or bucket never succeeds, since the stored-file builder was constructed without its immutable builder and panics, leaving the chunks written; a chunk can be saved once, after which Retrieve and Save of it panic.)", "quantifier": "every bucket, file and chunk", "why_tests_cant": "all objects and histories", "anchors": ["domain/transfers/buckets/**", "domain/memory/buckets/**/repository.go: Retrieve", "domain/memory/buckets/**/service.go: Save"]}
{"id": "C44", "title": "Deleting a bucket removes it and leaves other buckets intact", "statement": "Delete of a bucket removes its record and those of its files and nothing another bucket uses. (Fails: Delete of a file or bucket panics before removing anything. Delete of a chunk removes exactly its record.)", "quantifier": "every pair of buckets", "why_tests_cant": "all sharing patterns", "anchors": ["domain/memory/buckets/service.go: Delete", "domain/memory/buckets/files/service.go: DeleteAll, Delete"]}
{"id": "C45", "title": "Chunk data is content addressed", "statement": "In every history of Save/Delete on the chunk data store in which no write is torn (writes may fail or be lost), whatever Retrieve(h) returns hashes to h; Retrieve after Save returns the data, or there is an explicit collision with the data returned.", "quantifier": "every history", "why_tests_cant": "all histories", "anchors": ["domain/transfers/buckets/files/chunks/data/service.go", "domain/transfers/buckets/files/chunks/data/repository.go"]}
{"id": "C46", "title": "A wallet can be built", "statement": "The wallet builder returns a wallet for every name and statement. (Fails: the statement test is inverted; with a statement it returns an error and without one it panics, for both the memory and the transfer wallet.)", "quantifier": "every builder input", "why_tests_cant": "negative universal over all inputs", "anchors": ["domain/memory/identities/wallets/wallet/builder.go: Now", "domain/transfers/identities/wallets/builder.go: Now"]}
{"id": "C47", "title": "Saved peers are returned by the next Retrieve", "statement": "After saving peers, Retrieve returns the same peers. (Fails: the decoding of the list of addresses always returns nil, whatever was saved; and with nothing saved yet no peer can be added.) The saved text determines the peers. Adding a peer keeps every existing peer, and the peers collection never contains two peers with the same address, whatever the iteration order of the map it is built from.", "quantifier": "every list of peers", "why_tests_cant": "all lists", "anchors": ["domain/transfers/peers/adapter.go: ToPeers", "domain/transfers/peers/repository.go, service.go", "domain/memory/peers/builder.go: Now", "application/peers/application.go: save"]}
{"id": "C48", "title": "A user who created an identity can authenticate", "statement": "After NewIdentity(name, password, seed), Authenticate(name, seed, password) succeeds and its application retrieves the identity, for any identity store that finds an identity exactly under the name, password and seed it was inserted with. (Fails unless password = seed: the last two arguments are swapped.)", "quantifier": "every name, password, seed", "why_tests_cant": "all argument triples", "anchors": ["application/current.go: Authenticate", "domain/memory/identities/sdk.go: Repository"]}
{"id": "C49", "title": "Updating an identity keeps the rest of it and stays usable", "statement": "Update of the name, seed, password or root keeps wallets, buckets and creation time, and the application continues to find the identity afterwards. (Fails on both counts.)", "quantifier": "every identity and update", "why_tests_cant": "all combinations", "anchors": ["application/identities/current.go: Update"]}
{"id": "C50", "title": "Creating the genesis gives its bill to the identity, atomically", "statement": "Init creates the genesis and adds a wallet with its bill to the identity; if the process stops at any point inside Init, either nothing happened or both did. (Fails: with the repository's wallet builder Init never succeeds; password and seed are exchanged; the identity is updated before the genesis is saved, and a rerun adds a second wallet.)", "quantifier": "every crash point", "why_tests_cant": "all crash points", "anchors": ["application/genesis/current.go: Init"]}
{"id": "C51", "title": "Stop stops a daemon", "statement": "After Stop, a started daemon performs no further rounds. (Fails: Stop sets the started flag again.)", "quantifier": "every schedule of Start, Stop and rounds", "why_tests_cant": "all schedules", "anchors": ["infrastructure/daemons/peers/application.go", "infrastructure/daemons/buckets/application.go", "infrastructure/daemons/chains/application.go"]}
{"id": "C52", "title": "Chain synchronisation downloads exactly the missing links", "statement": "When a remote chain is ahead, a round upgrades the local chain with the remote links local+1 ... remote of the chain with the most transactions, in order, and the daemon goes on. (Fails: it starts at the local height again, never asks for the newest link, and ends after the first chain that was ahead. With an Upgrade that takes only the next link, the local chain never grows.)", "quantifier": "every pair of heights", "why_tests_cant": "all heights", "anchors": ["infrastructure/daemons/chains/application.go"]}
{"id": "C53", "title": "JSON forms of locks, bills, expenses, addresses, transactions, genesis, blocks and links are lossless", "statement": "Decoding the JSON form of a built object yields an object with the same hash and contents. (Fails for mined links whose mining text is not valid UTF-8: it is replaced silently. Holds otherwise for times in the years 0-9999.)", "quantifier": "every built object", "why_tests_cant": "all objects, all optional parts", "anchors": ["domain/memory/piastres/*/json_*.go", "domain/memory/piastres/*/*.go: create*FromJSON"]}
{"id": "C54", "title": "Decoding rejects what the builder would reject", "statement": "Every object obtained by decoding JSON satisfies the builder's conditions (distinct lock keys, conserved amounts, opening signatures, matching hash); in particular a decoded expense was validly signed. Text behind the document, other than white space, is refused. (Holds except for mined links, whose decoder ignores errors and returns an empty object.)", "quantifier": "every JSON document", "why_tests_cant": "adversarial documents", "anchors": ["domain/memory/piastres/*/adapter.go", "domain/memory/piastres/links/mined/adapter.go"]}
{"id": "C55", "title": "Decoding a JSON document never crashes", "statement": "Decoding any byte string as a lock, bill, expense, address, transaction, genesis, block or link returns an object or an error, never a panic. (Refuted: a document without a nested object dereferences nil; a signature with fewer scalars than keys indexes out of range. Documents without these two defects never crash.)", "quantifier": "every byte string", "why_tests_cant": "adversarial documents", "anchors": ["domain/memory/piastres/*/json_*.go", "domain/memory/piastres/*/*.go: create*FromJSON", "libs/cryptography/pk/signature/ringsignature.go"]}
{"id": "C56", "title": "A bucket transaction can pay fees", "statement": "If the wallets of the identity hold bills worth more than a fee, the expense made for the fee is accepted. (Fails: the signatures are made for the hash of the content but verified with the hash of the lock of each bill, so that acceptance needs an explicit coincidence of hashes; a fee equal to the worth of the bills is always refused; no additional keys or no bills is a crash. Without fees the transaction is made.)", "quantifier": "every curve meeting the laws, every fee, all wallet bills and all random draws", "why_tests_cant": "all messages, keys and draws", "anchors": ["application/identities/piastres/current.go: Bucket", "domain/memory/piastres/expenses/builder.go"]}
{"id": "C57", "title": "What can be retrieved stays retrievable and unchanged", "statement": "On a store reached by Saves under any faults, an object that Retrieve returns is returned unchanged (creation times included) after any further Saves under any faults, failed and torn ones included.", "quantifier": "every history, every later history, every fault sequence, every kind and hash", "why_tests_cant": "all histories and crash points; a torn rewrite of a shared part would break objects saved long before", "anchors": ["domain/memory/piastres/*/service.go: Save", "domain/memory/piastres/*/repository.go: Retrieve"]}
{"id": "C58", "title": "Mining a block saves a block over the named transactions that meets the difficulty", "statement": "If the miner's Block succeeds, it saved a mined block over exactly the named transactions in that order, with the genesis of the stored chain, whose hash meets the difficulty for that number of transactions; if it fails before saving, nothing is written. (In the repository's own stores it can never succeed on a chain that was inserted, because such a chain cannot be retrieved.)", "quantifier": "every store, transaction list, clock reading and conversion behaviour", "why_tests_cant": "all stores and fault sequences; mining outcome depends on hash values", "anchors": ["application/miners/current.go: Block", "domain/memory/piastres/chains/repository.go: Retrieve"]}
{"id": "C59", "title": "A mined link continues the previous one", "statement": "If the miner's Link succeeds, it saved a mined link to the named previous link and next block that meets the link difficulty, and its index is that of the previous link plus one. (The index part always fails: the index is never given to the builder and is 0.)", "quantifier": "every store and pair of hashes", "why_tests_cant": "negative universal over all stores", "anchors": ["application/miners/current.go: Link", "domain/memory/piastres/links/builder.go: WithIndex, Now"]}
{"id": "C60", "title": "Adding a folder records exactly its files", "statement": "When the files of a folder are read for a new bucket, there is exactly one file record per file below the folder, with its relative path and content, and no two have the same path. (Reading succeeds if all files are readable and at least as long as the chunk size; one shorter file anywhere makes the whole folder fail.)", "quantifier": "every folder tree with distinct proper names and every chunk size", "why_tests_cant": "all trees of any depth", "anchors": ["application/identities/buckets/application.go: dirToFiles, dirFileToFile"]}
{"id": "C61", "title": "File and bucket hashes commit to their contents", "statement": "Two files (buckets) with equal hashes have equal path and chunk hashes (file hashes), up to an explicit SHA-512 coincidence. (Holds for buckets and for files with paths of equal length. Fails for files in general: path and chunk hashes are joined without separator, so a file whose path ends in the 64 bytes of a chunk hash has the same hash as one with that chunk in front.)", "quantifier": "every pair of files and of buckets", "why_tests_cant": "all pairs", "anchors": ["domain/memory/buckets/files/builder.go: Now", "domain/memory/buckets/builder.go: Now"]}
{"id": "C62", "title": "A crash while saving chunk data never leaves wrong data under a hash", "statement": "If saving chunk data fails part way, Retrieve of its hash fails or returns the whole data. (Fails: the data is written in place, and whatever prefix was written is returned as the data.)", "quantifier": "every data, disk and point at which the write stops", "why_tests_cant": "needs a fault at every byte", "anchors": ["domain/transfers/buckets/files/chunks/data/service.go: Save", "libs/file/file_disk_service.go: Save"]}
{"id": "C63", "title": "The hashes of entries, statements and identities commit to their contents", "statement": "Two entries, statements or identities with the same hash have the same contents. (Fails: parts are joined without separation, so an entry can be moved from incoming to outgoing, text can move between seed, name and root, and the description of an entry and the contents of a bucket of an identity are not hashed at all. Holds when the lengths and counts agree, up to an explicit hash coincidence.)", "quantifier": "every pair of built objects", "why_tests_cant": "all pairs of contents", "anchors": ["domain/memory/identities/builder.go: Now", "domain/memory/identities/buckets/bucket/builder.go: Now", "domain/memory/identities/wallets/wallet/statements/builder.go: Now", "domain/memory/identities/wallets/wallet/statements/entries/builder.go: Now"]}
{"id": "C64", "title": "What is retrieved from the identity stores is what was saved", "statement": "After any history of saves and deletes, retrieving gives the object last saved under that hash (for an identity: hash and seed) and an error if there is none. (Fails for identities in one point: the time of the last update is replaced by the time of reading. Fails for names, seeds and roots that are not valid UTF-8: they are stored but never come back. Holds otherwise, for identities up to an explicit SHA-512 collision.)", "quantifier": "every history of saves and deletes of Unicode objects dated in the years 0-9999, every hash and seed", "why_tests_cant": "all histories and all texts", "anchors": ["domain/transfers/identities/service.go", "domain/transfers/identities/repository.go", "domain/transfers/identities/helper.go: makeFileName", "domain/transfers/identities/wallets"]}
{"id": "C65", "title": "Peers added at the same time are all kept", "statement": "Whatever additions of peers and rounds of the peers daemon overlap, every added peer is stored in the end. (Fails: the store is read and rewritten without a lock, so one of two overlapping additions is lost. A peer stored while nothing is under way is never lost, nothing is invented and nothing is stored twice, under every interleaving.)", "quantifier": "every stored list, every pair of peers, every interleaving of any number of additions and rounds", "why_tests_cant": "all interleavings", "anchors": ["application/peers/application.go: save", "infrastructure/daemons/peers/application.go: Start"]}
{"id": "C66", "title": "A round of the peers daemon collects the peers of all known peers", "statement": "If all stored peers answer, the store afterwards has exactly the peers it had and those they named, each once.", "quantifier": "every store, all answers, every map iteration order", "why_tests_cant": "all stores and answers", "anchors": ["infrastructure/daemons/peers/application.go: Start"]}
{"id": "C67", "title": "The peers daemon survives a peer that does not answer", "statement": "A peer that does not answer costs at most its own answer; the daemon goes on. (Fails: the error is returned from Start, nothing learnt in that round is saved and no further round is done.)", "quantifier": "every store, every unreachable peer, every continuation", "why_tests_cant": "all failure positions", "anchors": ["infrastructure/daemons/peers/application.go: Start"]}
{"id": "C68", "title": "A round of the buckets daemon is all or nothing", "statement": "A round saves the identity exactly if every followed bucket was obtained and followed, with all of them followed in order; otherwise the stored identity is unchanged and the daemon ends with the failure.", "quantifier": "every identity store, follow list and behaviour of the peers", "why_tests_cant": "all combinations of failures", "anchors": ["infrastructure/daemons/buckets/application.go: Start"]}
{"id": "C69", "title": "A bucket transaction commits to the content of the bucket", "statement": "Two bucket transactions with the same bucket hash are about buckets with the same files. (Fails: the hash is that of the path at which the bucket was added.)", "quantifier": "every identity store, every path and bucket content", "why_tests_cant": "all contents", "anchors": ["application/identities/piastres/current.go: Bucket", "domain/memory/identities/buckets/bucket/builder.go"]}
{"id": "C70", "title": "The hash of a stored identity is the hash of its contents", "statement": "After adding a bucket the stored identity has the hash of its seed, name, root, wallets and buckets. (Fails: the hash is not computed again, so it matches only by a coincidence of hashes. Holds after Update.)", "quantifier": "every identity store meeting the laws, every folder", "why_tests_cant": "all identities", "anchors": ["application/identities/buckets/application.go: Add", "domain/memory/identities/identity.go"]}
{"id": "C71", "title": "An added bucket can be retrieved and deleted", "statement": "After Add(path), Retrieve gives the bucket and Delete(path) removes it. (Fails: Add writes nothing to the bucket store Retrieve reads; with a path that is not absolute Delete removes nothing. The identity has the bucket, and Delete removes exactly the buckets whose absolute path it is given.)", "quantifier": "every identity and bucket store, every path", "why_tests_cant": "all stores and paths", "anchors": ["application/identities/buckets/application.go: Add, Delete, Retrieve"]}
{"id": "C72", "title": "The change of a fee can be spent", "statement": "The lock of the change can be opened with a key the identity has. (Fails: if the number drawn is at least the number of bills, the only key is that of a private key dropped at once. Otherwise the keys of the rings of the bills are included.)", "quantifier": "all wallet bills, draws and shuffles", "why_tests_cant": "all random draws", "anchors": ["application/identities/piastres/current.go: Bucket"]}
{"id": "C73", "title": "What is retrieved from the cancel store is what was saved", "statement": "A cancel can be built exactly from a hash, an expense, a lock and at least one signature. After any sequence of saves, Retrieve(h) gives exactly the cancel last saved with hash h, and an error if there is none. Whatever is on the disk, Retrieve does not panic and returns only complete cancels.", "quantifier": "all sequences of cancels, all hashes, all disk contents", "why_tests_cant": "all histories and all file contents", "anchors": ["domain/transfers/piastres/cancels/builder.go: Now", "domain/transfers/piastres/cancels/cancel.go: createCancelFromJSON", "domain/transfers/piastres/cancels/service.go: Save", "domain/transfers/piastres/cancels/repository.go: Retrieve"]}
{"id": "C74", "title": "Encryption keys decrypt, survive their text and are determined by their hash", "statement": "Under the contract of crypto/rsa and crypto/x509: a key of the factory decrypts what is encrypted for its public key; private and public keys survive their bytes and their text; the public key of what is read belongs to the private key; two public keys with the same hash are equal up to a coincidence of hashes.", "quantifier": "all keys, messages and randomness", "why_tests_cant": "all keys and messages", "anchors": ["libs/cryptography/pk/encryption/adapter.go", "libs/cryptography/pk/encryption/factory.go: Create", "libs/cryptography/pk/encryption/privatekey.go: Decrypt", "libs/cryptography/pk/encryption/public/adapter.go"]}
{"id": "C75", "title": "One adapter of encryption keys may be used by several goroutines", "statement": "FromBytes returns the key of its own argument, also when other calls overlap. (Fails: the adapter gives the key to one builder shared by all calls, without Create; a call may return the private key of another call with its own public key. A call that is not interrupted returns its own key, and every result consists of keys that were parsed.)", "quantifier": "all keys, numbers of calls and schedules", "why_tests_cant": "all interleavings", "anchors": ["libs/cryptography/pk/encryption/adapter.go: FromBytes", "libs/cryptography/pk/encryption/builder.go: WithPK, Now"]}
{"id": "C76", "title": "A bill is spent at most once", "statement": "Of two expenses that spend the same bill at most one is accepted into a transaction, a block and the stores. (Fails: every accepted expense can be put into one block with a second one paying the same bills to anybody; the stores keep both; a block may contain a transaction any number of times.)", "quantifier": "all accepted expenses, recipients, amounts, genesis, stores reached by saves", "why_tests_cant": "a double spend is a relation between two arbitrary expenses in any history", "anchors": ["domain/memory/piastres/expenses/builder.go: Now", "domain/memory/piastres/transactions/builder.go: Now", "domain/memory/piastres/blocks/builder.go: Now", "domain/memory/piastres/expenses/service.go: Save"]}
{"id": "C77", "title": "Money only comes from the genesis", "statement": "Every bill spent in a block was made by the genesis or by an earlier expense. (Fails: whoever has a key makes a bill of any amount and spends it; the store accepts the expense without any genesis.)", "quantifier": "all keys, rings, amounts, recipients, genesis", "why_tests_cant": "all amounts and keys; a global property of the history", "anchors": ["domain/memory/piastres/bills/builder.go: Now", "domain/memory/piastres/expenses/content_builder.go: Now", "domain/memory/piastres/blocks/builder.go: Now"]}
{"id": "C78", "title": "The parts of a chain belong together", "statement": "The root and the head of a chain have the genesis of the chain, and a link continues an existing one. (Fails for the builders, which take any genesis, root, head, previous hash and index; a chain that was retrieved has one genesis.)", "quantifier": "all genesis, roots, heads, disks", "why_tests_cant": "all combinations of parts, all disk contents", "anchors": ["domain/memory/piastres/chains/builder.go: Now", "domain/memory/piastres/links/builder.go: Now", "domain/memory/piastres/chains/repository.go: Retrieve"]}
{"id": "C79", "title": "A chain has as many transactions as it says", "statement": "The total of a chain is the number of transactions of its blocks, so that the chain daemon follows the longest chain. (Fails: any total not below the transactions of root and head is accepted and the daemon follows the peer that names the biggest. The total is never less than the transactions of root and head.)", "quantifier": "all chains, totals, peers and their answers", "why_tests_cant": "all numbers and answers", "anchors": ["domain/memory/piastres/chains/builder.go: Now", "infrastructure/daemons/chains/application.go: Start"]}
{"id": "C80", "title": "Nothing is older than what it is made of", "statement": "A content is not created before the bills it spends, nor a block before its transactions. (Fails: any time is accepted. The bills an expense makes and the expense itself have the time of the content.)", "quantifier": "all contents, blocks and times", "why_tests_cant": "all times", "anchors": ["domain/memory/piastres/expenses/content_builder.go: Now", "domain/memory/piastres/expenses/builder.go: Now", "domain/memory/piastres/blocks/builder.go: Now"]}
{"id": "C81", "title": "Saves at the same time lose nothing", "statement": "When several goroutines Save and Retrieve piastres objects over one store, an object whose Save has returned nil is retrievable from then on. (Fails: a Save that looked before the file was there truncates it afterwards, so that a saved bill is unreadable until the other Save has written, and for good if that one stops; and a lock saved at once with two creation times is left as a mixture of both texts although both Saves returned nil. Holds once all calls have returned without a fault if there is one object for each file, and for what was there before.)", "quantifier": "all objects, all numbers of calls, all interleavings of their file operations, all disks left by earlier calls, faults and crashes", "why_tests_cant": "all interleavings of any number of calls", "anchors": ["domain/memory/piastres/*/service.go: Save", "domain/transfers/piastres/*/service.go: Save", "libs/file/disk_service.go: Save"]}
{"id": "C82", "title": "One genesis even when two are saved at the same time", "statement": "Of two geneses saved at the same time the Save of at most one returns nil. (Fails for any two: both Saves return nil and the first one is overwritten.)", "quantifier": "all pairs of geneses", "why_tests_cant": "depends on the schedule", "anchors": ["domain/memory/piastres/genesis/service.go: Save"]}
{"id": "C83", "title": "A Retrieve during Saves returns what was saved, or an error", "statement": "A Retrieve that runs at the same time as Saves, under any faults and after any crashes, returns an error or an object that was given to a Save; a Save returns nil or an error, and without a fault an error only for a genesis. Nothing panics.", "quantifier": "all objects with one object for each file, all calls, interleavings, faults and crashes", "why_tests_cant": "all interleavings of any number of calls", "anchors": ["domain/memory/piastres/*/repository.go: Retrieve", "domain/memory/piastres/*/service.go: Save"]}
{"id": "C84", "title": "Calls that run at the same time end", "statement": "However the Saves and Retrieves of several goroutines are interleaved, there is no infinite schedule and no deadlock; a call that runs alone does what C30 to C38 say.", "quantifier": "all calls, interleavings, faults", "why_tests_cant": "all schedules", "anchors": ["domain/memory/piastres/*/service.go: Save", "domain/memory/piastres/*/repository.go: Retrieve"]}
{"id": "C85", "title": "Points are added and multiplied as on the curve", "statement": "The points of public keys and signatures form a commutative group under Add and Sub, and Mul by a scalar is repeated addition. (Fails for exactly the scalars above 2^255 + 7*(2^252-1)/15, which are accepted as private keys: Mul of the base point gives another point. Holds for all scalars up to that number, and Add, Sub always.)", "quantifier": "all points, all 32 byte scalars", "why_tests_cant": "infinitely many points and 2^256 scalars; the wrong ones never occur among generated keys", "anchors": ["vendor/go.dedis.ch/kyber/v3/group/edwards25519/ge.go: Add, Sub, Double, geScalarMult", "vendor/go.dedis.ch/kyber/v3/group/edwards25519/point.go: Add, Sub, Mul"]}
{"id": "C86", "title": "Private keys and public keys correspond one to one", "statement": "Two private keys that are generated have the same public key only if they are the same, the base point has exactly the prime order of the code, and the multiples of the base point are exactly the public keys.", "quantifier": "all generated keys", "why_tests_cant": "all pairs of keys; needs primality of the order", "anchors": ["libs/cryptography/pk/signature/privatekey.go: PublicKey", "vendor/go.dedis.ch/kyber/v3/group/edwards25519/const.go: primeOrder, baseext"]}
{"id": "C87", "title": "A public key has one text", "statement": "The text of a public key is read back as the same key, and no other text of 64 digits is read as that key. (The second part fails for keys with a y coordinate below 19 or x = 0: the sign of zero is not looked at and y is not compared with the modulus. Otherwise it holds.)", "quantifier": "all points and all 32 byte encodings", "why_tests_cant": "all 2^256 encodings", "anchors": ["libs/cryptography/pk/signature/publickey_adapter.go: ToPublicKey", "vendor/go.dedis.ch/kyber/v3/group/edwards25519/ge.go: FromBytes, ToBytes"]}
{"id": "C88", "title": "A private key has one text", "statement": "A text that is accepted as private key is the text the key prints. (Fails: fifteen numbers, and any digits behind them, are read as keys that print alike. Texts printed by String are read back.)", "quantifier": "all keys, all texts", "why_tests_cant": "all numbers and suffixes", "anchors": ["libs/cryptography/pk/signature/helper.go: fromStringToScalar", "vendor/go.dedis.ch/kyber/v3/group/edwards25519/scalar.go: UnmarshalBinary, MarshalBinary"]}
{"id": "C89", "title": "A private key that was read signs for its public key", "statement": "Whatever text ToPrivateKey accepts, the key's signatures give its own public key and its ring signatures verify. (Fails for every key above 2^255 + 7*(2^252-1)/15. Holds for all others, reduced or not.)", "quantifier": "all accepted private keys, messages, rings", "why_tests_cant": "all keys and messages; generated keys never show it", "anchors": ["libs/cryptography/pk/signature/privatekey_adapter.go: ToPrivateKey", "libs/cryptography/pk/signature/privatekey.go: Sign, RingSign"]}
{"id": "C90", "title": "Who signs for a ring has a private key of it", "statement": "A ring signature that verifies was made with the private key of a key of the ring. (Fails: the point of order two is accepted as key, has no private key, and anyone signs for it; with the null point in the ring anyone signs anything and opens any lock that has its text among the keys. RingSign itself signs only with a key of the ring.)", "quantifier": "all rings, messages, locks", "why_tests_cant": "all messages and rings; needs the points outside the subgroup", "anchors": ["libs/cryptography/pk/signature/ringsignature.go: Verify", "libs/cryptography/pk/signature/publickey_adapter.go: ToPublicKey", "domain/memory/piastres/locks/lock.go: Unlock"]}
{"id": "C91", "title": "Reading a signature gives the same answer every time", "statement": "ToSignature accepts a text always or never. (Fails: for r outside the subgroup of the base point the answer is the parity of a number that depends on the random message drawn by Verify.)", "quantifier": "all random messages, points and scalars", "why_tests_cant": "depends on the random message and on points outside the subgroup", "anchors": ["libs/cryptography/pk/signature/signature.go: Verify", "libs/cryptography/pk/signature/adapter.go: ToSignature"]}
{"id": "C92", "title": "A name of a store stands for a file in its directory", "statement": "Save, Retrieve and Delete of a file service touch only files within its base path. (Fails: every file of the disk has a name in every store, through components \"..\". Names without \"..\" stay within, and a name means the file one gets to by following its components.)", "quantifier": "all base paths, all names, all files", "why_tests_cant": "all names and directories", "anchors": ["libs/file/file_disk_service.go: Save, Delete", "libs/file/file_disk_repository.go: Retrieve"]}
{"id": "C93", "title": "Field arithmetic in int32 limbs is exact", "statement": "The field functions of the curve library, which compute with ten int32 limbs and int64 intermediate values, give the sum, difference, product and square modulo 2^255-19, read and write the number of the bytes, never overflow a machine integer within the bounds on the limbs, and give the same result when the result is written over an argument.", "quantifier": "all limbs within the bounds that the library's own operations keep", "why_tests_cant": "a missed carry shows for one in 2^60 inputs or fewer; overflow needs limbs at their bounds", "anchors": ["vendor/go.dedis.ch/kyber/v3/group/edwards25519/fe.go: feAdd, feSub, feNeg, feMul, feSquare, feSquare2, feFromBytes, feToBytes"]}
{"id": "C94", "title": "Scalar arithmetic in 21 bit limbs is exact", "statement": "Add, Sub and Mul of scalars give the 32 bytes of the result modulo the order of the base point, for any 32 bytes, reduced or not; Inv gives the inverse of every scalar that has one; no machine integer overflows; and the result may be written over an argument.", "quantifier": "all pairs of 32 bytes", "why_tests_cant": "2^512 pairs; an overflow or a missed carry shows only for a few", "anchors": ["vendor/go.dedis.ch/kyber/v3/group/edwards25519/scalar.go: Add, Sub, Mul, Inv, Div, scAdd, scSub, scMul"]}
{"id": "C95", "title": "The signature package computes what the curve says", "statement": "With the curve library running on machine integers and projective coordinates, every text and every answer of the signature package (public keys, signatures, ring signatures, verification, comparison with hashed keys, unlocking) is the one that exact arithmetic on the curve gives. In particular every key text that is read, up to 2^255 + 7*(2^252-1)/15, signs for its own public key and its ring signatures verify after being written and read.", "quantifier": "all texts of keys, signatures and messages, and all chains of operations on points", "why_tests_cant": "all texts; limbs that have not been reduced differ between equal points", "anchors": ["vendor/go.dedis.ch/kyber/v3/group/edwards25519/point.go", "vendor/go.dedis.ch/kyber/v3/group/edwards25519/ge.go", "vendor/go.dedis.ch/kyber/v3/group/edwards25519/scalar.go", "libs/cryptography/pk/signature/privatekey.go", "libs/cryptography/pk/signature/adapter.go", "libs/cryptography/pk/signature/ringsignature.go"]}
{"id": "C96", "title": "Builders accept exactly the complete and consistent requests", "statement": "Every Now() of the in-memory, stored and peer builders answers with the object made of exactly what was given (hash over the stated parts in the stated order, creation time as given or the clock) when the request is complete and consistent, and with an error, never a panic, when a part is missing or the parts do not fit: zero amounts, purses that do not match, missing keys or repeated keys, signatures that do not unlock, totals below the number of transactions known, updates before the creation.", "quantifier": "all arguments of all builders, all clock readings, all curves", "why_tests_cant": "all combinations of absent and inconsistent parts; the exact boundary of each check", "anchors": ["domain/memory/piastres/*/builder.go", "domain/memory/buckets/*/builder.go", "domain/memory/identities/*/builder.go", "domain/transfers/*/builder.go", "domain/memory/peers/peer/builder.go", "libs/cryptography/pk/encryption/builder.go"]}
{"id": "C97", "title": "Documents have a fixed format", "statement": "Every object in memory and every stored object is written as exactly one text: one JSON object with the members of its kind, under fixed names and in a fixed order, hashes in hexadecimal, absent hashes as empty strings, absent objects as null, lists never null, hash trees as their head and their leaves; and it is written at all if and only if its creation times lie in the years 0 to 9999 and its floats are finite.", "quantifier": "all objects of the 27 kinds of documents, built or not, on all curves", "why_tests_cant": "all contents; two encoders and decoders that are wrong in the same way pass every round trip", "anchors": ["domain/memory/piastres/*/json_*.go", "domain/transfers/piastres/*/json_*.go", "domain/transfers/identities/*/json_*.go", "libs/hashtree/json_compact.go", "libs/hashtree/json_leaf.go"]}
{"id": "C98", "title": "What is read and written is JSON", "statement": "A text is read if and only if it is a JSON text by the grammar of RFC 8259, and it is read as the value it has by that grammar: no text has two values, every other text is refused. Strings are written as the spelling of their code points: quotes and backslashes escaped, control characters, the three HTML characters and the two line separators as escapes, everything else as it is, bytes that are no UTF-8 as the replacement character; of a string in UTF-8 the spelling means the string.", "quantifier": "all byte strings, all JSON values", "why_tests_cant": "all byte strings: escapes, surrogate pairs, invalid UTF-8, numbers, nesting, white space", "anchors": ["domain/transfers/piastres/*/json_*.go", "domain/memory/piastres/*/json_*.go"]}
{"id": "C99", "title": "Times are written and read by the calendar", "statement": "The creation time of a document is written in exactly one way: the date found by counting days from 1970-01-01 through months and leap years, the time of the day in universal time, and the fraction of the second without trailing zeros; times outside the years 0 to 9999 are not written. A text is read if and only if it is a timestamp (four-digit year, existing date, time of the day, optional fraction, Z or an offset) and as the instant it stands for; in a document it stands between its quotes as it is, without escapes.", "quantifier": "all instants, all byte strings", "why_tests_cant": "all instants and texts: century and leap years, negative instants, offsets, fractions of every length", "anchors": ["domain/transfers/piastres/*/json_*.go", "domain/memory/piastres/*/json_*.go", "libs/entities/immutable.go"]}
{"id": "C100", "title": "Floats are read as the nearest number and written as the shortest text", "statement": "A JSON number literal is read as the float64 number nearest to the decimal it stands for, the even one of two that are equally near, and refused exactly when it lies at or beyond half a step behind the largest number. Every number is written in exactly one way: with the fewest digits that are read back as it, of those the nearest, of two the even one, without trailing zeros, with an exponent exactly below the number 1e-6 and from 1e21 on; NaN and the infinities are not written. What is written is read back as the same number.", "quantifier": "all number literals of any length, all float64 values", "why_tests_cant": "2^64 values and unboundedly many literals: ties, subnormals, powers of two with uneven gaps, carries to the next decade, the switch of format", "anchors": ["domain/memory/piastres/genesis/json_genesis.go", "domain/transfers/piastres/genesis/json_genesis.go", "domain/memory/piastres/genesis/genesis.go"]}
{"id": "C101", "title": "A new private key is a uniform non-zero scalar of the first draw in range", "statement": "Creating a private key reads 32 bytes from the system's random source at a time, takes the last 253 bits of the BLAKE2Xb output keyed with their SHA-256 as a big-endian number, and throws draws away until that number is positive and below the group order; the key is this number as 32 little-endian bytes. Each number comes from exactly eight of the 2^256 outputs, so no key is preferred, and more than half of the numbers are accepted. Creation never returns an error; it panics exactly when the random source fails before a draw was accepted. The key is canonical and not zero, its public key is not the neutral point, it makes valid ring signatures for every ring that contains it, and two created keys with the same public key are equal and come from draws with the same number.", "quantifier": "all sequences of results of the random source, all messages and rings", "why_tests_cant": "random input of 256 bits per draw and any number of rejected draws; bias and the excluded key zero are invisible to sampling", "anchors": ["libs/cryptography/pk/signature/privatekey_factory.go"]}
{"id": "C102", "title": "A peer is read back from its own URL, and no other peer's URL is read as it", "statement": "The URL written for a peer is read back as the same peer, for every peer the builder accepts; in particular two different peers never have URLs that are read as one peer. A text is read as a peer exactly when it is a URL scheme://user@host:port/path?query#fragment with scheme https or onion, a well-formed host and a positive decimal port below 2^63.", "quantifier": "all texts, all hosts (any bytes) and ports the builder accepts", "why_tests_cant": "hosts are arbitrary byte strings: @, /, ?, #, %, brackets, spaces, control bytes and bytes above 127 each take another path through url.Parse", "anchors": ["domain/transfers/peers/peer/adapter.go", "domain/transfers/peers/peer/builder.go", "domain/memory/peers/peer/peer.go"]}
{"id": "C103", "title": "An encryption key decrypts exactly what was encrypted for it, survives its text, and a key that is read never crashes", "statement": "A key of Create has the number of bits asked for. Decrypt returns a message exactly when the cipher is the RSA power of that message with OAEP padding; every message of at most n - 66 bytes is decrypted from its cipher. ToBytes and ToEncoded write the DER text of PKCS #1, from which FromBytes and FromEncoded return the same key; no text makes FromBytes panic, and a key that FromBytes returns decrypts or refuses every cipher.", "quantifier": "all keys with any number of primes, messages, ciphers, random bytes, and all byte strings as texts", "why_tests_cant": "keys, ciphers and texts range over unbounded integers; the crash needs a crafted key whose two primes are equal", "anchors": ["libs/cryptography/pk/encryption/adapter.go", "libs/cryptography/pk/encryption/factory.go: Create", "libs/cryptography/pk/encryption/privatekey.go: Decrypt", "libs/cryptography/pk/encryption/public/key.go: Encrypt", "libs/cryptography/pk/encryption/public/adapter.go"]}
{"id": "C104", "title": "An encrypted text is AES-256 in CFB mode as the standards define them", "statement": "Encrypt returns the base64 text of 16 random bytes followed by the message in CFB mode (NIST SP 800-38A) under AES (FIPS 197) with the SHA-256 of the password as the key, and fails only when there are no random bytes. Decrypt returns exactly the message of which the rest of the text is that cipher, or an error; neither panics. The block function is a permutation for each key, so the first key block repeats exactly when the random bytes do.", "quantifier": "all passwords, messages of any length, random bytes, texts; for the block function all keys of 16, 24 and 32 bytes and all blocks", "why_tests_cant": "test vectors cover a few keys and blocks; the tables, rounds, key expansion and the handling of a last partial block have to be right for all 2^384 inputs and all lengths", "anchors": ["libs/cryptography/encryption/encryption.go: Encrypt, Decrypt", "libs/cryptography/encryption/sdk.go: NewEncryption", "libs/cryptography/encryption/builder.go: Now"]}
{"id": "C105", "title": "An address is found under its hash until a write of the same address is cut off", "statement": "After any sequence of operations of the stores, Retrieve(h) gives the address with hash h that was saved last, unless the write of that save was cut off, then an error; a write that fails at once changes nothing. No operation of another store changes what is found. An address found under h was saved and has the hash h. Saving an address that is stored already writes it again, so a write that is cut off then loses it. Whatever is on the disk, Retrieve does not panic and returns only addresses the builder accepts.", "quantifier": "all sequences of saves of addresses and all operations of the other stores, all faults of the disk, all hashes; for the last part all disk contents", "why_tests_cant": "all histories with all places where a write can be cut off", "anchors": ["domain/memory/piastres/transactions/addresses/repository.go: Retrieve", "domain/memory/piastres/transactions/addresses/service.go: Save", "domain/memory/piastres/transactions/addresses/adapter.go: ToAddress"]}
{"id": "C106", "title": "What each document of the piastres objects is read as", "statement": "json.Unmarshal into the JSON struct of a lock, bill, content, expense, address, transaction, genesis, block, link or mined link succeeds exactly for the texts that are JSON documents (as in C98) whose members say what the struct then holds. Member names agree up to ASCII case, with the Kelvin sign as a k and the long s as an s; other members do not matter. If a name occurs several times, strings, numbers and times take the last value that is not null; the objects for a pointer are read as one object, and null starts anew; the arrays for a slice are laid over each other element by element, the last one gives the length, and null or an empty array starts anew. Absent members leave the empty string, 0, the first day of the year 1, nil, the empty slice. Numbers are plain decimal digits below 2^64; any value of the wrong kind is an error even if another follows.", "quantifier": "all byte strings as texts, all struct values", "why_tests_cant": "all documents, with all spellings of names and all ways to repeat members", "anchors": ["domain/memory/piastres/locks/json_lock.go", "domain/memory/piastres/bills/json_bill.go", "domain/memory/piastres/expenses/json_content.go", "domain/memory/piastres/expenses/json_expense.go", "domain/memory/piastres/transactions/addresses/json_address.go", "domain/memory/piastres/transactions/json_transaction.go", "domain/memory/piastres/genesis/json_genesis.go", "domain/memory/piastres/blocks/json_block.go", "domain/memory/piastres/links/json_link.go", "domain/memory/piastres/links/mined/json_link.go"]}
{"id": "C107", "title": "What a stored document is read as", "statement": "A file of the store is read as a lock, bill, genesis, transaction, expense, block, mined block, link, mined link, chain or state exactly if it is a JSON document whose members say that object: the identity and the references are hexadecimal texts in small or capital digits (64 bytes are the hash, any other number of bytes is hashed), an empty text is an absent reference where one may be absent, amounts, heights, totals and difficulties are not 0, a transaction has an address, a bucket or a fee, an expense has bills and signatures. Names, repeated members, null and absent members are as in C106. The transactions of a block or state are given by leaves, nested to any depth, each with its text and optionally a left and a right leaf; the tree is the perfect one over these leaves, built half beside half, and the root in the document only has to be readable. Reading crashes the process for exactly those blocks and states whose other members are readable and whose transactions are absent or null, hold a leaf that is null or missing, or hold a number of leaves that is not 2, 4, 8, ...; no other kind of document ever crashes; everything else is refused with an error.", "quantifier": "all byte strings as files, all objects; all curves for expenses; trees of any size and leaves of any nesting", "why_tests_cant": "all documents with all spellings and repetitions; leaves nested without bound", "anchors": ["domain/transfers/piastres/locks/json_lock.go", "domain/transfers/piastres/bills/json_bill.go", "domain/transfers/piastres/genesis/json_genesis.go", "domain/transfers/piastres/transactions/json_transaction.go", "domain/transfers/piastres/expenses/json_expense.go", "domain/transfers/piastres/blocks/json_block.go", "domain/transfers/piastres/blocks/mined/json_block.go", "domain/transfers/piastres/links/json_link.go", "domain/transfers/piastres/links/mined/json_link.go", "domain/transfers/piastres/chains/json_chain.go", "domain/transfers/piastres/states/json_state.go", "libs/hashtree/json_compact.go", "libs/hashtree/json_leaf.go", "libs/hash/adapter.go"]}
{"id": "C108", "title": "What a stored document of an identity or a cancel is read as", "statement": "A file is read as an identity, a bill of a wallet, a statement, an entry or a cancel exactly if it is a JSON document whose members say that object: identity and references as in C107; seed, name and root of an identity, the name of an entry (member \"string\"), its transactions, the private keys of a bill and the signatures of a cancel are not empty; the time of the last change of an identity is the time of reading and must not be before its creation. No document at all is read as a wallet. Nothing crashes: whatever is not read is refused with an error.", "quantifier": "all byte strings as files, all objects, all times of reading, all curves", "why_tests_cant": "all documents with all spellings and repetitions", "anchors": ["domain/transfers/identities/identity.go", "domain/transfers/identities/wallets/wallet.go", "domain/transfers/identities/wallets/builder.go", "domain/transfers/identities/wallets/bills/bill.go", "domain/transfers/identities/wallets/statements/statement.go", "domain/transfers/identities/wallets/statements/entries/entry.go", "domain/transfers/piastres/cancels/cancel.go"]}
{"id": "C109", "title": "An object never changes once it is built", "statement": "What a lock, content, expense, address, transaction, block or mined block says stays what it was when it was built, whatever the caller does with the slices given to the builder or got from a getter. (Fails: the objects keep the slice they were given and their getters give it out; an assignment to an element of it changes the keys of a lock, the bills of a content, the signatures of an expense, the recipients of an address, the fees of a transaction and the transactions of a block, also of a mined one, while every hash and mining result stays. A content then pays another sum than it takes, an expense holds signatures that open nothing, and no lock or block with these elements has that hash without a SHA-512 collision. Holds while nobody assigns to the array of the slice; Unlock goes by the original keys always.)", "quantifier": "all objects, all slices of any array, all elements, all positions; all sequences of assignments for the part that holds", "why_tests_cant": "all contents of memory and all sequences of writes by the callers", "anchors": ["domain/memory/piastres/locks/lock.go: PublicKeys", "domain/memory/piastres/locks/builder.go: WithPublicKeys, Now", "domain/memory/piastres/expenses/content.go: From", "domain/memory/piastres/expenses/expense.go: Signatures", "domain/memory/piastres/blocks/block.go: Transactions", "domain/memory/piastres/blocks/mined/block.go: Block"]}
{"id": "C110", "title": "A creation time keeps its instant and its zone in a document", "statement": "CreatedOn takes a time of any zone; the document written for the object has that time, and reading it gives the instant and the offset that were given. (It does exactly when the offset is one of whole minutes below a hundred hours; a zone with seconds, such as the local mean times of before the standard zones, comes back as another instant up to a minute away, and an offset of a hundred hours is written as a text that no reader accepts, also when it came from a document as +99:99.)", "quantifier": "all instants, all offsets, all texts", "why_tests_cant": "the tests use UTC or the zone of the machine; the instants and offsets are unbounded", "anchors": ["domain/transfers/piastres/bills/builder.go:57", "domain/transfers/piastres/bills/json_bill.go:9", "libs/entities/immutable.go:11", "libs/entities/immutable_builder.go:48"]}
{"id": "C111", "title": "Signatures keep the private key", "statement": "Nobody can compute a private key from the signatures it makes. (Fails: the number that hides the key in Sign and RingSign is a hash of the message and the key and of nothing else. From two ring signatures on one message in two rings, from a signature and a ring signature on one message, and from a ring signature on a message and a signature on that message with the number of another place behind it, the key is (s1 - s2) / (e2 - e1) of published numbers. The application signs for all bills of a fee on one message. For messages of one length no such number is used twice, unless challenges collide.)", "quantifier": "all keys, messages, rings, places", "why_tests_cant": "it is an equation between two signatures for every key, message and ring; each signature alone is right", "anchors": ["libs/cryptography/pk/signature/helper.go: genK", "libs/cryptography/pk/signature/privatekey.go: RingSign, Sign", "application/identities/piastres/current.go: Bucket"]}
{"id": "C112", "title": "A ring signature does not tell who made it", "statement": "From ring signatures nobody can tell which member of the ring made them, nor whether two were made by the same member. (Fails: the numbers outside the signer's place depend on the key, the message and the place only. Two signatures of one signer on one message agree at every place that is in both rings, except at the places of the signer; two signers agree at such a place only if the challenges collide. The equations of one signature fit every member.)", "quantifier": "all keys, messages, rings, places", "why_tests_cant": "a relation between signatures in different rings, for all keys and messages", "anchors": ["libs/cryptography/pk/signature/privatekey.go: RingSign", "libs/cryptography/pk/signature/helper.go: genK"]}
{"id": "C113", "title": "The parts of a bucket are found", "statement": "Every file of a bucket is found under its path by FileByPath, and every chunk of a file under its hash by ChunkByHash; nothing else is found. (Fails: a bucket is built of several files with one path, and only the last of them is found; what a caller writes into the slice of Files is shown by Files and not found, while the file it replaced is found and not shown. In the bucket of a folder exactly the files of the folder are found.)", "quantifier": "all buckets, files, paths, hashes, folders", "why_tests_cant": "it is about all lists of files, with equal paths anywhere in them", "anchors": ["domain/memory/buckets/bucket.go: FileByPath", "domain/memory/buckets/builder.go: Now", "domain/memory/buckets/files/file.go: ChunkByHash", "domain/memory/buckets/files/builder.go: Now"]}
{"id": "C114", "title": "A hash names an object of one kind", "statement": "Objects of different kinds have different hashes: the hash of a mined block is not the hash of a bill, the hash of a transaction not that of an expense, and so on. (Fails: the kind of an object is no part of what is hashed, and FromBytes returns 64 bytes unchanged. An object with one part has the hash of the part; every lock has the hash of an address; every block or link mined with a positive number has the hash of a bill of that amount; every link behind a block has the hash of that block mined with some text. Saving an object writes only files of its own kind and of the kinds of its parts, so that objects of two kinds with one hash do not overwrite each other.)", "quantifier": "all locks, bills, addresses, expenses, transactions, blocks, mined blocks, links, mined links, buckets, statements; all curves; all disks", "why_tests_cant": "it is about all pairs of objects of two kinds", "anchors": ["libs/hash/adapter.go: FromBytes, FromMultiBytes", "domain/memory/piastres/*/builder.go: Now", "domain/memory/piastres/*/service.go: Save"]}
{"id": "C115", "title": "Nobody but the signer changes a signature", "statement": "From a published ring signature nobody without a private key makes another one that is accepted for the same message, so that an accepted expense exists under one hash only. (Fails: the ring may begin at any other place, with the challenge of that place, which everybody can compute; scalars behind those that are used are not looked at. Both open every lock that the signature opens, and everybody turns an accepted expense into another one of the same content under another hash. Line ends anywhere in the text of a signature and bars in front of the encoded text are not looked at either. Holds for one scalar: where every key of the ring has a private key, replacing one scalar that is used makes a signature that is refused, unless two different texts have the same challenge.)", "quantifier": "all ring signatures, locks, messages, expenses, added scalars, places, texts", "why_tests_cant": "it is about all signatures that anybody could make from any signature", "anchors": ["libs/cryptography/pk/signature/ringsignature.go: Verify", "libs/cryptography/pk/signature/ringsignature_adapter.go: ToSignature", "domain/memory/piastres/locks/lock.go: Unlock", "domain/memory/piastres/expenses/builder.go: Now"]}
{"id": "C116", "title": "An address and a transaction keep their sender, subject and bucket", "statement": "What Sender and Subject of an address and Bucket of a transaction say is fixed when the object is built, whatever is done with the pointers they return and with the builder. (Fails: an assignment through such a pointer changes the object under the same hash, and two addresses made by one builder without a Create or WithSender in between have one sender. As long as nobody assigns through its own pointers an object stays the same whatever the builders are used for, and addresses made after a Create share nothing with those before.)", "quantifier": "all histories of calls of the two builders and of assignments through pointers", "why_tests_cant": "all histories and aliasings", "anchors": ["domain/memory/piastres/transactions/addresses/builder.go: WithSender, WithSubject, Now", "domain/memory/piastres/transactions/addresses/address.go: Sender, Subject", "domain/memory/piastres/transactions/builder.go: WithBucket, Now", "domain/memory/piastres/transactions/transaction.go: Bucket"]}
