# Formal model of rod-network: design

Source: `/repo` (Go, xmn-services/rod-network), read as text. Prover: Rocq / Coq 8.16.1, standard
library only. All Coq files are in `rocq/theories`, logical prefix `Verif`.

## 1. Shape of the development

* `Base.v` — bytes, Go outcomes, decimal / hex / base64 text, association lists.
* `Sha512.v` — an executable SHA-512 (FIPS 180-4) checked on published vectors; its only property
  used in proofs is that the output has 64 bytes.
* `*Model.v` — the code, function by function. Every definition has a comment `file:lines`. No
  proofs except what Coq needs to accept a definition.
* `*Spec.v` — small independent specifications (what "a map", "a collision", "value conserved",
  "dangling reference" mean) that do not mention the model's helpers.
* `*Proofs.v` — lemmas.
* `Properties_*.v` — only theorem statements closed by `exact`, one group per property `Cnn`, each
  followed by `Print Assumptions`, and `Example`s that exhibit a concrete non-trivial case meeting
  the hypotheses.

### Modelling conventions

| Go | Model |
|----|-------|
| `string`, `[]byte`, `Hash` | `list Byte.byte` (a `Hash` has length 64: proved, never assumed, for results of the adapter) |
| `(x, error)`, panics | `res A = Ok a \| Err \| Panic` ; non-termination / exhausted rounds is its own outcome where it can occur |
| `uint64` arithmetic | `N` with explicit `mod 2^64` |
| `int(x)` conversion | two's complement on `Z` |
| `time.Time` | `Z` nanoseconds; `time.Now()` is an explicit parameter |
| random IVs, random messages | explicit parameters, theorems quantify over them |
| maps | association lists; where Go iterates over a map the order is an explicit parameter (a permutation) |
| pointers that may be nil | `option`, a dereference of `None` is `Panic` |
| the disk | for `libs/file`: a tree of folders and files (`FileModel.v`). For the stores above it: a map from (store, name) to contents together with an oracle that decides for each write whether it happens, is refused, or is torn at a byte; a crash of the process leaves the disk of the corresponding failed write |
| JSON | the text itself: `JsonModel.v` prints and parses the texts `encoding/json` writes and reads (strings, escapes, numbers, arrays, objects, null, white space), including UTF-8: invalid bytes become U+FFFD, U+2028 and U+2029 are escaped, surrogate pairs are joined (see the head of the file and `UnicodeSpec.v`). `TimeModel.v` is RFC 3339 as `time.Time` prints and parses it, `FloatText.v` the shortest decimal form of a float |
| `float64` | `SpecFloat` binary64 with explicit rounding; no fused multiply-add (the Go specification allows it, amd64 does not use it); a conversion of an out-of-range float to `uint` is a parameter `wild` |
| goroutines | interleavings of the steps that touch shared memory; memory is sequentially consistent |
| loops without a bound | fuel, with exhaustion as its own outcome, and theorems saying when fuel is enough |
| edwards25519 (kyber) | record `Curve` of operations; the group laws used (`CurveLaws`) are an explicit hypothesis of each theorem that needs them. `ed25519` (`Ed25519Curve.v`) is the curve of the code, modelled from kyber's source, and `ed25519_laws` proves the hypothesis; `ToyCurve.v` is a small instance for the examples. The laws are about reduced scalars; what unreduced ones do on `ed25519` is C88 and C89. `limb25519` (`LimbCurve.v`) is the same library on machine integers: ten int32 limbs, projective points, `GoIntModel.v` as the interpreter of the straight-line functions; C95 says that the two give the same texts |
| `crypto/rsa`, `crypto/x509` | operations as parameters in `CancelModel.v`, laws `rsa_laws` as a hypothesis; `RsaModel.v` models Go 1.15's versions and `C103_contract` proves the laws of them, with `crypto/rand.Prime` as a parameter that returns primes |
| `net/url` | in C47 a contract for `url.Parse` on the texts a peer prints, as a hypothesis; `UrlModel.v` is `url.Parse` of Go 1.15 itself and meets it (C102) |
| AES block function | an arbitrary function in C10, C11 and C29; `AesModel.v` is the one of crypto/aes (C104) |

"Collision" always means an *explicit* pair: the theorem names the two different byte strings
(computed from the objects in the statement) that have the same SHA-512 value. A statement
`exists x y, x <> y /\ sha512 x = sha512 y` would be trivially true and is never used.

### Properties that the code does not satisfy

Reading the code showed that many properties a user relies on are false. For these the catalogue
states the property as the user would, and the model proves (a) a theorem with suffix `_refuted`:
the negation, as universally as possible ("no chain can ever be retrieved", "every wallet build
fails"), and (b) a theorem with suffix `_partial` which is the strongest positive version we
found. Their status in `MANIFEST.json` is `partial`, with a note starting with `REFUTED`.

## 2. Trusted base

* Coq 8.16.1 kernel (including `vm_compute`), `coqc`, and the statements in `Properties_*.v`,
  `*Spec.v` and the definitions in `*Model.v`.
* Axioms: see section 4 (output of `Print Assumptions`); the intention is "Closed under the
  global context" for every theorem.
* Faithfulness of the transcription Go -> Gallina (by reading; nothing of /repo was run).
* External code modelled abstractly: crypto/rand (with rand.Prime), the operating system's file operations, time, the HTTP clients behind the
  `Client` interfaces. Where a theorem needs something of them it is a hypothesis in its statement.
* Standard Go code that is modelled concretely: crypto/sha512, encoding/hex, encoding/base64,
  encoding/json (as above), strconv, path/filepath `Join`/`Clean`, cipher CFB, crypto/aes (generic code; the assembly is taken to compute the same), crypto/sha256; net/url (`Parse`, `Hostname`, `Port`; `UrlModel.v`); BLAKE2Xb (`KeygenModel.v`);
  crypto/rsa, the PKCS #1 part of crypto/x509 and what it uses of encoding/asn1 (`RsaModel.v`); and
  kyber's edwards25519, once with exact field and scalar arithmetic (`Edwards25519Model.v`) and once on
  its machine integers (`GoIntModel.v`, `LimbCode.v`, `LimbModel.v`). `LimbCode.v` is written by
  `tools/straightline.py` from the Go text of feMul, feSquare, feSquare2, feFromBytes, feToBytes, scAdd,
  scSub and scMul, one statement for one statement.

`tools/manifest.py` writes `MANIFEST.json` from `tools/notes.json` and the theorem names; it is
not part of any proof. `seeded/LOG.jsonl` lists the wrong programs the theorems were tried against.

## 3. Per property

`M` = what is modelled, `P` = how it is proved, `R` = the property is false of the code.

| id | plan |
|----|------|
| C01 | M `libs/hash` on concrete SHA-512, hex, Path. P length of the SHA-512 model, hex round trip, injectivity of hex and of Path (last path component). |
| C02 | R: universal: for every x that is not 64 bytes long FromBytes x = FromBytes (sha512 x). Partial: injective up to an explicit collision on inputs of the same 64-byteness. |
| C03 | M `libs/hashtree` block/leaves/leaf/parentleaf as an inductive tree with heads stored in nodes. P induction on the number of levels; the power of two is characterised by minimality, not by the code's formula (`HashTreeModel` takes the mathematical one; `PaddingModel` computes it in float64, and `C03_padding` proves both equal for up to 2^40 blocks, for every `math.Log` accurate to 2^-46 and every `math.Pow` exact on powers of two). |
| C04 | P tree reconstruction from leaves of a perfect tree; both JSON forms. |
| C05 | P induction on height; the collision pair is given by a function searching both trees, shown to return nodes of the trees. |
| C06 | R: padding and inner-node counterexamples for all blocks. Partial: equal number of leaves and equal non-padding count (via C05). |
| C07 | P map lookup after permutation with distinct hashes; R for padded trees containing the empty block. |
| C08 | R: for every head and leaf list there is an accepted JSON. Partial: decoding what the encoder produced is consistent. |
| C09 | M entities builders with the clock as parameter. P case analysis. |
| C10 | M CFB over arbitrary block function, base64. P induction on blocks. |
| C11 | R: universal acceptance and malleability. Partial: the error cases characterised exactly. |
| C12 | M ring signature loop. P invariant of the loop around the ring: e_i as computed by the verifier equals the signer's e_i. |
| C13 | P group laws. |
| C14 | R: Verify accepts every pair in the subgroup when the challenge is non-zero. |
| C15 | R: empty ring. Partial: one-element ring verification unfolds to the Schnorr equation. |
| C16 | P hex/base64/split round trips. |
| C17 | M locks builder and Unlock. P iff with an independent set specification. |
| C18 | R: universal negative (characterisation of when it can open). |
| C19 | R single-key locks; partial for lists of two or more keys. |
| C20 | R: replay theorem for every accepted expense. |
| C21 | M content builder with wrap-around. P arithmetic mod 2^64. |
| C22 | R: duplicate input doubles money; partial for distinct inputs. |
| C23 | M expense builder. P iff. |
| C24 | P injectivity of decimal text and of fixed-width concatenation. |
| C25 | R: counterexamples; partial: same shape. |
| C26 | P as C24 for blocks, links, mined, chains, states, chunks. |
| C27 | R: counterexample; partial for equal base. |
| C28 | M disk store and test store. P refinement of a functional map by induction over the history; encrypted variant as C29. |
| C29 | P C28 + C10. |
| C30 | M transfer objects, adapters, repositories, services over the disk. P invariant of stores reached by saves. |
| C31 | P from the service's first test. |
| C32 | P invariant preserved by every prefix of writes, torn file included. |
| C33 | R: universal for transactions with an address. Partial without address. |
| C34 | P with hashtree C04 and C30. |
| C35 | P induction over histories. |
| C36 | R: universal. |
| C37 | R: universal; exact characterisation of what is accepted. |
| C38 | R: universal for Save; path collisions for rune file names. |
| C39 | M miners/helper with hash function and rounds as fuel; P induction. |
| C40 | R: empty mining string. |
| C41 | M difficulty in IEEE binary64 (SpecFloat), monotonicity; partial if restricted to an exact-arithmetic model. |
| C42 | M dirFileToFile. P division lemma; R for short files. |
| C43 | R: universal panic. |
| C44 | R: Delete of files and buckets panics for every bucket; partial: chunks. |
| C45 | P history induction. |
| C46 | R: universal. |
| C47 | R: universal; positive part: dedup / add keeps peers for every map iteration order. |
| C48 | R: universal unless password = seed. |
| C49 | R: universal. |
| C50 | R: crash between the two writes. |
| C51 | R: universal over schedules. |
| C52 | R: exact list of fetched indices. |
| C53 | P decode after encode on texts, with a generic codec argument per kind. |
| C54 | P decoding goes through the builders; R for mined links. |
| C55 | R: a missing nested object is a nil dereference. Partial: documents without that and with enough scalars. |
| C56 | M identities/piastres: fees of a transaction. R: an accepted fee exhibits hash coincidences. Partial: transactions without fees. |
| C57 | P invariant over histories with faults: retrieval is monotone. |
| C58, C59 | M miners application on top of the stores. R where the stores or the index are wrong; P what a successful run stored. |
| C60 | M reading of a folder (recursion over a tree of files). P soundness and completeness of the records. |
| C61 | P injectivity as in C24; R for the missing separator. |
| C62 | R: universal over data and the byte at which the write tears. |
| C63 | R: universal, one statement per missing separator; P what is determined once lengths agree. |
| C64 | M identity store (encrypted file named by hash and seed), its JSON. P refinement over all histories. R: time of the last update. |
| C65 | M stepwise interleaving of read-modify-write. R: lost addition. P: what is stable and that nothing is invented. |
| C66, C67 | M peers daemon round. P for all answers and map orders; R: one failing peer. |
| C68 | M buckets daemon round with client and Follow as parameters. |
| C69–C72 | M applications of an identity over any identity store with the laws of `AppSpec.v` (`list_store` is an instance). |
| C73 | M transfers of cancels. P codec and history induction. |
| C74 | M pk/encryption over a record of RSA operations. |
| C75 | M the shared field of the adapter, call by call. R: interleaving for any two keys. |
| C76–C80 | No new model: ledger properties (`LedgerSpec.v`) of the builders, stores and the chain daemon. R universally; small positive parts. |
| C81–C84 | M the Saves and Retrieves of `StoreModel.v` again as programs of single file operations, proved equal when run alone; any number of them interleaved. P an invariant saying which files hold a prefix of their one text, and what each call in progress has seen to be complete. R schedules. |
| C85–C91 | M kyber's ge.go, point.go, scalar.go (`Edwards25519Model.v`). P primality by Pocklington certificates (`NumberTheory.v`, `Primes25519.v`), the twisted Edwards group law (`EdwardsLaw.v`), the formulas of ge.go represent it, signed digits. R scalars above the precondition of geScalarMult, encodings that are not canonical, points outside the subgroup. |
| C93, C94 | M the straight-line functions of fe.go and scalar.go statement by statement over wrapping integers. P a checker for ranges (`GoIntCheck.v`) that follows bounds through a program, and polynomial identities: a carry moves a multiple from one limb to the next. |
| C95 | M ge.go, point.go, scalar.go over limbs, `limb25519`. P a simulation: limbs within bounds stand for the exact number, projective coordinates for the affine point; texts do not depend on the representative. |
| C96 | P each builder against the one relation `builds`: accept and give the stated object, or answer an error. |
| C97 | P each encoder against the text written out in `FormatSpec.v`. |
| C98 | P the reader against the inductive grammar of `GrammarSpec.v`, both directions (mutual induction); the writer of strings against code-point spellings. |
| C99 | P the closed formulas against a calendar counted day by day; the reader and the writer of times against a grammar, both directions. |
| C100 | P reading and writing of float64 texts against rounding over the rationals; 17 digits suffice, the search finds the shortest, one text for each number. |
| C101 | M BLAKE2b, BLAKE2Xb, kyber's random.Int and Pick. P BLAKE2b with its permuted tables and two counters against RFC 7693 and the BLAKE2X paper (`Blake2Spec.v`); the loop by induction over the draws; the mask against the remainder by 2^253; then C86 and C12 apply. |
| C102 | M `url.Parse`, `Hostname`, `Port`. P the parser against a grammar of URLs (`UrlSpec.v`), both directions; a length argument for which peers are read back. R universal: for each safe peer there are others whose URL is read as it. |
| C103 | M crypto/rsa (OAEP, Chinese remainders, blinding, key generation), PKCS #1 texts and the part of encoding/asn1 below (`RsaModel.v`). P against RFC 8017 and X.690 (`RsaSpec.v`): numbers (`RsaNumbers.v`), OAEP and RSA (`RsaCrypt.v`), DER (`RsaText.v`), keys (`RsaKeys.v`), all texts that are read (`RsaExact.v`). |
| C104 | M crypto/aes and the CFB stream (`AesModel.v`). P against FIPS 197 and SP 800-38A (`AesSpec.v`): bytes as polynomials and the inverse cipher (`AesField.v`), tables and rounds (`AesBlock.v`), key expansion (`AesKey.v`), stream and texts (`AesCfb.v`). |
| C105 | M in `StoreModel.v` (`OpAddress`, `address_retrieve`). P: histories in `AddressStore.v`, with what each operation leaves on the disk under the name of an address. |
| C106 | M in `JsonModel.v` (`jfield`, `dlast`, `dstruct`, `dlist`, `dptr`) and `MemJsonModel.v`. S in `MemberSpec.v` and `DocumentSpec.v`: what a list of values decoded into one place gives, and one relation for each struct. P: each decoder against its relation, from the scalars up. |
| C107 | P the decoders of the transfer documents against relations between the members and the object, both directions; nested leaves by induction over the depth of the document; the tree against a half-by-half definition. |
| C108 | P the decoders of the identity and cancel documents against relations between members and object, both directions; no panics. |
| C109 | R (every element of every slice can be replaced under the same hash), P while nobody assigns to the array: a heap of arrays, objects that keep a slice. |
| C110 | R (offsets with seconds, offsets of a hundred hours), P exact characterisation: time.Time's JSON with the zone's offset; the instants of the other models are these with the zone dropped. |
| C111 | R (the key from two signatures), P what a ring signature publishes, and that messages of one length share no hiding number: generic curve, instance edwards25519. |
| C112 | R (signatures on one message in two rings are linked), P (the equations of one signature fit every member): as C111. |
| C113 | R (files with one path; a slice that is written to), P exactly what is found, and that in the bucket of a folder all files are: IndexModel.v. |
| C114 | R (objects of two kinds with one hash), P that saving keeps the kinds apart. |
| C115 | R (turned rings, more scalars, other texts), P that one scalar cannot be replaced without a collision of challenges. |
| C116 | R (pointers given out, one builder for two addresses), P over all histories of both builders: PointerModel.v. |
| C92 | M `filepath.Join`, against a relation that follows a path step by step. R universal. |

Not modelled: packages that consist of interfaces only (`application/chains`, the links and
client interfaces in `infrastructure/clients`), test helpers (`*_tests.go`, `tests.go`) except
the in-memory file store used in C28, vendored code other than kyber's edwards25519 and its random scalars with BLAKE2Xb (of that, Embed, Data, the
multiplication of the base point by a table and the variable-time versions are left out; the signature
package calls none of them), file
permissions, log output. The collections of identities (wallets, buckets) exist only as
interfaces where the model has an identity store as a parameter.

Simplifications a reader should know:

* In-memory objects built by the builders are values; nobody mutates the slices handed to a
  builder afterwards. `SliceModel.v` (C109) drops this for locks, contents, expenses, addresses, transactions and blocks:
  there a slice is a reference into a heap of arrays. `PointerModel.v` (C116) drops it for the
  pointers that Sender, Subject and Bucket give out.
* A time is an instant; the zone of a Go time is dropped, and times are printed in UTC, as all times
  made by the applications are. `ZoneModel.v` (C110) has times with the offset of their zone.
* `BucketModel.v`: what slicing past the end of a read file gives depends on the capacity Go left
  behind it; see the comment at `slice`. Structs without exported fields marshal to `{}`.
* JSON: the limit of 10000 for the nesting of a document, which Go has since 1.15, is not modelled. Repeated members are decoded into the same place one after another, as encoding/json does. The codec theorems ask for strings in UTF-8, and the theorems `C53_refuted_not_unicode` and `C64_refuted_not_unicode` show that this is needed.
* `ConcurrentModel.v`: reading a file is one step; writing is two, one that truncates and one that writes
  all bytes from the start (over what others wrote meanwhile); with a fault either is cut short.

## 4. Axioms reported by `Print Assumptions`

Every theorem in `Properties_*.v` is followed by `Print Assumptions`, and each of them answers
`Closed under the global context`: no axiom is used, not even one of the standard library
(`SpecFloat` is the axiom-free part of the float library).
