# Formal model of viadkim in Rocq (Coq 8.16.1)

Target: `dipanshuhappy/viadkim`, the sources in `/repo/src` (read as text, not
built or run).  The model lives in `rocq/theories`; `rocq/_CoqProject` lists the
files in dependency order.

## 1. How the model is built

* **Data.** A byte is an `N`, a `char` is an `N` (Unicode scalar value).  `&[u8]`
  and `Vec<u8>` are `list N`; `&str`/`String` are *lists of chars*, with explicit
  UTF-8 encoding (`as_bytes`) and Rust-strict decoding (`from_utf8`).  The type
  invariants of `u8` (`< 256`) and `char` (scalar value) appear as hypotheses
  only where a theorem needs them.
* **Control.** Loops are structural recursion or recursion on fuel that provably
  suffices; `&mut self` methods return the new state; `Result`/`Option` stay data;
  every panic site (`unwrap`, `expect`, `assert!`, `unreachable!`, slicing) is an
  explicit `Panic` value, and absence of panics is a theorem.
* **Environment.** Anything outside the repository is a parameter (a record of
  functions over which every theorem quantifies), never an axiom: digest
  functions, RSA/Ed25519 sign/verify/key reading, `idna` domain conversion, the
  DNS resolver (with answers and latencies), the clock, `usize` width, the
  `pre-rfc8301` feature flag.  Assumptions about a parameter are explicit
  hypotheses of the theorem using them.
* **Nondeterminism.** Iteration order of `HashMap`/`HashSet` and the user-supplied
  `tag_order` comparator are arbitrary permutations (parameters).
* **Base64** (`base64ct` crate) and UTF-8 validation (std) are modelled by
  concrete functions following their documented behaviour.

Layout of `rocq/theories` (model files contain definitions only, no proofs):

| model file | source | 
|---|---|
| `Base.v`, `Utf8.v`, `Base64.v` | std / `util.rs` / `base64ct` |
| `Canon.v` | `canonicalize.rs` |
| `BodyHash.v` | `crypto/hash.rs`, `message_hash.rs` |
| `Header.v` | `header.rs` |
| `Parse.v`, `TagList.v`, `QP.v` | `parse.rs`, `tag_list.rs`, `quoted_printable.rs` |
| `Domain.v`, `Signature.v` | `signature.rs`, `crypto/mod.rs` (names) |
| `KeyRecord.v` | `record.rs` |
| `Crypto.v` | `crypto/mod.rs`, `crypto/rsa.rs`, `crypto/ed25519.rs` (around the primitives) |
| `Format.v`, `Sign.v` | `signer/*.rs` |
| `Verify.v` | `verifier/*.rs` |
| `Names.v` | equality and hashing in `signature.rs`, `header.rs` |
| `Hickory.v` | `verifier/lookup/hickory_resolver.rs` (around the crate) |
| `Pem.v` | `crypto/mod.rs` (`from_pkcs8_pem`) |
| `Report.v` | texts of errors and results in `verifier/mod.rs`, `signature.rs`, `record.rs`, `crypto/mod.rs`, `signer/mod.rs` |
| `Programs.v` | `examples/dkimsign.rs`, `examples/dkimverify.rs` |
| `Debug.v` | `Debug` texts in `util.rs`, `header.rs`, `signature.rs`, `record.rs`, `crypto/mod.rs`, `verifier/mod.rs`, `signer/mod.rs`, and what they use of std's `core::fmt` |
| `Dev.v` | what differs in builds with debug assertions and overflow checks: `parse.rs`, `quoted_printable.rs`, `tag_list.rs`, `signature.rs`, `record.rs`, `canonicalize.rs`, `message_hash.rs`, `signer/*.rs`, `verifier/*.rs` |
| `Usize.v` | the counters of `canonicalize.rs` and `crypto/hash.rs` with the width of `usize`, and what uses them in `message_hash.rs`, `signer/mod.rs`, `verifier/mod.rs` |
| `Cursor.v` | `signer/format.rs` with the width of `usize` in all sums and products, and what uses it in `signer/sign.rs`, `signer/mod.rs` |

The other model files describe a release build; except in `Usize.v` the counters of bodies are
unbounded numbers (C82 says how far this matters).

Other files:

* `Spec*.v`: specifications, written without the functions of the model where
  they say what the code should compute: grammars as inductive relations, bodies as
  lists of lines, header selection by counting from the bottom, ordered lists of
  conditions for checks, and so on.  They use the *types* of the model, and in a few
  places a model function whose own exact theorem is cited (for example
  `sig_from_str`, characterised by C24/C26, inside the specification of
  verification; `make_original_dkim_sig`, characterised by C36).  `SpecDkim.v` has the
  validity of signatures without such functions, `SpecCause.v` all verdicts; C73 and
  C75 relate them.
* `Prop*.v`: only the property theorems (named `Cnn_…` after `properties.jsonl`),
  each followed by `Print Assumptions`, with `Example`s that meet hypotheses with
  concrete, non-trivial data.  Examples are shared by neighbouring theorems: there are
  fewer of them than theorems.
* `Tests.v`: unit tests of the repository ported as computations on the model
  (tests, not proofs).  `Guards.v`: tests that assertions of the code are in the model,
  on made-up states that no run comes to.  `Sample.v`: toy primitives for examples.
* `Concrete.v`, `Vectors.v`, `VectorsMore.v`: SHA-1, SHA-2, RSA and Ed25519 written out from the
  standards, and the repository's tests and documentation examples that have real
  signatures run on the model with them.  The example of `Signer` is reproduced byte
  for byte from its PEM key, that of `Verifier` is successful, as are the message of
  RFC 6376, appendix A (both key formats; also the signing test), `tests/sign.rs`,
  `tests/verify.rs`, `tests/low_level.rs` (signatures by 1024- and 2048-bit RSA keys are
  not computed but looked up, if the public key confirms them),
  the 512-bit key and SHA-1 tests of `tests/rfc8301.rs`, and the test of
  `tests/copied_headers.rs` (with another key and body).  IDNA is the toy table of
  `Sample.v`, with ASCII names only.  Tests, not proofs, and
  the results are computed by `Eval vm_compute` when the file is compiled, so that the
  kernel sees only the comparison with the expected values.  Only C76, C78,
  C80, C81, C83, C84, C89, C90 (except `C90_body`), `C93_real`, C95, C96, C97, C98, `C49_bits_partial` and `C49_bits_refuted` depend on `Concrete.v` (C76 not on SHA-1,
  SHA-512 and Ed25519 in it, other than their sizes).  Its Ed25519 is proved to meet a
  specification (`SpecEd.v`, C78), as are RSA and the reading of public keys (`SpecRsa.v`,
  C80), and SHA-1, SHA-256 and SHA-512 (`SpecSha.v`, C81).  The limits on public keys (`rsa_limits`: at
  most 4096 bits, odd modulus, odd exponent from 3 to 2^33 - 1 and below the modulus) are
  those of crate `rsa`, from memory: its source was not at hand; so is which Ed25519 keys
  `ed25519-dalek` reads (`read_point`).
  `SampleRsa.v`: RSA keys of 1024 and 1017 bits; `SampleEd.v`: the key of the documentation; `UniqueSample.v`: a weak one.
* all others (`*Proofs.v`, `Lib.v`, `CanonShape.v`, `QPDecode.v`, `OutputParse.v`,
  `OutputExact.v`, `IndentExact.v`, `WidthExact.v`, `CursorProofs.v`,
  `OutputChars.v`, `VerifyKeys.v`, `VerifyRun.v`, `VerifyFacts.v`, `TamperText.v`,
  `QPShape.v`, `DebugTrees.v`, `DebugUnique.v`, `DebugParsed.v`, `ShowProofs.v`, `UsizeFold.v`, `UniqueEnd.v`): lemmas.

## 2. Properties: what is modelled and how it is proved

| id | approach |
|---|---|
| C01 | state machine of the canonicalizer; induction on chunks: step on `a++b` = step on `a` then `b` |
| C02 | against "strip trailing CRLFs, append one CRLF"; *false* for bodies made only of CRLFs: refuted with witness, proved for all others |
| C03 | against line-based spec; *false* when the last unterminated line is blank: refuted, proved for all others, exact behaviour given for the rest |
| C04 | invariant: simple canonicalizer never in a WSP state |
| C05 | from C02/C03; idempotence and "no empty last line" refuted for relaxed, proved under the exact guard |
| C06 | against words-joined-by-space spec |
| C07 | direct; injectivity from absence of ':' in names |
| C08 | against counting spec (k-th occurrence ↔ k-th from bottom) |
| C09 | from C08 |
| C10–C13 | invariant over chunk histories relating hasher state to canonical prefix; map order is an arbitrary list order |
| C14–C16, C18 | induction over UTF-8 chunks; decode on encoder output with FWS interspersed |
| C17 | concrete base64; groups of three |
| C19–C21 | decision functions vs. independent grammar; round trip by induction on lines |
| C22, C23 | inductive grammar; soundness and completeness of the parser |
| C24–C27 | characterisation of the tag loop; C27 *false* for a leading `+`: refuted, exact acceptance given |
| C28 | label lists |
| C29–C31 | decision functions vs. specs; C29 *false* for domains of one label: refuted, exact acceptance given |
| C32 | characterisation of the tag loop |
| C33 | panic-freedom of the signer pipeline |
| C34–C36, C40 | structure of formatted output as a list of tags with folding; C34, C35, C40 *false* for some requests (findings 4, 8): refuted, exact conditions given by C85 and C86, C40 proved for the others |
| C37 | composition of C34–C36, C10, C08 and verifier characterisation, under correctness hypotheses on crypto and idna; *false* with oversigned DKIM-Signature: refuted |
| C38, C39 | direct |
| C41–C45 | verifier pipeline; group order a parameter |
| C46 | *false*: the timeout is never applied; refuted |
| C47–C53 | decision functions vs. specs; C48 and C49 *false* in a corner (findings 10, 12); C52 concludes "same content, or a collision of the digest", without assuming that there are no collisions |
| C54 | characters of every formatted piece |
| C55 | C34, C38, C40, C42 for the default request and the default configuration |
| C56 | equality up to canonicalization as a relation between messages; the selected fields correspond, hence the hashed texts are equal |
| C57 | the state of each task depends on its own request only; body hashes by C11–C13 |
| C58 | relation on characters; hash input as a list that can be read back |
| C59 | the adapter as a resolver of C41–C45 |
| C60 | ordered list of conditions |
| C61 | finite case analysis |
| C62 | C22 and C32 on the written list |
| C63 | C21 and C34: lines put before lines |
| C64 | C37 for each of the signatures, with the others as fields around it |
| C65 | from C42 and C45: each condition of success is monotone in the configuration; the failures that depend on configuration or time are those of policy |
| C66 | C21, C33, C34, C42 between input and output text |
| C67 | C37 for each of the signatures, with those above as other fields and those below as part of the message |
| C68 | functions of the model on both headers: each use of the header goes through fields of interest only |
| C69 | by C68 the output is also that of signing the copied fields alone; then C37 |
| C70 | relation between bytes and text, exact and injective |
| C71 | each text can be read back: no text is that of one value and, continued, of another; values as parsed have no control characters where these would be printed |
| C72 | C66 with the texts of C71: every line within a result is indented, a status line by fewer columns than anything nested in it |
| C73 | a definition of validity made of specification relations only (SpecDkim.v); equivalent to C42's by C22, C24, C32, C36, and uniqueness of the text without b= |
| C74 | C73 for signature texts of any origin; added fields by C08 |
| C75 | all verdicts defined from specification relations only (SpecCause.v); equivalent to the verdicts of C41 by C22, C24, C26, C32, C36 |
| C76 | C37, C66, C67 with the cryptography of `Concrete.v`; RSA is correct by Fermat's little theorem and the Chinese remainder theorem (NumberProofs.v, ConcreteProofs.v); keys and key files read back from DER and PEM as specified in SpecRsa.v |
| C77 | induction over what is shown; the layout is specified line by line in SpecShow.v, in the model it is std's padding of what is written |
| C78 | as C76, for Ed25519: 2^255 - 19 is prime by Pocklington's criterion (PocklingtonProofs.v, P25519Proofs.v); the addition law of a twisted Edwards curve is complete and associative over any field in which d is not a square and -1 is one (EdwardsProofs.v); the base point has the order of RFC 8032, by computing (EdOrderProofs.v); encoding and decoding points are inverse (Ed25519Proofs.v, EdSpecProofs.v) |
| C79 | `Dev.v` has each function with an assertion or a subtraction, and its callers, once more; they return what the release ones do: tag values come from tag lists, pieces of names have no dot, what is put together for hashing is a field body (also with the value of b= cut out, and before the signature is put in) |
| C80 | C73 with the cryptography of `Concrete.v`, the validity of signatures being specified down to DER, RFC 8017 and RFC 8032 (`SpecReal.v`, nothing left open but the hash functions); reading DER is shown to be the inverse of writing it |
| C81 | `SpecSha.v` follows FIPS 180-4 on lists of bits: padding as a relation, schedule and rounds as sequences, the constants of SHA-2 as roots of the first primes (those of SHA-1 as given there).  Words as numbers behave like words as bits (`ShaWordProofs.v`); the first 80 primes and their roots (`ShaConstProofs.v`); padding and blocks (`ShaProofs.v`), rounds (`ShaRunProofs.v`); what is hashed always consists of bytes (`ShaEndProofs.v`).  For messages of 2^64 (SHA-512: 2^128) bits and more, where the standard gives no digest, the length is taken modulo this number |
| C82 | `Usize.v` has the functions with counters once more; a body of n bytes makes no counter exceed n + 2, nor that of empty lines n / 2; with checks no counter differs from the unbounded one; without, the state after as many empty lines as there are values is the same as before |
| C83 | An RSA signature is a root of the encoded digest, and raising to the power of e can be undone with a key pair; for Ed25519, different S below the order of the base point give different multiples of it, the order being prime (Pocklington's criterion, `OrderProofs.v`).  What was signed determines tags and fields (C52, C63); replacing b= keeps it |
| C84 | RSA: the digest and the hash algorithm can be read off the encoded message.  Ed25519: as C83 for the multiples of the public key, if it is a multiple of the base point that is not zero modulo its order, as keys of private keys are; for any public key, points can be cancelled (`EdAnyProofs.v`).  For the neutral element as public key, R the same and S = 0 are valid for every digest |
| C85, C86 | the tags of the output as a list (as C34, C35), each condition shown necessary by reading the one tag it is about; line breaks of a text are those of its pieces (`OutputExact.v`, `IndentExact.v`) |
| C87 | as C40, where the column assumed is at least the actual one instead of equal to it (`WidthExact.v`) |
| C88 | the column is at most the length of header name and of what has been written so far, plus the size announced for the signature once b= has been written, plus the indentation; each sum is at most that with the piece about to be written (`CursorProofs.v`) |
| C89 | from C84 (same text or a collision) and C52 (the text determines the canonical fields); the covered fields of one name are the lowest ones, as many as h= has the name; with names that must not be left unsigned that is all of them (`AuthorProofs.v`) |
| C90 | a verified message compared with any other that has the same signature field: one way, the text and body hash are the same, so C56's argument applies; the other way is C89 with the exact form of each condition (`ChangeProofs.v`) |
| C91 | induction over octets, with the octets held back (empty lines, a CR, white space) counted; header fields: each is taken at most once (`SizeProofs.v`) |
| C92 | from the exact canonical forms (C02, C03) and C90_body; the relation of simple and relaxed by induction over C56's changes |
| C93 | the library's two canonical forms differ by one CRLF in the corner cases; from C73 and the reading of outputs (C35) |
| C94 | from C73: of the conditions of validity only those on time and key records involve time or DNS |
| C95 | from C76, C78 and C90: if the time is right, the message as sent is found good (C76, C78), and any other with the same signature is compared with it (C90); which check fails first by cases of the exact result (C45), for the message received and for the same with the original body (`ReceivedProofs.v`) |
| C96 | as C95, from C37 and C90 with the most lenient configuration that differs in nothing but demands on the signature itself: with it, the message as sent is found good at any time, and another header with the original body exactly if the covered fields are kept; the key record is judged the same by both configurations (`ReceivedAny.v`) |
| C97 | C96 for the request of dkimsign and the configuration of dkimverify, with the checks that cannot fail there left out; the lines of the output by C72 (`ProgramsAny.v`) |
| C98 | signing: C33, and PKCS #1 finds room exactly when the modulus has enough bytes; verification: with a configuration that tolerates all it can the signature is valid (C37), and the configuration given differs from that one only in the checks before the key is looked up and in the one on unsigned content (`AnyRequest.v`) |
| C99 | each condition of validity (C73) depends on the build through rsa-sha1, sha1 in h=, the least key size and the largest length only; for results other than success the exact result (C45) is carried over rule by rule; signing: by induction over the requests (`BuildProofs.v`) |
| C100 | each pair of domain and selector is looked up once (C44), so the answers of one verification are a function of the pair, and of the name if pairs with the same name are the same (`SettleProofs.v`) |
| C101 | what the canonicalizer has put out is what all continuations of the body have in common, but for a CR held back: two continuations are given for each of its states; hashers are registered for exactly the signatures confirmed (`StopProofs.v`) |
| C102 | whitespace stands between characters that are kept, so the text can be taken apart at those in step with the grammar; each kind of tag either has no whitespace or disregards it (`FoldProofs.v`) |
| C103 | the checks on a record mention only its type, key, hash algorithms and the subdomain flag; so, record by record, the same one fails or succeeds; whitespace as in C102 (`AlikeProofs.v`) |
| C104 | a request's results depend on the message only by its signed names, copied fields, and canonical forms of signed fields and body; for these C56's lemmas (`ResignProofs.v`) |
| C105 | the time is read only for the timestamp and the expiration; the rest of what is to be signed is determined by message and request without the format (`RestyleProofs.v`) |
| C106 | the limit decides only which fields are examined; the verdict on each is the same (`LimitProofs.v`) |
| C107 | any output converts to a field exactly if name and value are well-formed, and is then what is read from its text; text with bare LFs is read but not converted (`PropConvert.v`) |

Statements in `properties.jsonl` that have been changed since they were first written:

* corrected: C15 (the special character of the encoder may be `=` or a hexadecimal digit, which escapes
  need; white space and control characters are those of US-ASCII; the output may be empty), C36 (the
  verifier also removes whitespace around the value of b=, as RFC 6376, 3.7 asks for), C45 (a record that
  confirms the signature does not yet make it valid, the body may have been changed), C47 (spelling of an
  error's name), C51 (a reservation about overflow dropped), C76 (which sizes of RSA keys), C78 and C80 (26
  more byte strings are read as keys);
* extended: C55, C61, C65, C90.

All other statements are as first written, including those that turned out to be false of the code; these
are marked partial in `MANIFEST.json`.

Wrong programs tried against the theorems are logged in `seeded/LOG.jsonl`.  How to
read it: the edits are mostly generated (one token of one model definition), in a copy
where `Tests.v`, `Vectors.v` and `VectorsMore.v` are left out and examples are admitted.  The build is stopped at the
first proof that breaks (`first_failure`); `theorems_failed` are the theorems that
depend on that lemma and hence do not build.  This does not show that each of them is
false of the edited model, and an edit without effect that upsets a proof script
also counts as caught.  Edits that do not typecheck are not logged.  Line `claim`
is derived from the theorems' names for generated edits.

## 3. Trusted base

* Coq's kernel, as run by `coqc` 8.16.1.  (Computations in examples and tests use
  `vm_compute`, which is part of the kernel.)
* Axioms: none.  `Print Assumptions` after every property theorem reports "Closed
  under the global context".  A listing of the whole environment (`vcheck`) shows
  seven from the standard library, all in `Coq.ssr.ssrunder`; no property theorem
  depends on them.
* Faithfulness of the model to the Rust text, by reading: each definition cites
  file and lines.
* The specifications say what the properties mean; see the comment at each theorem.

### Parameters: what is assumed about the environment

Theorems on signing and verification quantify over an `Env` (others over the parts of it they need): the feature flag `pre-rfc8301`, `usize::MAX`,
the two conversions of crate `idna`, and the cryptographic primitives (digest,
RSA and Ed25519 signing, verifying, key reading, key sizes).  Verification in
addition quantifies over a `World`: the resolver (answer and latency of the n-th
lookup), the clock, the iteration order of the two hash maps.  Theorems that need to
know something about these say so in a hypothesis:

* `idna_ok`: conversion to ASCII ignores ASCII case; the empty name, if converted,
  stays empty; ASCII characters of a name are kept, up to case, but letters and `<`,
  `=`, `>` may be composed with a combining character that follows; in the Unicode
  form, ASCII characters are those of the ASCII form; and for a name that
  converts both ways, both forms convert to the same ASCII form.  This is assumed of
  crate `idna`, not checked against it.  Used by C34–C37, C40, C52, C55,
  C63, C64, C66, C67, C69, C76, C78, C79_signing, C83, C84_rsa_content, C85–C87, C89, C90 (except C90_body),
  C93 (except C93_success and C93_valid), C95–C97, C98_rsa, C98_ed25519, C99_interop.
* `crypto_typed`: primitives yield bytes (wherever something is signed);
  `crypto_nonempty`: digests and signatures are not empty (C35, C37, C52, C64, C67, C69, C85, C93, C99_interop);
  `signature_sizes`: signatures have the length announced by the key (C40, C55, C87, C88);
  `keys_match`: the verifying key confirms what the signing key signs (C37, C64, C67, C69, C93, C96, C99_interop, within
  `key_published`; C74, C99_signed); `genuine`: a key confirms only what was signed (C52_genuine).
  The first four hold of RSA, Ed25519 and SHA-256 as in `Concrete.v` (C76, C78), for keys that
  are a pair.  In reading public keys `Concrete.v` follows ed25519-dalek as far as
  known (its source was not at hand): other than RFC 8032, it also reads encodings with a
  y coordinate not less than 2^255 - 19, and x = 0 with the sign bit set (finding 16).
* `idna_ignores_case`: the first part of `idna_ok` (C28_subdomain_relation,
  C58_interchangeable).
* `idna_keeps`: the part of `idna_ok` on ASCII characters (C71, C72_printable, C77_verification).
* `tables_ok` (C70, C71, C72_printable, C77): std's tables of printable characters and of
  characters that extend the one before, a parameter `Tables`, are right for US-ASCII.
* `Hickory` (C59) and `Pkcs8` (C60) are records of functions for the crates
  `hickory-resolver` and `pkcs8`; nothing is assumed of them, except that C59 says what
  follows if lookups of a name are answered alike.
* `world_ok`: hash maps iterate over their entries in some order; `steady`: the
  resolver answers alike whenever asked the same name (C37_fresh_partial, C43, C45_others,
  C46_timeout_unused, C49_bits, C64, C65, C67, C73, C74, C75, C76, C78, C80, C81, C83, C84, C89, C90, C92_message, C93_success, C93_valid, C93_all_refuted, C94–C97, C98_rsa, C98_ed25519, C99 except C99_signing).
  By C100 the latter is no restriction for a message with one signature.

### Not modelled

* `Debug` texts of `Config`, `SignRequest` and of keys.  (In C66 the text of a result
  with `{:#?}` is a parameter; C72 and C97 use the modelled one.)  `Debug` of domains and of identities prints characters as they
  are.  What C71 says of them is for values as parsed and for US-ASCII: other characters
  that terminals may act upon, such as those for text direction, are excluded only as
  far as IDNA excludes them in domains, and not in the local part of an identity.
* `tracing` output.
* Crates `rsa`, `ed25519-dalek`, `sha1`/`sha2`, `pkcs8`, `idna`, `hickory-resolver`,
  `tokio` beyond the interface above.
* Memory limits (C91 has sizes of what canonicalization writes; finding 15); overflow of additions and multiplications on `usize`, other than in the
  counters of empty lines and of bytes hashed, which count what is streamed (`Usize.v`, C82),
  and in the formatter (`Cursor.v`, C88).  The others are positions in a text in memory
  (verifier/verify.rs:70-78), the number of a key record in trace output
  (verifier/header.rs:362), and eight times the size of an RSA key (crypto/rsa.rs:82).  In `Dev.v`,
  of arithmetic only subtractions and the sum on `u8` are checked.  All theorems but C82 and C88 have
  unbounded counters: they are about bodies of up to `usize::MAX - 2` bytes, or about more
  where C82 says so, and about header fields as in C88.
* The async runtime.  There is no concurrency among lookups to model: `spawn_all`
  (verifier/query.rs:53-89) awaits each lookup within its loop, in the order of the
  hash map; the `JoinSet` and the timeout are commented out there.  The model does the
  same, with order and latencies as parameters.  Dropping a verification half-way
  (cancellation) is not modelled.
* `&mut self` methods called after an early panic.
* In the example programs: arguments that are not Unicode; errors when writing output.

## 4. Findings

Behaviour found in the code that contradicts the property one would expect, with the
theorem that shows it, or else a remark that it is from reading the code.

1. **Simple body canonicalization of a body made of CRLFs only** gives the empty
   string instead of one CRLF (RFC 6376, 3.4.3).  `C02_simple_body_refuted`; the exact
   behaviour is `C02_simple_body_exact`.  So a message with such a body, signed with the
   defaults, is accepted by the library, but is not valid by the RFC (`C93_real`,
   `C93_all_refuted`), and the other way round (`C74_regular_refuted`).
2. **Relaxed body canonicalization of a body whose text after the last CRLF is
   whitespace only** gives an additional empty line at the end (RFC 6376, 3.4.4).
   `C03_relaxed_body_refuted`, `C03_relaxed_body_exact`.  If transport adds a line break
   to such a body, relaxed signatures break, but not simple ones (`C92_message`,
   `C92_stricter`).  Idempotence fails for
   relaxed exactly in this case, and for simple exactly for bodies that are empty or
   made of CRLFs only: `C05_relaxed_idempotent_iff`, `C05_simple_idempotent_iff`,
   `C05_idempotent_refuted`.
3. **`Config::lookup_timeout` is never applied.**  `C46_timeout_refuted`,
   `C46_timeout_unused`; time adds up over lookups, `C46_time_spent`.
4. **A signer's output that the library itself rejects.**  The first item is the witness of
   `C35_any_request_refuted`; a rejection for each item is computed in the example
   `C35_problems`:
   * `expiration` is computed with a saturating addition, so that for a timestamp of
     2^64-1 it equals the timestamp, and parsing requires it to be greater;
   * an additional tag named `q` is accepted by the signer and rejected by the parser
     (unless its value is a list of query methods with `dns/txt` among them);
   * names of copied header fields (z=) containing `|` or `=` are written without
     encoding; such a field may also be read back as another one, silently: `X=41` as `XA`
     (`C35_copied_names_refuted`);
   * `Identity` has public fields, hence its local part might be one that does not
     parse.
   The hypotheses `readable_request` and `copied_names_safe` of C35 and C37 (there in
   `readable_output`) exclude these, and somewhat more: any additional tag `q`, whatever
   its value; text that is not Unicode; times of 2^64 or more; and rsa-sha1 without the
   feature `pre-rfc8301`.  For the values that exist in a Rust program, `C85_read_back` proves
   that there are no other cases: the output is read back as the signature reported if and
   only if none of these applies (an additional tag `q` always does, as it is not reported
   as such by the parser).  `C85_accepted` is about acceptance only.
5. **Oversigning DKIM-Signature** (more occurrences in h= than there are fields): the new
   field itself is then covered once it is added on top, and does not verify.
   `C37_oversigned_refuted`.
6. Numbers (l=, t=, x=) are accepted with a leading `+`, which RFC 6376 does not allow
   (`C27_digits_refuted`).  Domains of a single label are accepted
   (`C29_two_labels_refuted`); a comment in signature.rs:32-38 says that this is on purpose.
   Between characters of a tag value, at most one FWS is accepted; the code refers to
   erratum 5070 for this (tag_list.rs:130), the text of which was not at hand.
7. `Config::max_signatures = 0` makes `Verifier::verify_header` return `None`, as if the
   message were not signed (`C41_results`, `C41_examined`).
8. Values of additional tags may contain line breaks, which are written as they are, hence
   the configured indentation is not used there (`C34_indentation_refuted`; these are the
   only such lines, `C86_indentation`).  The formatter's idea of the column is off
   afterwards, too large by what the lines before the last have.  This does no harm in the
   default order of tags (`C87_default_order`).  But if such a tag is put before b= with
   `tag_order`, the place where b= ends is estimated from the wrong column, while the value is
   inserted at the right one, and lines with several tags become much longer than the width
   (`C40_early_break_refuted`: 124 characters instead of 78).  Apart from this, a line may be
   too long by a semicolon even if it could have been broken (`C40_width_refuted`).
9. `SigningOutput::signature` keeps domain and identity as given in the request, while the
    header written has them in the form selected by `ascii_only` (`C35_output_parses_partial`,
    relation `written_signature`).
10. Expiration plus tolerance is capped at 2^64-1, so that at this very time every signature
    with an expiration is expired, whatever the tolerance (`C48_expired_refuted`).
11. The example programs double the CR of messages that have CRLF line breaks already, and then
    panic for want of an empty line (`C66_crlf`).
12. The size of RSA keys is counted in whole bytes (crypto/rsa.rs:81-83, verifier/header.rs:465-488), so
    that a key of 1017 to 1023 bits passes the minimum of 1024 bits (RFC 8301), and likewise
    for a configured minimum (`C49_bits_refuted`, `C49_bits_partial`).
13. **Empty lines beyond the counter** (canonicalize.rs:141, 180, 244, 266).  Empty lines are counted in a `usize` until a line
    with content follows.  In a release build, `usize::MAX + 1` empty lines inserted at the beginning
    of any line of a signed message do not invalidate the signature
    (`C82_unnoticed_verifying`, `C82_refuted`).  This takes 8 GiB on a 32-bit platform; on a
    64-bit platform it is out of reach.  With overflow checks, it is a panic
    (`C82_panic_verifying`), as is any body that is larger in canonical form,
    for a signature without l= (`C82_large_verifying`).  For bodies of more than `usize::MAX` bytes, a signer asked to state the length of
    the body (`BodyLength::MessageContent`) states it modulo `usize::MAX + 1`, but hashes all of it
    (`C82_signing_twice_partial`).
14. **Weak Ed25519 keys** (crypto/ed25519.rs:37-62).  Public keys of small order are accepted, and signatures are
    checked with `verify`, not `verify_strict`.  With the neutral element as the public key in DNS, one signature
    is valid for every digest (`C84_weak_key`), and one and the same DKIM-Signature field makes messages from
    every sender verify (`C84_every_sender_refuted`, `C84_refuted`).  Only the owner of the domain can publish such
    a key; the owner, or with this key anybody, can then exchange what was signed.
15. **Empty lines are written at once** (canonicalize.rs:164-300).  A body is processed in chunks, but a run of empty lines,
    which is only counted while it lasts, is written to memory all at once when a line with content follows: one
    octet can make as much be allocated as has been read before (`C91_one_chunk_unbounded`), also if only a part of
    the body is signed (l=).  It is never more than that (`C91_while_reading`).
16. **Ed25519 keys that are no encodings of points are accepted** (crypto/ed25519.rs: `read_ed25519_verifying_key`; in
    crate `ed25519-dalek`, modelled as far as known).  RFC 8032 (5.1.3) says that decoding fails if y is not less than
    2^255 - 19, or if x = 0 and the sign bit is set.  `C78_key_irregular` lists the 26 byte strings concerned; among
    them are three more for the neutral element (finding 14).
17. **Four or more TXT records for a key** (verifier/query.rs:109-131).  The first two and the last are tried, so that the
    result may depend on the order in which DNS returns them (`C94_order_refuted`); with up to three it does not
    (`C94_order`).  The RFC leaves the handling of several records open, and a comment calls this an implementation
    detail.
