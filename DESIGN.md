# Formal model of cryptoballot in Rocq: design

Source under study: `/repo` (Rust workspace `cryptoballot`, `cryptoballot_exonum`, `cryptoballot_server`,
`cryptoballot_sawtooth_tp`, `cryptoballot_cli`), read as text only. The model lives in `rocq/theories/`
(logical name `Verif`). `properties.jsonl` lists the properties, `MANIFEST.json` maps them to theorems,
`seeded/LOG.jsonl` records mutation tests of the model. There `killed` means that the build fails in a
proof or example; the failing script is named, and a note says so where only a script, not a statement, depends on the edit
(this was looked at for the noted lines, not for every line). `invalid` marks edits that do not type-check.

## 1. Approach

* **Executable model, function by function.** Every Rust function of interest becomes a total, computable
  Gallina function carrying a comment with file and lines. Check order and error values are kept.
* **Results.** `res E A := Ok a | Err e | Panic p`: `Result` values stay data, every panic path
  (`unwrap`, `expect`, `panic!`, slice/index out of range, `todo!`, arithmetic overflow in debug builds,
  the panicking `From<SignedTransaction>` conversions) is an explicit `Panic`.
* **Integers.** `u8` is the 256-element type `byte` of the Coq library; `u16`, `u32`, `u64`, fixed-size arrays and
  UTF-8 strings are subset types with a boolean side condition, so every value of the Coq type is a value of
  the Rust type and theorems need no range hypotheses. Casts (`as u8`, `as u16`) are explicit
  truncations. `+`/`-` on `u8` take a build-mode flag: overflow panics (debug) or wraps (release).
* **Cryptography and randomness** enter through one class `Crypto` of types and functions
  (ed25519, x25519, HKDF, AES-GCM, RSA-FDH blind signatures, cryptid threshold ElGamal and
  shuffle proofs). The class has *no* law fields used silently: every assumed law is a separate named `Prop`
  appearing as an explicit hypothesis of the theorem using it. A toy instance (`Toy.v`) makes the model
  runnable, is used in the non-vacuity examples and is proved to satisfy the laws.
* **Stores.** The `Store` trait becomes a record of functions (`get`, `range`) returning `res`, instantiated
  by models of `MemStore` (sorted association list = `BTreeMap<String,_>`), the Exonum `TransactionSchema`
  (sorted list of envelopes with undecoded payloads) and the Sawtooth `CbState`.
* **Histories.** Ledger properties are proved for every state reachable by any list of
  submissions (`fold_left`), by inductive invariants.
* **Specifications** are separate small definitions (files `Spec*.v`) that do not use the model's helpers: e.g.
  "all votes" is a filter over store contents, not a range query.
* **Property theorems** live in `Props_*.v`, which contain only `Theorem ... exact lemma.`, the
  concrete `Example`s meeting the hypotheses, and `Print Assumptions`.
* A property that the code violates is kept at full strength and answered by a `*_refuted` theorem
  with a concrete witness; the strongest true variant is proved as `*_partial`.

## 2. Files

Model (one file per area of the source):

| file | content |
|---|---|
| `Base.v` | result type, bytes, fixed arrays, bounded ints, lexicographic order |
| `Hex.v`, `Utf8.v`, `Cbor.v`, `Prost.v` | dependency formats: hex crate, Rust strings, serde_cbor, prost |
| `Ident.v`, `BuildId.v` | `Identifier`, `TransactionType`, all `build_id` |
| `Crypto.v` | the interface to ed25519-dalek, rsa-fdh and cryptid used by validation |
| `Value.v` | serde_json's `Value` (properties of elections), its text of numbers and its CBOR form |
| `Types.v`, `Serde.v` | the transaction structs and enums; their derived (de)serialisers |
| `Store.v` | `Store` trait, `MemStore` |
| `Validate.v` | `Signed`, `SignedTransaction`, `validate_tx` of all ten transaction types |
| `Exonum.v`, `Api.v` | ledger service, REST listing |
| `Sawtooth.v` | Sawtooth transaction processor |
| `Audit.v` | replay of the `e2e` command |
| `Trustee.v`, `Encrypt.v` | trustee operations and mixing; encryption of a vote |
| `Tasks.v`, `Service.v` | follow-up transactions, commit hook of a node |
| `Json.v` | transactions as JSON text: writers, reader, buffer |
| `Cli.v`, `Rest.v` | transactions made by the command line client; the texts between client, files and node |
| `Authn.v`, `Tally.v` | issuing authentications, tallies |
| `Results.v` | what the client prints about a finished election; its remaining commands |
| `Report.v` | the whole text printed after an audit, and where it stops (command_e2e.rs 40-95) |
| `Setup.v` | `keygen`, `trustee generate`, `authn generate`; secret keys of client and node |
| `Args.v` | the client's command line, its address and key, and which command it calls (main.rs) |

Specifications, independent of the model's helpers: `SpecIdent`, `SpecSerde`, `SpecStore`, `SpecHist`,
`SpecValid`, `SpecVote`, `SpecMix`, `SpecDecrypt`, `SpecLedger`, `SpecAudit`, `SpecJson`, `SpecTasks`, `SpecService`,
`SpecProst`, `SpecTally`, `SpecAgree`, `SpecAuthn`, `SpecThreshold`, `SpecIntegrity`, `SpecCli`, `SpecRun`,
`SpecOutcome`, `SpecNet`, `SpecDesk`, `SpecResults`, `SpecWire`, `SpecDoc`, `SpecBound`, `SpecSetup`, `SpecSpoiled`, `SpecStuck`, `SpecBuilds`, `SpecBlock`, `SpecFresh`, `SpecSeat`, `SpecOrder`, `SpecSilence`, `SpecRest`, `SpecReport`, `SpecWhite` (white space of Unicode, trimmed texts), `SpecRecorded`, `SpecArgs`.

Mathematics proved from scratch: `RsaFacts.v` (Fermat, RSA), `Lagrange.v` (interpolation over a field).

Proofs: `*Facts.v`. Concrete instances for examples: `Toy`, `ToyT`, `ToyE`, `Scene`. Property theorems,
examples and `Print Assumptions`: `Props_*.v`; the first line of each names its properties.

## 3. Plan per property

| id | modelled | proof / answer |
|---|---|---|
| C01 | hex crate, `FromStr`, `Display` | round trip by induction on bytes; case analysis on hex digits by finite sweep lifted to all digits |
| C02 | `Ord`, `PartialOrd`, byte and string order | lexicographic order lemmas; hex encoding is order-preserving |
| C03 | `FromStr` with panics | exact outcome characterisation; refuted by a 32-digit string |
| C04 | all `build_id` | injectivity; refuted for vote upstreams (10-byte truncation), partial for the rest |
| C05, C06 | `MemStore` | refinement to filter / finite map over all `set` sequences |
| C07 | `Signed` | law `ed_verify (pub sk) m (sign sk m)` as hypothesis for the sign-verify direction only |
| C08, C09 | derived serialisers, CBOR | decode-encode round trip; injectivity and type separation as consequences |
| C10 | `SignedTransaction::validate` | store invariant over histories |
| C11..C15 | `validate_tx` | iff-characterisations against independent spec predicates; C11 completeness refuted (`as u8`) |
| C16 | vote validation | refuted (empty authentication list); partial: each attached one verifies |
| C17 | vote and mix validation | refuted; partial: contests belong to the ballot |
| C18 | vote validation | refuted (`Identifier::start` used for both ends) |
| C19, C20 | all validations | refuted for VotingEnd/KeyGen/EncryptionKey (identifier never checked); proved for Vote, Mix, partial/full decryption |
| C21..C24 | mix validation, histories | invariants; C23 under a soundness law; C24 refuted |
| C25..C30 | decryption validation | characterisations; C27 needs a library law for distinctness; C29, C30 refuted |
| C31 | ledger | from C34 and identifiers |
| C32 | u16 cast | refuted at 65536 rows, proved below |
| C33 | all validation | refuted; partial: exact list of panic causes |
| C34..C38 | Exonum ledger | invariants over submission lists; C36 refuted, C38 refinement |
| C39 | API listing | sorted-list argument |
| C40 | audit replay | refuted; partial under named conditions |
| C41 | Sawtooth | proved for non-elections, refuted for elections |
| C42..C46 | server tasks | producer/validator agreement; C44 refuted for the second mix |
| C47, C48 | post-commit hook | refuted / run invariant |
| C49 | prost | round trip, totality |
| C50 | trustee share encryption | from named AEAD/DH laws; crash on short shares refuted |
| C51 | threshold algebra | Lagrange interpolation over an arbitrary field and module |
| C52 | RSA blind signatures | Euler-theorem style argument |
| C53 | validation, tasks | non-interference |
| C54..C57 | tally | counting lemmas; C55..C57 refuted |
| C58 | seed | injectivity |
| C59, C60 | Exonum ledger | C10-style slot invariants; refuted through envelopes with a foreign id |
| C61 | Sawtooth | no accepting state exists for types that need a listing |
| C62, C63 | audit, e2e tally | replay lemma; refuted for repeated identifiers and empty ballots |
| C64 | RSA blinding | bijection between packages and blinding factors |
| C65, C66 | decryption, key generation | soundness laws plus histories; C66 refuted |
| C67, C68, C69 | the commands of the client | transport limits, then the acceptance rules on the ledger; C68 refuted |
| C70..C74 | whole elections: tasks, validation, trustees together | executions as an inductive relation (`SpecRun`), every interleaving and delay; what each answer is, by induction over executions; then C42-C46 and C51 |
| C75, C76 | audit and tally of whole elections | executions of C70 are `orderly` (C40); the replayed store lists the recorded decryptions, which are the votes (C73); then C54, C63 |
| C77, C78 | chains of blocks run by the nodes' hooks | the recorded transactions of a chain are an execution of C70, by induction over the chain; the rank of what a round of blocks records grows every two blocks, so a chain settles after sixteen; on a settled chain everything is answered, then C72, C73, C76 |
| C79 | the hook after quiet blocks | two blocks without envelopes are followed by silence; witness by computation |
| C80 | the commands of the client, one node | the blocks of a session are a network of C77 (induction over the session), its recorded votes are the texts typed; then C67-C69, C78 |
| C81 | texts of transactions | reading a written JSON value gives it back (induction over values); the forms read from JSON decode like those read from CBOR and are not deeper; witness at the last level of nesting by computation |
| C82 | unsigned helper fields | clearing the fields in a store and in a transaction commutes with every validation function |
| C83 | printed winner | the first entry with the greatest total, composed with C78 and C80; ties and empty elections by computation |
| C84 | printed counts | lines and decimal numbers can be cut apart again; forged line by computation |
| C85 | remaining commands | round trip of C81 between two nodes; case distinction |
| C86, C87 | the wire formats | one equivalence per decoder, composed along the shapes of the structs; the two parsers against the grammars by induction over the nesting |
| C88 | no candidate is given more votes than were cast for it | injection of the recorded decryptions into the votes (identifiers determine upstream and row), C65 for what each shows |
| C89 | keys, trustees and authenticators made by the commands | round trips through hex and JSON (C87); pigeonhole over the indices of commitments for the refutation |
| C90 | spoiled ballots; independence of the rules of contests | a relation between stores with different contests, preserved by every read; counted spoiled ballots by computation |
| C91 | elections with a mixnet | invariant over all histories whose mixes and decryptions come from nodes; threshold one from C74 |
| C92 | debug and release builds | relation between two executions (checked and unchecked arithmetic), by induction over transactions, audits and blocks; refutation by a symbolic history of 256 mixes |
| C93 | stopping an election | counting argument over the range of public keys, for all continuations of a history; construction of a continuation by the nodes of a quorum alone |
| C94 | reuse of secrets and random values | derivation inputs injective for all implementations; induction over the loops that draw; reflection of shares refuted |
| C95 | the place of a trustee | each lookup as first or last element with a property; counting of first places; disagreement refuted |
| C96 | order of arrival | monotonicity of every acceptance rule in the recorded list; the store as a function of the set; loss refuted for keys, mixes and decryptions |
| C97 | keeping the result back | greatest identifiers of a range are final; attack for all histories; publication refuted |
| C98 | the nodes come to rest | kinds, election, number and length of replies, for all histories |
| C99 | report of an audit | grammar of reports unambiguous, when the command finishes, what a report says; refuted for texts with line breaks |
| C100 | recorded elections | shapes of C86: a required field cannot be absent; the recorded texts evaluated |
| C101 | command lines of the client | parsing an interleaving of values and options; what a finished parse guarantees; an undeclared option is never accepted |

## 4. Trusted base

**Checker.** The kernel of Coq 8.16.1 and its virtual machine (`vm_compute` is used in examples, witnesses and
finite sweeps). No plugins, no functors or module types of our own, no kernel check switched off, no
`Admitted`. The build uses the standard library only; `ZifyBool`, `ZifyNat` and `ZifyN` (preprocessing for `lia`) load parts
of `Coq.ssr`, through which the under/over constants of `ssrunder` appear in the list of constants of the
loaded libraries. No theorem depends on them.

**Axioms.** Every `Print Assumptions` at the end of the `Props_*.v` files prints *Closed under the global context*. No theorem
of the manifest uses an axiom, not even one of the standard library.

**Reading of the source.** That the Gallina functions say what the Rust functions do is by inspection; the comments give file and
lines. Not modelled, or only in the stated form:

* *Dependencies modelled from their documentation:* hex, uuid, serde_cbor 0.11 (definite lengths, nesting at most
  127; indefinite lengths, tags and half floats rejected by the model's decoder), prost 0.7, serde derives (structs given as arrays or
  with integer keys are rejected by the model), tallystick (counts unbounded; `results` left out; `winners` of the plurality tally only, as the candidates with the greatest count), `BTreeMap`, `HashMap` (iteration order is a
  parameter or a hypothesis wherever it is visible), rsa-fdh (see below).
* *serde_json* 1.0 with `arbitrary_precision` and `preserve_order` (the latter by Cargo.toml, the former through rust_decimal): a number is kept as its
  text, and written to CBOR as a map with one key (`$serde_json::private::Number`). A CBOR integer is read as a number, hence written back one
  level deeper. Floats in CBOR are kept out: the model rejects them where a property is read.
* *Internally tagged enums* are read by serde through a buffer (`ContentDeserializer`). The model reads fields directly. The buffer changes
  no result for items written by this code. Keys and signatures go through the trait `Hex` of hex-buffer-serde: byte strings in CBOR, hex text in
  JSON; on reading the buffer counts as human readable, and the visitor takes hex text and byte strings, so the model accepts both.
* *Cryptography* is abstract: the classes `Crypto`, `TCrypto`, `RsaBlind` only name functions, and
  a key, ciphertext, proof or share is identified with its serialised form, which the library's own parser accepts. This takes the serialisation of those
  library types to be faithful.
* *Randomness* is an argument; a theorem holds for all values drawn.
* *Exonum:* consensus, block production and the broadcaster are outside. Blocks arrive in order, each transaction is executed
  by `submit_tx`, then the hook runs, for heights from 1 on. Keys of the Exonum messages play no role in the service.
* *Sawtooth:* access to the state is assumed not to fail.
* *REST and CLI:* HTTP is assumed to carry bodies faithfully. `Rest.v` models the JSON bodies and files; elsewhere (C40, C62, C75-C80) the client reads the ledger's transactions directly, which C81 justifies under its conditions. The forms of library values are parameters; that they are free of byte strings and floats is the hypothesis `text_forms`. Of the client, `election generate`, `vote generate`, `voting_end generate`, `post`, `get`, `tally`, `sign`, `e2e` with what it prints, `keygen`, `trustee generate` and `authn generate` are modelled; the command line is read as by clap 2.33.3 (`Args.v`: positional arguments, options, switches, sub commands; from the documentation and memory of clap, not compared with it); the text of RSA secret keys is not modelled. The expansion of `~` and `$VAR` in arguments is an arbitrary function.
* The assertion on the RSA key size in `Authenticator::new` is modelled in `Setup.v` only; failing RSA key generation, logging, the server's command line and file handling are left out.

**Comparison with recorded data.** /repo/test_elections holds two elections recorded by an earlier version, 38 signed transactions of all ten types.
`conformance/run.py` (not part of the build; a test, not a proof) lets the model read each JSON text and compute the bytes that are signed, and verifies the
recorded Ed25519 signatures over them: all 33 transactions that carry a checked signature and are read verify, so the serialisation in
`Serde.v` is exact for them. This comparison found that keys and signatures, first modelled as hex text in CBOR, are byte strings; the model was
corrected. It then validates the recorded transactions in order with a library that accepts every proof: all are accepted, once the contests are given
the `id` they lack (C100). The RSA signatures of the three recorded authentications verify over the package
that the model signs (`auth_pack`); the full domain hash itself is computed by the script, not by the model.

**Laws.** Statements about libraries are never silent: each is a named proposition and a hypothesis of the
theorem. They are idealised: a cryptographic law that holds except with negligible probability is stated as holding always. `Toy`, `ToyT` and
`ToyE` satisfy them, so they are consistent, and no theorem is vacuous through them.

| law | says | used by |
|---|---|---|
| `ed_sign_verifies` | own signatures verify | C07, C42-C46 (producers), C70-C78, C80, C93 and C97 (attacks) |
| `shuffle_verifies`, `party_share_verifies` | own shuffles and decryption shares verify | C44-C46, C70-C78, C80 |
| `shuffles` | the library shuffles any rows given their number | C47, C71, C74, C77, C78 |
| `shuffle_sound` | an accepted shuffle permutes plaintexts | C23 |
| `threshold_quorum` | combining needs enough different trustees | C27 |
| `combines_verified`, `foreign` | combining verifies shares against the proofs handed over; a share of one key fits no proof about another | C97 (attack) |
| `dh_agrees`, `gcm_opens`, `gcm_exact`, `scalar_faithful` | both sides derive the same key; AEAD opens exactly what was sealed; scalars survive bytes | C50, C51, C65, C70-C78, C80, C94 (reflection) |
| `threshold_scheme` | cryptid computes Pedersen key generation, ElGamal and Lagrange combination over some field and group | C51, C65, C66, C70-C78, C80 |
| `encrypting`, `reencrypting` | encryption is ElGamal; an accepted shuffle re-encrypts a permutation | C51, C65, C72-C78 |
| `sound_proofs` | accepted key proofs and shares are about the point they name; a combination used accepted shares of enough indices | C65, C66 |
| `key_bytes` | an ed25519 secret key is any 32 bytes | C89 |
| `rsa_scheme` | rsa and rsa-fdh compute the powers of textbook RSA; digests are compared as numbers of the modulus length | C52, C64 |

C70-C78 are about elections whose authority, trustees and voters follow the protocol (`SpecRun.honest`), with everything that belongs to
other elections arbitrary. The conditions on voters are those under which the ledger can finish at all: different first ten bytes
of the keys (C18), no contest twice in a vote and, with a mixnet, one entry per contest (C17, C44). Mixnets with more than one mix are excluded, because the nodes
cannot finish them (C44).
C77-C79 run the commit hook over chains of blocks (`SpecNet.network`). Consensus is not modelled: all nodes see the same chain, and
what a node sends may be included in any later block, more than once, or never. C79 says what loss does: the hook never sends twice.
C80 puts the commands of the client in front of such a chain with one node (`SpecDesk.desk`).

Authenticity against forgery (that nobody without the key can produce an accepted signature) is not a law here: theorems say
"a signature by this key is attached", never "the owner of the key signed".
