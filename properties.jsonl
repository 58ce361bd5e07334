{"id": "C01", "title": "Identifier text form round-trips", "statement": "Printing any Identifier and parsing the text back returns the same Identifier; the text is always 64 lowercase hex digits, so two different identifiers never print the same. Parsing is case-insensitive: whenever a string parses, printing the result gives the string in lower case.", "quantifier": "every Identifier value (every election id, every transaction type, every unique_info) and every input string", "why_tests_cant": "256^31 * 10 identifiers and infinitely many strings; tests only sample a few round trips.", "anchors": ["cryptoballot/src/transaction.rs: Identifier, FromStr for Identifier, Display for Identifier, to_array, to_bytes, TransactionType"]}
{"id": "C02", "title": "Identifier order is a total order and equals the order of the printed keys", "statement": "cmp on Identifiers is a total order that agrees with ==, partial_cmp always returns Some(cmp), and it coincides both with byte order of to_bytes() and with string order of to_string(), so sorting identifiers and sorting store keys give the same sequence.", "quantifier": "every pair and triple of Identifier values", "why_tests_cant": "Order laws quantify over all pairs and triples; hand-picked pairs cannot establish transitivity or the agreement with the string order used by the stores.", "anchors": ["cryptoballot/src/transaction.rs: Ord for Identifier, PartialOrd for Identifier, to_array, Display for Identifier"]}
{"id": "C03", "title": "Parsing text as an Identifier never crashes", "statement": "For every input string, Identifier::from_str returns Ok or an Error value and does not panic: a string is accepted exactly when it is 64 hex digits whose 16th byte is a known transaction type.", "quantifier": "every input string", "why_tests_cant": "The crash inputs are isolated points in an unbounded input space; a test passes for every string it happens to try.", "anchors": ["cryptoballot/src/transaction.rs: FromStr for Identifier", "cryptoballot_server/src/service.rs: after_commit (parses attacker-supplied ids)"]}
{"id": "C04", "title": "Identifiers built for different objects are different", "statement": "The identifiers built for key-generation, encryption-key, voting-end and mix transactions are equal only when election, transaction type and all naming parameters (trustee index; contest, batch, mix index, trustee) are equal; the identifiers built for partial decryptions and decryptions are equal only when the election, the ciphertext slot (upstream transaction, contest, index) and the trustee are equal; no two transaction types share an identifier.", "quantifier": "every pair of parameter tuples", "why_tests_cant": "Collision freedom is a statement about all pairs of parameters, including boundary index values and adversarially chosen keys.", "anchors": ["cryptoballot/src/mix.rs: MixTransaction::build_id", "cryptoballot/src/keygen.rs: build_id", "cryptoballot/src/decryption.rs: build_id, build_unique_info", "cryptoballot/src/vote.rs: build_id"]}
{"id": "C05", "title": "Listing by election and type is exact and ordered", "statement": "On an in-memory store, get_multiple(election, type) returns exactly the stored transactions whose identifier has that election and that type, each once, in ascending identifier order, and nothing else.", "quantifier": "every sequence of set operations, every election identifier, every transaction type", "why_tests_cant": "Depends on every possible store content and on the interplay of hex string order with the range bounds.", "anchors": ["cryptoballot/src/store.rs: Store::get_multiple, MemStore::range, MemStore::set", "cryptoballot/src/transaction.rs: Identifier::start, Identifier::end"]}
{"id": "C06", "title": "The in-memory store is a last-write-wins map", "statement": "After any sequence of set operations, get_transaction(id) returns the last transaction set with that identifier and None if there was none; setting one identifier never affects another; the typed getters return the transaction exactly when it is present and of the requested type.", "quantifier": "every sequence of set operations and every identifier", "why_tests_cant": "A refinement claim over unbounded histories.", "anchors": ["cryptoballot/src/store.rs: MemStore::set, MemStore::get_transaction, From<Vec<SignedTransaction>> for MemStore, get_election, get_vote, get_mix, get_keygen_public_key, get_partial_decryption, get_decryption"]}
{"id": "C07", "title": "Signing and verifying agree; nobody else's key is accepted", "statement": "Signing a transaction with the secret key of its declared public key succeeds and the result verifies; signing with any other key is refused with MismatchedPublicKeys; an accepted transaction that declares a public key carries a signature valid for exactly its content under exactly that key.", "quantifier": "every transaction of every type, every secret key, every store", "why_tests_cant": "Ranges over all transactions and keys; tests try one good and one bad key.", "anchors": ["cryptoballot/src/transaction.rs: Signed::sign, Signed::verify_signature, Signed::validate, SignedTransaction::validate"]}
{"id": "C08", "title": "A signature pins down the whole transaction", "statement": "The bytes that are signed determine the transaction: two transactions with equal signed bytes have the same type and agree on every field except the two unsigned helper fields of a trustee (num_trustees, threshold). Hence a signature made for one transaction can never be re-attached to a transaction with different content or of another type.", "quantifier": "every pair of transactions of any types", "why_tests_cant": "Injectivity of an encoding over all pairs of values.", "anchors": ["cryptoballot/src/transaction.rs: CryptoBallotTransaction::as_bytes", "cryptoballot/src: serde derives of all transaction structs", "cryptoballot/src/serde_hex.rs", "cryptoballot/src/trustee.rs: Trustee, Serialize for EncryptedShare"]}
{"id": "C09", "title": "Transactions survive the wire", "statement": "For every signed transaction, from_bytes(as_bytes(tx)) yields the same transaction (trustee helper fields reset to 0); its signed bytes and therefore its signature check are unchanged by the trip.", "quantifier": "every signed transaction", "why_tests_cant": "Round trip over an unbounded structured type with nested lists, maps and options.", "anchors": ["cryptoballot/src/transaction.rs: SignedTransaction::as_bytes, from_bytes", "cryptoballot_exonum/src/lib.rs: From<SignedTransaction> for Transaction, TryInto"]}
{"id": "C10", "title": "Accepted transactions sit in the slot of their own type", "statement": "SignedTransaction::validate accepts a transaction only if the type encoded in its identifier is its own type; hence in any store filled only with accepted transactions, every entry found in a type's range is of that type and the panicking type conversions applied to range results cannot fire.", "quantifier": "every store history of accepted transactions, every transaction", "why_tests_cant": "Invariant over all histories.", "anchors": ["cryptoballot/src/transaction.rs: SignedTransaction::validate, From<SignedTransaction> impls", "cryptoballot/src/store.rs: range"]}
{"id": "C11", "title": "Election acceptance rule", "statement": "An election transaction is accepted exactly when its identifier is well-formed for its own election id, its signature is valid, the trustee threshold does not exceed the number of trustees and the authenticator threshold does not exceed the number of authenticators.", "quantifier": "every election transaction, every store", "why_tests_cant": "Boundary and width-conversion behaviour over all list lengths (a length is cast to u8).", "anchors": ["cryptoballot/src/election.rs: validate_tx, build_id"]}
{"id": "C12", "title": "Only listed trustees contribute to key generation", "statement": "A KeyGenCommitment, KeyGenShare or KeyGenPublicKey transaction is accepted only if the named election exists and lists a trustee with exactly that index and that public key, and the transaction is signed by that key.", "quantifier": "every transaction of these types, every store", "why_tests_cant": "Universal over election contents, including repeated indices and keys.", "anchors": ["cryptoballot/src/keygen.rs: validate_tx of KeyGenCommitmentTransaction, KeyGenShareTransaction, KeyGenPublicKeyTransaction"]}
{"id": "C13", "title": "A share transaction has exactly one share per trustee", "statement": "If a KeyGenShare transaction is accepted and the election's trustee indices are distinct, the set of recipients of its shares is exactly the set of trustee indices: nobody is missing, nobody is extra, nobody has two.", "quantifier": "every KeyGenShare transaction and election", "why_tests_cant": "The code only compares counts and checks presence; that this excludes extras is a pigeonhole argument over all sizes.", "anchors": ["cryptoballot/src/keygen.rs: KeyGenShareTransaction::validate_tx"]}
{"id": "C14", "title": "The encryption key is unanimous", "statement": "If an EncryptionKey transaction is accepted, it is signed by the election authority, every trustee of the election has a recorded KeyGenPublicKey transaction, and every recorded KeyGenPublicKey transaction of the election carries exactly the announced key.", "quantifier": "every EncryptionKey transaction, every store", "why_tests_cant": "Universal over store contents and trustee lists.", "anchors": ["cryptoballot/src/keygen.rs: EncryptionKeyTransaction::validate_tx", "cryptoballot/src/store.rs: get_multiple"]}
{"id": "C15", "title": "Vote acceptance rule", "statement": "A vote is accepted exactly when: its identifier is derived from its election and anonymous key, its signature verifies under the anonymous key, the election exists, an encryption key is published, voting has not ended, each attached authentication comes from a listed authenticator and verifies for (election, ballot, anonymous key), the ballot exists and every contest voted in belongs to the ballot, and the anonymous-key slot check passes. The stated order of checks decides which error is reported.", "quantifier": "every vote transaction, every store", "why_tests_cant": "Full decision rule over all inputs; tests check single violations.", "anchors": ["cryptoballot/src/vote.rs: validate_tx", "cryptoballot/src/authn.rs: Authenticator::verify"]}
{"id": "C16", "title": "A vote needs a quorum of authenticators", "statement": "A vote is accepted only if at least authenticators_threshold distinct authenticators of the election authenticated its anonymous key for its ballot.", "quantifier": "every vote transaction, every election", "why_tests_cant": "Needs the worst case over all authentication lists, including empty and repeated ones.", "anchors": ["cryptoballot/src/vote.rs: validate_tx lines 125-139", "cryptoballot/src/election.rs: authenticators_threshold"]}
{"id": "C17", "title": "One vote per contest per voter", "statement": "An accepted vote contains at most one encrypted selection list per contest, and the first mix of a contest contains at most one ciphertext list per vote transaction.", "quantifier": "every vote transaction, every store, every first mix", "why_tests_cant": "Requires considering all lists of contest indices including repeats combined with other voters' abstentions.", "anchors": ["cryptoballot/src/vote.rs: validate_tx lines 146-151", "cryptoballot/src/mix.rs: validate_tx lines 231-242"]}
{"id": "C18", "title": "Anonymous keys sharing their first 10 bytes are not both accepted", "statement": "If a vote of an election is recorded, no other vote of that election whose anonymous key agrees on the first 10 bytes is accepted; therefore partial decryptions and decryptions of different votes never compete for the same identifier.", "quantifier": "every store, every pair of votes", "why_tests_cant": "The colliding pairs are adversarial and never arise in random tests.", "anchors": ["cryptoballot/src/vote.rs: validate_tx lines 101-111", "cryptoballot/src/decryption.rs: build_unique_info"]}
{"id": "C19", "title": "Voting end comes from the authority and closes that election", "statement": "A VotingEnd transaction is accepted only if signed by the authority of the election it names; once accepted and stored, votes in the election it names are refused, and no other election is affected.", "quantifier": "every VotingEnd transaction, every store and subsequent vote", "why_tests_cant": "Involves all pairs of elections and arbitrary identifiers.", "anchors": ["cryptoballot/src/voting_end.rs: validate_tx", "cryptoballot/src/vote.rs: validate_tx lines 119-123"]}
{"id": "C20", "title": "Transactions only affect the election they name", "statement": "The identifier (storage slot) of every accepted transaction belongs to the election that the transaction names and whose keys authorised it.", "quantifier": "every accepted transaction of every type, every store", "why_tests_cant": "Universal over all identifiers an attacker may choose.", "anchors": ["cryptoballot/src/keygen.rs: validate_tx (no id check)", "cryptoballot/src/voting_end.rs: validate_tx", "cryptoballot/src/vote.rs: id checks", "cryptoballot/src/mix.rs: id checks", "cryptoballot/src/decryption.rs: id checks"]}
{"id": "C21", "title": "The first mix covers exactly the recorded votes", "statement": "An accepted mix without predecessor has mix index 0 and lists exactly the identifiers of all votes of the election in the store, each once, in ascending order, and has as many output rows as votes.", "quantifier": "every mix transaction, every store", "why_tests_cant": "Universal over vote sets and vote_ids lists.", "anchors": ["cryptoballot/src/mix.rs: validate_tx, has_unique_elements"]}
{"id": "C22", "title": "Mixes form chains back to a first mix", "statement": "In every history of accepted transactions, each recorded mix is linked by prev_mix_id to recorded mixes with consecutive mix indices, same election, contest, batch and vote_ids, down to a first mix whose vote_ids were all votes recorded when it was accepted; each step was mixed by the trustee whose index is mix_index+1.", "quantifier": "every history of accepted transactions of any length", "why_tests_cant": "Inductive invariant over unbounded histories.", "anchors": ["cryptoballot/src/mix.rs: validate_tx lines 179-243"]}
{"id": "C23", "title": "Mixing neither adds, drops nor changes votes", "statement": "Assuming shuffle proofs are sound (an accepted proof implies the output rows are a permutation of re-encryptions of the input rows), the multiset of plaintext rows of every recorded mix equals the multiset of plaintext rows that the votes listed by its chain's first mix cast in that contest.", "quantifier": "every history of accepted transactions, every mix chain length, every contest", "why_tests_cant": "Requires induction along chains of unbounded length.", "anchors": ["cryptoballot/src/mix.rs: validate_tx, verify_mix"]}
{"id": "C24", "title": "Mixing happens only after voting has ended", "statement": "A mix is accepted only when the election's VotingEnd is recorded, so no vote can be accepted after the vote set has been fixed by a mix.", "quantifier": "every store, every mix and every later vote", "why_tests_cant": "A schedule property: the order of vote and mix transactions is arbitrary.", "anchors": ["cryptoballot/src/mix.rs: validate_tx"]}
{"id": "C25", "title": "Partial decryptions are authorised, timely and proven", "statement": "A PartialDecryption is accepted only if VotingEnd of its election is recorded, it is signed by a listed trustee whose KeyGenPublicKey is recorded, its identifier is the one derived from its slot, the slot names an existing ciphertext row, and it carries exactly one valid proven share per ciphertext of the row.", "quantifier": "every PartialDecryption transaction, every store", "why_tests_cant": "Universal decision rule.", "anchors": ["cryptoballot/src/decryption.rs: PartialDecryptionTransaction::validate_tx, encrypted_vote_from_upstream_tx"]}
{"id": "C26", "title": "A published decryption is the threshold decryption of recorded shares", "statement": "A Decryption is accepted only if each trustee it lists is a trustee of the election with a recorded PartialDecryption for exactly that slot, at least trustees_threshold such entries are listed, and the published selections are exactly what threshold-decrypting the row with those shares and decoding yields.", "quantifier": "every Decryption transaction, every store", "why_tests_cant": "Universal over stores and trustee lists.", "anchors": ["cryptoballot/src/decryption.rs: DecryptionTransaction::validate_tx, decrypt_vote"]}
{"id": "C27", "title": "A decryption needs a quorum of different trustees", "statement": "A Decryption is accepted only if at least trustees_threshold different trustees contributed partial decryptions.", "quantifier": "every Decryption transaction, every store, including repeated trustee indices", "why_tests_cant": "Counts distinct elements of arbitrary lists.", "anchors": ["cryptoballot/src/decryption.rs: validate_tx lines 291-318, decrypt_vote"]}
{"id": "C28", "title": "Nothing is decrypted before voting ends", "statement": "In every history of accepted transactions, whenever a Decryption of an election with trustee threshold at least 1 is recorded, VotingEnd of that election was recorded earlier.", "quantifier": "every history of accepted transactions", "why_tests_cant": "Temporal property over all interleavings of all transaction types.", "anchors": ["cryptoballot/src/decryption.rs: PartialDecryptionTransaction::validate_tx, DecryptionTransaction::validate_tx"]}
{"id": "C29", "title": "Only fully mixed ciphertexts are decrypted", "statement": "When a mixnet is configured, partial decryptions are accepted only for outputs of the mix numbered trustees_threshold (mix_index + 1 = trustees_threshold), so every decrypted row passed through that many mixes.", "quantifier": "every store, every PartialDecryption", "why_tests_cant": "Universal over mix chains.", "anchors": ["cryptoballot/src/decryption.rs: validate_tx line 129, encrypted_vote_from_upstream_tx", "cryptoballot/src/error.rs: WrongMixSelected"]}
{"id": "C30", "title": "A decryption decrypts ciphertexts of its own election", "statement": "The upstream vote or mix of an accepted PartialDecryption or Decryption belongs to the election named in the transaction.", "quantifier": "every store, every such transaction", "why_tests_cant": "Involves arbitrary pairs of elections.", "anchors": ["cryptoballot/src/decryption.rs: encrypted_vote_from_upstream_tx, DecryptionTransaction::new"]}
{"id": "C31", "title": "At most one decryption per slot on the ledger", "statement": "On the append-only ledger, for each (election, upstream, contest, index) slot at most one Decryption is ever recorded under its identifier, and it is never replaced.", "quantifier": "every history of submissions", "why_tests_cant": "Uniqueness over unbounded histories.", "anchors": ["cryptoballot_exonum/src/lib.rs: verify_and_store", "cryptoballot/src/decryption.rs: build_id"]}
{"id": "C32", "title": "Every mixed row can be decrypted", "statement": "For every mix with n output rows and every row index below n, the row can be addressed by a partial decryption (it is not rejected as an invalid upstream index).", "quantifier": "every mix size n", "why_tests_cant": "Only visible at sizes where a length no longer fits 16 bits.", "anchors": ["cryptoballot/src/decryption.rs: encrypted_vote_from_upstream_tx line 428", "cryptoballot_server/src/tasks.rs: produce_partials line 548"]}
{"id": "C33", "title": "Validation never panics", "statement": "Validating any signed transaction against any store filled by accepted transactions returns Ok or a ValidationError; it does not panic, in debug or in release builds.", "quantifier": "every transaction, every reachable store, both overflow modes", "why_tests_cant": "Panic freedom over all inputs and all reachable stores.", "anchors": ["cryptoballot/src/mix.rs: validate_tx lines 170, 180-186, 246", "cryptoballot/src/decryption.rs: decrypt_vote line 371", "cryptoballot/src/transaction.rs: From<SignedTransaction> impls"]}
{"id": "C34", "title": "The ledger is append-only", "statement": "On the Exonum service, after any sequence of further submissions every stored entry is still present with the same content under the same key.", "quantifier": "every ledger state, every sequence of submissions", "why_tests_cant": "Invariant over unbounded histories and arbitrary byte payloads.", "anchors": ["cryptoballot_exonum/src/lib.rs: verify_and_store"]}
{"id": "C35", "title": "A refused submission changes nothing; a used key is always refused", "statement": "If verify_and_store does not return Ok the ledger is unchanged; a submission whose key is already present is refused whatever its payload; if it returns Ok exactly one entry, the submitted one, is added.", "quantifier": "every ledger state, every submission", "why_tests_cant": "Universal over states and payloads, including malformed ones.", "anchors": ["cryptoballot_exonum/src/lib.rs: verify_and_store"]}
{"id": "C36", "title": "A transaction is stored under its own identifier", "statement": "Every entry of the ledger is stored under the printed identifier of the transaction it contains, so each transaction is recorded at most once.", "quantifier": "every history of submissions", "why_tests_cant": "The envelope key and the payload are chosen independently by the submitter.", "anchors": ["cryptoballot_exonum/src/lib.rs: Transaction, verify_and_store"]}
{"id": "C37", "title": "The vote set is frozen by VotingEnd", "statement": "Once the VotingEnd slot of an election is occupied on the ledger, the set of votes recorded for that election never changes again under any further submissions.", "quantifier": "every ledger state with an occupied VotingEnd slot, every sequence of further submissions", "why_tests_cant": "Temporal invariant over unbounded histories.", "anchors": ["cryptoballot/src/vote.rs: validate_tx", "cryptoballot_exonum/src/lib.rs: verify_and_store"]}
{"id": "C38", "title": "The ledger store and the in-memory store agree", "statement": "For histories in which each envelope key is the printed identifier of its payload, get_transaction and range on the Exonum store return the same results as on an in-memory store fed the same transactions, so validation gives the same verdict on both.", "quantifier": "every such history, every query, every transaction", "why_tests_cant": "Refinement between two implementations over all histories.", "anchors": ["cryptoballot_exonum/src/lib.rs: impl Store for TransactionSchema", "cryptoballot/src/store.rs: MemStore"]}
{"id": "C39", "title": "Prefix listing is exact", "statement": "The REST listing with a prefix returns exactly the entries whose key starts with the prefix, in key order, for every prefix string, provided keys are 64-digit identifiers.", "quantifier": "every ledger content, every prefix string of any length", "why_tests_cant": "Interaction of zero padding, iteration start and early break over all prefixes.", "anchors": ["cryptoballot_server/src/api.rs: get_all"]}
{"id": "C40", "title": "An honestly recorded election passes the audit replay", "statement": "If every transaction of an election was accepted by the ledger when it was submitted, then the auditor's replay (fetching them in identifier order, validating each against the previously replayed ones) succeeds.", "quantifier": "every history of accepted transactions in every submission order", "why_tests_cant": "The replay order differs from the acceptance order; the claim ranges over all permutations the ledger allows.", "anchors": ["cryptoballot_cli/src/command_e2e.rs: command_e2e", "cryptoballot/src: all validate_tx"]}
{"id": "C41", "title": "Sawtooth: accepted transactions are immutable", "statement": "On the Sawtooth transaction processor, once a transaction is accepted no later apply changes the state entry under its identifier.", "quantifier": "every state, every sequence of applied payloads", "why_tests_cant": "Invariant over unbounded histories.", "anchors": ["cryptoballot_sawtooth_tp/src/handler.rs: apply, validate_transaction, CbState"]}
{"id": "C42", "title": "A trustee node's key-generation transactions are accepted", "statement": "For every recorded election listing the node as trustee, the commitment transaction the node generates is accepted by validation; likewise the share transaction it generates from one commitment per trustee, and the public-key transaction.", "quantifier": "every election, every node key, every store in the stated condition", "why_tests_cant": "Producer and validator are separate code; agreement must hold for all elections.", "anchors": ["cryptoballot_server/src/tasks.rs: process_election, process_keygen_commitment, process_keygen_share", "cryptoballot/src/keygen.rs: validate_tx"]}
{"id": "C43", "title": "The authority node's encryption key is accepted", "statement": "When each trustee has recorded exactly one public-key transaction and all keys agree, the EncryptionKey transaction generated by the authority's node is accepted; if they disagree it is rejected.", "quantifier": "every store and election in the stated condition", "why_tests_cant": "Producer/validator agreement over all stores.", "anchors": ["cryptoballot_server/src/tasks.rs: process_keygen_public_key", "cryptoballot/src/keygen.rs: EncryptionKeyTransaction::validate_tx"]}
{"id": "C44", "title": "Mix transactions generated by trustee nodes are accepted", "statement": "Each mix transaction a trustee node generates (the first one after VotingEnd, the following ones after each recorded mix) is accepted by validation, so the mixnet reaches the configured number of mixes.", "quantifier": "every election with a mixnet, every vote set, every threshold", "why_tests_cant": "Multi-step protocol over all thresholds and vote sets.", "anchors": ["cryptoballot_server/src/tasks.rs: process_voting_end, process_mix", "cryptoballot/src/mix.rs: validate_tx"]}
{"id": "C45", "title": "Partial decryptions generated by trustee nodes are accepted and complete", "statement": "After VotingEnd without mixnet, the partial decryptions a trustee node generates cover every encrypted selection list of every recorded vote and each is accepted; with a mixnet the same holds for every row of the final mix.", "quantifier": "every election, vote set and mix", "why_tests_cant": "Producer/validator agreement and coverage over all stores.", "anchors": ["cryptoballot_server/src/tasks.rs: produce_partials, process_voting_end, process_mix"]}
{"id": "C46", "title": "Decryptions generated by trustee nodes are accepted", "statement": "Whenever a trustee node generates a Decryption transaction from the recorded partial decryptions of a slot, it is accepted by validation against the same store.", "quantifier": "every store and slot", "why_tests_cant": "Producer and validator gather their inputs differently (range scan versus individual lookups).", "anchors": ["cryptoballot_server/src/tasks.rs: process_partial_decryption", "cryptoballot/src/decryption.rs: DecryptionTransaction::validate_tx"]}
{"id": "C47", "title": "A node survives any committed block", "statement": "The post-commit hook never panics, whatever transactions (accepted or refused) the committed block contains.", "quantifier": "every block content, every ledger state", "why_tests_cant": "Worst case over attacker-chosen payloads.", "anchors": ["cryptoballot_server/src/service.rs: after_commit", "cryptoballot_server/src/tasks.rs"]}
{"id": "C48", "title": "Every committed transaction is followed up exactly once", "statement": "Over any run of consecutive commits, the post-commit hook processes every transaction of every block exactly once, one block late, in order; and it never re-submits a transaction already on the ledger.", "quantifier": "every sequence of blocks", "why_tests_cant": "Scheduling property over unbounded runs.", "anchors": ["cryptoballot_server/src/service.rs: after_commit"]}
{"id": "C49", "title": "Selections survive encoding", "statement": "Decoding the protobuf encoding of any Selection returns the same Selection; decoding arbitrary bytes never panics and returns either a Selection or an error.", "quantifier": "every Selection, every byte string", "why_tests_cant": "Round trip over unbounded strings, all u32 values; totality over all byte strings.", "anchors": ["cryptoballot/src/ballot.rs: Selection (prost Message)", "cryptoballot/src/vote.rs: encrypt_vote", "cryptoballot/src/decryption.rs: decrypt_vote"]}
{"id": "C50", "title": "A key share reaches its recipient intact", "statement": "A share encrypted by one trustee for another decrypts for the recipient to the same scalar, using the recipient's own secret and the sender's published key; a tampered or truncated share yields an error, never a wrong scalar or a crash.", "quantifier": "every pair of trustee secrets, election id, scalar, nonce, ciphertext", "why_tests_cant": "Algebraic law over all keys; robustness over all byte strings.", "anchors": ["cryptoballot/src/trustee.rs: EncryptedShare::new, decrypt, shared_secret, x25519_secret_key, generate_shares, decrypt_shares"]}
{"id": "C51", "title": "Any quorum of trustees decrypts to the same plaintext", "statement": "After an honest key generation by n trustees with threshold k, all trustees derive the same public key and any k distinct trustees' shares decrypt every ciphertext under that key to the encrypted message, for all 1 <= k <= n.", "quantifier": "every n, k, every quorum, every message, every choice of secrets", "why_tests_cant": "Algebraic statement for all n, k and quorums.", "anchors": ["cryptoballot/src/trustee.rs: generator, generate_party, generate_public_key, partial_decrypt", "cryptoballot/src/decryption.rs: decrypt_vote"]}
{"id": "C52", "title": "A blind-signed authentication verifies", "statement": "For every auth package, blinding it, having the authenticator sign it and unblinding gives a signature that Authenticator::verify accepts for exactly that election, ballot and anonymous key.", "quantifier": "every package, every RSA key pair, every blinding factor", "why_tests_cant": "Number-theoretic law over all keys and messages.", "anchors": ["cryptoballot/src/authn.rs: AuthPackage::blind, Authenticator::authenticate, Authentication::unblind, Authenticator::verify"]}
{"id": "C53", "title": "Unsigned trustee fields have no effect", "statement": "Changing the num_trustees and threshold fields inside an election's trustees (which are not covered by the signature) changes neither the verdict of validating any transaction nor the transactions a node generates.", "quantifier": "every store, every transaction, every assignment to these fields", "why_tests_cant": "Non-interference over all values.", "anchors": ["cryptoballot/src/trustee.rs: Trustee (skip_serializing)", "cryptoballot/src/election.rs: get_full_trustees", "cryptoballot/src: all validate_tx"]}
{"id": "C54", "title": "Tallies do not depend on the order of the ballots", "statement": "For every contest type that is supported, permuting the list of decrypted ballots does not change the totals, and num_votes equals the number of ballots.", "quantifier": "every list of ballots, every permutation, every contest type", "why_tests_cant": "Ranges over all permutations of unbounded lists.", "anchors": ["cryptoballot/src/tally.rs: TallyResult::tally"]}
{"id": "C55", "title": "One ballot counts once in a plurality contest", "statement": "In a plurality tally the sum of all candidate totals never exceeds the number of ballots: no ballot contributes more than one vote.", "quantifier": "every list of ballots", "why_tests_cant": "Worst case over malformed ballots.", "anchors": ["cryptoballot/src/tally.rs: TallyResult::tally (Plurality)", "cryptoballot/src/ballot.rs: ContestType docs"]}
{"id": "C56", "title": "Tallying never crashes", "statement": "TallyResult::tally returns a result for every contest type and every list of decrypted ballots.", "quantifier": "every contest type, every list of ballots", "why_tests_cant": "Worst case over ballots chosen by voters.", "anchors": ["cryptoballot/src/tally.rs: TallyResult::tally"]}
{"id": "C57", "title": "Equal ranks are treated equally", "statement": "In the ranked contest types, two candidates that every ballot gives the same rank receive the same total.", "quantifier": "every list of ballots, every pair of candidates, every ranked contest type", "why_tests_cant": "Relational property over all ballot lists.", "anchors": ["cryptoballot/src/tally.rs: TallyResult::tally (Borda*)", "cryptoballot/src/ballot.rs: ContestType docs"]}
{"id": "C58", "title": "Shuffle contexts are never shared between mixes of an election", "statement": "The commitment-parameter seed of two mixes of one election is equal only if they have the same trustee, mix index, contest and batch.", "quantifier": "every pair of parameter tuples", "why_tests_cant": "Injectivity over all pairs.", "anchors": ["cryptoballot/src/mix.rs: generate_pedersen_seed"]}
{"id": "C59", "title": "Only the authority can end the voting on the ledger", "statement": "On the Exonum ledger the voting of an election is closed (votes are refused with VotingHasEnded) only after a VotingEnd transaction signed by the authority of that election was recorded.", "quantifier": "every ledger state reachable by any submissions, every submission", "why_tests_cant": "The closing test reads a slot by its key; whether anything else can occupy the slot depends on all possible envelopes.", "anchors": ["cryptoballot_exonum/src/lib.rs: verify_and_store", "cryptoballot/src/vote.rs: validate_tx", "cryptoballot/src/voting_end.rs: validate_tx"]}
{"id": "C60", "title": "A voter's slot cannot be taken by somebody else", "statement": "On the Exonum ledger the slot of a vote (election, anonymous key) is occupied only by a vote signed with that voter's anonymous key, so nobody else can block the voter.", "quantifier": "every ledger state reachable by any submissions, every voter key", "why_tests_cant": "Requires excluding every envelope that could occupy the slot.", "anchors": ["cryptoballot_exonum/src/lib.rs: verify_and_store", "cryptoballot/src/vote.rs: build_id"]}
{"id": "C61", "title": "The Sawtooth processor can record every type of transaction", "statement": "For every transaction type there is a state of the Sawtooth processor in which a valid transaction of that type is accepted; in particular votes can be recorded.", "quantifier": "every transaction type, every state, every transaction", "why_tests_cant": "Absence of any accepting state is a universally quantified statement.", "anchors": ["cryptoballot_sawtooth_tp/src/handler.rs: apply, validate_transaction, impl Store for CbState"]}
{"id": "C62", "title": "A passed audit certifies a valid history", "statement": "If the auditor's replay of a list of transactions (whatever node supplied it) ends with success, then the list is a valid history: each transaction was valid against the previous ones and no identifier occurs twice, so every property of histories holds of it.", "quantifier": "every list of transactions", "why_tests_cant": "The list is supplied by an untrusted node and ranges over all lists.", "anchors": ["cryptoballot_cli/src/command_e2e.rs: command_e2e", "cryptoballot/src/store.rs: MemStore::set"]}
{"id": "C63", "title": "The tally of the e2e command counts every ballot once in its contest", "statement": "For every verified election the e2e command prints, for every contest, how many decrypted ballots chose each candidate, without crashing on any ballot a voter can cast.", "quantifier": "every ledger, every list of decrypted ballots, every listing order of the totals", "why_tests_cant": "Worst case over ballots chosen by voters; ranges over all ledgers.", "anchors": ["cryptoballot_cli/src/command_e2e.rs: command_e2e (print-tally)"]}
{"id": "C64", "title": "Blinding hides the voter's package from the authenticator", "statement": "What an authenticator is asked to sign is consistent with every package whose digest is invertible modulo the key, with exactly one blinding factor each, and the signature that is published does not depend on the blinding factor.", "quantifier": "every RSA key, every pair of packages, every blinding factor", "why_tests_cant": "Statement about the existence of another explanation for every view.", "anchors": ["cryptoballot/src/authn.rs: AuthPackage::blind, Authenticator::authenticate, Authentication::unblind"]}
{"id": "C65", "title": "A recorded decryption shows what the voter encrypted", "statement": "When the keys of an election come from one key generation, every recorded decryption shows exactly the selections that a voter encrypted, whoever posted the partial decryptions, the mixes and the decryption: without mixnet those of the vote it names, with a mixnet those at its place in one arrangement of the votes that the mix covers. If every row of the mix is decrypted, the decryptions are the votes in some order.", "quantifier": "every ledger history (posted by anybody), every election, mix, number of trustees and threshold", "why_tests_cant": "Ranges over all adversarial histories, key polynomials and shuffles, including posted decryptions that no honest node would make.", "anchors": ["cryptoballot/src/decryption.rs: validate_tx (both), decrypt_vote", "cryptoballot/src/mix.rs: validate_tx", "cryptoballot/src/trustee.rs"]}
{"id": "C66", "title": "Accepted key proofs fit the commitments", "statement": "The proof in an accepted KeyGenPublicKey transaction is about the point that the recorded commitments determine for its trustee, so that the partial decryptions of any threshold of trustees can be combined.", "quantifier": "every ledger history, every public key transaction", "why_tests_cant": "Needs a trustee that deviates; the tests only run honest trustees.", "anchors": ["cryptoballot/src/keygen.rs: KeyGenPublicKeyTransaction::validate_tx"]}
{"id": "C67", "title": "The client's election is accepted", "statement": "The election transaction that `election generate` makes is accepted by every node whose ledger has nothing under its identifier, and what the node then serves is an election whose only trustee (index 1, threshold 1) is its authority, with a mixnet and the ballot BALLOT1 on contest 0.", "quantifier": "every ledger, every election identifier, every key", "why_tests_cant": "Ranges over all ledgers and keys; needs the encoding limits to hold for every key and signature.", "anchors": ["cryptoballot_cli/src/command_election.rs: command_election_generate", "cryptoballot/src/election.rs: ElectionTransaction::new"]}
{"id": "C68", "title": "The client votes in the election it was asked to vote in", "statement": "The vote that `vote generate` makes is cast in the election named on the command line and holds the given text encrypted under that election's key. It is accepted exactly when that election offers BALLOT1 with contest 0, voting has not ended, and neither the slot nor the collision slot of the voter's key is taken.", "quantifier": "every ledger reached by posting, every voter key, every argument, every random state", "why_tests_cant": "The attack needs a stranger's key transaction in the slot of another election; ranges over all ledgers.", "anchors": ["cryptoballot_cli/src/command_vote.rs: command_vote_generate", "cryptoballot/src/keygen.rs: EncryptionKeyTransaction::validate_tx"]}
{"id": "C69", "title": "The client's voting end closes the named election", "statement": "The transaction that `voting_end generate` makes is accepted exactly when the key is that of the authority of the named election and voting has not been ended; after it, no vote for that election is ever accepted. An argument that names no election stops the client.", "quantifier": "every ledger reached by posting, every key, every argument, every later sequence of posts", "why_tests_cant": "Ranges over all later sequences of posts.", "anchors": ["cryptoballot_cli/src/command_voting_end.rs: command_voting_end_generate", "cryptoballot/src/vote.rs: validate_tx"]}
{"id": "C70", "title": "Whatever an honest node answers is accepted", "statement": "In an election whose authority, trustees and voters follow the protocol, every transaction that a node of theirs generates in answer to a recorded transaction is accepted whenever it arrives, unless its identifier is taken already, whatever was recorded in the meantime and however old the node's view of the ledger was.", "quantifier": "every execution of such an election, in every interleaving and with every delay, on a ledger shared with arbitrary other elections", "why_tests_cant": "Interleavings and delays are unbounded; the tests run one fixed order.", "anchors": ["cryptoballot_server/src/tasks.rs: generate_transactions", "cryptoballot/src/transaction.rs: SignedTransaction::validate"]}
{"id": "C71", "title": "No honest node stops, and the election never gets stuck", "statement": "In such an election a node can answer every recorded transaction at any time without error or crash, and from every reachable ledger one is reachable where every node has answered every transaction and all answers are recorded.", "quantifier": "every reachable ledger, every node, every transaction of the election, every random choice", "why_tests_cant": "Needs all reachable ledgers, and an argument that the cascade of answers ends.", "anchors": ["cryptoballot_server/src/tasks.rs", "cryptoballot_server/src/service.rs"]}
{"id": "C72", "title": "Key generation ends with the joint key of the trustees", "statement": "When every trustee has answered the election, commitments and shares, and the authority the public keys, the encryption key is recorded. It is the key whose secret is the sum of the trustees' secrets, and every trustee has recorded the same.", "quantifier": "every such execution, any number of trustees and any threshold", "why_tests_cant": "Ranges over all numbers of trustees and all orders of messages.", "anchors": ["cryptoballot_server/src/tasks.rs: process_keygen_commitment, process_keygen_share, process_keygen_public_key", "cryptoballot/src/trustee.rs", "cryptoballot/src/keygen.rs"]}
{"id": "C73", "title": "What is published is what was cast", "statement": "When voting has ended and as many trustees as the threshold says have answered everything, then in every contest the recorded decryptions are, up to order, exactly the selections that the voters encrypted: none is missing, none is added, none is published twice.", "quantifier": "every such execution, any votes and contests, any quorum, with and without mixnet (one mix)", "why_tests_cant": "Ranges over all votes, quorums and interleavings; composes key generation, transport of shares, mixing, partial decryption and combination.", "anchors": ["cryptoballot_server/src/tasks.rs: process_voting_end, process_mix, process_partial_decryption", "cryptoballot/src/decryption.rs", "cryptoballot/src/vote.rs", "cryptoballot/src/mix.rs"]}
{"id": "C74", "title": "An election can always be finished after voting has ended", "statement": "From every ledger of such an election on which voting has ended, answers of the trustees' nodes alone lead to a ledger where in every contest the recorded decryptions are exactly the votes that had been cast.", "quantifier": "every reachable ledger on which voting has ended", "why_tests_cant": "A liveness statement over all reachable ledgers.", "anchors": ["cryptoballot_server/src/tasks.rs", "cryptoballot/src/vote.rs: validate_tx"]}
{"id": "C75", "title": "The audit of an honest election succeeds", "statement": "In an election whose authority, trustees and voters follow the protocol, the end-to-end verification succeeds at any time, on any ledger that such an execution leads to, and ends with exactly the recorded transactions of the election. For the whole command this needs that no other recorded election has an identifier with the same first fifteen characters, which is all that the command asks the node for.", "quantifier": "every reachable ledger of every such execution, with every order and delay of messages and arbitrary other elections", "why_tests_cant": "The audit replays in another order than that of recording; that this order works has to be shown for all executions.", "anchors": ["cryptoballot_cli/src/command_e2e.rs: command_e2e", "cryptoballot_server/src/api.rs: get_all"]}
{"id": "C76", "title": "The tally of an honest election is that of the votes cast", "statement": "When voting has ended and a quorum has answered, the totals that the library computes for a contest from the recorded decryptions are those of the votes cast for it, whatever the kind of contest; and the totals that the verification command prints are, for every text, the number of votes cast (in all contests together) that select it first, provided that no vote is empty. With an empty vote it stops without printing.", "quantifier": "every such execution, any votes, contests and quorum, every order in which totals are listed", "why_tests_cant": "Ranges over all votes and executions; composes the election, its replay and the count.", "anchors": ["cryptoballot_cli/src/command_e2e.rs: command_e2e", "cryptoballot/src/tally.rs: TallyResult::tally"]}
{"id": "C77", "title": "A network of honest nodes records an honest history, and none of its nodes stops", "statement": "Whatever the blocks contain, in whatever order and size (answers of the nodes, late, repeated or missing, votes, the end of voting, envelopes of other elections, payloads that are no envelopes), the chain records an execution in the sense of C70 as soon as the election is recorded; an answer of a node that is included in a block is recorded by the end of that block at the latest; and the commit hook of a node that is a trustee of this election only never crashes.", "quantifier": "every chain of blocks and every moment, every node, every random choice", "why_tests_cant": "Ranges over all chains of blocks; the tests have one node and fixed blocks.", "anchors": ["cryptoballot_server/src/service.rs: after_commit", "cryptoballot_server/src/service.rs: after_commit", "cryptoballot_server/src/tasks.rs: generate_transactions"]}
{"id": "C78", "title": "Blocks that contain what the nodes send make the key and publish the votes", "statement": "If every block contains what the nodes sent after the block before, the encryption key is recorded sixteen blocks after the election at the latest, and sixteen blocks after the end of voting the recorded decryptions of every contest are exactly the votes cast. The same holds of any chain whose last two blocks record nothing of the election and which has recorded everything that a quorum sent; the verification command then succeeds on it and prints the count of the votes.", "quantifier": "every chain of such a network, any number of trustees, votes and contests, any quorum", "why_tests_cant": "A liveness statement with a bound that does not depend on the size of the election; the commit hook has to answer every transaction at the right block.", "anchors": ["cryptoballot_server/src/service.rs: after_commit", "cryptoballot_server/src/tasks.rs", "cryptoballot_cli/src/command_e2e.rs"]}
{"id": "C79", "title": "An election whose messages were lost resumes", "statement": "If the key of a recorded election has not been made because answers of the trustees were lost, the nodes go on to make it.", "quantifier": "every chain of blocks", "why_tests_cant": "Needs all continuations of a chain.", "anchors": ["cryptoballot_server/src/service.rs: after_commit"]}
{"id": "C80", "title": "An election run with the commands of the client publishes and counts what was typed", "statement": "Against one node whose key is also that of the authority and of the only trustee: the command that starts the election has it recorded; sixteen blocks later the key is recorded; from then on, until voting ends, every new voter's command succeeds and its vote is recorded; the command that ends voting has the end recorded; sixteen blocks later the published ballots are exactly the texts typed, one selection each, whatever they are; and the verification command then prints, for every text, how many voters typed it.", "quantifier": "every sequence of commands and blocks, any number of voters, any texts, arbitrary transactions of other elections in between", "why_tests_cant": "Composes command line, transport, ledger, commit hook, cryptography, replay and count over all sequences of commands.", "anchors": ["cryptoballot_cli/src/command_vote.rs", "cryptoballot_cli/src/command_election.rs", "cryptoballot_cli/src/command_voting_end.rs", "cryptoballot_cli/src/command_e2e.rs", "cryptoballot_server/src/service.rs: after_commit"]}
{"id": "C81", "title": "Transactions survive the texts between node, client and files", "statement": "A transaction served by a node reaches the client with the same content and signature, or the client gets the node's refusal; a listing reaches the client as the list the node holds, and the audit over it ends with the verdict of the audit over the ledger; a transaction printed by a command and kept in a file, with blank lines around it, posts exactly like the transaction itself, as does a list; two transactions have the same text exactly if they have the same content and signature.", "quantifier": "all ledgers, identifiers, prefixes, transactions, surrounding white space", "why_tests_cant": "Quantifies over all transactions and ledgers, with arbitrary nesting, Unicode texts and numbers in the properties.", "anchors": ["cryptoballot_cli/src/rest.rs: get_transaction, get_transactions_by_prefix", "cryptoballot_cli/src/command_post_transaction.rs", "cryptoballot_server/src/api.rs: get_all", "cryptoballot_cli/src/command_e2e.rs"]}
{"id": "C82", "title": "No verdict depends on the unsigned helper fields of trustees", "statement": "The number of trustees and the threshold that a listed trustee carries are neither signed nor serialised; replacing them anywhere in a history or in the transaction under validation changes neither the verdict nor its error, and the audit of such histories ends alike.", "quantifier": "all histories, transactions and values of the helper fields", "why_tests_cant": "Two-run property over all histories and all validation code paths.", "anchors": ["cryptoballot/src/election.rs: get_full_trustees", "cryptoballot/src/keygen.rs: validate_tx", "cryptoballot/src/decryption.rs: validate_tx"]}
{"id": "C83", "title": "The printed winner has the most votes", "statement": "After the verification command has accepted an election with at least one vote, the winner that it prints is a text that no other text beats in first selections of the votes cast; if one text is ahead of all others, it is the one printed, in whatever order the totals are kept. This holds for settled networks of honest nodes and for elections typed in with the client. An election without votes ends with a result, and a tie does not depend on the order of a hash map.", "quantifier": "all stores, vote lists, orders of the totals; all chains and sessions of C78 and C80", "why_tests_cant": "Quantifies over all votes and all iteration orders of a hash map; a test sees one order.", "anchors": ["cryptoballot_cli/src/command_e2e.rs: print-results"]}
{"id": "C84", "title": "The printed counts and votes can be read back", "statement": "Two runs of the verification command that print the same tally counted the same number of votes for every text; two runs that print the same votes saw the same scores and texts in the same order.", "quantifier": "all pairs of stores, elections and vote lists", "why_tests_cant": "Injectivity of a text format over all Unicode texts and counts.", "anchors": ["cryptoballot_cli/src/command_e2e.rs: print-tally, print-votes"]}
{"id": "C85", "title": "get and post carry a transaction from node to node; tally and sign do nothing", "statement": "What get prints, compact or pretty, can be posted to any node and has the effect of posting the recorded transaction itself. get and tally stop with a panic when the argument is not an identifier or the node does not have the transaction. tally prints nothing for an election, whatever the votes, and stops for any other transaction; sign stops for all arguments.", "quantifier": "all ledgers on both sides, identifiers, transactions, arguments", "why_tests_cant": "Quantifies over all transactions and pairs of nodes.", "anchors": ["cryptoballot_cli/src/main.rs: command_get_transaction, command_tally, command_sign_transaction", "cryptoballot_cli/src/command_post_transaction.rs"]}
{"id": "C86", "title": "The CBOR wire format is exactly the declared one", "statement": "A payload is read as a transaction of a type exactly when its bytes are one CBOR item (RFC 7049, definite lengths, nesting at most 127) that has the form declared for that type: the declared field names, each required field once, numbers in range, identifiers, keys and signatures as hexadecimal text, optional fields with their defaults, application data as JSON values; and every field of the transaction read is what the item says. What the library writes has this form and stands for itself; a payload has at most one reading; two transactions written alike have the same content.", "quantifier": "all byte strings, all transaction types, all transactions", "why_tests_cant": "Equivalence over all byte strings: no unknown form is read, none of the declared ones is refused, no field is mixed up.", "anchors": ["cryptoballot/src/transaction.rs: SignedTransaction, from_bytes, as_bytes", "cryptoballot/src: struct declarations and serde attributes", "cryptoballot/src/serde_hex.rs", "cryptoballot/src/ballot.rs: Contest, Candidate, Ballot", "cryptoballot/src/ballot.rs: Selection"]}
{"id": "C87", "title": "The JSON texts are exactly the declared ones", "statement": "A text is read as a transaction of a type exactly when it is one JSON document (RFC 8259 grammar of white space, strings with escapes and surrogate pairs, numbers, arrays and objects, nesting at most 127) whose value has the form declared for that type, and every field of the transaction is what the document says; likewise for lists of transactions. What the library writes, compact or indented, is such a document and stands for the transaction written.", "quantifier": "all texts, all transaction types, all transactions", "why_tests_cant": "Equivalence over all texts; tests can only try some documents.", "anchors": ["cryptoballot_server/src/api.rs: get_all", "cryptoballot_cli/src/rest.rs", "cryptoballot_cli/src/command_post_transaction.rs", "cryptoballot/src/transaction.rs: SignedTransaction"]}
{"id": "C88", "title": "Nobody is given more votes than were cast for them", "statement": "If a list of transactions passes the audit, the printed totals give no text more than the number of ballots cast in the election that select it first, and altogether no more than the number of ballots cast - whoever posted the partial decryptions and decryptions, and whichever votes they left out.", "quantifier": "all audited lists of transactions (dishonest trustees and authority included), all elections with keys of one polynomial, all sets of votes cast and orders of the totals", "why_tests_cant": "Quantifies over all adversarial histories; needs the soundness of decryption shares and an injection from counted rows into ballots.", "anchors": ["cryptoballot_cli/src/command_e2e.rs", "cryptoballot/src/decryption.rs: validate_tx, build_id", "cryptoballot/src/mix.rs: validate_tx"]}
{"id": "C89", "title": "What the set-up commands make can be used", "statement": "A secret key printed by keygen, written by trustee generate, or told to the developer by the node in development mode is read by the client as exactly that key, and any text is accepted as a key exactly when it is 64 hexadecimal digits spelling it; the argument comes before the environment. The printed public key, trustee and authenticator are JSON (or text) that the election reader takes as the key, trustee and authenticator made. The election the client starts with the node's key has the node as authority and only trustee. Trustees made with the command can hold an election together, and votes can be authenticated by an authenticator made with the command.", "quantifier": "all secret keys, texts, arguments, environments, service keypairs, key sizes, histories", "why_tests_cant": "Equivalence over all texts and an invariant over all histories (no share is ever made); a test generates a handful of keys.", "anchors": ["cryptoballot_cli/src/command_keygen.rs", "cryptoballot_cli/src/command_trustee.rs", "cryptoballot_cli/src/command_authn.rs", "cryptoballot_cli/src/main.rs: secret_key", "cryptoballot_server/src/main.rs", "cryptoballot/src/trustee.rs: Trustee::new", "cryptoballot/src/authn.rs: Authenticator::new"]}
{"id": "C90", "title": "Spoiled ballots are set aside", "statement": "A ballot that is spoiled in one of the ways for which the source fixes a rule (no selection at all; several selections in a plurality contest; a candidate named twice; a write-in where none is allowed; somebody who is not a candidate) is listed among the spoiled ballots of the tally and gives nobody votes, so that whoever has a total or is printed as the winner is a candidate of the contest or an allowed write-in.", "quantifier": "all contests, ballots, listing orders, stores and histories; for the independence: all elections that differ in their contests", "why_tests_cant": "That no check, node or tally ever reads candidates, contest types or the write-in rule is a statement about all pairs of elections and histories; a test can only show single spoiled ballots being counted.", "anchors": ["cryptoballot/src/error.rs: SpoiledBallotError", "cryptoballot/src/tally.rs: TallyResult, TallyTransaction", "cryptoballot/src/ballot.rs: Contest, Selection", "cryptoballot/src/decryption.rs: validate_tx", "cryptoballot_cli/src/command_e2e.rs"]}
{"id": "C91", "title": "An election with a mixnet can be finished", "statement": "After the end of the voting in an election with a mixnet, the nodes of the trustees, answering what is recorded, mix the votes as often as the threshold says and publish decryptions that are exactly the votes cast; the command then has something to count.", "quantifier": "all elections with a mixnet, node keys, random values, stores and histories of any length and interleaving, with arbitrary other transactions by anybody", "why_tests_cant": "That no continuation whatever publishes a vote is an invariant over all infinite families of histories; a test only shows that one run did not go on.", "anchors": ["cryptoballot_server/src/tasks.rs: process_voting_end, process_mix, produce_partials, process_partial_decryption", "cryptoballot/src/mix.rs: validate_tx", "cryptoballot_cli/src/command_e2e.rs"]}
{"id": "C92", "title": "Debug and release builds agree", "statement": "A node, a client or an auditor built with overflow checks (debug) and one built without (release) accept the same transactions, hold the same ledger, give the same verdict on an election and send the same follow-up transactions.", "quantifier": "all transactions, stores, lists of transactions, sequences of blocks and random values, in both builds", "why_tests_cant": "It compares two builds on every input; tests run in one build, and the smallest execution on which the builds part needs 256 trustees and 256 mixes in a row.", "anchors": ["cryptoballot/src/mix.rs: validate_tx (u8 arithmetic)", "cryptoballot_server/src/tasks.rs: process_mix (u8 arithmetic)", "cryptoballot_exonum/src/lib.rs", "cryptoballot_cli/src/command_e2e.rs"]}
{"id": "C93", "title": "Nobody outside can stop an election, and a quorum of trustees can finish it", "statement": "Whatever people do that are neither trustees nor the authority of an election, its trustees and its authority can still make its encryption key; after the end of the voting as many trustees as the threshold says publish all votes without the others.", "quantifier": "all elections, histories of any length, secret keys of strangers, and all continuations of a history; all quorums", "why_tests_cant": "That no continuation whatever makes a key, and that some continuation by a quorum alone publishes all votes, are statements about all continuations of all histories.", "anchors": ["cryptoballot/src/keygen.rs: KeyGenPublicKeyTransaction, EncryptionKeyTransaction, validate_tx", "cryptoballot/src/mix.rs: validate_tx", "cryptoballot/src/election.rs: validate_tx", "cryptoballot_server/src/tasks.rs: generate_transactions"]}
{"id": "C94", "title": "No secret, nonce or random value is used twice", "statement": "The secrets a trustee derives from its key are derived from different inputs for different elections and purposes; each share it publishes is sealed with a nonce of its own; each decryption share, mix and encrypted selection is made with random values of its own; and a sealed share opens only as a share of its sender.", "quantifier": "all keys, elections, implementations of the libraries, lists of exchange keys, stores, transactions, random values and votes", "why_tests_cant": "That no two outputs share a random value is a statement about all pairs of outputs of all runs; reused randomness gives outputs that pass every test (they verify and decrypt).", "anchors": ["cryptoballot/src/trustee.rs: x25519_secret_key, shared_secret, generator, generate_shares, EncryptedShare", "cryptoballot_server/src/tasks.rs: produce_partials, process_voting_end, process_mix, process_keygen_commitment", "cryptoballot/src/vote.rs: encrypt_vote"]}
{"id": "C95", "title": "Every part of the system gives a trustee the same place", "statement": "The place in the list of trustees that the library finds for a public key, the one the trustee's node acts for, and the one the checks find by its number are the same, with the number of trustees and the threshold of the election; and an election in which one key holds two places is not set up for a part of its trustees only.", "quantifier": "all elections, public keys, numbers, histories and nodes", "why_tests_cant": "The three lookups are separate pieces of code (last match, first match, first by number); they differ only on lists no test election contains, and every such list is accepted.", "anchors": ["cryptoballot/src/trustee.rs: Trustee::from_election_tx", "cryptoballot_server/src/tasks.rs: trustee_from_election, process_keygen_commitment", "cryptoballot/src/election.rs: get_trustee, get_full_trustees, validate"]}
{"id": "C96", "title": "What is acceptable stays acceptable, whatever is recorded in between", "statement": "A transaction that would be accepted now is accepted after any further transactions have been recorded, until its identifier is taken or the voting is ended; and two acceptable transactions can be recorded in either order, with the same stored contents.", "quantifier": "all histories, all further transactions recorded in between, all pairs of transactions, both build modes", "why_tests_cant": "Arrival order is decided by the network; the statement is about all interleavings, and the disturbing transactions are ones no honest run contains.", "anchors": ["cryptoballot/src/transaction.rs: validate", "cryptoballot/src/keygen.rs: EncryptionKeyTransaction::validate_tx", "cryptoballot/src/mix.rs: MixTransaction::validate_tx", "cryptoballot/src/decryption.rs: DecryptionTransaction::validate_tx", "cryptoballot/src/vote.rs: VoteTransaction::validate_tx"]}
{"id": "C97", "title": "After the voting, nobody outside can keep the result from being published", "statement": "Once the voting of an election has ended and a quorum of its trustees has recorded its partial decryptions, a decryption of each vote can be recorded; nobody who is neither its authority nor one of its trustees can prevent that.", "quantifier": "all histories, elections, strangers and later transactions", "why_tests_cant": "Prevention is a statement about all continuations of a history, and the preventing transactions belong to another election that no test sets up.", "anchors": ["cryptoballot/src/decryption.rs: DecryptionTransaction::validate_tx, decrypt_vote", "cryptoballot/src/keygen.rs: KeyGenPublicKeyTransaction::validate_tx", "cryptoballot/src/store.rs: get_multiple"]}
{"id": "C98", "title": "The nodes come to rest", "statement": "Whatever is recorded, the nodes' automatic replies to it end: a reply is the next step of the same election and lies in the range of that election, one node gives a bounded number of replies to one transaction, and in no history is there a sequence of more than five recorded transactions each of which replies to the one before.", "quantifier": "all histories, both builds, all nodes, keys and random values, all moments at which a node replies", "why_tests_cant": "Absence of an endless exchange between nodes is a statement about all histories, including those with mixes that wrap their index and transactions recorded by strangers.", "anchors": ["cryptoballot_server/src/tasks.rs: generate_transactions and the process functions", "cryptoballot/src/mixing.rs: MixTransaction::validate_tx"]}
{"id": "C99", "title": "The report of an audit can be read back", "statement": "Whatever parts of the report are asked for, the client prints all of them for every verified election, and the printed text can be read in one way only: as the selections of the published votes in order, the number of votes of each candidate, and a candidate with the most votes.", "quantifier": "all stores, all published votes with any texts, all combinations of the three options, all orders of the hash maps", "why_tests_cant": "Uniqueness of the reading is a statement about all pairs of contents with the same text; tests print candidates whose names hold no line break.", "anchors": ["cryptoballot_cli/src/command_e2e.rs: lines 40-95"]}
{"id": "C100", "title": "Recorded elections can be read", "statement": "The transactions recorded in the repository's test_elections are read by the code: for every text of the recorded form, reading yields the transaction. For elections: whether an election whose contests carry no id is read, from JSON or CBOR.", "quantifier": "for all texts and byte strings that hold an election transaction with a contest without the field id", "why_tests_cant": "test_all_elections reads two files; it says nothing of other elections of the same form, and fails as a whole without telling which field is missing.", "anchors": ["cryptoballot/src/tests.rs:1063-1109", "cryptoballot/src/ballot.rs:17-33", "test_elections/test_election_1/test_election_1.json", "test_elections/test_election_2/test_election_2.json"]}
{"id": "C101", "title": "The client understands the command lines that its help describes", "statement": "Every command line of the form that the help of the client describes, with options in any place and any order, runs the command named, with the values of the line, the address of the node and the secret key given before it or in the environment. No command line makes the client panic on its arguments. A key can be given as the client's own message says, with --secret-key.", "quantifier": "for all command lines (lists of words), values, environments and orders of the options", "why_tests_cant": "There are no tests of the command line; a test tries some lines, not all orders and spellings.", "anchors": ["/repo/cryptoballot_cli/src/main.rs:16-331", "/repo/cryptoballot_cli/src/command_authn.rs:14-22", "/repo/cryptoballot_cli/src/command_voting_end.rs:8-23", "/repo/cryptoballot_cli/src/command_election.rs:13-28", "/repo/cryptoballot_cli/src/command_vote.rs:5-36"]}
