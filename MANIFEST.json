{
 "claims": [
  {
   "property": "C01",
   "status": "proved",
   "theorems": [
    "C01_print_parse_roundtrip",
    "C01_text_is_64_lowercase_hex",
    "C01_text_determines_identifier",
    "C01_parse_print_is_lowercase",
    "C01_parse_case_insensitive"
   ],
   "note": "all identifiers and all strings"
  },
  {
   "property": "C02",
   "status": "proved",
   "theorems": [
    "C02_order_is_byte_order",
    "C02_order_is_string_order",
    "C02_partial_cmp",
    "C02_total_order"
   ],
   "note": ""
  },
  {
   "property": "C03",
   "status": "partial",
   "theorems": [
    "C03_parse_never_panics_refuted",
    "C03_bad_type_panics_refuted",
    "C03_parse_outcome_partial"
   ],
   "note": "Refuted: 32 hex digits, or 64 hex digits with an unknown type byte, panic (transaction.rs 435-438). The partial theorem gives the exact outcome for every string."
  },
  {
   "property": "C04",
   "status": "partial",
   "theorems": [
    "C04_ids_collision_free_refuted",
    "C04_ids_determine_object_partial",
    "C04_layout"
   ],
   "note": "Refuted for decryption slots of votes whose keys share 10 bytes. The partial theorem is an exact characterisation of identifier equality for all object names."
  },
  {
   "property": "C58",
   "status": "proved",
   "theorems": [
    "C58_shuffle_seed_injective",
    "C58_seed_layout"
   ],
   "note": "C58_seed_layout reads the four parts back from their positions."
  },
  {
   "property": "C07",
   "status": "proved",
   "theorems": [
    "C07_sign_verifies",
    "C07_other_key_refused",
    "C07_signed_by_declared_key",
    "C07_accepted_signature_valid",
    "C07_who_declares_a_key"
   ],
   "note": "ed25519 correctness is an explicit hypothesis of the first theorem, satisfied by the toy instance"
  },
  {
   "property": "C08",
   "status": "proved",
   "theorems": [
    "C08_signed_bytes_pin_content",
    "C08_types_separated",
    "C08_helper_fields_unsigned",
    "C08_signature_not_transferable"
   ],
   "note": "for values whose lengths fit in 64 bits (cwf)"
  },
  {
   "property": "C09",
   "status": "partial",
   "theorems": [
    "C09_wire_roundtrip_refuted",
    "C09_wire_roundtrip_partial",
    "C09_forwarding_partial",
    "C09_forwarding_never_alters"
   ],
   "note": "Refuted: an accepted election whose properties nest deeper than 127 serialises to bytes that from_bytes rejects. Forwarding fails too for received elections nested exactly 127 deep whose properties hold a number, because a number is written one level deeper than it is read (witness in C41_election_unreadable_refuted). The partial theorems cover every transaction that is serialised to at most 127 levels, and every received transaction except elections nested deeper than 126; what is read back is never altered."
  },
  {
   "property": "C05",
   "status": "proved",
   "theorems": [
    "C05_listing_exact",
    "C05_listing_unique",
    "C05_range_exact",
    "C05_reversed_range_panics"
   ],
   "note": "all sequences of writes"
  },
  {
   "property": "C06",
   "status": "proved",
   "theorems": [
    "C06_last_write_wins",
    "C06_set_get",
    "C06_same_last_writes_same_store",
    "C06_typed_getters",
    "C06_typed_getters_not_found"
   ],
   "note": "all sequences of writes"
  },
  {
   "property": "C10",
   "status": "proved",
   "theorems": [
    "C10_accepted_in_own_slot",
    "C10_ranges_are_typed",
    "C10_conversions_never_panic"
   ],
   "note": "for all histories of accepted transactions stored under their own identifier"
  },
  {
   "property": "C11",
   "status": "partial",
   "theorems": [
    "C11_accepted_elections_are_well_formed",
    "C11_acceptance_rule_refuted",
    "C11_acceptance_rule_partial"
   ],
   "note": "Soundness holds for all elections. The equivalence is refuted at 256 authenticators (len() as u8, election.rs 168) and proved below 256."
  },
  {
   "property": "C12",
   "status": "proved",
   "theorems": [
    "C12_commitment_from_listed_trustee",
    "C12_share_from_listed_trustee",
    "C12_public_key_from_listed_trustee",
    "C12_commitment_rule",
    "C12_public_key_rule"
   ],
   "note": "for every store with any content"
  },
  {
   "property": "C13",
   "status": "proved",
   "theorems": [
    "C13_one_share_per_trustee",
    "C13_unique_share"
   ],
   "note": ""
  },
  {
   "property": "C14",
   "status": "proved",
   "theorems": [
    "C14_encryption_key_is_unanimous",
    "C14_encryption_key_rule"
   ],
   "note": "recorded public keys of the election = entries in the identifier range of the election; see C20 for transactions stored in a foreign range"
  },
  {
   "property": "C15",
   "status": "proved",
   "theorems": [
    "C15_vote_acceptance_rule",
    "C15_first_failing_check_decides",
    "C15_authentication_message_injective"
   ],
   "note": "the error-order theorem assumes that full-domain hashing succeeds for every key (explicit hypothesis)"
  },
  {
   "property": "C16",
   "status": "partial",
   "theorems": [
    "C16_quorum_refuted",
    "C16_repeated_authentication_refuted",
    "C16_attached_authentications_verify_partial",
    "C16_quorum_if_attached_partial"
   ],
   "note": "Refuted: authenticators_threshold is never read by vote.rs, a vote with no authentication (or one repeated) is accepted. Proved: each attached authentication is genuine; distinct attached ones in sufficient number form a quorum."
  },
  {
   "property": "C17",
   "status": "partial",
   "theorems": [
    "C17_one_entry_per_contest_refuted",
    "C17_two_rows_of_one_voter_mixed_refuted",
    "C17_contests_belong_to_ballot_partial"
   ],
   "note": "Refuted: a vote may repeat a contest, and a recorded first mix can hold two rows of one voter and none of another. Proved: contests belong to the ballot."
  },
  {
   "property": "C18",
   "status": "partial",
   "theorems": [
    "C18_collision_refuted",
    "C18_first_16_bytes_differ_partial",
    "C18_actual_collision_check_partial"
   ],
   "note": "Refuted: vote.rs uses the same lower bound twice, so only the all-zero slot is examined. Proved: recorded votes differ in the first 16 key bytes; exact meaning of the check made."
  },
  {
   "property": "C19",
   "status": "partial",
   "theorems": [
    "C19_only_the_authority_ends_voting",
    "C19_slot_closes_voting_partial",
    "C19_other_elections_unaffected_partial",
    "C19_accepted_end_closes_refuted",
    "C19_other_election_affected_refuted"
   ],
   "note": "Authority part proved. Refuted: the identifier of VotingEnd is not checked, so an accepted end may not close its election or may close another one. Proved: an entry in the canonical slot closes the voting; votes depend only on entries in slots of their own election."
  },
  {
   "property": "C20",
   "status": "partial",
   "theorems": [
    "C20_foreign_slots_refuted",
    "C20_foreign_encryption_key_refuted",
    "C20_slot_of_named_election_partial"
   ],
   "note": "Refuted for commitments, shares, public keys, encryption keys and voting ends; proved for elections, votes, mixes, partial decryptions and decryptions."
  },
  {
   "property": "C21",
   "status": "proved",
   "theorems": [
    "C21_first_mix_covers_all_votes",
    "C21_each_once"
   ],
   "note": "votes of the contest = recorded votes in the vote range of the election; C17 says what a vote contributes"
  },
  {
   "property": "C22",
   "status": "proved",
   "theorems": [
    "C22_mixes_form_chains",
    "C22_chain_length_is_index"
   ],
   "note": "trustee index is mix_index+1 as u8"
  },
  {
   "property": "C23",
   "status": "proved",
   "theorems": [
    "C23_mixing_preserves_plaintexts",
    "C23_row_count"
   ],
   "note": "soundness of the shuffle proof is an explicit hypothesis, satisfied by the toy instance"
  },
  {
   "property": "C24",
   "status": "partial",
   "theorems": [
    "C24_mix_before_end_refuted",
    "C24_late_vote_dropped_refuted",
    "C24_no_vote_after_end_partial",
    "C24_mix_after_end_is_complete_partial"
   ],
   "note": "Refuted: mix.rs never looks for VotingEnd, so a mix recorded early drops later votes. Proved: a mix after the recorded end covers all votes there will ever be."
  },
  {
   "property": "C25",
   "status": "proved",
   "theorems": [
    "C25_partial_decryption_rule",
    "C25_after_recorded_voting_end",
    "C25_one_proven_share_per_ciphertext"
   ],
   "note": ""
  },
  {
   "property": "C26",
   "status": "partial",
   "theorems": [
    "C26_decryption_rule",
    "C26_result_is_determined",
    "C26_partials_match_slot_partial",
    "C26_partials_of_other_vote_refuted"
   ],
   "note": "The rule is proved as an equivalence by identifier. Refuted that each partial belongs to exactly the same slot: votes whose keys share ten bytes share partial decryption identifiers. Proved: all other components agree."
  },
  {
   "property": "C27",
   "status": "partial",
   "theorems": [
    "C27_repeated_trustee_refuted",
    "C27_quorum_of_different_trustees_partial"
   ],
   "note": "Refuted for rows without ciphertexts (the library is then never called). Proved for every non-empty result under the named law threshold_quorum, satisfied by the toy instance."
  },
  {
   "property": "C28",
   "status": "proved",
   "theorems": [
    "C28_nothing_decrypted_before_end",
    "C28_no_vote_after_decryption"
   ],
   "note": "for elections with a non-zero threshold; the example C28_threshold_zero shows that the hypothesis is needed"
  },
  {
   "property": "C29",
   "status": "partial",
   "theorems": [
    "C29_intermediate_mix_decrypted_refuted",
    "C29_only_mix_outputs_partial"
   ],
   "note": "Refuted: any intermediate mix can be decrypted. Proved: with a mixnet only rows of recorded, chained mixes are partially decrypted."
  },
  {
   "property": "C30",
   "status": "partial",
   "theorems": [
    "C30_foreign_upstream_refuted",
    "C30_upstream_election_partial"
   ],
   "note": "Refuted: a partial decryption and decryption of election A of a vote of election B are accepted. Proved: if the upstream identifier carries the own election, the upstream is of the own election."
  },
  {
   "property": "C32",
   "status": "partial",
   "theorems": [
    "C32_big_mix_refuted",
    "C32_no_row_of_65536_partial",
    "C32_rows_addressable_partial",
    "C32_all_rows_iff_partial"
   ],
   "note": "Refuted at 65536 rows (len() as u16). Proved: all rows addressable iff fewer than 65536."
  },
  {
   "property": "C33",
   "status": "partial",
   "theorems": [
    "C33_prev_not_a_mix_refuted",
    "C33_trustee_zero_refuted",
    "C33_hash_failure_refuted",
    "C33_short_partial_refuted",
    "C33_panics_have_listed_causes_partial",
    "C33_other_types_never_panic_partial"
   ],
   "note": "Refuted with one witness for each of the four causes; proved that there is no other cause and that seven transaction types never panic."
  },
  {
   "property": "C31",
   "status": "proved",
   "theorems": [
    "C31_one_decryption_per_slot",
    "C31_one_decryption_in_history"
   ],
   "note": ""
  },
  {
   "property": "C34",
   "status": "proved",
   "theorems": [
    "C34_append_only",
    "C34_never_replaced"
   ],
   "note": ""
  },
  {
   "property": "C35",
   "status": "proved",
   "theorems": [
    "C35_acceptance_rule",
    "C35_used_key_refused",
    "C35_accepted_adds_exactly_one",
    "C35_refused_changes_nothing"
   ],
   "note": ""
  },
  {
   "property": "C36",
   "status": "partial",
   "theorems": [
    "C36_own_identifier_refuted",
    "C36_own_identifier_partial",
    "C36_recorded_once_partial",
    "C36_key_is_envelope_key_partial"
   ],
   "note": "Refuted: the envelope key is chosen freely, one transaction is recorded under three keys. Proved for histories of honest envelopes."
  },
  {
   "property": "C37",
   "status": "partial",
   "theorems": [
    "C37_votes_frozen",
    "C37_vote_range_frozen_refuted",
    "C37_vote_range_frozen_partial"
   ],
   "note": "Proved for all submissions for the votes that name the election. Refuted for the vote range read by mixers (a vote of another election can be stored under a key in the range); proved for honest envelopes."
  },
  {
   "property": "C38",
   "status": "partial",
   "theorems": [
    "C38_ledger_and_memory_agree_partial",
    "C38_reversed_range_partial",
    "C38_reversed_range_refuted"
   ],
   "note": "Proved for get, validate and ranges with start <= end; refuted for reversed ranges (panic in memory, empty on the ledger)."
  },
  {
   "property": "C39",
   "status": "proved",
   "theorems": [
    "C39_prefix_listing_exact",
    "C39_listed_iff_recorded",
    "C39_full_listing"
   ],
   "note": "under the stated condition that keys are printed identifiers; the example C39_short_key_missed shows it is needed"
  },
  {
   "property": "C59",
   "status": "partial",
   "theorems": [
    "C59_anyone_ends_voting_refuted",
    "C59_end_signed_by_named_authority_partial"
   ],
   "note": "Refuted: a replay of any recorded transaction under the VotingEnd key closes the voting. Proved for honest envelopes: the slot holds a VotingEnd signed by the authority of the election it names."
  },
  {
   "property": "C60",
   "status": "partial",
   "theorems": [
    "C60_slot_taken_refuted",
    "C60_slot_taken_by_equal_prefix_partial"
   ],
   "note": "Refuted by an envelope replay. Proved for honest envelopes: the slot holds a vote signed by a key with the same first 16 bytes."
  },
  {
   "property": "C41",
   "status": "partial",
   "theorems": [
    "C41_election_replaced_refuted",
    "C41_election_unreadable_refuted",
    "C41_immutable_except_elections_partial",
    "C41_entries_never_removed_partial"
   ],
   "note": "Refuted for elections: anybody replaces an election with the same identifier; and an accepted election with a number in its properties at the nesting limit is stored in a form that cannot be read back. Proved for all other types, and that no entry is ever removed."
  },
  {
   "property": "C61",
   "status": "partial",
   "theorems": [
    "C61_every_type_refuted",
    "C61_votes_never_accepted",
    "C61_only_five_types_partial"
   ],
   "note": "Refuted: range is todo!(), so no vote and no encryption key is ever accepted, and from an empty state only five of the ten types; the example C61_five_types_accepted shows the five."
  },
  {
   "property": "C40",
   "status": "partial",
   "theorems": [
    "C40_replay_refuted",
    "C40_orderly_replay_partial",
    "C40_command_partial",
    "C40_short_partial"
   ],
   "note": "Refuted: a public key added after the encryption key (or a vote after a first mix, or a foreign transaction in the election's slots) is accepted by the ledger and makes the audit fail. Proved for orderly histories (SpecAudit.v), also for the whole command, given at least fifteen digits of the identifier, against the listing of a ledger of honest envelopes."
  },
  {
   "property": "C62",
   "status": "partial",
   "theorems": [
    "C62_audited_is_history_refuted",
    "C62_audited_is_history_partial",
    "C62_audited_store_partial"
   ],
   "note": "Refuted: the replay overwrites an earlier transaction with the same identifier without notice. Proved for lists without repeated identifiers."
  },
  {
   "property": "C42",
   "status": "partial",
   "theorems": [
    "C42_commitment_accepted",
    "C42_share_accepted_partial",
    "C42_share_refuted",
    "C42_public_key_accepted"
   ],
   "note": "Commitment and public key: proved without conditions beyond ed_sign_verifies. Share: proved when the trustee indices are distinct and there is one commitment per trustee; refuted otherwise (a trustee records two commitments under different identifiers, which nothing checks)."
  },
  {
   "property": "C43",
   "status": "proved",
   "theorems": [
    "C43_encryption_key_accepted",
    "C43_encryption_key_generated"
   ],
   "note": "acceptance is characterised exactly; example C43_case"
  },
  {
   "property": "C44",
   "status": "partial",
   "theorems": [
    "C44_first_mix_partial",
    "C44_first_mix_refuted",
    "C44_first_mix_all_contests",
    "C44_next_mix_rejected",
    "C44_mixnet_refuted"
   ],
   "note": "Refuted: a mix generated after another mix never names it and is always rejected, so with a threshold of 2 or more the mixnet stops after the first mix. The first mix is accepted exactly when every recorded vote has exactly one selection list in the contest."
  },
  {
   "property": "C45",
   "status": "partial",
   "theorems": [
    "C45_vote_partials_partial",
    "C45_mix_partials_partial",
    "C45_coverage_refuted",
    "C45_accepted_refuted"
   ],
   "note": "Proved for elections with contests, votes without repeated contests, fewer than 65536 rows, and a recorded own key. Refuted without: no contests in the election; a vote naming a contest twice."
  },
  {
   "property": "C46",
   "status": "proved",
   "theorems": [
    "C46_decryption_accepted"
   ],
   "note": "for every history, including slots whose identifiers collide"
  },
  {
   "property": "C47",
   "status": "partial",
   "theorems": [
    "C47_addressing_refuted",
    "C47_short_share_refuted",
    "C47_foreign_share_refuted",
    "C47_spoilt_vote_refuted",
    "C47_early_end_refuted",
    "C47_no_panic_partial",
    "C47_observer_partial"
   ],
   "note": "Refuted five ways: an envelope addressed by 32 hex digits crashes every node; a share under 12 bytes, a share of a foreign election, a vote encrypting no selection, and a VotingEnd before the key of a mixnet election crash trustee nodes. Proved: with honest, well-addressed envelopes the hook returns for every item whose follow-up has what it needs (SpecService.ready), in particular always on nodes that are no trustee."
  },
  {
   "property": "C48",
   "status": "partial",
   "theorems": [
    "C48_in_order",
    "C48_sent_exactly",
    "C48_once_refuted",
    "C48_refused_again_refuted"
   ],
   "note": "Proved: every item of every block but the last is followed up once, in order, against the ledger after the next block; sent are exactly the follow-ups whose identifier is not on the ledger. Refuted: the same follow-up is sent more than once, both for several transactions of one block and for a refused resubmission."
  },
  {
   "property": "C49",
   "status": "proved",
   "theorems": [
    "C49_roundtrip",
    "C49_injective",
    "C49_decoder_exact",
    "C49_fuel_irrelevant",
    "C49_vote_survives",
    "C49_not_canonical"
   ],
   "note": "The decoder is characterised on every byte string by a grammar (SpecProst). Text shorter than 2^64 bytes (Rust strings are below 2^63). C49_vote_survives takes the law that good shares open a ciphertext as a hypothesis. C49_not_canonical records that several byte strings decode to one selection."
  },
  {
   "property": "C50",
   "status": "partial",
   "theorems": [
    "C50_same_secret",
    "C50_share_arrives",
    "C50_published_share_opens",
    "C50_altered_share_refused",
    "C50_altered_body_differs",
    "C50_no_crash_partial",
    "C50_crash_refuted"
   ],
   "note": "Proved from the laws dh_agrees, gcm_opens, gcm_exact and scalar_faithful (all proved of the toy instance): shares arrive intact; whatever opens is an encryption under the shared secret. Refuted: a share under 12 bytes crashes EncryptedShare::decrypt; longer ones never do."
  },
  {
   "property": "C54",
   "status": "partial",
   "theorems": [
    "C54_plain_totals",
    "C54_borda_totals",
    "C54_pair_totals_partial",
    "C54_ballot_order_partial",
    "C54_listing_order_refuted",
    "C54_lost_pair_refuted"
   ],
   "note": "Proved exactly for plurality, approval, score and the Borda types, and for the pairwise types when no candidate text contains '>'. Refuted for the pairwise types otherwise: two pairs can share a label, one total is then lost and which one depends on the listing order of a hash map. Ballot totals only; tallystick's ranking and winners are not modelled."
  },
  {
   "property": "C55",
   "status": "partial",
   "theorems": [
    "C55_sum_of_selections",
    "C55_one_vote_partial",
    "C55_one_vote_refuted",
    "C55_approval_refuted"
   ],
   "note": "Refuted: the totals add up to the number of selections, and a recorded ballot may hold any number; holds when every ballot has at most one selection."
  },
  {
   "property": "C56",
   "status": "partial",
   "theorems": [
    "C56_result_partial",
    "C56_repeat_refuted",
    "C56_unsupported_refuted"
   ],
   "note": "Refuted: a ballot naming a candidate twice crashes the ranked tallies; SchulzeRatio and BordaDowdall always crash. C56_result_partial gives the exact condition for a result."
  },
  {
   "property": "C57",
   "status": "partial",
   "theorems": [
    "C57_pairwise_partial",
    "C57_borda_refuted",
    "C57_borda_variants_refuted",
    "C57_strict_ranks_partial"
   ],
   "note": "Proved for the pairwise types with texts free of '>'. Refuted for the Borda types: of two candidates with equal rank the one written first gets more points; with strict ranks the place is the number of candidates ranked before."
  },
  {
   "property": "C63",
   "status": "partial",
   "theorems": [
    "C63_first_selections_partial",
    "C63_empty_ballot_refuted",
    "C63_contests_mixed_refuted"
   ],
   "note": "Proved: the printed totals count the first selection of every decryption. Refuted: a recorded empty ballot crashes the command; all contests are counted together."
  },
  {
   "property": "C53",
   "status": "proved",
   "theorems": [
    "C53_verdict",
    "C53_follow_ups",
    "C53_stores",
    "C53_audit",
    "C53_full_trustees"
   ],
   "note": "For any two stores and transactions that differ only in these fields. Follow-ups are equal as values, including signatures."
  },
  {
   "property": "C52",
   "status": "partial",
   "theorems": [
    "C52_blind_signature_verifies",
    "C52_vote_authenticated",
    "C52_one_package_partial",
    "C52_new_authenticator",
    "C52_last_key"
   ],
   "note": "Proved from the arithmetic definition of RSA (rsa_scheme says that the library computes these powers; Fermat's theorem is proved, not assumed). Acceptance is proved in full. That the signature is accepted for no other package is proved under one RSA key up to a collision of the digest; across keys of different ballots nothing excludes it."
  },
  {
   "property": "C64",
   "status": "proved",
   "theorems": [
    "C64_signature_fixed",
    "C64_blindness"
   ],
   "note": "Under rsa_scheme."
  },
  {
   "property": "C51",
   "status": "proved",
   "theorems": [
    "C51_shares_made",
    "C51_quorum_decrypts",
    "C51_election",
    "C51_fewer_shares_hide"
   ],
   "note": "Through the trustee functions of the model, from the encrypted shares to decrypt_vote. The record threshold_scheme says that cryptid computes Pedersen key generation, ElGamal and Lagrange combination over some field and group; the interpolation theorem is proved, not assumed. C51_election adds votes mixed by any chain of accepted shuffles. C51_fewer_shares_hide is the converse: fewer than k values of a polynomial fit every secret. All laws hold together in the instance of ToyE."
  },
  {
   "property": "C65",
   "status": "proved",
   "theorems": [
    "C65_vote_shown",
    "C65_mixed_vote_shown",
    "C65_outcome",
    "C65_honest_keys"
   ],
   "note": "Any poster, under the laws threshold_scheme, sound_proofs (soundness of key proofs, decryption shares and combination) and reencrypting (soundness of the shuffle proof). The hypothesis keyed says that the recorded public keys lie on one polynomial; C65_honest_keys derives it from an honest ceremony; the ledger itself does not check it, see C66. C65_case is a complete election of two mixes."
  },
  {
   "property": "C66",
   "status": "partial",
   "theorems": [
    "C66_key_proof_unchecked_refuted",
    "C66_honest_proof_partial"
   ],
   "note": "Refuted: the ledger never compares the proof with the commitments; a trustee publishes another proof, its partial decryptions are accepted and a quorum with it can never decrypt. Proved for a trustee that follows the protocol."
  },
  {
   "property": "C67",
   "status": "proved",
   "theorems": [
    "C67_election_accepted"
   ],
   "note": "On any ledger at all, reachable or not. Law: ed25519 signatures verify."
  },
  {
   "property": "C68",
   "status": "partial",
   "theorems": [
    "C68_vote_partial",
    "C68_vote_for_named_election_refuted"
   ],
   "note": "Refuted: the client takes the election from the key transaction it fetched; a stranger's key transaction in the named election's slot (its identifier is not checked, C20) redirects the vote to the stranger's election under the stranger's key, and it is accepted there. Proved when that transaction names the election, for ciphertexts within the encoding limits."
  },
  {
   "property": "C69",
   "status": "proved",
   "theorems": [
    "C69_end_accepted",
    "C69_bad_argument"
   ],
   "note": "Ledgers whose envelopes carry the identifier of their payload. Only the client's own form of the transaction is meant: see C19 for others."
  },
  {
   "property": "C70",
   "status": "proved",
   "theorems": [
    "C70_answers_accepted",
    "C70_history"
   ],
   "note": "Executions are SpecRun.honest: trustees, authority and voters follow the protocol, answers may be late, lost or reordered, other elections are arbitrary. Elections without mixnet or with a single mix (C44 refutes the others). Laws: record laws in Props_Run, all satisfied by ToyE; C73_plain_case and C73_mix_case are complete runs meeting all hypotheses."
  },
  {
   "property": "C71",
   "status": "proved",
   "theorems": [
    "C71_never_stopped",
    "C71_never_stuck"
   ],
   "note": "As C70."
  },
  {
   "property": "C72",
   "status": "proved",
   "theorems": [
    "C72_key_recorded"
   ],
   "note": "As C70."
  },
  {
   "property": "C73",
   "status": "proved",
   "theorems": [
    "C73_published"
   ],
   "note": "As C70. The first half of the theorem says that every recorded ballot of the contest is an encryption of some selections; the second that, whichever they are, these are published."
  },
  {
   "property": "C74",
   "status": "proved",
   "theorems": [
    "C74_can_finish"
   ],
   "note": "As C70."
  },
  {
   "property": "C75",
   "status": "proved",
   "theorems": [
    "C75_audit",
    "C75_command"
   ],
   "note": "Executions as in C70. C76_plain_case and C76_mix_case are complete elections, sent to a node, that meet all hypotheses. The hypothesis selects says that no other election is caught by the selection; C40 refutes the audit for arbitrary ledgers."
  },
  {
   "property": "C76",
   "status": "proved",
   "theorems": [
    "C76_tally",
    "C76_printed",
    "C76_command",
    "C76_stopped"
   ],
   "note": "Executions as in C70. C76_tally inherits from C54 that, for the pairwise kinds, texts must not contain the arrow. Whether the printed totals mean anything for contests counted together is C63."
  },
  {
   "property": "C77",
   "status": "proved",
   "theorems": [
    "C77_history",
    "C77_recorded",
    "C77_no_crash"
   ],
   "note": "Chains are SpecNet.network: blocks of any size and order with arbitrary other elections; the nodes run the modelled commit hook. Sent envelopes must be readable and shorter than 2^64 bytes. Executions and laws as in C70. The restriction to trustees of one election is needed: other elections are arbitrary and may stop a node (C47)."
  },
  {
   "property": "C78",
   "status": "proved",
   "theorems": [
    "C78_key",
    "C78_published",
    "C78_command",
    "C78_rounds",
    "C78_key_made",
    "C78_finished"
   ],
   "note": "Chains are SpecNet.network: blocks of any size and order with arbitrary other elections; the nodes run the modelled commit hook. Sent envelopes must be readable and shorter than 2^64 bytes. Executions and laws as in C70. C78_key_made and C78_finished run the hooks of the nodes for sixteen blocks or more; C78_plain_case, C78_mix_case, C78_key_case and C78_command_case are chains that meet all hypotheses."
  },
  {
   "property": "C79",
   "status": "partial",
   "theorems": [
    "C79_resumes_refuted",
    "C79_silence"
   ],
   "note": "Refuted: the hook reads only the block before the last, so after two blocks without envelopes no node ever sends anything again (C79_silence, for all chains and nodes); an election whose first answers were lost never gets a key."
  },
  {
   "property": "C80",
   "status": "proved",
   "theorems": [
    "C80_start",
    "C80_recorded",
    "C80_key",
    "C80_vote",
    "C80_end",
    "C80_published",
    "C80_counted"
   ],
   "note": "Sequences are SpecDesk.desk; laws as in C70, plus fits_cipher (ciphertexts survive transport). New voters have keys that differ from the earlier ones in the first ten bytes (C18). Blocks contain what the node sent (delivered; in C80_key, C80_published and C80_counted the following blocks are those that the hook of the node makes). C80_case is a session with two voters that meets all hypotheses."
  },
  {
   "property": "C81",
   "status": "partial",
   "theorems": [
    "C81_served",
    "C81_listing_refuted",
    "C81_listing_partial",
    "C81_audit_refuted",
    "C81_audit_partial",
    "C81_posted",
    "C81_posted_list",
    "C81_trim",
    "C81_white",
    "C81_text_determines"
   ],
   "note": "Hypothesis text_forms: the values of cryptid and ed25519 inside a transaction serialise without byte strings and floats (their code is not modelled). Refuted for listings: a list adds one level of nesting, so an accepted election nested to the last level that the decoder allows is served singly but makes every listing that contains it unreadable; anyone can stop the audit of another election this way, because the listing goes by the first fifteen digits of the identifier (C81_audit_refuted). Proved for ledgers whose entries are nested at most 126 deep. C81_example is a whole election of the nodes of C70."
  },
  {
   "property": "C82",
   "status": "proved",
   "theorems": [
    "C82_helper_fields"
   ],
   "note": "Two histories whose items have the same signature and content but for the helper fields; C82_example."
  },
  {
   "property": "C83",
   "status": "partial",
   "theorems": [
    "C83_winner_partial",
    "C83_network_partial",
    "C83_typed_partial",
    "C83_tie_refuted",
    "C83_nobody_refuted"
   ],
   "note": "winners of tallystick is modelled from its documentation (all candidates with the greatest count). Refuted: an election without votes passes the audit and then stops the command (winners[0]), and in a tie the order of the hash map decides which single winner is printed. Proved: with at least one vote, the printed text has the most first selections, and is unique if it is ahead. C83_typed_case is a session of the client."
  },
  {
   "property": "C84",
   "status": "partial",
   "theorems": [
    "C84_tally_partial",
    "C84_votes_partial",
    "C84_forged_refuted"
   ],
   "note": "Refuted: texts are printed as they are, so one voter whose text contains a line break prints as the tally of an election with two voters. Proved for texts without line breaks (and fewer than 2^64 votes)."
  },
  {
   "property": "C85",
   "status": "proved",
   "theorems": [
    "C85_relay",
    "C85_stops",
    "C85_tally_silent",
    "C85_sign_stops"
   ],
   "note": "text_forms as in C81. C85_case relays an election from one node to another."
  },
  {
   "property": "C86",
   "status": "proved",
   "theorems": [
    "C86_read",
    "C86_written",
    "C86_one_reading",
    "C86_written_alike"
   ],
   "note": "Which bytes hold which item is SpecDoc.item, which items stand for which transaction SpecWire.means (shapes per struct). Values of cryptid and ed25519 appear through the tests of the interface (ct_ok, ed_pk_ok, ...). CBOR forms that the model's decoder leaves out (indefinite lengths, tags, half floats, structs as arrays) are refused on both sides. C86_case, C86_variant."
  },
  {
   "property": "C87",
   "status": "proved",
   "theorems": [
    "C87_read",
    "C87_list",
    "C87_written"
   ],
   "note": "Which text holds which value is SpecDoc.document. text_forms in C87_written as in C81. C87_sample, C87_variant."
  },
  {
   "property": "C88",
   "status": "partial",
   "theorems": [
    "C88_no_mixnet_partial",
    "C88_audited_partial",
    "C88_one_mix_partial",
    "C88_audited_mix_partial",
    "C88_counted_twice_refuted"
   ],
   "note": "Refuted: an audited election in which the trustees decrypt the rows of both mixes prints two votes for each vote cast (C29). Proved: without mixnet, for one contest (the command counts the contests together, C63), of the transactions of the election alone, with distinct identifiers (C62); with a mixnet if all recorded decryptions are of one mix. Hypotheses about cryptid are sound_proofs and keyed of C65 (and reencrypting for mixes). C88_case (two of three votes decrypted), C88_mix_case."
  },
  {
   "property": "C89",
   "status": "partial",
   "theorems": [
    "C89_client_key",
    "C89_keygen",
    "C89_trustee",
    "C89_number",
    "C89_dev_key",
    "C89_short_key",
    "C89_authenticator",
    "C89_shared_index_stuck",
    "C89_only_test",
    "C89_together_refuted"
   ],
   "note": "Law key_bytes: an ed25519 secret key is any 32 bytes. Everything about reading back is proved. Refuted: every trustee made with the command has index 1; an election naming two of them is recorded, their nodes send commitments to one and the same identifier, and in no history does a node ever make a share (C89_shared_index_stuck, for all elections with a shared index and commitments made as the nodes make them). An authenticator made with the command can authenticate votes on the ballot TEST only (C89_only_test), not on the ballot BALLOT1 of the client's elections. C89_key_case, C89_only_test_case."
  },
  {
   "property": "C90",
   "status": "partial",
   "theorems": [
    "C90_clean_partial",
    "C90_none_listed",
    "C90_all_counted",
    "C90_verdict",
    "C90_follow_ups",
    "C90_any_contests",
    "C90_set_aside_refuted",
    "C90_elected_refuted"
   ],
   "note": "Refuted: spoiled_ballots is empty in every tally (C90_none_listed), each of five kinds of spoiled ballot is recorded, published, audited and counted (C90_set_aside_refuted), and a text that is no candidate is printed as winner where write-ins are not allowed (C90_elected_refuted). Why: verdicts, follow-up transactions and histories do not depend on the contests of an election beyond whether there are any (C90_verdict, C90_follow_ups, C90_any_contests). Proved: if no ballot is spoiled, there is a result for the implemented types, only eligible names have totals, and plurality totals add up to the number of ballots. C90_case, C90_contests_case."
  },
  {
   "property": "C91",
   "status": "partial",
   "theorems": [
    "C91_mixnet_stuck",
    "C91_nothing_counted",
    "C91_single_mix_partial",
    "C91_finish_refuted"
   ],
   "note": "Refuted for every threshold but one: a mix made by a node never names the mix before it (C44), so in every history in which mixes and decryptions come from nodes (SpecStuck.driven, everything else is arbitrary) there is no second mix, no partial decryption and no decryption of the election (C91_mixnet_stuck, no laws needed); there is nothing to count and the command that prints the winner stops (C91_nothing_counted). C91_finish_refuted is an election with two voters whose first mix is recorded. Proved for a threshold of one (C91_single_mix_partial, from C74)."
  },
  {
   "property": "C92",
   "status": "partial",
   "theorems": [
    "C92_same_or_stops",
    "C92_accepted_by_both",
    "C92_causes",
    "C92_same_ledger_partial",
    "C92_same_audit_partial",
    "C92_answers_same_or_stop",
    "C92_same_node_partial",
    "C92_split_refuted"
   ],
   "note": "For all transactions and stores, the build with overflow checks gives the verdict of the other or stops on an overflow (C92_same_or_stops), and that only for a mix by trustee 0 or after mix number 255 (C92_causes). If all trustees of all elections are numbered from 1 (to 255 for ledgers and audits, to 254 for follow-up transactions), ledgers, audits, and everything a node records and sends are the same. Refuted without that: 256 trustees numbered 1 to 255 and 0, all mixing; the last mix is on the ledger of a release node and not on that of a debug node, and the audit passes in one build and panics in the other (C92_split_refuted, the history is built by induction, not by computation). C92_scene, C92_scene_node."
  },
  {
   "property": "C93",
   "status": "partial",
   "theorems": [
    "C93_one_each",
    "C93_stray_key",
    "C93_second_key",
    "C93_silent_trustee",
    "C93_no_votes",
    "C93_stranger_stops",
    "C93_front_run",
    "C93_mixers_in_order",
    "C93_silent_mixer",
    "C93_quorum_partial",
    "C93_all_partial",
    "C93_stopped_refuted"
   ],
   "note": "Refuted, for every election whose key is not recorded yet: anybody records an election of their own and then a public key of it under an identifier of the attacked election (identifiers of public keys are not checked, C20); from then on no history contains an encryption key of the attacked election (C93_stranger_stops), and its votes, if any, were admitted by the key of another election (C93_no_votes). A trustee does the same with a second public key (C93_second_key) or by recording none (C93_silent_trustee); a silent trustee also ends the chain of mixes, whatever the threshold (C93_silent_mixer). Anybody who sees an election before it is recorded takes its identifier (C93_front_run). Proved: after the voting a quorum alone, among it the trustee who mixes if there is a mixnet (threshold one, C91), publishes exactly the votes cast (C93_quorum_partial), and before it the authority and all trustees make the key (C93_all_partial), in executions of C70, in which strangers do not write into the range of the election (C97: otherwise they can prevent it). C93_second_key_case, C93_silent_case, C93_front_case, C93_mixers_case, C93_quorum_case."
  },
  {
   "property": "C94",
   "status": "partial",
   "theorems": [
    "C94_derived",
    "C94_share_nonce",
    "C94_nonces_differ",
    "C94_own_draws",
    "C94_votes_in_turn",
    "C94_reflects",
    "C94_sender_refuted"
   ],
   "note": "Key derivation is stated without a law: one injective choice of inputs (election as salt, key material, label per purpose) serves every implementation of the library (C94_derived). Random values are numbered by when they are drawn; the i-th answer of a node uses the draws numbered i, its j-th part the draw numbered j (C94_own_draws), and a vote's selections are encrypted one after the other with one generator. Refuted: both directions between two trustees use one key and the sealing names neither, so a trustee's own share for another opens as one from that other (C94_reflects, C94_sender_refuted); such a share is then compared with the other's commitment by cryptid, where a failure is a panic (trustee.rs 246). C94_case, C94_node_case."
  },
  {
   "property": "C95",
   "status": "partial",
   "theorems": [
    "C95_library",
    "C95_library_stops",
    "C95_node",
    "C95_by_number",
    "C95_agree_partial",
    "C95_two_places_stuck",
    "C95_same_place_refuted"
   ],
   "note": "Exactly which place each lookup finds: the library the last one of the key (stopping the program if there is none or its number is 0), the node the first one whatever its number, the checks the first one with a number; all with the election's count and threshold. With different keys and numbers and no number 0 all three agree (C95_agree_partial). Refuted in general: an election's check compares neither keys nor numbers, and a recorded election with one key twice, and a number 0, gives the library and the node different places (C95_same_place_refuted). Such an election is stuck at its commitments: no node ever makes a share if the commitments are made as nodes make them (C95_two_places_stuck). C95_agree_case, C95_two_places_case."
  },
  {
   "property": "C96",
   "status": "partial",
   "theorems": [
    "C96_stays",
    "C96_disturbed",
    "C96_settled",
    "C96_mix_after_end",
    "C96_no_trace",
    "C96_swap",
    "C96_stays_refuted"
   ],
   "note": "Five kinds of disturbance are listed (SpecOrder). Without them acceptance is kept (C96_stays); with one of them it is lost, except possibly for a decryption (C96_disturbed): an exact characterisation for nine of the ten kinds. Elections, commitments, shares, public keys, voting ends, later mixes and partial decryptions are never disturbed (C96_settled), first mixes not after the voting end (C96_mix_after_end). Same transactions in any order give the same store (C96_no_trace), and independent ones can be swapped (C96_swap). Refuted as stated: an acceptable encryption key, an acceptable first mix before the voting end, and an acceptable decryption after it are refused after one more transaction (C96_stays_refuted). C96_stays_case, C96_disturbed_case, C96_after_end_case."
  },
  {
   "property": "C97",
   "status": "partial",
   "theorems": [
    "C97_tops_silence",
    "C97_stranger_silences",
    "C97_kept_partial",
    "C97_published_refuted"
   ],
   "note": "Refuted. A decryption is checked with the last public key listed for each trustee index, and a public key is stored wherever its identifier says, whatever election it names. A stranger records an election of their own with 256 places and its public keys, with a proof about another key, at the 256 greatest identifiers of the attacked range: from then on no decryption with a selection is ever accepted (C97_stranger_silences, for all histories; C97_tops_silence for whoever records such keys). Law used: a threshold decryption has verified its shares against the proofs handed over (combines_verified), and the stranger's proof fits no share of a trustee (foreign). C97_published_refuted: the scene in which voting has ended, all partial decryptions are recorded and a decryption is acceptable. Proved part: without a further public key in the range an acceptable decryption stays acceptable (C97_kept_partial); C93_quorum_partial publishes all votes in executions without such keys."
  },
  {
   "property": "C98",
   "status": "proved",
   "theorems": [
    "C98_next_step",
    "C98_few",
    "C98_at_rest"
   ],
   "note": "C98_next_step: which kind replies to which, the election and the range of the reply; a mix that replies to a mix names no mix before it. C98_few: at most one reply, except for the end of the voting (at most one per row cast) and for a mix (at most one per row, or one). C98_at_rest: at most five in a row, in both builds, also when strangers record transactions. C98_case: in the mixnet election of C73 one exchange has five transactions and one four, so the bound is reached."
  },
  {
   "property": "C99",
   "status": "partial",
   "theorems": [
    "C99_one_reading",
    "C99_finishes",
    "C99_reads_partial",
    "C99_sections",
    "C99_stopped",
    "C99_readable_refuted"
   ],
   "note": "C99_stopped: when a vote that selects nothing stops the counts, all that comes before has been printed. C99_one_reading: the grammar of reports is unambiguous, for all texts. C99_finishes: the report finishes exactly if no counts are asked for, or every vote selects something and, for the winner, there is a vote; otherwise it stops with an index panic after printing the parts before. C99_reads_partial: a finished report of votes whose texts hold no line break reads as what was published. C99_sections: each part agrees with the text of C83 and C84. Refuted without the condition on line breaks: one published vote for the text yes, two line breaks and two spaces 0:no is reported as two votes (C99_readable_refuted)."
  },
  {
   "property": "C100",
   "status": "partial",
   "theorems": [
    "C100_nameless_refused",
    "C100_recorded_refuted"
   ],
   "note": "Refuted. Contest.id is required and has no default, the recorded contests have none: no election of that form is read, from JSON or CBOR, whatever else it holds (C100_nameless_refused), and the recorded election itself is the witness (C100_recorded_refuted). With an id it is read (C100_mended); a recorded transaction of each of the other nine types is read (C100_others). The test test_all_elections of the repository therefore cannot pass at this commit."
  },
  {
   "property": "C101",
   "status": "partial",
   "theorems": [
    "C101_understood_partial",
    "C101_no_panic_partial",
    "C101_no_secret_option",
    "C101_misspelt",
    "C101_sign_refuted",
    "C101_refuted"
   ],
   "note": "Refuted in three points: the arguments uri and secret-key have no long name and are therefore positional, so that no line with --secret-key is accepted although the client advises it (C101_no_secret_option, C101_refuted), and a key given alone is taken for the address; sign panics for every described line (C101_sign_refuted); a key size that is no number is a panic. Proved for all other lines of the described form (C101_understood_partial) and all lines without the words sign and authn (C101_no_panic_partial). The parser of clap 2.33.3 is modelled; which words it takes for a misspelt command is arbitrary; such a word before the command is refused (C101_misspelt)."
  }
 ]
}