{
 "claims": [
  {
   "property": "C01",
   "status": "proved",
   "theorems": [
    "C01_recover_secret",
    "C01_shares_are_genuine"
   ],
   "note": "every field, every hash-map iteration order"
  },
  {
   "property": "C02",
   "status": "proved",
   "theorems": [
    "C02_too_few_shares"
   ],
   "note": ""
  },
  {
   "property": "C03",
   "status": "proved",
   "theorems": [
    "C03_secrecy"
   ],
   "note": ""
  },
  {
   "property": "C04",
   "status": "proved",
   "theorems": [
    "C04_recover_pri_poly"
   ],
   "note": ""
  },
  {
   "property": "C05",
   "status": "proved",
   "theorems": [
    "C05_add",
    "C05_mul",
    "C05_pub_add",
    "C05_commit_add"
   ],
   "note": ""
  },
  {
   "property": "C06",
   "status": "proved",
   "theorems": [
    "C06_check_exact",
    "C06_neutral_base_accepts_all"
   ],
   "note": ""
  },
  {
   "property": "C07",
   "status": "proved",
   "theorems": [
    "C07_recover_commit"
   ],
   "note": ""
  },
  {
   "property": "C08",
   "status": "partial",
   "theorems": [
    "C08_recover_pub_poly_partial",
    "C08_recover_pub_poly_refuted",
    "C08_recovered_poly_check_refuted"
   ],
   "note": "the full statement is false of the code: enumerate() positions are used as map keys, and the recovered base point is the public share 0; proved exactly when it works"
  },
  {
   "property": "C09",
   "status": "partial",
   "theorems": [
    "C09_pri_equal",
    "C09_pub_equal_partial",
    "C09_pub_equal_refuted"
   ],
   "note": "PubPoly::equal compares no lengths: true for a prefix, panic for a shorter argument"
  },
  {
   "property": "C10",
   "status": "partial",
   "theorems": [
    "C10_accessors_partial",
    "C10_accessors_refuted",
    "C10_values",
    "C10_new_values"
   ],
   "note": "true for every constructor except the three exhibited empty-polynomial cases"
  },
  {
   "property": "C100",
   "status": "proved",
   "theorems": [
    "C100_order",
    "C100_least_byte",
    "C100_numeric_refuted"
   ],
   "note": "finding: not the numeric order"
  },
  {
   "property": "C101",
   "status": "partial",
   "theorems": [
    "C101_calls",
    "C101_decrypt_partial",
    "C101_key_reuse",
    "C101_refuted",
    "C101_lengths"
   ],
   "note": "full statement is false: calls do not concatenate, also for readers that never repeat; the XOF keeps the contract (C21)"
  },
  {
   "property": "C102",
   "status": "proved",
   "theorems": [
    "C102_signs",
    "C102_same_key",
    "C102_verifies"
   ],
   "note": "handovers under the hypotheses of C59 (the holder receives the deals it certifies and no forged response with its own index); refreshes with shares of a polynomial with constant term 0 and the same threshold"
  },
  {
   "property": "C103",
   "status": "proved",
   "theorems": [
    "C103_secret",
    "C103_commit",
    "C103_shift",
    "C103_one_wrong"
   ],
   "note": "finding: wrong shares are not detected"
  },
  {
   "property": "C104",
   "status": "proved",
   "theorems": [
    "C104_proactive",
    "C104_mixed",
    "C104_one_old"
   ],
   "note": "about the shares alone (the public commitments determine the secret for an unbounded intruder)"
  },
  {
   "property": "C105",
   "status": "partial",
   "theorems": [
    "C105_split_key_refuted",
    "C105_same_key_partial",
    "C105_agreement_partial"
   ],
   "note": "the full statement is refuted (finding); agreement holds among participants that hold the same commitments for the same certified dealers"
  },
  {
   "property": "C106",
   "status": "proved",
   "theorems": [
    "C106_shares",
    "C106_deals",
    "C106_key",
    "C106_partials"
   ],
   "note": "the simulators are explicit Lagrange formulas; computational indistinguishability of distributions is not modelled"
  },
  {
   "property": "C107",
   "status": "partial",
   "theorems": [
    "C107_split_key_refuted",
    "C107_same_key_partial",
    "C107_agreement_partial"
   ],
   "note": "the full statement is refuted without reliable broadcast (finding); agreement holds among participants with the same QUAL and commitments"
  },
  {
   "property": "C108",
   "status": "proved",
   "theorems": [
    "C108_hiding"
   ],
   "note": "perfect (information-theoretic) hiding of the messages for a coalition; ciphertexts for other participants are not part of its view"
  },
  {
   "property": "C109",
   "status": "proved",
   "theorems": [
    "C109_no_bias",
    "C109_few_refuted"
   ],
   "note": "C109_few_refuted shows that the bound |Q| >= number of commitments is needed"
  },
  {
   "property": "C11",
   "status": "proved",
   "theorems": [
    "C11_modular_arithmetic",
    "C11_inverse",
    "C11_one_modulus_one_refuted",
    "C11_representation",
    "C18_pick"
   ],
   "note": "every expression over add/sub/mul/neg/zero/one; inv is Ok with the inverse iff gcd = 1, else panic; pick in C18_pick"
  },
  {
   "property": "C110",
   "status": "partial",
   "theorems": [
    "C110_final_partial",
    "C110_lost",
    "C110_resend_refuted"
   ],
   "note": "full statement refuted by a replayed SecretCommits message (finding); holds in histories without one"
  },
  {
   "property": "C111",
   "status": "proved",
   "theorems": [
    "C111_pedersen",
    "C111_pedersen_later",
    "C111_rabin",
    "C111_rabin_later"
   ],
   "note": ""
  },
  {
   "property": "C112",
   "status": "partial",
   "theorems": [
    "C112_pedersen_partial",
    "C112_answered",
    "C112_rabin",
    "C112_relabelled_refuted"
   ],
   "note": "full statement refuted for leaving holders of a Pedersen resharing by a relabelled complaint (finding); proved for Rabin and for participants of the new group"
  },
  {
   "property": "C113",
   "status": "partial",
   "theorems": [
    "C113_pedersen",
    "C113_rabin_partial",
    "C113_early_response",
    "C113_rabin_refuted"
   ],
   "note": "full statement refuted for the Rabin key generation when a response overtakes its deal (finding: honest participants finish with different keys); proved for Pedersen, and for Rabin when responses follow their deals and commitments follow the responses"
  },
  {
   "property": "C114",
   "status": "partial",
   "theorems": [
    "C114_pedersen_partial",
    "C114_rabin",
    "C114_leaving",
    "C114_leaving_refuted"
   ],
   "note": "full statement refuted for the justifications of a holder that leaves in a Pedersen resharing, which are unsigned (finding); proved for all other messages"
  },
  {
   "property": "C115",
   "status": "partial",
   "theorems": [
    "C115_rabin_partial",
    "C115_rabin_certified_partial",
    "C115_rabin_forged",
    "C115_rabin_refuted",
    "C115_pedersen_excluded",
    "C115_pedersen_complaint",
    "C115_pedersen_stopped",
    "C115_pedersen_refuted"
   ],
   "note": "full statement refuted: in the Pedersen key generation one complaint of one participant excludes an honest dealer for good and can stop the protocol, in the Rabin one a forged unsigned justification does (findings); proved for the Rabin key generation when justifications in the dealer name are the dealer own"
  },
  {
   "property": "C116",
   "status": "proved",
   "theorems": [
    "C116_pedersen_messages",
    "C116_rabin_messages",
    "C116_keys",
    "C116_encryption",
    "C116_dealer",
    "C116_rabin_dealer"
   ],
   "note": "the sizes are given as explicit formulas (scalar 32, point 161, deal 64 + sid + 161 per commitment); the AEAD is assumed to add a tag of constant size"
  },
  {
   "property": "C117",
   "status": "proved",
   "theorems": [
    "C117_signature",
    "C117_only",
    "C117_ed25519",
    "C117_rabin_ed25519"
   ],
   "note": "histories are arbitrary; an honest partial signature is one produced by partial_sig of a signer of the same session in any of its states"
  },
  {
   "property": "C118",
   "status": "partial",
   "theorems": [
    "C118_irrelevant_partial",
    "C118_secret",
    "C118_shares",
    "C118_panics",
    "C118_irrelevant_refuted"
   ],
   "note": "finding: n reaches Vec::with_capacity unchecked, so a caller-supplied n of 2^60 or more panics with enough genuine shares at hand; running out of memory below that is not modelled"
  },
  {
   "property": "C119",
   "status": "partial",
   "theorems": [
    "C119_reads",
    "C119_onto",
    "C119_hex",
    "C119_fraction_partial",
    "C119_panics",
    "C119_link",
    "C119_display_refuted"
   ],
   "note": "findings: what Display writes (prefix 0x) is refused by set_string in every base up to 33, base 16 included; a base outside 2..36 panics instead of returning the error, and new_int_string panics on a malformed text; the fraction n/d becomes the product n*d (C13)"
  },
  {
   "property": "C12",
   "status": "partial",
   "theorems": [
    "C12_constructors_partial",
    "C12_negative_exact",
    "C12_constructors_refuted"
   ],
   "note": "false for negative arguments (new_int), negative multiples of m (new_int64, set_int64) and set_string, which stores unreduced; exact conditions proved"
  },
  {
   "property": "C120",
   "status": "partial",
   "theorems": [
    "C120_prime",
    "C120_odd_partial",
    "C120_even",
    "C120_composite_refuted",
    "C120_encoding_refuted",
    "C120_encoding_witness_refuted"
   ],
   "note": "findings: a non-square gets the value -1, which is outside [0,m), differs from the -1 of the field and is encoded exactly like 1, so that the decoded symbol is that of a square; for a composite modulus the symbol 1 does not mean square as the comment says (2 modulo 15). The reciprocity algorithm of num_bigint_dig is taken by its contract, the product of Legendre symbols"
  },
  {
   "property": "C121",
   "status": "partial",
   "theorems": [
    "C121_stream_partial",
    "C121_stream_refuted",
    "C121_reader",
    "C121_random_partial",
    "C121_random_refuted",
    "C121_ids"
   ],
   "note": "findings: little-endian integers are written without their zero bytes, so two written integers are read back without an error as another number; a scalar refilled by unmarshal_from_random keeps the bytes above the length of the picked number and can end up above the order"
  },
  {
   "property": "C122",
   "status": "proved",
   "theorems": [
    "C122_nonce",
    "C122_exact",
    "C122_public_key",
    "C122_ed25519"
   ],
   "note": "on the curve edwards25519 and on any group with the same encoding laws"
  },
  {
   "property": "C123",
   "status": "partial",
   "theorems": [
    "C123_scalar",
    "C123_point",
    "C123_small_order",
    "C123_verify_partial",
    "C123_refuted",
    "C123_small_refuted",
    "C123_certified_partial",
    "C123_certified_refuted"
   ],
   "note": "finding: the canonicality and small-order checks subtract with - where an underflow is expected; with overflow checks 64-byte strings that need no key (S = 2^253, or R the neutral element) make both verifiers panic. The inputs on which the checks panic are characterised exactly; elsewhere the results agree. Pedersen certification computes verifiers.len() - t: after any messages a verifier panics there exactly when the stored deal declares t above n, which a dealer can cause with one deal"
  },
  {
   "property": "C13",
   "status": "partial",
   "theorems": [
    "C13_div_is_product",
    "C13_div_partial",
    "C13_exp_partial",
    "C13_div_exp_refuted",
    "C13_set_string_partial",
    "C13_set_string_refuted"
   ],
   "note": "div multiplies instead of dividing; exp uses the receiver as base; proved what they compute"
  },
  {
   "property": "C14",
   "status": "proved",
   "theorems": [
    "C14_big_endian_round_trip",
    "C14_width"
   ],
   "note": ""
  },
  {
   "property": "C15",
   "status": "partial",
   "theorems": [
    "C15_little_endian_partial",
    "C15_little_endian_refuted"
   ],
   "note": "little-endian output is not padded; decodes exactly for values that fill the width"
  },
  {
   "property": "C16",
   "status": "partial",
   "theorems": [
    "C16_accepts_iff",
    "C16_failure_partial",
    "C16_receiver_unchanged_refuted"
   ],
   "note": "acceptance condition proved; a rejected out-of-range value is left in the receiver"
  },
  {
   "property": "C17",
   "status": "partial",
   "theorems": [
    "C17_little_endian_partial",
    "C17_big_endian_partial",
    "C17_widths_refuted"
   ],
   "note": "little_endian ignores min; big_endian panics unless the value fills the width"
  },
  {
   "property": "C18",
   "status": "proved",
   "theorems": [
    "C18_random_int",
    "C18_never_returns",
    "C18_pick"
   ],
   "note": "for every stream whose output is as long as its input"
  },
  {
   "property": "C19",
   "status": "proved",
   "theorems": [
    "C19_bits"
   ],
   "note": ""
  },
  {
   "property": "C20",
   "status": "proved",
   "theorems": [
    "C20_rand_stream"
   ],
   "note": "SHA-256 and the Blake3 output are arbitrary functions"
  },
  {
   "property": "C21",
   "status": "proved",
   "theorems": [
    "C21_continuous",
    "C21_involution",
    "C21_clone",
    "C21_short_destination"
   ],
   "note": ""
  },
  {
   "property": "C22",
   "status": "partial",
   "theorems": [
    "C22_no_absorb_after_squeeze",
    "C22_reseed",
    "C22_absorb_concat",
    "C22_write_all_partial",
    "C22_write_all_refuted",
    "C22_flush_panics_refuted"
   ],
   "note": "all but the write_all clause: write_all never returns on a squeezed XOF because the refusal has kind Interrupted"
  },
  {
   "property": "C23",
   "status": "proved",
   "theorems": [
    "C23_arithmetic",
    "C23_no_overflow",
    "encodes_unique"
   ],
   "note": "the limb code is generated statement by statement from scalar.rs"
  },
  {
   "property": "C24",
   "status": "proved",
   "theorems": [
    "C24_inverse"
   ],
   "note": ""
  },
  {
   "property": "C25",
   "status": "proved",
   "theorems": [
    "C25_canonical"
   ],
   "note": ""
  },
  {
   "property": "C26",
   "status": "proved",
   "theorems": [
    "C26_marshal",
    "C26_unmarshal",
    "C26_round_trips"
   ],
   "note": ""
  },
  {
   "property": "C27",
   "status": "partial",
   "theorems": [
    "C27_setters_partial",
    "C27_setters_refuted"
   ],
   "note": "exact effect proved for every receiver; correct on zero receivers; stale high bytes survive otherwise"
  },
  {
   "property": "C28",
   "status": "proved",
   "theorems": [
    "C28_mul",
    "C28_square",
    "C28_no_overflow"
   ],
   "note": "the limb code is generated statement by statement from fe.rs"
  },
  {
   "property": "C29",
   "status": "proved",
   "theorems": [
    "C29_to_bytes",
    "C29_from_bytes",
    "C29_round_trips",
    "C29_sign_and_zero"
   ],
   "note": ""
  },
  {
   "property": "C30",
   "status": "proved",
   "theorems": [
    "C30_invert",
    "C30_pow22523"
   ],
   "note": ""
  },
  {
   "property": "C31",
   "status": "partial",
   "theorems": [
    "C31_canonical_partial",
    "C31_refuted"
   ],
   "note": "the check accepts exactly the 32-byte strings with y below p-217; the 217 canonical fields p-217..p-1 are refused, refuting the full statement"
  },
  {
   "property": "C32",
   "status": "proved",
   "theorems": [
    "C32_small_order",
    "C32_exact",
    "C32_group"
   ],
   "note": "the five listed y-coordinates are exactly those of the eight points with 8 P = 0, in the group of the curve, which is cyclic of order 8 l"
  },
  {
   "property": "C33",
   "status": "proved",
   "theorems": [
    "C33_operations",
    "C33_complete",
    "C33_computations"
   ],
   "note": "limb by limb, every receiver and every representation; any sequence of operations stays within the limb bounds"
  },
  {
   "property": "C34",
   "status": "partial",
   "theorems": [
    "C34_multiplication_partial",
    "C34_all_scalars",
    "C34_refuted"
   ],
   "note": "holds for every scalar below 2^255; above, ge_scalar_mult drops the top digit: the exact result is given for every scalar and the 32 bytes 255 times B give -B (finding)"
  },
  {
   "property": "C35",
   "status": "proved",
   "theorems": [
    "C35_accepts",
    "C35_round_trip",
    "C35_equality",
    "C35_canonical"
   ],
   "note": ""
  },
  {
   "property": "C36",
   "status": "proved",
   "theorems": [
    "C36_embed",
    "C36_total",
    "C36_data_total"
   ],
   "note": "termination of the rejection loop depends on the stream (fuel)"
  },
  {
   "property": "C37",
   "status": "proved",
   "theorems": [
    "C37_completeness",
    "C37_nonce",
    "C37_total",
    "C37_ed25519"
   ],
   "note": "proved over any point operations satisfying the laws of curve_ok and instantiated with the code of point.rs (C37_ed25519); verification refuses when R or the key has one of the 217 fields of C31"
  },
  {
   "property": "C38",
   "status": "proved",
   "theorems": [
    "C38_exact",
    "C38_unique",
    "C38_nonce_reuse",
    "C38_two_keys",
    "C38_ed25519"
   ],
   "note": "over any point operations satisfying curve_ok; C38_ed25519 is the statement on the curve itself for the code of point.rs; the hash is a parameter"
  },
  {
   "property": "C39",
   "status": "proved",
   "theorems": [
    "C39_completeness",
    "C39_cross",
    "C39_seed_signer",
    "C39_ed25519"
   ],
   "note": "over any point operations satisfying curve_ok, and for the code of point.rs; determinism is the functional form of the model"
  },
  {
   "property": "C40",
   "status": "partial",
   "theorems": [
    "C40_nonce_partial",
    "C40_refuted",
    "C40_witness_refuted"
   ],
   "note": "refuted for signers converted from a key pair: the nonce is the hash of the message alone, so the key is computed from one signature"
  },
  {
   "property": "C41",
   "status": "partial",
   "theorems": [
    "C41_round_trip",
    "C41_wrong_length",
    "C41_public_half_ignored",
    "C41_refuted"
   ],
   "note": "marshalling a converted or default signer panics, refuting the no-panic part"
  },
  {
   "property": "C42",
   "status": "proved",
   "theorems": [
    "C42_any_history",
    "C42_too_few",
    "C42_honest_accepted",
    "C42_honest_session",
    "C42_threshold_refuted"
   ],
   "note": "Every history, order and subset. The hypothesis that the threshold is the size of the shared polynomials is needed: new_dss does not compare them, and with a smaller threshold signature() returns Ok of an invalid signature (finding)."
  },
  {
   "property": "C43",
   "status": "partial",
   "theorems": [
    "C43_process",
    "C43_failure_no_effect",
    "C43_other_message",
    "C43_once_partial",
    "C43_once_refuted"
   ],
   "note": "Acceptance is exact. Counting: every other participant at most once; the own index is counted twice if its partial arrives before partial_sig() is called (finding, C43_once_refuted)."
  },
  {
   "property": "C44",
   "status": "proved",
   "theorems": [
    "C44_dh_agree",
    "C44_dh_encrypt",
    "C44_decrypt_exact",
    "C44_ecies_round_trip",
    "C44_ecies_ephemeral",
    "C44_encrypt_total",
    "C44_aead"
   ],
   "note": "HKDF and AES-GCM are parameters with the laws prims_ok; any point operations satisfying curve_ok"
  },
  {
   "property": "C45",
   "status": "partial",
   "theorems": [
    "C45_decrypt_deal_no_panic_partial",
    "C45_decrypt_deal_refuted",
    "C45_empty_commitments_refuted",
    "C63_empty_commits_panic",
    "C45_ecies_refuted",
    "C45_witness_refuted",
    "C45_aead_open"
   ],
   "note": "VSS and DKG part; findings: nonce length and empty commitments panic"
  },
  {
   "property": "C46",
   "status": "partial",
   "theorems": [
    "C46_honest_deal_approved_partial",
    "C46_honest_run_certified_partial",
    "C46_repeated_key_refused",
    "C46_honest_deal_approved_refuted"
   ],
   "note": "holds for lists of distinct non-neutral keys; refuted for a repeated key: the later holder of the key refuses its own honest deal"
  },
  {
   "property": "C47",
   "status": "partial",
   "theorems": [
    "C47_approval_sound_partial",
    "C47_approved_shares_recover_partial",
    "C47_degree_refuted",
    "C47_session_refuted"
   ],
   "note": "share, threshold and index are checked; refuted: the number of commitments is not compared with t, and the session id inside the deal is not compared with the computed one"
  },
  {
   "property": "C48",
   "status": "partial",
   "theorems": [
    "C48_certified_iff",
    "C48_missing_responses",
    "C48_deal_iff_certified_partial",
    "C48_empty_certified",
    "C48_timeout",
    "C48_deal_iff_certified_refuted"
   ],
   "note": "the certification rule is exact; refuted: a verifier that received nothing reports a certified deal after the timeout while deal() is None"
  },
  {
   "property": "C49",
   "status": "partial",
   "theorems": [
    "C49_process_response",
    "C49_history_partial",
    "C49_session_refuted"
   ],
   "note": "refuted for the session: before a deal arrives responses of any session are recorded"
  },
  {
   "property": "C50",
   "status": "partial",
   "theorems": [
    "C50_bad_justification_partial",
    "C50_complaint_is_permanent",
    "C50_justification_clears_refuted"
   ],
   "note": "finding: a valid justification never clears the complaint"
  },
  {
   "property": "C51",
   "status": "partial",
   "theorems": [
    "C51_pinned_after_deal_partial",
    "C51_set_threshold_ignored",
    "C51_configured_threshold_refuted"
   ],
   "note": "finding: a configured threshold is overwritten by the first deal"
  },
  {
   "property": "C52",
   "status": "partial",
   "theorems": [
    "C52_session_id_binds_partial",
    "C52_no_separator",
    "C52_session_id_binds_refuted"
   ],
   "note": "binding when the number of verifiers is fixed; no separator between verifiers and commitments otherwise (Pedersen part)"
  },
  {
   "property": "C53",
   "status": "partial",
   "theorems": [
    "C53_honest_deal_approved_partial",
    "C53_honest_run_certified_partial",
    "C53_honest_shares_recover",
    "C53_repeated_key_refused",
    "C53_honest_deal_approved_refuted"
   ],
   "note": "as C46: holds for lists of distinct non-neutral keys; refuted for a repeated key"
  },
  {
   "property": "C54",
   "status": "partial",
   "theorems": [
    "C54_approval_sound_partial",
    "C54_binding_partial",
    "C54_hiding",
    "C54_degree_refuted",
    "C54_session_refuted"
   ],
   "note": "commitment equation, binding and perfect hiding proved; refuted: number of commitments not compared with t, session id of the deal not compared with the computed one"
  },
  {
   "property": "C55",
   "status": "proved",
   "theorems": [
    "C55_certified_iff",
    "C55_dealer_certified_iff",
    "C55_timeout"
   ],
   "note": ""
  },
  {
   "property": "C56",
   "status": "partial",
   "theorems": [
    "C56_justification",
    "C56_honest_justification",
    "C56_wrong_deal_refuted"
   ],
   "note": "effect of justifications proved in every reachable state; finding: the accepted deal may be for another index or polynomial"
  },
  {
   "property": "C57",
   "status": "partial",
   "theorems": [
    "C57_handlers",
    "C57_any_schedule",
    "C57_honest_run",
    "C57_recover",
    "C57_share_matches_partial",
    "C57_replayed_response_refuted"
   ],
   "note": "Honest runs of any size, threshold and delivery order: proved, including recovery from any t shares. Against arbitrary histories the share matches the commitments only if no response with the participant's own index comes from the network; C57_replayed_response_refuted shows the attack otherwise."
  },
  {
   "property": "C58",
   "status": "partial",
   "theorems": [
    "C58_threshold_partial",
    "C58_default_refuted"
   ],
   "note": "Holds for an explicit threshold and for resharing, over every history; false for the default threshold, where the configured zero is compared (finding)."
  },
  {
   "property": "C59",
   "status": "partial",
   "theorems": [
    "C59_dealer",
    "C59_any_history",
    "C59_recover",
    "C59_lost_deal_refuted"
   ],
   "note": "Any number of holders, any thresholds, any history without responses under the own index in which the opened deals are those of the dealers' polynomials: the new shares lie on a polynomial of the new threshold with the old secret and key. Needs the certified deals to have been received; C59_lost_deal_refuted shows that otherwise the outcome depends on hash-map order (finding)."
  },
  {
   "property": "C60",
   "status": "partial",
   "theorems": [
    "C60_mismatch_partial",
    "C60_own_approval_refuted"
   ],
   "note": "The answer is always a signed complaint, and when the dealer is a new holder without recorded answer the deal is never certified in any later history. Otherwise the node keeps its own approval and the wrong secret can be certified (finding)."
  },
  {
   "property": "C61",
   "status": "partial",
   "theorems": [
    "C61_renew",
    "C61_refreshed_shares",
    "C61_rejects",
    "C61_panics_iff",
    "C61_panics_refuted"
   ],
   "note": "All parts but \"does not panic\" proved; the panics are characterised exactly and exhibited."
  },
  {
   "property": "C62",
   "status": "proved",
   "theorems": [
    "C62_generators",
    "C62_any_schedule",
    "C62_honest_run",
    "C62_recover",
    "C62_share_matches"
   ],
   "note": "Honest runs of any size, threshold and delivery order; against arbitrary histories a handed-out share matches its commitments if no deal with the own index comes from outside and no QUAL member was reconstructed (those: C63)."
  },
  {
   "property": "C63",
   "status": "partial",
   "theorems": [
    "C63_complaint",
    "C63_inadmissible",
    "C63_empty_commits_panic",
    "C63_complaint_processed",
    "C63_no_commits_no_answer",
    "C63_early_reconstruct_lost",
    "C63_reconstruct",
    "C63_forged_refuted",
    "C63_stuck_refuted",
    "C63_length_refuted"
   ],
   "note": "Complaints and reconstruction from genuine messages proved. Findings: a reconstruct message with a made-up share is believed; the complainer cannot contribute its own share, so t honest participants may be stuck; commitments of the wrong length are accepted and block the key; empty commitments panic."
  },
  {
   "property": "C64",
   "status": "partial",
   "theorems": [
    "C64_response",
    "C64_justification_partial",
    "C64_rabin_justification_partial",
    "C64_justification_refuted",
    "C64_secret_commits_partial",
    "C64_secret_commits_replayable",
    "C64_secret_commits_refuted",
    "C64_complaint",
    "C64_reconstruct_partial",
    "C64_reconstruct_replayable",
    "C64_reconstruct_refuted",
    "C64_kinds",
    "C64_context"
   ],
   "note": "Responses and complaints bind everything; justifications for session ids of one length; secret commitments and reconstruct messages do not bind the session id (finding)."
  },
  {
   "property": "C65",
   "status": "partial",
   "theorems": [
    "C65_duplicates_refuted",
    "C65_witness_refuted",
    "C65_distinct"
   ],
   "note": "False for every list with a repeated key: the handler is created without verifiers and panics on the next deal. Without repetition every listed dealer has a verifier after any history."
  },
  {
   "property": "C66",
   "status": "proved",
   "theorems": [
    "C66_key_pair",
    "C66_any_generator",
    "C66_eddsa_new"
   ],
   "note": ""
  },
  {
   "property": "C67",
   "status": "proved",
   "theorems": [
    "C67_machine_integers"
   ],
   "note": ""
  },
  {
   "property": "C68",
   "status": "partial",
   "theorems": [
    "C68_sqrt_partial",
    "C68_negative",
    "C68_sqrt_refuted"
   ],
   "note": "integer square root of the representative instead of a modular one"
  },
  {
   "property": "C69",
   "status": "partial",
   "theorems": [
    "C69_equality_partial",
    "C69_equality_refuted",
    "C69_order",
    "C69_nonzero",
    "C69_set"
   ],
   "note": "true for one modulus and reduced values; the modulus is not compared"
  },
  {
   "property": "C70",
   "status": "proved",
   "theorems": [
    "C70_scalar_constants"
   ],
   "note": ""
  },
  {
   "property": "C71",
   "status": "proved",
   "theorems": [
    "C71_add_sub_neg",
    "C71_cond_move"
   ],
   "note": ""
  },
  {
   "property": "C72",
   "status": "partial",
   "theorems": [
    "C72_justification_not_authenticated",
    "C72_forged_justification_refuted",
    "C72_rabin_justification_not_authenticated",
    "C72_rabin_forged_justification_refuted",
    "C72_rabin_witness_refuted"
   ],
   "note": "finding: signature and session id of a justification are never looked at, so a forged one brands an honest dealer"
  },
  {
   "property": "C73",
   "status": "partial",
   "theorems": [
    "C73_no_panic_partial",
    "C73_query_refuted",
    "C73_nonce_refuted",
    "C73_empty_commitments_refuted",
    "C73_witness_refuted"
   ],
   "note": "findings: queries before the first deal, a nonce of another length and empty commitments panic; nothing else does"
  },
  {
   "property": "C74",
   "status": "partial",
   "theorems": [
    "C74_honest_dealer_partial",
    "C74_false_complaint_refuted"
   ],
   "note": "Holds for complaints carrying the deal the dealer made; false otherwise: the deal in a complaint is checked only against its own commitments, so one participant can make everybody publish the shares of an honest dealer (finding)."
  },
  {
   "property": "C75",
   "status": "proved",
   "theorems": [
    "C75_reuse"
   ],
   "note": ""
  },
  {
   "property": "C76",
   "status": "partial",
   "theorems": [
    "C76_universal_refuted",
    "C76_witness_refuted",
    "C76_inputs_differ_partial"
   ],
   "note": "false: with the neutral element as ephemeral point a ciphertext opens under every private key (finding). For ephemeral points of the prime-order subgroup the key-derivation inputs differ."
  },
  {
   "property": "C77",
   "status": "partial",
   "theorems": [
    "C77_point_bytes",
    "C77_unique",
    "C77_ed25519_partial",
    "C77_refuted",
    "C76_witness_refuted"
   ],
   "note": "false: the ephemeral point may be re-encoded (C77_refuted: neutral point, sign bit set). Nothing else can be changed: for an ephemeral point with y >= 19 and x <> 0 the ciphertext is unique"
  },
  {
   "property": "C78",
   "status": "proved",
   "theorems": [
    "C78_qualified_shares"
   ],
   "note": ""
  },
  {
   "property": "C79",
   "status": "proved",
   "theorems": [
    "C79_expected_deals"
   ],
   "note": ""
  },
  {
   "property": "C80",
   "status": "proved",
   "theorems": [
    "C80_pick",
    "C80_first"
   ],
   "note": ""
  },
  {
   "property": "C81",
   "status": "partial",
   "theorems": [
    "C81_hash",
    "C81_order_partial",
    "C81_refuted"
   ],
   "note": "hash agrees with equality; the derived order compares limbs, so equal points in different representations do not compare as equal (finding)"
  },
  {
   "property": "C82",
   "status": "proved",
   "theorems": [
    "C82_points",
    "C82_scalars",
    "C82_failure"
   ],
   "note": ""
  },
  {
   "property": "C83",
   "status": "partial",
   "theorems": [
    "C83_whole_curve",
    "C83_subgroup",
    "C83_refuted"
   ],
   "note": "false: every point of the curve decodes; B + T with T of order 2 passes all three checks (finding)"
  },
  {
   "property": "C84",
   "status": "partial",
   "theorems": [
    "C84_eval",
    "C84_check",
    "C84_refuted"
   ],
   "note": "the check is exact; with commitments outside the prime-order subgroup accepted shares need not be shares of commits[0] (finding)"
  },
  {
   "property": "C85",
   "status": "proved",
   "theorems": [
    "C85_suite_laws"
   ],
   "note": "SHA-512, HKDF, AES-GCM, the suite hash and the XOF are parameters: output lengths, decryption of what was encrypted."
  },
  {
   "property": "C86",
   "status": "proved",
   "theorems": [
    "C86_dkg_then_sign",
    "C86_rabin_then_sign",
    "C86_runs",
    "C86_rabin_runs"
   ],
   "note": ""
  },
  {
   "property": "C87",
   "status": "partial",
   "theorems": [
    "C87_shared_partial",
    "C87_small_order_refuted",
    "C87_witness_refuted",
    "C87_torsion_ignored"
   ],
   "note": "holds in the prime-order subgroup; false otherwise: with a clamped private key every public key of small order gives the neutral element and a small-order component is ignored (finding)"
  },
  {
   "property": "C88",
   "status": "proved",
   "theorems": [
    "C88_shares",
    "C88_pedersen_messages",
    "C88_rabin_messages",
    "C88_keys_and_signatures"
   ],
   "note": "saved states are C94"
  },
  {
   "property": "C89",
   "status": "partial",
   "theorems": [
    "C89_refuted",
    "C89_partial"
   ],
   "note": "false: surplus bytes are ignored, also behind a signed DKG deal (finding); otherwise the encoding is unique and prefix-free"
  },
  {
   "property": "C90",
   "status": "partial",
   "theorems": [
    "C90_refuted",
    "C90_partial"
   ],
   "note": "false: the signature covers the internal representation of the ephemeral key, every deal has an equal one with other signed bytes (finding); equal bytes do imply equal deals"
  },
  {
   "property": "C91",
   "status": "partial",
   "theorems": [
    "C91_refuted",
    "C91_partial"
   ],
   "note": "false: limbs and scalar bytes are taken as they come (finding); what correct senders send arrives unchanged"
  },
  {
   "property": "C92",
   "status": "partial",
   "theorems": [
    "C92_check",
    "C92_sum_partial",
    "C92_refuted"
   ],
   "note": "false: the T coordinate of the last commitment is invisible to equality, session id and share check, but enters PubPoly::add (finding)"
  },
  {
   "property": "C93",
   "status": "proved",
   "theorems": [
    "C93_deals",
    "C93_rabin_deals",
    "C93_any_limbs",
    "C93_rabin_any_limbs",
    "C93_dealer_fits",
    "C93_rabin_dealer_fits",
    "C93_signed_bytes",
    "C93_dkg_then_sign",
    "C93_rabin_then_sign",
    "C93_runs",
    "C93_rabin_runs"
   ],
   "note": "points are taken in the prime-order subgroup"
  },
  {
   "property": "C94",
   "status": "proved",
   "theorems": [
    "C94_polynomials",
    "C94_pedersen_sharing",
    "C94_rabin_sharing",
    "C94_key_generators",
    "C94_signing_sessions",
    "C94_map_order",
    "C94_map_last",
    "C94_file_refuted"
   ],
   "note": "finding: two equal states can give different files (HashMap order); the entropy source type of Config is a parameter that must itself serialize"
  },
  {
   "property": "C95",
   "status": "proved",
   "theorems": [
    "C95_shares",
    "C95_pedersen_sharing",
    "C95_rabin_sharing",
    "C95_pedersen_keys",
    "C95_rabin_keys",
    "C95_signing",
    "C95_eddsa_refuted"
   ],
   "note": "finding: the derived Debug of EdDSA prints the secret, the seed and the prefix"
  },
  {
   "property": "C96",
   "status": "partial",
   "theorems": [
    "C96_scalars",
    "C96_points",
    "C96_ints_partial",
    "C96_ints_refuted",
    "C96_debug_refuted",
    "C96_pripoly_string"
   ],
   "note": "the full statement is false for negative Int (set_string accepts them; the sign is not printed) and for Debug of points (equal points, different text)"
  },
  {
   "property": "C97",
   "status": "partial",
   "theorems": [
    "C97_secret",
    "C97_user_only",
    "C97_combined",
    "C97_bytes",
    "C97_refuted",
    "C97_deals",
    "C97_reproducible_refuted"
   ],
   "note": "full statement: user_reader_only makes the key generator depend on the user's source alone and refuse one that fails. False: a source with fewer than 32 bytes makes the constructor loop forever, and all coefficients but the secret come from the system"
  },
  {
   "property": "C98",
   "status": "partial",
   "theorems": [
    "C98_same_results",
    "C98_constant_time",
    "C98_inversion",
    "C98_flag",
    "C98_variable_time",
    "C98_refuted"
   ],
   "note": "full statement (no multiplication shows anything about its scalar) is false for a receiver whose flag was set in a received message; compiler and hardware are outside the model"
  },
  {
   "property": "C99",
   "status": "partial",
   "theorems": [
    "C99_private",
    "C99_private_binding",
    "C99_public",
    "C99_refuted"
   ],
   "note": "full statement (shares that differ under == hash differently or give a collision) is false for indices from 2^32 (cast to u32) and for unreduced scalars (marshalling reduces, == does not)"
  }
 ]
}