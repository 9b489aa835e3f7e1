{"id": "C01", "title": "Any t shares give back the shared secret", "statement": "If a secret is shared with PriPoly::shares(n) and recover_secret(t) is given any list that contains at least t distinct genuine shares (any order, with holes (None) and repeated copies allowed), it returns exactly the original secret, whatever order the internal hash maps are iterated in.", "quantifier": "every field, every polynomial with t coefficients, every list of optional genuine shares with >= t distinct indices, every iteration order", "why_tests_cant": "The number of subsets/orders of shares, field elements and HashMap seeds is unbounded; tests sample one n,t and one order per run.", "anchors": ["src/share/poly.rs: recover_secret, xy_scalar, PriPoly::eval, PriPoly::shares, new_pri_poly"]}
{"id": "C02", "title": "Fewer than t distinct shares is an error, never a value", "statement": "recover_secret, recover_commit and recover_pri_poly given a list with fewer than t distinct share indices return an error; repeating a share does not help reaching the threshold.", "quantifier": "every share list and threshold", "why_tests_cant": "A test only tries a few short lists; duplicates and holes give unboundedly many shapes.", "anchors": ["src/share/poly.rs: recover_secret, recover_commit, recover_pri_poly, xy_scalar, xy_commit"]}
{"id": "C03", "title": "t-1 shares say nothing about the secret", "statement": "For any t-1 distinct share indices and any values at them, every candidate secret is consistent with exactly one sharing polynomial of threshold t (so the shares are independent of the secret).", "quantifier": "every field, every t-1 distinct indices, every share values, every candidate secret", "why_tests_cant": "Secrecy is a counting statement over all polynomials; no finite set of runs shows it.", "anchors": ["src/share/poly.rs: new_pri_poly, PriPoly::eval, PriPoly::secret"]}
{"id": "C04", "title": "recover_pri_poly rebuilds the whole polynomial", "statement": "Given at least t distinct genuine shares of a polynomial with t coefficients, recover_pri_poly returns a polynomial with exactly the original coefficients.", "quantifier": "every field, polynomial, share list, iteration order", "why_tests_cant": "Unbounded inputs and hash orders.", "anchors": ["src/share/poly.rs: recover_pri_poly, lagrange_basis, minus_const, PriPoly::mul, PriPoly::add"]}
{"id": "C05", "title": "Polynomial addition and multiplication act on shares", "statement": "PriPoly::add succeeds exactly for equal lengths and the share (and secret) of the sum is the sum of shares; PriPoly::mul's shares are products of shares; PubPoly::add likewise adds the public shares, and committing commutes with adding.", "quantifier": "every pair of polynomials and every index", "why_tests_cant": "Identity over all coefficients and indices.", "anchors": ["src/share/poly.rs: PriPoly::add, PriPoly::mul, PubPoly::add, PriPoly::commit"]}
{"id": "C06", "title": "Share verification is exact", "statement": "For a polynomial committed with PriPoly::commit(b) (b not the neutral element), PubPoly::eval(i) is the commitment of the private share i, and PubPoly::check(s) is true if and only if s is the genuine share of index s.i.", "quantifier": "every polynomial, base, index and candidate share value", "why_tests_cant": "Soundness ranges over all wrong shares; a test tries a handful.", "anchors": ["src/share/poly.rs: PubPoly::check, PubPoly::eval, PriPoly::commit"]}
{"id": "C07", "title": "Public commitment recovery", "statement": "recover_commit given at least t distinct genuine public shares returns the commitment to the secret.", "quantifier": "every commitment polynomial, share list, iteration order", "why_tests_cant": "Unbounded inputs and hash orders.", "anchors": ["src/share/poly.rs: recover_commit, xy_commit"]}
{"id": "C08", "title": "Public polynomial recovery", "statement": "recover_pub_poly given at least t distinct genuine public shares returns the original public polynomial (same commitments).", "quantifier": "every commitment polynomial and share list", "why_tests_cant": "The property depends on which index subset is supplied; the unit test only supplies indices 0..n-1.", "anchors": ["src/share/poly.rs: recover_pub_poly, lagrange_basis"]}
{"id": "C09", "title": "Polynomial equality tests", "statement": "PriPoly::equal returns true exactly for polynomials with the same coefficients; PubPoly::equal returns true exactly for polynomials with the same commitments and never panics.", "quantifier": "every pair of polynomials", "why_tests_cant": "Quantifies over all pairs including different lengths.", "anchors": ["src/share/poly.rs: PriPoly::equal, PubPoly::equal"]}
{"id": "C10", "title": "Accessors never crash on polynomials the API can build", "statement": "secret/commit/eval/threshold on polynomials returned by the constructors and operations of the module do not panic, for every threshold argument (including 0 and 1). secret() is the constant coefficient, commit() its multiple of the base, threshold() the number of coefficients.", "quantifier": "every constructor argument", "why_tests_cant": "Edge thresholds and empty commitment vectors.", "anchors": ["src/share/poly.rs: PubPoly::eval, PubPoly::commit, PriPoly::secret, new_pri_poly, recover_pri_poly"]}
{"id": "C11", "title": "Modular integers stay in range and compute modular arithmetic", "statement": "For Int values with 0 <= v < m over a common modulus m > 0, add, sub, mul, neg, inv, zero, one (m>1) and pick return values in [0,m) congruent to the mathematical result; inv*a = 1 whenever gcd(a,m)=1.", "quantifier": "every modulus and operand", "why_tests_cant": "All moduli and operands.", "anchors": ["src/group/integer_field/integer.rs: Int, ops Mul/Add, sub, neg, inv, zero, one, pick"]}
{"id": "C12", "title": "Constructors reduce into the field", "statement": "new_int, new_int64, set_int64, set_bytes and set_string produce the residue of their argument in [0,m).", "quantifier": "every integer / byte string / i64 and every modulus", "why_tests_cant": "Negative and boundary arguments.", "anchors": ["src/group/integer_field/integer.rs: new_int, init, new_int64, init64, set_int64, set_bytes, new_int_bytes, set_string"]}
{"id": "C13", "title": "Int division and exponentiation", "statement": "a.div(x,y) returns z with z*y = x mod m for invertible y; exp(a,e) returns a^e mod m.", "quantifier": "every modulus and operand", "why_tests_cant": "All operands.", "anchors": ["src/group/integer_field/integer.rs: div, exp"]}
{"id": "C14", "title": "Big-endian Int encoding round-trips with fixed width", "statement": "For 0 <= v < m and big-endian order, marshal_binary returns exactly marshal_size() bytes and unmarshal_binary of them restores v.", "quantifier": "every modulus and value", "why_tests_cant": "Leading zeros only show up for a sparse set of values.", "anchors": ["src/group/integer_field/integer.rs: marshal_binary, unmarshal_binary, marshal_size"]}
{"id": "C15", "title": "Little-endian Int encoding round-trips with fixed width", "statement": "For 0 <= v < m and little-endian order, marshal_binary returns exactly marshal_size() bytes and unmarshal_binary of them restores v.", "quantifier": "every modulus and value", "why_tests_cant": "Values with leading zero bytes have probability ~1/256 in tests.", "anchors": ["src/group/integer_field/integer.rs: marshal_binary, little_endian, unmarshal_binary, reverse"]}
{"id": "C16", "title": "Decoding rejects out-of-range integers and leaves the receiver alone", "statement": "unmarshal_binary accepts a buffer iff it has marshal_size() bytes and encodes a value < m; when it returns an error the receiver is unchanged.", "quantifier": "every modulus, receiver and buffer", "why_tests_cant": "All buffers.", "anchors": ["src/group/integer_field/integer.rs: unmarshal_binary"]}
{"id": "C17", "title": "Explicit-width encoders honour [min,max]", "statement": "little_endian(min,max) returns between min and max bytes encoding v, or an error; big_endian(min,max) likewise; neither panics.", "quantifier": "every value, modulus, min, max", "why_tests_cant": "All width combinations.", "anchors": ["src/group/integer_field/integer.rs: little_endian, big_endian"]}
{"id": "C18", "title": "random_int is uniform-range", "statement": "If random_int(m, stream) returns, the result is in [1,m) (never 0, never >= m); with a stream that only produces zeros, or m <= 1, it never returns.", "quantifier": "every modulus > 0 and every key stream", "why_tests_cant": "Rejection sampling over arbitrary streams.", "anchors": ["src/util/random/random_stream.rs: random_int, bits"]}
{"id": "C19", "title": "bits(n, exact) has the requested length", "statement": "bits(n,exact,stream) returns ceil(n/8) bytes whose value is < 2^n, and >= 2^(n-1) when exact and n>0; n=0 with exact panics.", "quantifier": "every length and stream", "why_tests_cant": "All streams and lengths.", "anchors": ["src/util/random/random_stream.rs: bits"]}
{"id": "C20", "title": "Multi-reader random stream", "statement": "RandStream::xor_key_stream fails iff lengths differ or every reader fails; otherwise output = source XOR a key stream determined only by the bytes actually read, so any single working reader suffices.", "quantifier": "every reader outcome vector and source", "why_tests_cant": "All failure patterns of readers.", "anchors": ["src/util/random/random_stream.rs: RandStream::xor_key_stream"]}
{"id": "C21", "title": "XOF output is one continuous stream", "statement": "Reading k bytes in any sequence of read / xor_key_stream calls yields the same key stream as one read of the total length; xor_key_stream applied with two equal-state XOFs twice restores the input; a clone continues independently from the same position.", "quantifier": "every absorbed input and every split of the read lengths", "why_tests_cant": "All splits.", "anchors": ["src/xof/blake3/xof.rs: Xof::read, Xof::xor_key_stream, Xof::clone"]}
{"id": "C22", "title": "No absorbing after squeezing unless reseeded", "statement": "After any read, write fails (and never changes the state) until reseed; after reseed the state depends only on the previous state and writing works again; std write_all on a squeezed XOF returns an error.", "quantifier": "every call history", "why_tests_cant": "All histories.", "anchors": ["src/xof/blake3/xof.rs: Xof::write, Xof::reseed, Xof::flush"]}
{"id": "C23", "title": "Edwards25519 scalar arithmetic is exact modulo the group order", "statement": "For all 32-byte operands (reduced or not) add, sub, mul and multiply-add return the unique encoding in [0,l) of the mathematical result mod l, and no intermediate 64-bit computation overflows.", "quantifier": "all 2^256 values of each operand", "why_tests_cant": "2^512..2^768 operand combinations; carry bugs hit vanishing fractions.", "anchors": ["src/group/edwards25519/scalar.rs: sc_mul_add, sc_add, sc_sub, sc_mul, ops Add/Mul, sub, neg"]}
{"id": "C24", "title": "Scalar inversion and division", "statement": "For every scalar a not congruent to 0, inv(a)*a = 1 and div(b,a)*a = b (mod l); inv(0)=0.", "quantifier": "all scalars", "why_tests_cant": "2^252 values; relies on primality of l.", "anchors": ["src/group/edwards25519/scalar.rs: inv, div, get_bits", "src/group/edwards25519/constants.rs: L_MINUS2, PRIME_ORDER"]}
{"id": "C25", "title": "Scalar canonicality check is exact", "statement": "Scalar::is_canonical(buf) is true iff buf has 32 bytes and encodes a little-endian integer < l.", "quantifier": "all byte strings", "why_tests_cant": "All 2^256 buffers.", "anchors": ["src/group/edwards25519/scalar.rs: is_canonical"]}
{"id": "C26", "title": "Scalar encoding", "statement": "marshal_binary always returns 32 bytes encoding v mod l; unmarshal_binary accepts exactly 32-byte inputs; decode(encode(s)) is congruent to s and encode(decode(b)) = b for canonical b.", "quantifier": "all scalars and byte strings", "why_tests_cant": "All buffers.", "anchors": ["src/group/edwards25519/scalar.rs: marshal_binary, unmarshal_binary, as_int"]}
{"id": "C27", "title": "Scalar setters overwrite the receiver", "statement": "x.set_int64(v), x.set_bytes(b) and x.pick(stream) yield the residue of their argument regardless of the previous value of x.", "quantifier": "all receivers and arguments", "why_tests_cant": "Only receivers with stale high bytes expose it; tests start from zero.", "anchors": ["src/group/edwards25519/scalar.rs: set_int, set_int64, set_bytes, pick"]}
{"id": "C28", "title": "Field multiplication and squaring are exact", "statement": "For limb inputs within the documented bounds fe_mul, fe_square and fe_square2 represent the product / square / doubled square modulo 2^255-19, their outputs satisfy the documented output bounds, and no i32/i64 intermediate overflows.", "quantifier": "all limb vectors within bounds", "why_tests_cant": "2^520 inputs; ref10 carry bugs are famously rare.", "anchors": ["src/group/edwards25519/fe.rs: fe_mul, fe_square, fe_square2, fe_add, fe_sub, fe_neg"]}
{"id": "C29", "title": "Field encoding is canonical", "statement": "fe_to_bytes outputs the unique representative in [0,2^255-19) of a bounded element, fe_from_bytes accepts any 32 bytes and ignores the top bit, and the two are inverse modulo p.", "quantifier": "all bounded elements and all 32-byte strings", "why_tests_cant": "All values incl. the 19 non-canonical ones.", "anchors": ["src/group/edwards25519/fe.rs: fe_to_bytes, fe_from_bytes, fe_is_negative, fe_is_non_zero"]}
{"id": "C30", "title": "Field inversion and square-root exponent", "statement": "fe_invert computes z^(p-2) (so z*inv(z)=1 for z != 0, 0 for z=0); fe_pow22523 computes z^((p-5)/8).", "quantifier": "all bounded elements", "why_tests_cant": "Addition-chain correctness for all z.", "anchors": ["src/group/edwards25519/fe.rs: fe_invert, fe_pow22523"]}
{"id": "C31", "title": "Point canonicality check is exact", "statement": "Point::is_canonical(buf) is true iff buf has 32 bytes and, ignoring the sign bit, encodes y < 2^255-19.", "quantifier": "all byte strings", "why_tests_cant": "The affected encodings are ~200 out of 2^255.", "anchors": ["src/group/edwards25519/point.rs: is_canonical"]}
{"id": "C32", "title": "Small-order check", "statement": "has_small_order is true iff the y-coordinate encoded is one of the 5 listed weak values (either sign).", "quantifier": "all points", "why_tests_cant": "All encodings.", "anchors": ["src/group/edwards25519/point.rs: has_small_order", "src/group/edwards25519/constants.rs: WEAK_KEYS"]}
{"id": "C33", "title": "Point addition and doubling implement the Edwards law", "statement": "For points on the curve, add/sub/double/neg produce representations of the affine Edwards sum/difference/double/negation, stay on the curve, and there are no exceptional inputs (denominators never vanish).", "quantifier": "all pairs of curve points in all projective representations", "why_tests_cant": "All pairs.", "anchors": ["src/group/edwards25519/ge.rs: CompletedGroupElement::add, sub, mixed_add, ProjectiveGroupElement::double, write_cached, to_extended, to_projective, ExtendedGroupElement::neg"]}
{"id": "C34", "title": "Scalar multiplication multiplies", "statement": "mul(s, Some(P)) and mul(s, None) equal the s-fold sum of P (resp. of the base point) for every scalar value the API can hold.", "quantifier": "all scalars and points", "why_tests_cant": "Digit recoding must be right for all 2^256 exponents.", "anchors": ["src/group/edwards25519/ge.rs: ge_scalar_mult, ge_scalar_mult_base, select_cached, select_pre_computed, slide", "src/group/edwards25519/ge_mult_vartime.rs: ge_scalar_mult_vartime"]}
{"id": "C35", "title": "Point encoding round-trips", "statement": "unmarshal_binary accepts exactly the 32-byte strings whose y is on the curve; decoding an encoded point yields an equal point; encoding a decoded canonical string gives it back (up to the sign bit when x=0).", "quantifier": "all points and byte strings", "why_tests_cant": "All buffers.", "anchors": ["src/group/edwards25519/ge.rs: set_bytes, write_bytes", "src/group/edwards25519/point.rs: marshal_binary, unmarshal_binary, eq"]}
{"id": "C36", "title": "Embedded data comes back", "statement": "If embed(Some(d), stream) returns a point, data() of it is the first min(29,len d) bytes of d; data() never reads out of bounds.", "quantifier": "all data strings and streams", "why_tests_cant": "All streams and strings.", "anchors": ["src/group/edwards25519/point.rs: embed, data, embed_len"]}
{"id": "C37", "title": "Schnorr completeness", "statement": "Every signature made by schnorr::sign verifies under the signer's public key for that message (when R and the key are not small-order).", "quantifier": "all keys, nonces, messages, hash functions", "why_tests_cant": "All keys, nonces and messages.", "anchors": ["src/sign/schnorr/schnorr_sig.rs: sign, verify, verify_with_checks, hash"]}
{"id": "C38", "title": "Schnorr verification is exact and key-binding", "statement": "verify accepts iff the signature has the right length, canonical encodings and s*G = R + H(R,A,m)*A; for given R, A and m there is exactly one accepted s; two accepted signatures with the same R but different challenges reveal the private key.", "quantifier": "all keys, messages and byte strings", "why_tests_cant": "Soundness is over all forgeries of the equation.", "anchors": ["src/sign/schnorr/schnorr_sig.rs: verify_with_checks"]}
{"id": "C39", "title": "EdDSA completeness and determinism", "statement": "EdDSA::sign is a function of key and message, its output verifies with eddsa::verify and with schnorr::verify; schnorr signatures verify with eddsa::verify.", "quantifier": "all keys and messages", "why_tests_cant": "All keys/messages.", "anchors": ["src/sign/eddsa/eddsa_sig.rs: sign, verify, verify_with_checks"]}
{"id": "C40", "title": "EdDSA keeps the private key private for every way of building the signer", "statement": "A public verifier who sees one signature cannot compute the private key by field arithmetic on public data, in particular not for a signer converted from a key pair.", "quantifier": "all key pairs and messages", "why_tests_cant": "A test sees a valid signature either way.", "anchors": ["src/sign/eddsa/eddsa_sig.rs: From<Pair<EdPoint>>, sign"]}
{"id": "C41", "title": "EdDSA key serialisation", "statement": "unmarshal_binary(marshal_binary(k)) = k for generated keys; every signer the API can build can be serialised without panicking; wrong lengths are rejected without changing the receiver.", "quantifier": "all keys and byte strings", "why_tests_cant": "All keys.", "anchors": ["src/sign/eddsa/eddsa_sig.rs: marshal_binary, unmarshal_binary"]}
{"id": "C42", "title": "Threshold signature equals a valid single signature", "statement": "If long-term and random keys were shared with threshold t and at least t distinct honest partial signatures were collected, signature() returns a signature that verifies under the distributed public key; it does not depend on which t signers contributed.", "quantifier": "all keys, subsets of signers, messages", "why_tests_cant": "All subsets and orders.", "anchors": ["src/sign/dss/dss_sig.rs: new_dss, partial_sig, process_partial_sig, enough_partial_sig, signature"]}
{"id": "C43", "title": "Only valid partial signatures are accepted", "statement": "process_partial_sig stores a partial iff the sender is a known participant, its signature and session match and its value equals the sender's genuine share of the signature; each participant is counted at most once.", "quantifier": "all messages and call histories", "why_tests_cant": "All forged partials and all orders incl. own partial.", "anchors": ["src/sign/dss/dss_sig.rs: process_partial_sig, partial_sig, partials_idx"]}
{"id": "C44", "title": "ECIES and DH round trip", "statement": "decrypt(encrypt(m)) = m for the matching key pair; both DH sides derive the same secret.", "quantifier": "all keys, ephemeral scalars, messages", "why_tests_cant": "All keys and messages.", "anchors": ["src/encrypt/ecies/ecies_impl.rs: encrypt, decrypt", "src/dh/dh_impl.rs: dh_exchange, AEAD"]}
{"id": "C45", "title": "Decryption never crashes on malformed input", "statement": "ECIES decrypt and AEAD open return an error (do not panic) for every byte string; VSS decrypt of an encrypted deal with any field lengths does not panic.", "quantifier": "all ciphertexts", "why_tests_cant": "All malformed lengths.", "anchors": ["src/encrypt/ecies/ecies_impl.rs: decrypt", "src/dh/dh_impl.rs: AEAD::open", "src/share/vss/pedersen/vss.rs: decrypt_deal"]}
{"id": "C46", "title": "Pedersen VSS: honest dealer is always approved", "statement": "For every secret, threshold accepted by new_dealer and verifier list, each verifier processing its own encrypted deal from an honest dealer answers Approval and the dealer accepts that response.", "quantifier": "all secrets, n, t, verifier positions", "why_tests_cant": "All n,t and polynomials.", "anchors": ["src/share/vss/pedersen/vss.rs: new_dealer, encrypted_deal, process_encrypted_deal, verify_deal, process_response"]}
{"id": "C47", "title": "Pedersen VSS: approved deals are consistent", "statement": "A verifier answers Approval only for a deal whose share lies on the committed polynomial with valid threshold, matching session and index; hence any t approved honest shares recover the same secret, which is the discrete log of the commitment.", "quantifier": "all deals, all adversarial dealers", "why_tests_cant": "Adversarial deals are unbounded.", "anchors": ["src/share/vss/pedersen/vss.rs: verify_deal, process_encrypted_deal, recover_secret"]}
{"id": "C48", "title": "Pedersen VSS: certification rule", "statement": "deal_certified holds iff at least t approvals, no complaint, dealer not marked bad, and (before the timeout) no response missing / (after) at most n-t missing; the verifier's deal() returns a value iff certified.", "quantifier": "all aggregator states and response histories", "why_tests_cant": "All histories.", "anchors": ["src/share/vss/pedersen/vss.rs: deal_certified, missing_responses, set_timeout, deal, secret_commit"]}
{"id": "C49", "title": "Pedersen VSS: one authenticated response per verifier", "statement": "A response is recorded only if signed by the verifier at its index for the session, at most once per index, and never altered by later responses; out-of-range indices are rejected.", "quantifier": "all message histories", "why_tests_cant": "All orders, duplicates, forgeries.", "anchors": ["src/share/vss/pedersen/vss.rs: verify_response, add_response"]}
{"id": "C50", "title": "Pedersen VSS: a valid justification clears the complaint", "statement": "After process_justification with a valid deal for a complained index, that complaint no longer blocks certification; with an invalid deal the dealer is marked bad forever.", "quantifier": "all states with complaints", "why_tests_cant": "Order and state dependent.", "anchors": ["src/share/vss/pedersen/vss.rs: verify_justification, process_justification"]}
{"id": "C51", "title": "Pedersen VSS: threshold and session pinning", "statement": "A verifier's threshold and session id once set by set_threshold / an accepted deal cannot be changed by a later message; a deal with a threshold different from the configured one is not approved.", "quantifier": "all states and deals", "why_tests_cant": "Adversarial first deals.", "anchors": ["src/share/vss/pedersen/vss.rs: verify_deal, set_threshold, process_encrypted_deal"]}
{"id": "C52", "title": "Session id binds dealer, verifiers, commitments and threshold", "statement": "Two sessions with different dealer key, verifier list, commitments or threshold have different session-id transcripts (so equal ids imply a hash collision).", "quantifier": "all parameter tuples", "why_tests_cant": "Injectivity over all tuples.", "anchors": ["src/share/vss/pedersen/vss.rs: session_id", "src/share/vss/rabin/vss.rs: session_id"]}
{"id": "C53", "title": "Rabin VSS: honest dealer is always approved", "statement": "As C46 for the Rabin scheme (two polynomials, Pedersen commitments).", "quantifier": "all secrets, n, t, positions", "why_tests_cant": "All n,t.", "anchors": ["src/share/vss/rabin/vss.rs: new_dealer, process_encrypted_deal, verify_deal, process_response"]}
{"id": "C54", "title": "Rabin VSS: approved deals are consistent and hiding", "statement": "An approved deal satisfies the double commitment equation; two different openings of the same commitment at an index reveal log_G H; for fixed commitments every secret is possible (perfect hiding).", "quantifier": "all deals", "why_tests_cant": "Adversarial deals.", "anchors": ["src/share/vss/rabin/vss.rs: verify_deal, recover_secret"]}
{"id": "C55", "title": "Rabin VSS: certification rule and timeout", "statement": "deal_certified holds iff at least t approvals, every verifier answered and the dealer is not bad; set_timeout records a complaint for exactly the missing verifiers and changes no existing response.", "quantifier": "all states", "why_tests_cant": "All histories.", "anchors": ["src/share/vss/rabin/vss.rs: deal_certified, enough_approvals, clean_verifiers, set_timeout"]}
{"id": "C56", "title": "Rabin VSS: a valid justification turns the complaint into an approval", "statement": "After a valid justification the complaining index counts as approval; an invalid one marks the dealer bad; bad dealer is permanent and blocks certification.", "quantifier": "all states", "why_tests_cant": "All histories.", "anchors": ["src/share/vss/rabin/vss.rs: verify_justification"]}
{"id": "C57", "title": "Pedersen DKG: all honest participants get the same public key and matching shares", "statement": "In a fault-free run every participant obtains the same commitments; share i equals the joint polynomial at i; any t shares recover a secret whose public key is the distributed key.", "quantifier": "all n, t, secrets, message orders", "why_tests_cant": "All n,t and orders of messages.", "anchors": ["src/share/dkg/pedersen/dkg.rs: process_deal, process_response, dist_key_share, dkg_key, qual"]}
{"id": "C58", "title": "Pedersen DKG: threshold certification", "statement": "threshold_certified and dist_key_share succeed only when at least the configured threshold of deals are certified, for every way the threshold can be configured (including the default).", "quantifier": "all configurations and states", "why_tests_cant": "Default threshold is only exercised implicitly.", "anchors": ["src/share/dkg/pedersen/dkg.rs: threshold_certified, certified, dist_key_share, new_dist_key_handler, dkg_key"]}
{"id": "C59", "title": "Resharing preserves the secret", "statement": "After a resharing in which enough old holders deal, the new shares are on a polynomial of the new threshold whose secret (and public key) is the old one.", "quantifier": "all old/new groups, thresholds, subsets of dealers", "why_tests_cant": "All subsets.", "anchors": ["src/share/dkg/pedersen/dkg.rs: resharing_key, deals, process_deal"]}
{"id": "C60", "title": "Resharing rejects deals not built from the dealer's old share", "statement": "In resharing a deal whose public commitment does not match the dealer's old public share leads to a complaint being recorded, so it cannot be certified.", "quantifier": "all adversarial deals", "why_tests_cant": "Adversarial inputs.", "anchors": ["src/share/dkg/pedersen/dkg.rs: process_deal (reject), unsafe_set_response_dkg"]}
{"id": "C61", "title": "Refreshing shares keeps the public key", "statement": "renew(g) with a zero-secret refresh keeps the distributed public key and secret, changes shares consistently, rejects a refresh with a non-zero secret or different index, and does not panic.", "quantifier": "all key shares", "why_tests_cant": "All shares and lengths.", "anchors": ["src/share/dkg/pedersen/dkg.rs: renew"]}
{"id": "C62", "title": "Rabin DKG: agreement of honest run", "statement": "As C57 for Rabin DKG with revealed commitments.", "quantifier": "all n,t,secrets", "why_tests_cant": "All n,t.", "anchors": ["src/share/dkg/rabin/dkg.rs: process_secret_commits, dist_key_share, qual"]}
{"id": "C63", "title": "Rabin DKG: complaints and reconstruction", "statement": "A secret-commit inconsistent with the received share is answered with a complaint; after t valid reconstruct messages for a dealer the reconstructed commitment equals the commitment of the dealer's real polynomial; forged reconstruct shares cannot change it.", "quantifier": "all histories", "why_tests_cant": "Adversarial messages.", "anchors": ["src/share/dkg/rabin/dkg.rs: process_secret_commits, process_complaint_commits, process_reconstruct_commits"]}
{"id": "C64", "title": "Signed protocol messages bind their session", "statement": "The signed transcript of every DKG/VSS message determines all its fields including the session id; the context under which deals are encrypted determines the dealer and the whole list of verifiers.", "quantifier": "all pairs of messages", "why_tests_cant": "Injectivity over all message pairs.", "anchors": ["src/share/dkg/rabin/dkg.rs: SecretCommits::hash, ComplaintCommits::hash, ReconstructCommits::hash", "src/share/vss/pedersen/vss.rs: Response::hash, Justification::hash"]}
{"id": "C65", "title": "Duplicate participants are rejected or handled consistently", "statement": "A node list with a repeated public key never yields a handler that reports success but cannot process deals (no panic on a later well-formed message).", "quantifier": "all node lists", "why_tests_cant": "Rare configuration.", "anchors": ["src/share/dkg/pedersen/dkg.rs: new_dist_key_handler, init_verifiers, process_deal"]}
{"id": "C66", "title": "Generated key pairs are consistent", "statement": "util::key::Pair::gen gives public = private*G for custom and random generators; Ed25519 generated secrets are clamped (multiple of 8, bit 254 set, bit 255 clear).", "quantifier": "all streams", "why_tests_cant": "All seeds.", "anchors": ["src/util/key/key_pair.rs: gen", "src/group/edwards25519/curve.rs: new_key_and_seed_with_input, new_key"]}
{"id": "C67", "title": "Machine integer conversions of Int", "statement": "uint64() and int64() return the stored value modulo 2^64 (unsigned, two's complement) for every stored value, and undo set_uint64 / set_int64 for non-negative arguments below the modulus.", "quantifier": "every stored value", "why_tests_cant": "Values above 2^64.", "anchors": ["src/group/integer_field/integer.rs: int64, uint64, set_int64, set_uint64"]}
{"id": "C68", "title": "Int::sqrt returns a modular square root", "statement": "sqrt(a) returns r with r*r = a mod m when a is a square modulo m, and an error otherwise.", "quantifier": "every modulus and value", "why_tests_cant": "All residues.", "anchors": ["src/group/integer_field/integer.rs: sqrt"]}
{"id": "C69", "title": "Int equality means the same field element", "statement": "Two Int values compare equal iff they are the same element of the same field. cmpr orders values of one field by their residues, nonzero is false exactly of the zero element, and set makes the receiver the same element of the same field as its argument.", "quantifier": "every pair of Int values", "why_tests_cant": "All pairs, different moduli.", "anchors": ["src/group/integer_field/integer.rs: equal, cmpr, PartialEq, nonzero, set"]}
{"id": "C70", "title": "Integer-to-scalar constants are exact", "statement": "new_scalar_int(v) for a non-negative integer v yields a 32-byte scalar whose little-endian value is v mod 8l; in particular the constants built with it, l and the cofactor 8, are held exactly and not reduced modulo l.", "quantifier": "for all non-negative integers v of any size", "why_tests_cant": "The constants are two fixed calls; a test of them says nothing about values at or above 8l or about how many bytes are written.", "anchors": ["src/group/edwards25519/scalar.rs:2085-2088", "src/group/edwards25519/scalar.rs:33-43"]}
{"id": "C71", "title": "Field addition, negation and conditional move", "statement": "fe_add, fe_sub and fe_neg are exact on the represented integers (no carry, no wrap) whenever the sum of the input bounds stays within the multiplication's input bounds; fe_c_move with 0 keeps and with 1 replaces the destination, limb for limb.", "quantifier": "all limb vectors within bounds", "why_tests_cant": "Limb extremes.", "anchors": ["src/group/edwards25519/fe.rs: fe_add, fe_sub, fe_neg, fe_c_move"]}
{"id": "C72", "title": "VSS: justifications come from the dealer", "statement": "A verifier acts on a justification only if it is signed by the dealer for the current session and carries the deal of the complaining index.", "quantifier": "all states and justifications", "why_tests_cant": "Forged messages are unbounded.", "anchors": ["src/share/vss/pedersen/vss.rs: verify_justification, process_justification", "src/share/vss/rabin/vss.rs: verify_justification, process_justification"]}
{"id": "C73", "title": "Rabin VSS: a verifier never panics", "statement": "Every public method of a Rabin verifier returns a value or an error, in every state, including before the first deal, and for every decodable message.", "quantifier": "all verifier states, deals, responses, justifications", "why_tests_cant": "Malformed messages and call orders are unbounded.", "anchors": ["src/share/vss/rabin/vss.rs: Deref for Verifier, session_id, deal_certified, enough_approvals, decrypt_deal, process_encrypted_deal, process_justification"]}
{"id": "C74", "title": "Rabin DKG: only a cheating dealer has its shares published", "statement": "A commitment complaint makes the other participants publish their shares of a dealer only if that dealer's revealed commitments are inconsistent with the deals it handed out; no complaint about an honest dealer has that effect.", "quantifier": "all participants, states and complaints signed by a member of QUAL", "why_tests_cant": "Complaints are attacker-chosen; tests only send honestly made ones.", "anchors": ["src/share/dkg/rabin/dkg.rs: process_complaint_commits", "src/share/vss/rabin/vss.rs: verify_deal"]}
{"id": "C75", "title": "Distributed signatures: reuse of the random key is not refused and reveals the long-term key", "statement": "Two DSS signers built from the same long-term and random key shares for two messages both produce partial and final signatures; whenever the two challenges differ, the two partials reveal the participant's long-term share and the two signatures reveal the long-term secret.", "quantifier": "all shared keys, messages, histories of both signers", "why_tests_cant": "A test signs one message; the consequence of reuse is an algebraic fact about all pairs of signatures.", "anchors": ["src/sign/dss/dss_sig.rs: new_dss, partial_sig, signature, session_id"]}
{"id": "C76", "title": "An ECIES ciphertext opens only for the recipient it was made for", "statement": "If decrypt(private, ctx) returns a message then ctx was made for that private key's public key: decrypting the same ctx with another private key does not return a message.", "quantifier": "all private keys, all byte strings ctx", "why_tests_cant": "Adversarial ctx and all key pairs.", "anchors": ["src/encrypt/ecies/ecies_impl.rs: decrypt"]}
{"id": "C77", "title": "ECIES ciphertexts are not malleable", "statement": "No byte string other than ctx decrypts to the same message with the same ephemeral point: replacing any byte of an ECIES ciphertext is noticed.", "quantifier": "all ciphertexts and replacements", "why_tests_cant": "All replacements.", "anchors": ["src/encrypt/ecies/ecies_impl.rs: decrypt"]}
{"id": "C78", "title": "Qualified share holders are exactly the responsive ones", "statement": "qualified_shares() lists, in increasing order and without repetition, exactly the indices of new holders for which every deal that has a response and no recorded complaint also has a recorded response of that holder.", "quantifier": "all handler states", "why_tests_cant": "All combinations of recorded responses.", "anchors": ["src/share/dkg/pedersen/dkg.rs: qualified_shares"]}
{"id": "C79", "title": "Expected number of deals", "statement": "expected_deals() of a new handler is the number of dealers other than the handler itself if it is a new holder, and 0 otherwise.", "quantifier": "all configurations with distinct dealers", "why_tests_cant": "All node lists.", "anchors": ["src/share/dkg/pedersen/dkg.rs: expected_deals, new_dist_key_handler"]}
{"id": "C80", "title": "Picked points generate the prime-order subgroup", "statement": "pick(stream) returns a point different from the neutral element that is a multiple of the base point; it is 8 P for the first P the stream delivers with 8 P not neutral.", "quantifier": "all streams", "why_tests_cant": "The point is random; membership in the subgroup cannot be seen from samples, and the rare strings of small order never come up.", "anchors": ["src/group/edwards25519/point.rs: pick, embed"]}
{"id": "C81", "title": "Hash and order of points agree with equality", "statement": "Two points that are equal under == are fed to a hasher as the same bytes and compare as equal under Ord.", "quantifier": "all pairs of points in all representations", "why_tests_cant": "A test compares two points made the same way.", "anchors": ["src/group/edwards25519/point.rs: PartialEq, Hash, derive(Ord, PartialOrd)"]}
{"id": "C82", "title": "Streamed points and scalars are read back", "statement": "What marshal_to appends to a writer is read back by unmarshal_from as an equal point (scalar) and nothing else of the stream is consumed; a stream that is too short gives an error and leaves the receiver; a 32-byte string that encodes no point gives an error, after which the receiver holds no point of the curve.", "quantifier": "all points, scalars, streams and receivers", "why_tests_cant": "All byte strings and surrounding streams.", "anchors": ["src/group/internal/marshalling/marshal.rs: point_marshal_to, point_unmarshal_from, scalar_marshal_to, scalar_unmarshal_from", "src/group/edwards25519/point.rs: unmarshal_binary", "src/group/edwards25519/ge.rs: set_bytes"]}
{"id": "C83", "title": "Decoded points lie in the prime-order subgroup", "statement": "A byte string accepted by unmarshal_binary, is_canonical and has_small_order encodes a multiple of the base point.", "quantifier": "all byte strings", "why_tests_cant": "All 2^256 strings; an honest encoding never shows the cofactor.", "anchors": ["src/group/edwards25519/point.rs: unmarshal_binary, is_canonical, has_small_order"]}
{"id": "C84", "title": "Share verification on edwards25519 binds the share to the committed secret", "statement": "PubPoly::check(i, v) on edwards25519 accepts exactly if v times the base point is the sum of (1+i)^k commits[k]; shares that pass it at threshold many indices interpolate to the secret committed to in commits[0].", "quantifier": "all commitments (any points of the curve), indices and shares", "why_tests_cant": "Dishonest commitments with a component of small order.", "anchors": ["src/share/poly.rs: PubPoly::eval, PubPoly::check", "src/group/edwards25519/point.rs: mul, add, eq"]}
{"id": "C85", "title": "The edwards25519 code meets the laws the protocols rely on", "statement": "With scalar.rs, point.rs (prime-order subgroup), Schnorr signatures and the AEAD of dh_impl.rs plugged in, scalars modulo l are a field, points a vector space over it, encodings are injective and of fixed length, signatures made with an accepted key and nonce verify, and sealed messages open; so every property proved for an abstract suite holds for this code.", "quantifier": "all scalars, points, keys, nonces, messages", "why_tests_cant": "The protocol proofs are over an abstract suite; this closes the gap for all inputs.", "anchors": ["src/group/edwards25519/scalar.rs", "src/group/edwards25519/point.rs", "src/sign/schnorr/schnorr_sig.rs: sign, verify", "src/dh/dh_impl.rs: AEAD"]}
{"id": "C86", "title": "Distributed key generation followed by threshold signing gives a valid EdDSA signature", "statement": "After a fault-free run of the Pedersen (or Rabin) DKG for the long-term key and another for the nonce over edwards25519, any threshold many participants that exchange partial signatures all succeed, and the result passes eddsa::verify under the generated public key (unless key or nonce point has one of the y-coordinates of C31).", "quantifier": "all group sizes, thresholds, keys, secrets, orders of delivery, subsets of signers, messages", "why_tests_cant": "Four layers composed, all sizes and schedules.", "anchors": ["src/share/dkg/pedersen/dkg.rs", "src/share/dkg/rabin/dkg.rs", "src/sign/dss/dss_sig.rs: new_dss, partial_sig, process_partial_sig, signature, verify", "src/sign/eddsa/eddsa_sig.rs: verify_with_checks"]}
{"id": "C87", "title": "Both keys matter in a key agreement", "statement": "dh_exchange(private, public) never returns the neutral element for a public key other than the neutral element and a private key that is not a multiple of the group order, and different private (public) keys give different shared points.", "quantifier": "every private key, every public key that decodes", "why_tests_cant": "The weak public keys are eight points among 2^255; whether any of them, or a mixture with an ordinary key, defeats the agreement is a statement about the whole curve group.", "anchors": ["src/dh/dh_impl.rs: dh_exchange", "src/group/edwards25519/point.rs: mul", "src/group/edwards25519/curve.rs: new_key"]}
{"id": "C88", "title": "Messages survive the wire", "statement": "For every message type of the VSS, DKG and DSS protocols, shares, distributed key shares, key pairs, points and scalars: unmarshal_binary of marshal_binary(m), with anything appended, succeeds and gives m whatever the receiver held; a message cut short is refused and leaves the receiver as it was; whatever is accepted is the encoding of a value of the type followed by surplus bytes; no byte string makes unmarshal_binary panic.", "quantifier": "all values of the types, all byte strings, all receivers", "why_tests_cant": "Nested variable-length fields: truncations and lengths are unbounded; tests encode one value.", "anchors": ["src/encoding/encodings.rs: marshal_binary, unmarshal_binary", "src/share/vss/pedersen/vss.rs: Deal, EncryptedDeal, Response, Justification", "src/share/vss/rabin/vss.rs", "src/share/dkg/pedersen/structs.rs", "src/share/dkg/rabin/dkg.rs", "src/sign/dss/dss_sig.rs: PartialSig", "src/share/poly.rs: PriShare, PubShare"]}
{"id": "C89", "title": "A message has one encoding", "statement": "At most one byte string is accepted by unmarshal_binary as a given message, and no message's encoding is the beginning of another's.", "quantifier": "all messages, all byte strings", "why_tests_cant": "Malleability is a statement about all strings.", "anchors": ["src/encoding/encodings.rs: marshal_binary, unmarshal_binary", "src/share/dkg/pedersen/structs.rs: Deal"]}
{"id": "C90", "title": "Equal deals are signed alike", "statement": "Two DKG deals that are equal (==) are signed over the same bytes, and deals signed over the same bytes are equal; so a signature valid for a deal is valid for every equal deal and for no other.", "quantifier": "all pairs of deals", "why_tests_cant": "Equal points have many representations; tests only meet one.", "anchors": ["src/share/dkg/pedersen/structs.rs: Deal::marshal_binary", "src/share/dkg/pedersen/dkg.rs: deals, process_deal", "src/group/edwards25519/point.rs: PartialEq, derive(Serialize)"]}
{"id": "C91", "title": "Messages carry only valid points and scalars", "statement": "Every point in a message accepted by unmarshal_binary is a point of the curve (its own marshal_binary decodes again) and every scalar is reduced modulo the group order.", "quantifier": "all byte strings", "why_tests_cant": "Tests decode only what they encoded.", "anchors": ["src/encoding/encodings.rs: marshal_binary, unmarshal_binary", "src/group/edwards25519/point.rs: derive(Deserialize)", "src/group/edwards25519/scalar.rs: derive(Deserialize)"]}
{"id": "C92", "title": "Approved deals of one session carry the same public polynomial", "statement": "Verifiers that approve deals with equal commitments (equal encodings, hence the same session identifier) compute equal sums of public polynomials, so their distributed key shares agree on all commitments.", "quantifier": "all commitments as received, all indices and shares", "why_tests_cant": "The commitments are equal under every test the code makes; the difference only shows after an addition.", "anchors": ["src/share/poly.rs: PubPoly::eval, check, add", "src/share/vss/pedersen/vss.rs: verify_deal, session_id", "src/share/dkg/pedersen/dkg.rs: dist_key_share", "src/group/edwards25519/ge.rs: add, write_bytes"]}
{"id": "C93", "title": "Key generation and threshold signing over the real message bytes", "statement": "The deals that dealers produce survive encoding to bincode bytes and decoding, whatever limbs their points have; the bytes a Pedersen DKG participant signs determine the index and every field of the encrypted deal; with this format, two runs of either DKG followed by partial signatures of any t participants give a signature that the EdDSA verifier accepts under the generated key.", "quantifier": "all deals, groups, thresholds, secrets, delivery orders and messages, all limb representations", "why_tests_cant": "The whole pipeline for every group size, delivery order and representation.", "anchors": ["src/encoding/encodings.rs: marshal_binary, unmarshal_binary", "src/share/vss/pedersen/vss.rs: Deal", "src/share/vss/rabin/vss.rs: Deal", "src/share/dkg/pedersen/structs.rs: Deal::marshal_binary", "src/sign/dss/dss_sig.rs"]}
{"id": "C94", "title": "A saved state resumes exactly", "statement": "Writing any state (private and public polynomials, VSS dealers, verifiers and aggregators of both protocols, DKG configurations and generators, threshold signing sessions) with the derived serialization and reading it back gives the same state, whatever follows in the file and whatever value is overwritten; the order in which a HashMap is written does not matter, repeated keys keep the last entry, and no proper prefix of a saved file is accepted. Equal states need not give equal files.", "quantifier": "all well-formed states, all trailing bytes", "why_tests_cant": "Tests save freshly built states only, with one iteration order.", "anchors": ["src/encoding/encodings.rs: marshal_binary, unmarshal_binary", "src/share/vss/pedersen/vss.rs: Dealer, Verifier, Aggregator", "src/share/vss/rabin/vss.rs: Dealer, Verifier, Aggregator", "src/share/dkg/pedersen/dkg.rs: Config, DistKeyGenerator", "src/share/dkg/rabin/dkg.rs: DistKeyGenerator", "src/sign/dss/dss_sig.rs: DSS", "src/share/poly.rs: PriPoly, PubPoly"]}
{"id": "C95", "title": "Printing a value does not disclose its secrets", "statement": "Display and Debug of private shares, private polynomials, deals, justifications, dealers, verifiers, aggregators, key shares, configurations, key generators, signing sessions and key pairs depend only on the public fields: two values that differ in secret scalars, shares, polynomials or entropy print the same text. Debug of EdDSA prints the secret scalar, seed and prefix.", "quantifier": "all pairs of values with the same public fields", "why_tests_cant": "Tests print one value; independence of a secret is a statement about pairs.", "anchors": ["src/share/poly.rs: Display, Debug", "src/share/vss/pedersen/vss.rs: Display, Debug", "src/share/vss/rabin/vss.rs: Display, Debug", "src/share/dkg/pedersen/{dkg,structs}.rs: Display, Debug", "src/share/dkg/rabin/dkg.rs: Display, Debug", "src/sign/dss/dss_sig.rs: Display, Debug", "src/sign/eddsa/eddsa_sig.rs: derive(Debug)", "src/util/key/key_pair.rs: Display, Debug"]}
{"id": "C96", "title": "The text of a scalar, point or integer determines it", "statement": "The hexadecimal text of a scalar, point or integer can be read back to an equal value; two values have the same Display text exactly when they are equal. For negative integers the sign is lost, and Debug of equal points can differ. PriPoly::string determines the coefficients.", "quantifier": "all scalars, all points in any coordinates, all integers", "why_tests_cant": "Injectivity over all values, and over all coordinate representations of a point.", "anchors": ["src/group/edwards25519/scalar.rs: LowerHex, UpperHex, Display", "src/group/edwards25519/point.rs: LowerHex, UpperHex, Display, Debug", "src/group/integer_field/integer.rs: LowerHex, UpperHex, Display, set_string", "src/share/poly.rs: PriPoly::string"]}
{"id": "C97", "title": "The key generator's secret comes from the configured entropy", "statement": "Without a share, new_dist_key_handler picks the secret coefficient from the user's reader alone (user_reader_only), from the user's and the system's readers together, or from the system's alone. The result is the first attempt whose hashed bytes give a number in [1, l); with user_reader_only it does not depend on the system's source; a user source that delivers nothing is silently ignored when combined. With user_reader_only a source that runs dry before such an attempt makes the constructor loop forever, and the other coefficients still come from the system, so the deals are not reproducible.", "quantifier": "all hash and XOF functions with byte outputs, all readers, all configurations", "why_tests_cant": "Independence of a source and non-termination are statements about all sources and all executions.", "anchors": ["src/share/dkg/pedersen/dkg.rs: Config.reader, Config.user_reader_only, new_dist_key_handler", "src/util/random/random_stream.rs: RandStream"]}
{"id": "C98", "title": "Scalar multiplication and inversion are constant time unless a point asks otherwise", "statement": "The sequence of branches taken, array indices and calls in Point::mul is the same for all 32-byte scalars and all operands when the receiver's var_time flag is unset (every receiver the library creates), whatever the operand's flag; the same holds for Scalar::inv. When the receiver's flag is set (only deserialization can do that) the sequence determines the whole scalar.", "quantifier": "all scalars of 32 bytes, all points", "why_tests_cant": "Timing tests sample scalars; equality of traces over all pairs of scalars cannot be sampled.", "anchors": ["src/group/edwards25519/point.rs: mul", "src/group/edwards25519/ge.rs: ge_scalar_mult, ge_scalar_mult_base, select_cached, select_pre_computed", "src/group/edwards25519/ge_mult_vartime.rs: ge_scalar_mult_vartime", "src/group/edwards25519/scalar.rs: inv"]}
{"id": "C99", "title": "The hash of a share binds its value and index", "statement": "PriShare::hash and PubShare::hash never fail; two shares hash to the same bytes exactly when their values are the same (scalars modulo l, points as points) and their indices agree modulo 2^32, up to collisions of the hash function. For indices below 2^32 and reduced scalars the hash therefore binds the whole share as == compares it; indices of 2^32 and more, and unreduced scalars, do not stay apart.", "quantifier": "all hash functions, all scalars of 32 bytes, all points, all indices", "why_tests_cant": "Binding is a statement about all pairs of shares.", "anchors": ["src/share/poly.rs: PriShare::hash, PubShare::hash"]}
{"id": "C100", "title": "The order of scalars is total and agrees with equality", "statement": "The derived order of Scalar is a strict total order, equal exactly for scalars that are ==; it is decided by the least significant byte in which the scalars differ, so it is not the order of the numbers (256 sorts before 1).", "quantifier": "all byte strings", "why_tests_cant": "Order laws range over all triples.", "anchors": ["src/group/edwards25519/scalar.rs: derive(Ord, PartialOrd) of Scalar"]}
{"id": "C101", "title": "RandStream keeps the contract of Stream", "statement": "Multiple calls of xor_key_stream behave as if the concatenation of the src buffers was passed in a single run, so a stream in the same state decrypts however the text is cut. RandStream does not: every call hashes new bytes of its readers and starts a new key stream, so it decrypts only with pieces of the same lengths, and readers that repeat themselves make it use the same key stream twice. Destinations longer or shorter than the source are refused without consuming entropy.", "quantifier": "all hash and XOF functions, all readers, all histories of calls", "why_tests_cant": "Cutting points and reader behaviours are unbounded.", "anchors": ["src/cipher/stream.rs: Stream", "src/util/random/random_stream.rs: RandStream::xor_key_stream"]}
{"id": "C102", "title": "A key survives handovers and refreshes", "statement": "Whatever happened to a distributed key - generated by either protocol, its shares refreshed with renew, handed over by resharing to other holders with another threshold, any number of times and in any order - every present holder reports the public key generated at first, any t of them recover the same secret, and any t of them who run the signing protocol obtain a signature that EdDSA verification accepts under that public key.", "quantifier": "all groups, keys, thresholds, numbers and orders of epochs, event histories of the resharings, subsets of at least t holders, messages, nonces", "why_tests_cant": "The number of epochs and the message orders in each are unbounded.", "anchors": ["src/share/dkg/pedersen/dkg.rs: dist_key_share, resharing_key, renew", "src/sign/dss/dss_sig.rs: new_dss, partial_sig, process_partial_sig, signature", "src/sign/eddsa/eddsa_sig.rs: verify"]}
{"id": "C103", "title": "What reconstruction does with wrong shares", "statement": "recover_secret and recover_commit on shares with distinct indices return the Lagrange combination at 0 of the t smallest indices, for any values and any iteration order of the hash map. Nothing is checked: one wrong share among those t always gives a wrong secret reported as a success, and its holder can choose the shift; wrong shares with larger indices have no effect and are not noticed either.", "quantifier": "all share values, sets of indices, thresholds, hash orders", "why_tests_cant": "The error is a value, not a failure, and depends on which indices are present.", "anchors": ["src/share/poly.rs: recover_secret, recover_commit, xy_scalar, xy_commit"]}
{"id": "C104", "title": "Refreshing is proactive", "statement": "An intruder who learns fewer than t key shares in every epoch - of other holders each time, in any number of epochs separated by renew - learns nothing about the secret: every secret is consistent with the shares seen. Shares of different epochs do not mix: with old shares among renewed ones recover_secret returns the secret shifted by the refresh polynomial's combination at the old indices; with one old share it is the secret only if the refresh left that share unchanged.", "quantifier": "all polynomials, numbers of epochs, families of corrupted sets below the threshold, secrets, subsets of old holders", "why_tests_cant": "Secrecy quantifies over all secrets and all corruption patterns.", "anchors": ["src/share/dkg/pedersen/dkg.rs: renew", "src/share/poly.rs: recover_secret"]}
{"id": "C105", "title": "Honest participants agree on the public key", "statement": "Participants of the Pedersen DKG that finish, whatever the others and the network do, hold the same public key and shares of one polynomial. This fails: a corrupted dealer can deal two different polynomials and replay, under its own dealer index, the approvals that honest participants gave to honest deals (responses are accepted before the deal, without comparing the session id); two honest participants then finish with every deal certified, no complaint, no timeout, each with a share matching its own commitments - and with different public keys. What does hold: participants that certified the same dealers with the same commitments per dealer have the same public polynomial, and if none accepts a response under its own index from the network, as many of them as there are commitments recover the discrete logarithm of that key.", "quantifier": "all groups, histories (deals, responses, justifications and timeouts, genuine or not, in any order), map orders, subsets of participants", "why_tests_cant": "An honest test network never sends two versions of a deal or replays a response under another index.", "anchors": ["src/share/dkg/pedersen/dkg.rs: process_deal, process_response, dist_key_share, dkg_key", "src/share/vss/pedersen/vss.rs: Aggregator::verify_response, add_response, deal_certified"]}
{"id": "C106", "title": "Commitments and partial signatures reveal no more than the public key and the signature", "statement": "What an intruder holding t-1 shares sees beside a public key or a signature it could have computed itself: the commitments of a Pedersen dealer are a fixed linear function of the public key of its secret and of the t-1 shares dealt to the intruder; so are the commitments of a distributed key; and the partial signature of every signer of a DSS session is a fixed function of the final signature and the t-1 partial signatures of the intruder. The coefficients depend only on the indices.", "quantifier": "all secrets, polynomials, messages, thresholds, sets of t-1 indices, signers", "why_tests_cant": "Simulatability is a statement about every execution at once.", "anchors": ["src/share/poly.rs: PriPoly::commit, PriPoly::eval", "src/share/vss/pedersen/vss.rs: new_dealer, plaintext_deal", "src/sign/dss/dss.rs: partial_sig"]}
{"id": "C107", "title": "Honest participants of the Rabin key generation agree on the public key", "statement": "Participants of the Rabin DKG that finish hold the same public key and shares of one polynomial. Without a reliable broadcast of the revealed commitments this fails: a dealer whose deal is correct reveals different commitments to two honest participants, each fitting the receiver's own share; both accept without complaint and finish with different public keys (the commitments carry no reference to what others received, and nothing is compared afterwards). What does hold: participants with the same QUAL and the same commitments for its members have the same public polynomial whatever else they received; if none got a deal under its own index from outside and nobody's commitments were reconstructed, as many of them as there are commitments recover the discrete logarithm of that key.", "quantifier": "all groups, histories of all message kinds, map orders, subsets of participants", "why_tests_cant": "A test network broadcasts the same message to all.", "anchors": ["src/share/dkg/rabin/dkg.rs: process_secret_commits, dist_key_share, qual_iter"]}
{"id": "C108", "title": "Before the commitments are revealed, fewer than t participants learn nothing about a Rabin participant's secret", "statement": "For every participant with secret s, every set A of fewer than t participants and every other secret s', there are coefficients with which a participant sharing s' returns, call after call, exactly the same values: the deals for the members of A, the responses to others' deals, the justifications (of complaints by members of A), commitment complaints and reconstruction messages, errors, and the set QUAL. This holds in every history up to the call of secret_commits(). The second generator must be a non-zero multiple of the base; nobody has to know which.", "quantifier": "every secret, every coalition below the threshold, every history of calls and (adversarial) messages before the reveal", "why_tests_cant": "It compares the real run with a run nobody performs, for every secret and history.", "anchors": ["src/share/dkg/rabin/dkg.rs: deals, process_deal, process_response, process_justification, set_timeout, process_secret_commits, process_complaint_commits, process_reconstruct_commits, qual", "src/share/vss/rabin/vss.rs: new_dealer, Dealer::process_response"]}
{"id": "C109", "title": "Once the deals are out and QUAL is fixed, the Rabin key can no longer be biased", "statement": "Take a set Q of participants and a first phase in which they receive the deals of all members of their QUAL (none under their own index from outside). Take any two continuations - any commitments revealed, withheld or contested, any responses, justifications, timeouts - that end with the same QUAL, in each of which the participants of Q use the same commitments for every member of QUAL, reconstruct nobody's, and obtain a key with at most |Q| commitments. Then every participant of Q obtains the same share and the same public polynomial (hence public key) in both. With fewer participants than commitments this fails: one participant accepts two reveals giving different keys.", "quantifier": "every set Q, group, history, pair of continuations and revealed commitments", "why_tests_cant": "It relates two executions that share a prefix, for all continuations.", "anchors": ["src/share/dkg/rabin/dkg.rs: process_deal, process_response, process_justification, secret_commits, process_secret_commits, process_complaint_commits, process_reconstruct_commits, dist_key_share, qual", "src/share/vss/rabin/vss.rs: Verifier::deal", "src/share/poly.rs: PubPoly::add, check"]}
{"id": "C110", "title": "Rabin DKG: an upheld commitment complaint is final", "statement": "Once a participant has accepted a complaint about a dealer's revealed commitments, those commitments are not used again: they are replaced by reconstructed ones, which stay, and a participant that has reconstructed them can finish. True in every history in which no SecretCommits message of that dealer is processed afterwards. False otherwise: process_secret_commits does not look at whether the commitments were contested or reconstructed, so delivering the dealer's first message once more (anybody can, it is signed) makes honest participants finish with different public keys although everything is broadcast; and after the second complaint the participant that reconstructed once can never reconstruct again and never gets a key.", "quantifier": "every participant state, dealer and further history of calls and messages", "why_tests_cant": "It is about all later histories after a complaint; the failure needs a complaint, a reconstruction and a replay in one run.", "anchors": ["src/share/dkg/rabin/dkg.rs: process_secret_commits, process_complaint_commits, process_reconstruct_commits, dist_key_share"]}
{"id": "C111", "title": "DKG: a message delivered twice counts once", "statement": "In both key generations, processing a message a second time immediately after the first leaves the participant exactly as the first left it, whatever the message, the participant's state, the outcome of the first processing and the randomness used: deals, responses and justifications (Pedersen, initial and resharing), and also secret commitments, commitment complaints and reconstruction shares (Rabin). A deal, and a response (in Rabin also a justification) that was accepted once, changes nothing however much later it is delivered again. A late repetition of secret commitments is C110.", "quantifier": "every participant state, message, randomness, hash map order and history between the two deliveries", "why_tests_cant": "Every state and every message, malformed ones included; the later repetition is over all histories.", "anchors": ["src/share/dkg/pedersen/dkg.rs: process_deal, process_response, process_justification", "src/share/dkg/rabin/dkg.rs: process_deal, process_response, process_justification, process_secret_commits, process_complaint_commits, process_reconstruct_commits"]}
{"id": "C112", "title": "A dealer publishes a share only when its owner complained about that deal", "statement": "In both distributed key generations process_response returns a justification (which contains a share in the clear) only in answer to a complaint signed by the participant the share belongs to, about this dealer's own deal and in its session; the justification contains exactly that participant's share and no other. True for the Rabin protocol and for every Pedersen participant that belongs to the new group. False for a holder that leaves in a resharing: it does not check the session, and the index of the dealer is outside the signature, so an honest new node's justified complaint about another, cheating, dealer can be relabelled; every leaving holder then publishes that node's share of its good deal, and t-1 corrupted new nodes learn the old shares. A leaving holder does answer every first complaint.", "quantifier": "all configurations, histories of calls and messages, and responses", "why_tests_cant": "The answer depends on the history, and the failure needs a complaint taken from another dealer's session.", "anchors": ["src/share/dkg/pedersen/dkg.rs: process_response, process_resharing_response", "src/share/dkg/rabin/dkg.rs: process_response", "src/share/vss/pedersen/vss.rs: verify_response, process_response"]}
{"id": "C113", "title": "The order in which messages arrive does not matter between honest participants", "statement": "When all participants are honest and each deal, response and secret commitment is delivered exactly once to every other participant, all of them finish, with the same public key and with shares that do not depend on the order of delivery. True for the Pedersen key generation, including responses that arrive before the deal they are about. For the Rabin key generation it is true when a participant gets each response after the deal it is about and each secret commitment after the responses about that dealer. Otherwise it is false: a response that overtakes its deal is refused with ComplaintWithoutDeal and has no effect, so its receiver leaves that dealer out; three honest participants then finish with two different public keys. A secret commitment that overtakes a response is refused as well, and its receiver never finishes.", "quantifier": "all groups, thresholds, secrets, polynomials, coins and orders of delivery", "why_tests_cant": "A test delivers the messages phase by phase; the number of orders grows as the factorial of the number of messages.", "anchors": ["src/share/dkg/pedersen/dkg.rs: process_deal, process_response, dist_key_share", "src/share/dkg/rabin/dkg.rs: process_response, process_secret_commits, qual, finished, dist_key_share"]}
{"id": "C114", "title": "Every message a participant returns is signed by the participant it names as its author", "statement": "In both distributed key generations every deal, response, justification, secret commitment, commitment complaint and reconstruction message that a call returns carries a signature that verifies, over the message's own signed content, under the public key found at the index the message names as its author in the list of participants. True for all messages of the Rabin key generation and for deals, responses and justifications of the Pedersen key generation and of members of the new group in a resharing. False for a holder that leaves in a resharing: its justifications are returned with an empty signature.", "quantifier": "all configurations, histories of calls and messages, coins and messages answered", "why_tests_cant": "Nothing in the library verifies the signature of a justification, so a wrong or missing one goes unnoticed in every test.", "anchors": ["src/share/dkg/pedersen/dkg.rs: deals, process_deal, process_response, process_resharing_response", "src/share/dkg/rabin/dkg.rs: deals, process_deal, process_response, secret_commits, process_secret_commits, process_complaint_commits", "src/share/vss/pedersen/vss.rs: Dealer::process_response", "src/share/vss/rabin/vss.rs: Dealer::process_response"]}
{"id": "C115", "title": "A corrupted minority cannot exclude an honest dealer or stop the key generation", "statement": "Let a participant and a dealer of a distributed key generation follow the protocol, let at least threshold many participants sign no complaint about the dealer's deal, and let everybody else send anything in any order. Then the participant ends with the dealer qualified and holding the dealer's own deal, and with threshold many such dealers the key generation is certified. In the Rabin key generation this is true as long as the dealer's deal and the approvals arrive before the timeout and justifications in the dealer's name are really the dealer's; it is false without the latter, because justifications are not authenticated. In the Pedersen key generation it is false: a single complaint, signed by any participant that has not answered yet, excludes the dealer for good whatever the dealer answers, and one participant that complains about enough dealers keeps everybody from ever getting a share.", "quantifier": "all groups, thresholds, dealers, adversarial messages and their order, before and after the timeout", "why_tests_cant": "Tests complain about a deal at most once, with the only dishonest party being the one scripted, and look at the state right after; the claim is about every strategy of the corrupted participants and every later message.", "anchors": ["src/share/dkg/rabin/dkg.rs: process_deal, process_response, process_justification, set_timeout, qual", "src/share/vss/rabin/vss.rs: verify_response, verify_justification, clean_verifiers, deal_certified", "src/share/dkg/pedersen/dkg.rs: process_response, qual, dist_key_share", "src/share/vss/pedersen/vss.rs: verify_response, verify_justification, deal_certified"]}
{"id": "C116", "title": "Lengths of messages reveal nothing secret", "statement": "The number of bytes of every serialized message, key and signature is a function of public quantities only: the lengths of the session identifier and of the signatures in it, the number of commitments and the length of a ciphertext. It does not depend on share values, secret scalars, coordinates of points, indices or the status. Encryption adds a constant to the length of the plaintext. So all encrypted deals of a dealer have the same length, which depends only on the threshold, the hash size and the tag size, and everything that decrypts under ECIES is exactly point and tag shorter than its ciphertext.", "quantifier": "all messages, scalars, points, thresholds, groups of verifiers, dealers, secrets, polynomial coefficients and random values", "why_tests_cant": "Tests print or compare lengths for single values; small or special scalars, for which a variable-length encoding would be shorter, are practically never drawn.", "anchors": ["src/encoding/encodings.rs", "src/share/vss/pedersen/vss.rs: Deal, encrypted_deal", "src/share/vss/rabin/vss.rs: Deal, encrypted_deal", "src/share/dkg/pedersen/structs.rs", "src/share/dkg/rabin/dkg.rs: Deal, Justification, SecretCommits, ComplaintCommits, ReconstructCommits", "src/encrypt/ecies/ecies_impl.rs: encrypt, decrypt", "src/dh/dh_impl.rs: encrypt"]}
{"id": "C117", "title": "Threshold signing is robust", "statement": "Whatever partial signatures a signer is given (wrong, for other messages, repeated, replayed, under any index, in any order, before and after the right ones), as soon as the honest partial signatures of t participants, its own included, are among them, signature() returns the signature. It is the same signature in every history and for every set of contributors, and it is valid under the group key. Without them signature() returns an error or that same signature: no history makes it return another value or panic.", "quantifier": "all sequences of calls to partial_sig and process_partial_sig with arbitrary arguments, all keys, thresholds, messages and sets of honest participants, all iteration orders of the hash map", "why_tests_cant": "Tests deliver honest partial signatures in one order and single wrong ones; adversarial interleavings, in which a wrong message might block or replace a right one, are not generated.", "anchors": ["src/sign/dss/dss_sig.rs: partial_sig, process_partial_sig, enough_partial_sig, signature", "src/share/poly.rs: recover_secret"]}
{"id": "C118", "title": "The number n given to the recovery functions does not influence the result", "statement": "recover_secret, recover_pri_poly, recover_commit and recover_pub_poly, and the recover_secret of both secret sharing schemes, take the number n of participants besides the threshold. The result is the same for every n, smaller or larger than the number of shares; with genuine shares of t participants it is the secret. (False for n of 2^60 and more: room for n elements is reserved first and the call panics.)", "quantifier": "all n, lists of shares and deals, thresholds and iteration orders of the hash map", "why_tests_cant": "Tests pass the true number of participants.", "anchors": ["src/share/poly.rs: xy_scalar, xy_commit, recover_secret, recover_pri_poly, recover_commit, recover_pub_poly, shares", "src/share/vss/pedersen/vss.rs: recover_secret", "src/share/vss/rabin/vss.rs: recover_secret"]}
{"id": "C119", "title": "Integers are read from text exactly", "statement": "For a base from 2 to 36, set_string(n, \"\", base) stores v exactly when n is a numeral of v: one optional sign, then digits of the base in either case, underscores allowed after the first digit; every other text is an error, and no text has two values. Every integer has such a text in every base. The hexadecimal forms written by LowerHex and UpperHex are read back in base 16. With a denominator both texts must be numerals, and new_int_string stores what set_string does.", "quantifier": "all texts (byte strings), bases, moduli and byte orders", "why_tests_cant": "Tests read a few decimal and hexadecimal literals.", "anchors": ["src/group/integer_field/integer.rs: set_string, new_int_string, init_string, LowerHex, UpperHex, Display"]}
{"id": "C120", "title": "The Jacobi symbol tells squares from non-squares", "statement": "i.jacobi(a) for an odd prime modulus m of a is 0 exactly for multiples of m, 1 exactly for the other squares modulo m, -1 exactly for non-squares; for every odd positive modulus it is 0 exactly when a and m have a common factor, -1 only for non-squares, and it depends on a modulo m only; the result has the modulus of a. An even modulus panics. (The result as an element of the field, and squares from composite moduli: false.)", "quantifier": "all values, odd prime moduli (squares), all odd moduli (the rest)", "why_tests_cant": "Tests try a few values and one modulus, or none at all.", "anchors": ["src/group/integer_field/integer.rs: jacobi, marshal_binary, unmarshal_binary"]}
{"id": "C121", "title": "Integers on streams, and values read from a random stream", "statement": "Integers written one after the other with marshal_to are read back by unmarshal_from into receivers of the same moduli, and the bytes after them stay on the stream; a short or refused read never panics and takes the bytes of one integer at most. unmarshal_from_random leaves an Int in [1,m), a scalar in [1,order), and a point that is a non-zero multiple of the base point. The identifiers returned by marshal_id are distinct.", "quantifier": "all lists of integers and moduli, all streams and random sources, all receivers", "why_tests_cant": "Tests write one value to one buffer, with a fresh receiver.", "anchors": ["src/group/internal/marshalling/marshal.rs: scalar_marshal_to, scalar_unmarshal_from, scalar_unmarshal_from_random, point_unmarshal_from_random", "src/group/integer_field/integer.rs: marshal_to, unmarshal_from, unmarshal_from_random, marshal_id", "src/group/edwards25519/scalar.rs: unmarshal_from_random, pick, set_int, marshal_id", "src/group/edwards25519/point.rs: unmarshal_from_random, pick, marshal_id"]}
{"id": "C122", "title": "The accepted signatures are those the signer can make", "statement": "For a key pair (x, A = x B) with x not a multiple of the order, schnorr::verify accepts a byte string for a message exactly when schnorr::sign with x returns it for some random source and the y fields of R and A are below p - 217. Each accepted signature comes from exactly one nonce in [1, order). Two private keys with the same public key sign alike.", "quantifier": "all private keys below 2^255, all messages, all byte strings, all random sources", "why_tests_cant": "Tests show that made signatures verify and that a few altered ones do not; they cannot show that nothing else verifies.", "anchors": ["src/sign/schnorr/schnorr_sig.rs: sign, verify, verify_with_checks", "src/group/edwards25519/scalar.rs: pick"]}
{"id": "C123", "title": "Verification and certification give the same answer whether or not arithmetic overflow is checked", "statement": "schnorr::verify and eddsa::verify return the same result in builds with overflow checks (a program using the crate with its own default dev profile) and without. In particular no byte string sent as a signature makes them panic. The same holds of deal_certified in the Pedersen scheme, after any messages.", "quantifier": "all public key bytes, messages and byte strings", "why_tests_cant": "The repository's own profile switches the checks off, so its tests never run the checked arithmetic.", "anchors": ["Cargo.toml: profile.dev", "src/group/edwards25519/scalar.rs: is_canonical", "src/group/edwards25519/point.rs: is_canonical", "src/group/edwards25519/point.rs: has_small_order", "src/sign/schnorr/schnorr_sig.rs: verify_with_checks", "src/sign/eddsa/eddsa_sig.rs: verify_with_checks", "src/share/vss/pedersen/vss.rs: deal_certified"]}
