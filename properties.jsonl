{"id": "C01", "title": "PKCS#1 v1.5 encryption round trip", "statement": "For every key pair whose modulus is the product of distinct primes and whose exponents are inverse modulo every (prime-1), encrypting any message with Pkcs1v15Encrypt and decrypting the resulting bytes with the matching private key returns exactly that message, with or without blinding, whatever bytes the random generators deliver.", "quantifier": "every valid key (two or more primes, any size), every message of length <= size-11 (including empty), every behaviour of the encryption RNG and of the blinding RNG", "why_tests_cant": "Tests exercise a handful of keys, messages and seeds; message content may itself contain 0x00 bytes or leading zeros, and every modulus/precision/CRT path combination must work.", "anchors": ["src/pkcs1v15.rs: encrypt, decrypt, Pkcs1v15Encrypt", "src/algorithms/pkcs1v15.rs: pkcs1v15_encrypt_pad, pkcs1v15_encrypt_unpad", "src/algorithms/rsa.rs: rsa_encrypt, rsa_decrypt_and_check"]}
{"id": "C02", "title": "OAEP encryption round trip", "statement": "For every valid key pair with a modulus of at least eleven bytes, every pair of (label hash, MGF hash) and every label, OAEP-encrypting any message that fits and decrypting the bytes with the matching key, hashes and label returns exactly that message, with or without blinding. Below eleven bytes decryption refuses what encryption produced.", "quantifier": "every valid key of size >= 11, label digest, MGF digest, label shorter than 2^61 bytes, message of length <= size-2*hLen-2, RNG behaviour", "why_tests_cant": "Depends on every hash function and every seed; a masking or index off-by-one only shows for particular lengths or message prefixes (e.g. messages starting with 0x00 or 0x01).", "anchors": ["src/oaep.rs: encrypt, decrypt, encrypt_digest, decrypt_digest", "src/algorithms/oaep.rs: oaep_encrypt, oaep_decrypt, decrypt_inner"]}
{"id": "C03", "title": "OAEP accepts exactly the well-formed encodings", "statement": "OAEP unpadding of a k-byte encoded message with k >= 11 returns Ok(M) if and only if the block is 00 || maskedSeed || maskedDB where unmasking yields DB = Hash(label) || 00* || 01 || M (RFC 8017 section 7.1.2 step 3); every other block, and every block shorter than eleven bytes, gives the single error Decryption.", "quantifier": "every k-byte block, every hash pair, label shorter than 2^61 bytes and k below 2^32", "why_tests_cant": "The set of malformed blocks is astronomically large; tests only try a few mutations.", "anchors": ["src/algorithms/oaep.rs: decrypt_inner, oaep_decrypt, oaep_decrypt_digest"]}
{"id": "C04", "title": "OAEP label binding", "statement": "A ciphertext produced for one label decrypts under another label only if the two labels have the same digest; otherwise decryption returns Error::Decryption.", "quantifier": "every valid key, message, pair of labels with different digests, RNG behaviour", "why_tests_cant": "Quantifies over all labels and hashes.", "anchors": ["src/algorithms/oaep.rs: oaep_decrypt, decrypt_inner", "src/oaep.rs: decrypt"]}
{"id": "C05", "title": "PKCS#1 v1.5 decryption accepts exactly 00 02 PS 00 M", "statement": "PKCS#1 v1.5 unpadding of a k-byte block returns Ok(M) if and only if the block is 00 || 02 || PS || 00 || M with PS made of at least eight non-zero bytes; every other block gives Error::Decryption.", "quantifier": "every k-byte block, every k below 2^31", "why_tests_cant": "A padding-oracle relevant acceptance set over all 256^k blocks cannot be enumerated.", "anchors": ["src/algorithms/pkcs1v15.rs: pkcs1v15_encrypt_unpad, decrypt_inner"]}
{"id": "C06", "title": "PKCS#1 v1.5 encryption padding is well formed for every RNG", "statement": "Whatever bytes the RNG returns, a successful encryption padding has the exact shape 00 || 02 || PS || 00 || M with total length k and no zero byte in PS; it fails with MessageTooLong exactly when the message is longer than k-11 bytes, and with Rng when the generator fails.", "quantifier": "every RNG behaviour including ones returning many zero bytes or failing at any call, every message, every k", "why_tests_cant": "Tests use a fixed seeded generator in which zero bytes appear rarely.", "anchors": ["src/algorithms/pkcs1v15.rs: non_zero_random_bytes, pkcs1v15_encrypt_pad"]}
{"id": "C07", "title": "Raw RSA round trip in both directions", "statement": "For every valid private key and every m < n, raw decryption of raw encryption of m returns m, and raw encryption of raw decryption of c returns c; decryption equals c^d mod n. The representative is stored at the width of the modulus; without a generator any width up to that of the private exponent gives c^d mod n and a wider one panics, and with a generator every width but the modulus's panics.", "quantifier": "every valid key with two or more distinct primes, every representative below n (including 0 and multiples of a prime)", "why_tests_cant": "Needs Fermat's theorem and the Chinese remainder theorem for all primes; representatives sharing a factor with n are never hit by random tests.", "anchors": ["src/algorithms/rsa.rs: rsa_encrypt, rsa_decrypt"]}
{"id": "C08", "title": "CRT acceleration changes nothing", "statement": "The result of a private-key operation with precomputed CRT values is the same as without them, for every ciphertext; hence precompute() and clear_precomputed() never change any later decryption or signature.", "quantifier": "every valid key, every ciphertext, every sequence of precompute/clear_precomputed calls before the operation", "why_tests_cant": "Histories of calls and ciphertexts are unbounded.", "anchors": ["src/key.rs: RsaPrivateKey::precompute, clear_precomputed", "src/algorithms/rsa.rs: rsa_decrypt"]}
{"id": "C09", "title": "Blinding is transparent", "statement": "For every valid key, supplying a blinding RNG to decryption or signing gives the same bytes as supplying none, whatever the RNG returns, once the RNG yields a usable blinding factor; if the RNG fails first, the result is Error::Rng or the error the call would have returned anyway. For PSS the comparison is between the blinded and unblinded schemes given the same salt. An RNG that never yields a usable factor keeps the call running.", "quantifier": "every valid key, every input, every RNG behaviour", "why_tests_cant": "The blinding factor ranges over all units modulo n, and includes the draws 0 and non-units that trigger retries.", "anchors": ["src/algorithms/rsa.rs: blind, unblind, rsa_decrypt"]}
{"id": "C10", "title": "No faulty private-key result is ever released", "statement": "If a checked private-key operation returns Ok(m) then m^e mod n equals the input, for every key object whatsoever, including keys whose primes, d or CRT values are wrong or corrupted (fault-attack protection). Likewise a plaintext released by any of the four decryption interfaces is the content of a well-formed block whose encryption is the ciphertext.", "quantifier": "every key contents (not only valid ones), every input, every RNG behaviour", "why_tests_cant": "Corrupted key states cannot be enumerated by tests.", "anchors": ["src/algorithms/rsa.rs: rsa_decrypt_and_check"]}
{"id": "C11", "title": "Out-of-range inputs to the private operation are rejected", "statement": "Raw decryption of any c >= n returns Error::Decryption, before touching the RNG or the private exponent; consequently PKCS#1 v1.5 and OAEP decryption reject every ciphertext whose integer value is >= n.", "quantifier": "every key, every c >= n", "why_tests_cant": "Range of c is unbounded.", "anchors": ["src/algorithms/rsa.rs: rsa_decrypt"]}
{"id": "C12", "title": "PKCS#1 v1.5 signature round trip", "statement": "For every valid key, prefix and digest that fit, the signature produced (with or without blinding) is accepted by verification under the public key, provided the modulus is stored with minimal limb precision (64*ceil(bits/64)); if the modulus is stored with any other precision, verification of every k-byte string fails, so the key cannot verify its own signatures.", "quantifier": "every valid key, prefix, digest, RNG behaviour, and every stored precision of n", "why_tests_cant": "The failing keys only arise for particular bit sizes (e.g. generated 64, 1088 or 2050-bit keys), which the tests do not use.", "anchors": ["src/pkcs1v15.rs: sign, verify, Pkcs1v15Sign", "src/traits/keys.rs: n_bits_precision", "src/algorithms/rsa.rs: compute_modulus"]}
{"id": "C13", "title": "PKCS#1 v1.5 verification is exact", "statement": "PKCS#1 v1.5 signature unpadding accepts a k-byte block if and only if it equals the unique encoding 00 01 FF..FF 00 prefix digest with at least eight FF bytes; verification returns Ok for integer s only if s < n and s^e mod n is that encoding (no trailing garbage, no short padding, no alternative DER).", "quantifier": "every block / signature, every prefix and digest, every key", "why_tests_cant": "Signature-forgery style malleations (Bleichenbacher 2006) form an unbounded family.", "anchors": ["src/algorithms/pkcs1v15.rs: pkcs1v15_sign_unpad, pkcs1v15_sign_pad", "src/pkcs1v15.rs: verify"]}
{"id": "C14", "title": "PKCS#1 v1.5 signing is deterministic and unique", "statement": "For a valid key the PKCS#1 v1.5 signature of a digest does not depend on the RNG, and is the only integer below n that verifies for that digest and prefix.", "quantifier": "every valid key, digest, prefix, pair of RNG behaviours", "why_tests_cant": "Uniqueness needs injectivity of exponentiation modulo n over all n residues.", "anchors": ["src/pkcs1v15.rs: sign, verify"]}
{"id": "C15", "title": "PSS signature round trip", "statement": "For every valid key, digest algorithm, salt length that fits and RNG, a PSS signature made with the Pss padding scheme verifies under the same scheme, whatever the stored precision of the modulus. A signature made with a SigningKey or BlindedSigningKey verifies under its VerifyingKey exactly when the modulus is stored without a leading zero limb.", "quantifier": "every valid key of every bit length (including bits = 1 mod 8), every hash, salt length, salt, digest, blinded or not", "why_tests_cant": "Bit-length dependent masking of the first byte only misbehaves for particular modulus sizes.", "anchors": ["src/pss.rs: sign, verify, sign_digest, verify_digest", "src/algorithms/pss.rs: emsa_pss_encode, emsa_pss_verify"]}
{"id": "C16", "title": "PSS verification follows RFC 8017 EMSA-PSS-VERIFY", "statement": "The PSS encoding check accepts an emLen-byte block exactly when RFC 8017 section 9.1.2 says consistent, i.e. when the block is the EMSA-PSS encoding of the digest for some salt of the stated length. For modulus bit lengths = 1 mod 8 the first byte of the k-byte representative is not inspected, so representatives >= 256^emLen that the RFC rejects are accepted.", "quantifier": "every block, hash, salt length and key bit length", "why_tests_cant": "All 256^k blocks; the deviation exists only for one residue class of key sizes.", "anchors": ["src/algorithms/pss.rs: emsa_pss_verify, emsa_pss_verify_pre, emsa_pss_verify_salt"]}
{"id": "C17", "title": "PSS verification range checks", "statement": "VerifyingKey-based PSS verification accepts only integers below n. The Pss padding-scheme API does not perform this check: whenever s verifies and s+n still fits in size bytes, s+n verifies too (signature malleability).", "quantifier": "every public key, digest, salt length, signature integer", "why_tests_cant": "Needs a statement about all s; tests only try valid s.", "anchors": ["src/pss.rs: verify, verify_digest"]}
{"id": "C18", "title": "Signature length strictness", "statement": "Pss (padding-scheme API) rejects every signature whose byte length differs from size(). PKCS#1 v1.5 verification constrains only the value and the limb precision: any byte string of the same value whose length rounds up to the same number of 64-bit limbs is accepted, so a signature with its leading zero byte removed still verifies (contrary to RFC 8017 section 8.2.2 step 1).", "quantifier": "every public key, every signature byte string", "why_tests_cant": "Requires a relation between all byte strings of equal value.", "anchors": ["src/pkcs1v15.rs: Pkcs1v15Sign::verify, verify", "src/pss.rs: verify"]}
{"id": "C19", "title": "Ciphertext length strictness", "statement": "OAEP decryption rejects every ciphertext whose length differs from size() with Error::Decryption. PKCS#1 v1.5 decryption has no such check: every byte string with the same integer value that fits the limb precision of n decrypts to the same result.", "quantifier": "every private key, every ciphertext byte string", "why_tests_cant": "Unbounded set of byte strings.", "anchors": ["src/oaep.rs: decrypt, decrypt_digest", "src/pkcs1v15.rs: decrypt"]}
{"id": "C20", "title": "Outputs always have the modulus length", "statement": "Every ciphertext returned by encryption, and every signature returned by signing with any key, has exactly size() bytes. Its integer value is below n for every ciphertext, and for every signature made with a valid key.", "quantifier": "every key, message, scheme, RNG behaviour", "why_tests_cant": "Leading-zero results occur with probability 1/256 and need padding in every path.", "anchors": ["src/algorithms/pad.rs: uint_to_be_pad, uint_to_zeroizing_be_pad, left_pad", "src/pkcs1v15.rs: encrypt, sign", "src/oaep.rs: encrypt", "src/pss.rs: sign"]}
{"id": "C21", "title": "Integer/byte conversion is I2OSP", "statement": "Converting an integer to a padded big-endian string of length L succeeds if and only if the integer is below 256^L, whatever its stored precision, and then the bytes decode to that integer; otherwise Error::InvalidPadLen.", "quantifier": "every integer, stored precision and target length", "why_tests_cant": "All integers and precisions.", "anchors": ["src/algorithms/pad.rs: left_pad, uint_to_be_pad, uint_to_zeroizing_be_pad"]}
{"id": "C22", "title": "MGF1 conforms to RFC 8017 and both variants agree", "statement": "Masking a buffer XORs it with the first len bytes of Hash(seed||0) || Hash(seed||1) || ... (32-bit big-endian counters), for both the dynamic and the static digest variants; masking twice restores the buffer.", "quantifier": "every hash function with non-empty output, seed, buffer up to 2^32 bytes", "why_tests_cant": "All lengths, including those not a multiple of the hash length and counters crossing byte boundaries (more than 256 blocks).", "anchors": ["src/algorithms/mgf.rs: mgf1_xor, mgf1_xor_digest, inc_counter"]}
{"id": "C23", "title": "Dynamic and static digest APIs agree", "statement": "The Oaep/Pss padding-scheme APIs (run-time digests) and the EncryptingKey/DecryptingKey/SigningKey/VerifyingKey APIs (type-level digests) compute the same encodings and the same accept/reject decision on the same inputs; OAEP decryption differs only in the error reported for labels of 2^61 bytes or more.", "quantifier": "every input of the four encode/decode functions, fresh digest state", "why_tests_cant": "Duplicate code paths must agree on all inputs.", "anchors": ["src/algorithms/oaep.rs: oaep_encrypt, oaep_encrypt_digest, oaep_decrypt, oaep_decrypt_digest", "src/algorithms/pss.rs: emsa_pss_encode, emsa_pss_encode_digest, emsa_pss_verify, emsa_pss_verify_digest"]}
{"id": "C24", "title": "DigestInfo prefix is valid DER", "statement": "The prefix generated for a digest algorithm, followed by a digest of its output size, is the DER encoding of DigestInfo{AlgorithmIdentifier{oid, NULL}, OCTET STRING} if and only if oid length + digest length + 8 <= 127 (beyond that a prefix may be returned but is not DER, or its u8 arithmetic overflows and panics, exactly when the truncated lengths sum to 256 or more); within the bound distinct (oid, digest) pairs give distinct encodings.", "quantifier": "every OID and digest size", "why_tests_cant": "All OIDs/digest lengths; tests check none of the prefixes against DER in general.", "anchors": ["src/algorithms/pkcs1v15.rs: pkcs1v15_generate_prefix"]}
{"id": "C25", "title": "Public key validation is exact", "statement": "RsaPublicKey::new_with_max_size(n,e,max) succeeds if and only if the precision of n is at most max bits, n is odd, e is odd, 2 <= e < n and e <= 2^33-1, with the documented error otherwise; every encryption re-checks the 4096-bit limit, so a larger key created with new_with_max_size or new_unchecked can verify but never encrypt. Every encryption interface refuses an unusable key with the error construction would have given.", "quantifier": "every n, e with every stored precision, every max size", "why_tests_cant": "All boundary values in a two-integer space, with error precedence.", "anchors": ["src/key.rs: check_public_with_max_size, RsaPublicKey::new, new_with_max_size, new_unchecked"]}
{"id": "C26", "title": "Validation guarantees the RSA equation", "statement": "If validate() returns Ok then every listed prime is at least 3 and e*d = 1 modulo each (prime-1). The product check is only modulo 2^precision(n): it implies product = n when the product fits the precision of n, and otherwise keys whose primes do not multiply to n are accepted.", "quantifier": "every key contents", "why_tests_cant": "The accepted wrong keys need primes wider than half the modulus, never used in tests.", "anchors": ["src/key.rs: RsaPrivateKey::validate"]}
{"id": "C27", "title": "Key constructors and panics", "statement": "from_components returns (Ok or Err) without panicking whenever at least two primes are given, none of them equals 1, no prime is stored wider than d; it panics for a prime equal to 1 (also reachable from PKCS#8 decoding of attacker-supplied DER), and whenever prime recovery from (n,e,d) succeeds for an empty prime list.", "quantifier": "every n, e, d, list of primes with every stored precision", "why_tests_cant": "Panic reachability is a universally quantified safety property.", "anchors": ["src/key.rs: from_components, validate, precompute", "src/encoding.rs: TryFrom<PrivateKeyInfoRef>"]}
{"id": "C28", "title": "Prime recovery is sound and complete", "statement": "If recover_primes(n,e,d) returns (p,q) then p*q = n and p >= q; and for every modulus n = p*q of distinct odd primes with e*d = 1 mod lcm(p-1,q-1) within the size bounds of NIST SP 800-56B, it returns exactly those primes.", "quantifier": "every n, e, d", "why_tests_cant": "Infinite family of moduli; integer square root and divisibility conditions.", "anchors": ["src/algorithms/rsa.rs: recover_primes"]}
{"id": "C29", "title": "Rebuilding a key from its primes", "statement": "from_p_q and from_primes, when they succeed, return a key with n the exact product of the given primes, d in range and e*d = 1 modulo lcm(p-1,q-1) respectively the product of all (prime-1); equal primes are rejected with InvalidPrime.", "quantifier": "every list of primes and exponent", "why_tests_cant": "All primes and exponents.", "anchors": ["src/key.rs: from_p_q, from_primes", "src/algorithms/rsa.rs: compute_modulus, compute_private_exponent_carmicheal, compute_private_exponent_euler_totient"]}
{"id": "C30", "title": "Generated keys are valid", "statement": "Every key returned by RsaPrivateKey::new or new_with_exp has a modulus of exactly the requested bit length, equal to the product of two distinct primes, and e*d = 1 mod (p-1)(q-1); it passes validate() and has its CRT values precomputed. With the default exponent and 17..4096 bits generation returns the first fit pair drawn and never an error or panic; 12..16 bits end in InvalidModulus and more than 4096 in ModulusTooLarge, after the primes were drawn.", "quantifier": "every bit size below 2^32, exponent, RNG behaviour (given a prime generator that meets its contract)", "why_tests_cant": "All RNG streams and retry histories.", "anchors": ["src/algorithms/generate.rs: generate_multi_prime_key_with_exp", "src/key.rs: RsaPrivateKey::new, new_with_exp"]}
{"id": "C31", "title": "Key generation with an even exponent never returns", "statement": "new_with_exp with an even public exponent never returns a key nor an error once the size check has passed: no RNG behaviour lets the retry loop exit.", "quantifier": "every even exponent, bit size, RNG behaviour, number of loop iterations", "why_tests_cant": "Non-termination cannot be observed by a test.", "anchors": ["src/algorithms/generate.rs: generate_multi_prime_key_with_exp"]}
{"id": "C32", "title": "Too-small key sizes are refused up front", "statement": "For two-prime generation, bit sizes 0..11 and no others are refused with TooFewPrimes, as computed by the floating-point estimate in the source, before any prime is drawn; fewer than two primes gives NprimesTooSmall; with 3, 4, 5, 6, 7 and at least 8 primes the smallest accepted sizes are 21, 28, 40, 48, 56 and 64 bits, and generation has no other error.", "quantifier": "every bit size and number of primes, exact IEEE-754 arithmetic", "why_tests_cant": "Rounding of binary64 arithmetic at the threshold.", "anchors": ["src/algorithms/generate.rs: generate_multi_prime_key_with_exp"]}
{"id": "C33", "title": "PKCS#8 and SPKI round trip", "statement": "Encoding a valid two-prime private key with coprime primes, stored at one width that is not wider than d, to PKCS#8 produces exactly the RFC 5208/8017 DER document with the right CRT values, and decoding it gives an equal, validated key with CRT values if and only if d and the primes fit in the modulus's octet length; otherwise the document is refused. Public keys: the document is the RFC 5280 one and decoding succeeds with an equal key exactly when the key is usable. At other widths encoding panics (C85). Keys with more than two primes, or with non-coprime primes, are refused at export.", "quantifier": "every valid key with any storage widths", "why_tests_cant": "Leading-zero stripping and sign-octet insertion depend on every value; keys with a larger d export but cannot be imported.", "anchors": ["src/encoding.rs: to_pkcs8_der, to_public_key_der, TryFrom<PrivateKeyInfoRef>, TryFrom<SubjectPublicKeyInfoRef>", "src/key.rs: Serialize, Deserialize"]}
{"id": "C34", "title": "Algorithm identifiers are checked exactly", "statement": "Key decoding accepts an AlgorithmIdentifier if and only if it is rsaEncryption with NULL parameters or id-RSASSA-PSS with absent parameters. PSS signing and verifying keys decode exactly the documents RSA keys decode; PKCS#1 v1.5 signing and verifying keys decode exactly those whose identifier is rsaEncryption.", "quantifier": "every OID and parameter value", "why_tests_cant": "All identifiers.", "anchors": ["src/encoding.rs: verify_algorithm_id"]}
{"id": "C35", "title": "Signature objects preserve the value, not the byte length", "statement": "Signature::try_from(bytes) succeeds for every byte string under 2^29 bytes and keeps its integer value; converting back to bytes yields the original string exactly when its length is a positive multiple of 8, and otherwise a longer zero-extended string; value and precision survive any further round trip. From 2^29 bytes on the 32-bit bit count overflows: try_from panics when the length modulo 2^32 is at least 2^29 and returns an error otherwise.", "quantifier": "every byte string", "why_tests_cant": "All lengths and contents.", "anchors": ["src/pkcs1v15/signature.rs: TryFrom<&[u8]>, From<Signature> for Box<[u8]>", "src/pss/signature.rs"]}
{"id": "C36", "title": "Key equality is an equivalence and agrees with hashing up to precision", "statement": "Equality of public/private keys is an equivalence relation on (n,e) respectively (n,e,d,primes); equal keys feed the same bytes to a Hasher when their integers are stored with equal precision, and may feed different bytes otherwise. A private key feeds its type name and then its public half: nothing secret, and never what a public key feeds.", "quantifier": "every pair of keys", "why_tests_cant": "All pairs; the failing pairs differ only in stored precision.", "anchors": ["src/key.rs: PartialEq, Hash"]}
{"id": "C37", "title": "Debug output never depends on secrets", "statement": "The Debug rendering of a private key is determined by its public components and by whether CRT values are present, and two keys render alike exactly when they agree on those; the only numbers shown are the modulus and the public exponent. Signing and decryption keys add exactly their prefix, salt length or label.", "quantifier": "every pair of private keys, signing keys and decryption keys", "why_tests_cant": "Non-interference quantifies over pairs.", "anchors": ["src/key.rs: fmt::Debug for RsaPrivateKey"]}
{"id": "C38", "title": "Dropping a key erases d and the primes but not all CRT material", "statement": "When a private key is dropped, the storage it owns for d, all primes, dp and dq has been overwritten with zeros. The Montgomery parameters of p and q are not overwritten: for every two-prime key with CRT values a fixed program computes a working private exponent from the freed storage. A key without CRT values leaves nothing that depends on its secrets. (Storage owned at the time of the drop; copies made earlier are outside the statement.)", "quantifier": "every private key", "why_tests_cant": "Memory after drop is unobservable for tests.", "anchors": ["src/key.rs: Drop for RsaPrivateKey, Zeroize for PrecomputedValues"]}
{"id": "C39", "title": "Decryption, verification and signing never panic", "statement": "For every private key accepted by the constructors with d stored at least as wide as n, and every byte string, decryption, signing and verification through every scheme return Ok or Err; they never index out of bounds, underflow or hit an assertion. For verification the signature must be under 2^29 bytes: from there to 2^32 bytes the 32-bit bit count overflows and the call panics.", "quantifier": "every constructed key, every ciphertext / signature / digest / label byte string, RNG behaviour", "why_tests_cant": "Fuzzing covers a vanishing part of the input space.", "anchors": ["src/pkcs1v15.rs", "src/oaep.rs", "src/pss.rs", "src/algorithms/rsa.rs"]}
{"id": "C40", "title": "Message length limits are exact", "statement": "With a public key that passes the public checks, PKCS#1 v1.5 encryption fails with MessageTooLong exactly for messages longer than size-11; OAEP exactly for messages longer than size-2*hLen-2; PKCS#1 v1.5 signing exactly when prefix+digest exceeds size-11; PSS signing fails with Internal exactly when emLen < hLen+sLen+2.", "quantifier": "every key, message length, hash length, salt length", "why_tests_cant": "Boundary lengths for every key size.", "anchors": ["src/algorithms/pkcs1v15.rs", "src/algorithms/oaep.rs", "src/algorithms/pss.rs"]}
{"id": "C41", "title": "RNG failures surface as Error::Rng", "statement": "If the caller's RNG fails during padding, salt generation or blinding, the operation returns Error::Rng and no output.", "quantifier": "every point at which the RNG may fail", "why_tests_cant": "All failure points.", "anchors": ["src/algorithms/pkcs1v15.rs: non_zero_random_bytes", "src/algorithms/oaep.rs: encrypt_internal", "src/pss.rs: sign", "src/algorithms/rsa.rs: blind"]}
{"id": "C42", "title": "PSS needs randomness", "statement": "Signing with the Pss scheme without an RNG always fails with InvalidPaddingScheme, and the blinding flag changes which RNG calls are made but not the signature produced for a given salt.", "quantifier": "every key, digest, salt length", "why_tests_cant": "All keys and salts.", "anchors": ["src/pss.rs: Pss::sign, sign, sign_pss_with_salt"]}
{"id": "C43", "title": "Serialisation of signing keys forgets scheme parameters", "statement": "Serialising a signing or verifying key stores only the RSA key: a round trip returns the default prefix (PKCS#1 v1.5) or default salt length (PSS), and so an equal object exactly when it had those.", "quantifier": "every signing key, prefix and salt length", "why_tests_cant": "All parameter values.", "anchors": ["src/pkcs1v15/signing_key.rs: EncodePrivateKey, TryFrom", "src/pss/signing_key.rs"]}
{"id": "C44", "title": "PSS algorithm identifier carries the salt length modulo 256", "statement": "The AlgorithmIdentifier reported by a PSS signing key encodes its salt length exactly when it is below 256; larger salt lengths are truncated modulo 256. A signature verifies under at most one salt length, so a verifier configured from the identifier accepts the key's signatures exactly when the salt length is below 256.", "quantifier": "every salt length", "why_tests_cant": "All salt lengths.", "anchors": ["src/pss.rs: get_pss_signature_algo_id", "src/pss/signing_key.rs: signature_algorithm_identifier"]}
{"id": "C45", "title": "Raw encryption is modular exponentiation within the modulus precision", "statement": "hazmat rsa_encrypt returns m^e mod n for every m that fits the stored precision of n; wider inputs are first truncated to that precision, so the result then differs from m^e mod n in general.", "quantifier": "every public key, every m of every precision", "why_tests_cant": "All integers.", "anchors": ["src/algorithms/rsa.rs: rsa_encrypt, pow_mod_params, reduce_vartime"]}
{"id": "C46", "title": "Public exponentiation is a permutation", "statement": "For a valid key, m -> m^e mod n is a bijection on 0..n-1 whose inverse is the private operation; hence distinct paddings give distinct ciphertexts.", "quantifier": "every valid key, every pair of representatives", "why_tests_cant": "All pairs of residues.", "anchors": ["src/algorithms/rsa.rs: rsa_encrypt, rsa_decrypt"]}
{"id": "C47", "title": "Keypair views are consistent", "statement": "verifying_key(), encrypting_key() and to_public_key() carry the same modulus and exponent (and prefix or salt length) as the private key, and the key-object APIs compute the same result as the padding-scheme APIs on the hashed message.", "quantifier": "every private key, message", "why_tests_cant": "All keys and messages.", "anchors": ["src/pkcs1v15/signing_key.rs", "src/pkcs1v15/verifying_key.rs", "src/pss/signing_key.rs", "src/pss/verifying_key.rs", "src/pkcs1v15/decrypting_key.rs"]}
{"id": "C48", "title": "Signature object bytes under the padding-scheme API", "statement": "The bytes of a Signature made by a PKCS#1 v1.5 SigningKey are accepted by RsaPublicKey::verify with the matching Pkcs1v15Sign scheme exactly when the modulus is stored without a leading zero limb. The bytes of a Signature made by a PSS SigningKey are accepted by RsaPublicKey::verify with the matching Pss scheme exactly when size() is a multiple of 8, because the object pads to whole 64-bit limbs and Pss insists on size() bytes.", "quantifier": "every valid key, digest, prefix or salt length, RNG and blinding mode", "why_tests_cant": "The test keys all have sizes that are multiples of 64 bits; the failure appears only at the other key sizes and only when the two APIs are mixed.", "anchors": ["src/pss/signature.rs: From<Signature> for Box<[u8]>", "src/pkcs1v15/signature.rs", "src/pss.rs: Pss::verify, verify", "src/pkcs1v15.rs: Pkcs1v15Sign::verify"]}
{"id": "C49", "title": "Generated keys of some sizes reject their own signatures", "statement": "A key generated by RsaPrivateKey::new or new_with_exp for b bits stores its modulus in the smallest number of 64-bit limbs if and only if b mod 128 is not in 2..64. For exactly the other sizes every PKCS#1 v1.5 signature the key makes is rejected by its own public key.", "quantifier": "every bit size, exponent, prime and blinding RNG behaviour, message hash and prefix", "why_tests_cant": "Tests sign with generated keys at a few common sizes only; the failure depends on b modulo 128.", "anchors": ["src/algorithms/generate.rs: generate_multi_prime_key_with_exp", "src/algorithms/rsa.rs: compute_modulus", "src/pkcs1v15.rs: verify", "src/key.rs: RsaPrivateKey::new, new_with_exp"]}
{"id": "C50", "title": "Import accepts exactly the importable private key documents", "statement": "Decoding a well-formed PKCS#8 document (version 0 or 1, with whatever optional fields the DER library admits) succeeds if and only if its numbers are importable: usable public key, d and primes no longer than the modulus, prime product equal to n modulo the storage size, exponent congruences for both primes. The resulting key holds those numbers in the least number of 64-bit limbs, passes validation, has CRT values exactly when the primes are coprime, and does not depend on the document's CRT fields, version, optional fields or which identifier it has. Public documents are accepted exactly when the key is usable.", "quantifier": "every well-formed document, algorithm identifier and field values", "why_tests_cant": "All combinations of field values; tests use a few genuine keys.", "anchors": ["src/encoding.rs: TryFrom<PrivateKeyInfoRef>, TryFrom<SubjectPublicKeyInfoRef>", "src/key.rs: from_components, validate"]}
{"id": "C51", "title": "Only canonical DER is accepted", "statement": "If a byte string decodes to a key then it is, octet for octet, the canonical DER document with that key's numbers (and one of the two algorithm identifiers, and for private keys some CRT fields, a version 0 or 1 and optional fields the DER library admits); re-encoding an imported key gives the standard rsaEncryption document.", "quantifier": "every byte string", "why_tests_cant": "Non-malleability ranges over all byte strings.", "anchors": ["src/encoding.rs"]}
{"id": "C52", "title": "Decoding arbitrary bytes returns", "statement": "Decoding any byte string as a public key returns a key or an error, never panics. The same holds for private keys except for documents that list a prime equal to 1, for which the decoder can panic (witness given).", "quantifier": "every byte string", "why_tests_cant": "All byte strings; fuzzing samples them.", "anchors": ["src/encoding.rs", "src/key.rs: validate"]}
{"id": "C53", "title": "Key objects and padding schemes encrypt and decrypt alike", "statement": "The PKCS#1 v1.5 and OAEP encrypting and decrypting key objects round-trip every message for every generator, with and without a label, also when one side uses the padding-scheme API; on every input, good or bad, each key object returns exactly what the corresponding scheme call returns (OAEP decryption: for keys within the size and exponent limits and labels under 2^61 bytes); no label and an empty label are interchangeable.", "quantifier": "all keys meeting the key invariants, generators, labels, messages and ciphertexts", "why_tests_cant": "Two API surfaces over all inputs; tests compare them on a few messages.", "anchors": ["src/pkcs1v15/encrypting_key.rs", "src/pkcs1v15/decrypting_key.rs", "src/oaep/encrypting_key.rs", "src/oaep/decrypting_key.rs", "src/traits/encryption.rs"]}
{"id": "C54", "title": "Signing messages through key objects follows RFC 8017", "statement": "For a modulus stored without a leading zero limb, verifying a message and a string of size() bytes with a PKCS#1 v1.5 or PSS verifying key succeeds exactly for the signatures RFC 8017 8.2.2 and 8.1.2 accept (PSS: exactly unless the modulus bit length is 1 modulo 8, see C16); signatures made by a signing key over a message verify, exactly when the modulus is stored so; feeding the message to the hasher in any pieces gives the same.", "quantifier": "all messages, all ways of cutting a message into pieces, all signature strings, all keys", "why_tests_cant": "Acceptance is a statement about all octet strings; chunking ranges over all partitions.", "anchors": ["src/pkcs1v15/signing_key.rs", "src/pkcs1v15/verifying_key.rs", "src/pss/signing_key.rs", "src/pss/verifying_key.rs", "src/pss/blinded_signing_key.rs"]}
{"id": "C55", "title": "Signatures as text and their equality", "statement": "The lower and upper case hexadecimal texts and the Display text of both signature types show exactly the signature's byte encoding, two digits per byte; two signatures print alike exactly when their encodings agree; equality of signature objects compares the values only, so two signatures of different widths can be equal while only one verifies.", "quantifier": "all signature objects", "why_tests_cant": "Formatting of every value; the last clause needs one witness which is given.", "anchors": ["src/pkcs1v15/signature.rs", "src/pss/signature.rs"]}
{"id": "C56", "title": "Equality of OAEP keys", "statement": "OAEP encrypting and decrypting keys are equal exactly when the inner keys are equal and the labels agree; a key without label and one with the empty label differ although they encrypt and decrypt alike.", "quantifier": "all pairs of keys", "why_tests_cant": "Ranges over all pairs.", "anchors": ["src/oaep/encrypting_key.rs: PartialEq", "src/oaep/decrypting_key.rs: PartialEq"]}
{"id": "C57", "title": "Randomly generated signing keys work", "statement": "A signing key returned by the random constructors contains a valid key of exactly the requested size, its own verifying key accepts everything it signs exactly unless the requested size is 2 to 64 modulo 128 (a generated modulus of such a size carries a leading zero limb, and the key then rejects all of its own signatures), and the constructors return, fail, panic or run on exactly as private key generation does.", "quantifier": "all generators and prime sources meeting their contract, all sizes, all messages", "why_tests_cant": "Random keys can only be sampled.", "anchors": ["src/pkcs1v15/signing_key.rs: random", "src/pss/signing_key.rs: random", "src/pss/blinded_signing_key.rs: random"]}
{"id": "C58", "title": "Scheme constructors set the documented parameters", "statement": "Each constructor of the PKCS#1 v1.5, PSS and OAEP schemes yields the documented hash length, prefix, salt length, blinding flag, mask hash and label: prefixed schemes accept only inputs of the hash length, unprefixed ones any input, signatures of one PSS constructor verify under the others with the same salt length, and OAEP ciphertexts decrypt under the other constructor with the same hashes and label. The blinded PSS constructors and BlindedSigningKey draw a blinding factor in every way of signing, the plain ones never.", "quantifier": "all hashes, keys, inputs, pairs of constructors", "why_tests_cant": "All combinations of constructors and inputs.", "anchors": ["src/pkcs1v15.rs: Pkcs1v15Sign", "src/pss.rs: Pss", "src/oaep.rs: Oaep"]}
{"id": "C59", "title": "The default PSS algorithm identifier describes the default key", "statement": "The default RSASSA-PSS AlgorithmIdentifier is the one of a signing key made with the default salt length, for both the plain and the blinded signing key, carries that hash, and states that salt length exactly when the digest is shorter than 256 bytes.", "quantifier": "all hashes and keys", "why_tests_cant": "Agreement over all hashes.", "anchors": ["src/pss.rs: get_default_pss_signature_algo_id", "src/pss/signing_key.rs: signature_algorithm_identifier"]}
{"id": "C60", "title": "A signature binds hash function and message", "statement": "If one PKCS#1 v1.5 signature is accepted under the same public key for two messages and two hash identifiers then the identifiers and digests agree; an unprefixed verifier binds its whole input; for PSS two messages accepted with the same signature have equal hashes or exhibit a collision of the hash.", "quantifier": "all keys, signatures, messages and hash identifiers", "why_tests_cant": "A statement about all pairs of messages.", "anchors": ["src/pkcs1v15/verifying_key.rs", "src/pss/verifying_key.rs"]}
{"id": "C61", "title": "Serialised keys", "statement": "Serialising a public or private key gives the hexadecimal text (lower case) or the bytes of its standard document, in human-readable and binary formats respectively; deserialising returns an equal, valid key exactly under the condition of C33. Deserialising accepts exactly the values that carry a document the decoder accepts (text in either case, even number of digits; bytes only in binary formats), a value stands for at most one byte string, and never panics outside the case of C52. Signing and verifying keys go through the same documents: the key survives, while salt length and prefix become those of the type.", "quantifier": "all keys, both kinds of format, all values of the serde data model", "why_tests_cant": "All values and keys; tests round-trip one key.", "anchors": ["src/key.rs: Serialize, Deserialize", "src/pkcs1v15/signing_key.rs", "src/pkcs1v15/verifying_key.rs", "src/pss/signing_key.rs", "src/pss/blinded_signing_key.rs", "src/pss/verifying_key.rs"]}
{"id": "C62", "title": "Serialised signatures", "statement": "A signature deserialises to the identical object; exactly the values carrying octets that the byte conversion accepts are taken; the X.509 bit string has no unused bits and consists of octets from which the same signature is read again.", "quantifier": "all signatures and values", "why_tests_cant": "All values.", "anchors": ["src/pkcs1v15/signature.rs: Serialize, Deserialize, SignatureBitStringEncoding", "src/pss/signature.rs"]}
{"id": "C63", "title": "Serialised encryption and decryption keys", "statement": "The derived deserialisers accept a structure with named fields exactly when the inner key is given once and deserialises, the marker fields are given once each and the label at most once, in any order and ignoring unknown fields; a missing label means none. A structure whose fields come by position is accepted exactly when it begins with every field, in the declared order (further elements are left to the format). Serialising and deserialising keeps the label and the key, in both kinds of format. The value written is a structure named EncryptingKey or DecryptingKey whose field inner is the key's PKCS#8 or SPKI document, followed for OAEP by label, phantom and mg_phantom.", "quantifier": "all structures with any fields in any order, by name or by position, all labels", "why_tests_cant": "All field lists; tests use the one the serialiser writes.", "anchors": ["src/oaep/encrypting_key.rs", "src/oaep/decrypting_key.rs", "src/pkcs1v15/encrypting_key.rs", "src/pkcs1v15/decrypting_key.rs"]}
{"id": "C64", "title": "PKCS#1 documents", "statement": "Writing a two-prime key as PKCS#1 gives exactly the canonical RFC 8017 A.1 structure; reading gives back an equal valid key exactly under the condition of C33; reading accepts exactly canonical documents with importable numbers and gives the key the surrounding PKCS#8 (or SubjectPublicKeyInfo) document gives; keys with more primes are refused.", "quantifier": "all keys and all byte strings", "why_tests_cant": "All byte strings; tests use genuine documents.", "anchors": ["src/encoding.rs", "src/lib.rs: pkcs1 re-export"]}
{"id": "C65", "title": "Signature algorithm identifiers of PKCS#1 v1.5 keys", "statement": "For each of the five digests the signature AlgorithmIdentifier is the RFC 8017 A.2.4 object identifier in X.690 encoding with NULL parameters; the five are pairwise different and none is accepted as a key algorithm.", "quantifier": "all digests; for the encoder all arcs below 2^32", "why_tests_cant": "The encoder is checked for all arcs.", "anchors": ["src/pkcs1v15.rs: RsaSignatureAssociatedOid", "src/pkcs1v15/signing_key.rs: SIGNATURE_ALGORITHM_IDENTIFIER", "src/pkcs1v15/verifying_key.rs"]}
{"id": "C66", "title": "What running a PKCS#1 v1.5 decryption shows", "statement": "The sequence of jumps, memory positions, sizes and checks of a decryption is the same for any two ciphertexts of one length on the same side of the modulus, and any two valid descriptions of the private key stored with the same precisions, if the answers are alike (both refused, or messages of one length) and the recovered numbers have the same number of leading zero octets. That number does show: different counts give different sequences, so refusals are not all alike. The padding check alone shows nothing but acceptance and the message length.", "quantifier": "all keys, ciphertexts, random sources, encoded messages", "why_tests_cant": "Quantifies over pairs of runs; a test observes one run and no internal behaviour.", "anchors": ["src/pkcs1v15.rs: decrypt", "src/algorithms/pkcs1v15.rs: pkcs1v15_encrypt_unpad, decrypt_inner", "src/algorithms/pad.rs: uint_to_zeroizing_be_pad", "src/algorithms/rsa.rs"]}
{"id": "C67", "title": "What running an OAEP decryption shows", "statement": "As C66 for both OAEP decryption entry points, any hash functions and labels: whichever of the first octet, the label hash and the separator is wrong, a refusal shows the same; the number of leading zero octets of the recovered number shows, so a wrong first octet is distinguishable from the other failures.", "quantifier": "all keys, ciphertexts, hash functions, labels, random sources", "why_tests_cant": "Quantifies over pairs of runs.", "anchors": ["src/oaep.rs: decrypt, decrypt_digest", "src/algorithms/oaep.rs: oaep_decrypt, oaep_decrypt_digest, decrypt_inner", "src/algorithms/mgf.rs"]}
{"id": "C68", "title": "What running the private operation shows", "statement": "The sequence of steps of an RSA private operation on a number below n, with or without blinding, with or without CRT values, can be produced from the public key, the stored precisions and the random source alone: it is that of the same code run with every secret number and the ciphertext replaced by 0. With the fault check it is the same for all valid descriptions of a key and all numbers below n.", "quantifier": "all key objects (valid or not), numbers, random sources", "why_tests_cant": "Quantifies over all secrets.", "anchors": ["src/algorithms/rsa.rs: rsa_decrypt, rsa_decrypt_and_check, blind, unblind"]}
{"id": "C69", "title": "What running an encryption shows", "statement": "The sequence of steps of an encryption depends on the message only through its length (and through the leading zero octets of the ciphertext, which is public). For OAEP it does not depend on the random seed either; for PKCS#1 v1.5 it does, since zero octets are drawn again.", "quantifier": "all keys, messages, hash functions, labels, random sources", "why_tests_cant": "Quantifies over pairs of messages.", "anchors": ["src/pkcs1v15.rs: encrypt", "src/oaep.rs: encrypt, encrypt_digest", "src/algorithms/pkcs1v15.rs: pkcs1v15_encrypt_pad", "src/algorithms/oaep.rs: encrypt_internal"]}
{"id": "C70", "title": "What running a signature shows", "statement": "The sequence of steps of a PKCS#1 v1.5 or PSS signature depends neither on the private key's secret numbers (for one public key and one set of precisions) nor on the hash value nor on the salt, beyond the leading zero octets of the signature, which is public.", "quantifier": "all keys, hash values, salts, random sources", "why_tests_cant": "Quantifies over pairs of keys and messages.", "anchors": ["src/pkcs1v15.rs: sign", "src/pss.rs: sign, sign_digest", "src/algorithms/pss.rs: emsa_pss_encode, emsa_pss_encode_digest"]}
{"id": "C71", "title": "What computing the CRT values shows", "statement": "Computing the CRT values of a key shows nothing of the private exponent, but uses divisions that are variable-time in p - 1 and q - 1: valid keys whose primes are stored in no more bits than the private exponent (otherwise the computation panics) and whose first or second primes differ never show the same sequence of steps.", "quantifier": "all keys", "why_tests_cant": "Quantifies over pairs of keys.", "anchors": ["src/key.rs: RsaPrivateKey::precompute"]}
{"id": "C72", "title": "Equal keys are interchangeable", "statement": "Two equal public keys whose moduli are stored with the same width encrypt and verify identically; two equal valid private keys with moduli of the same width, whatever CRT values they hold and however wide d is, decrypt and sign identically; likewise for the signing and verifying key types, whose equality means equal inner keys and equal prefix or salt length and is an equivalence. With different stored widths equal keys may give different verdicts.", "quantifier": "all pairs of keys and key objects, all messages, ciphertexts, signatures, generators", "why_tests_cant": "Quantifies over all pairs of keys in any precomputation state.", "anchors": ["src/key.rs: PartialEq", "src/pkcs1v15/signing_key.rs: PartialEq", "src/pkcs1v15/verifying_key.rs: PartialEq", "src/pss/signing_key.rs: PartialEq", "src/pss/verifying_key.rs: PartialEq"]}
{"id": "C73", "title": "Raw operations are multiplicative", "statement": "For the hazmat operations, the result on a product modulo n is the product of the results, for encryption and for (blinded or plain) decryption; hence the blind-signature protocol works: unblinding the raw signature of em*r^e gives the raw signature of em. With PKCS#1 v1.5 encoding the unblinded octets are exactly the signature the key's owner would have made; with PSS encoding and any salt the requester chooses they are accepted by verification. What the signer is sent is compatible with every encoded message that has an inverse modulo n.", "quantifier": "all public keys, all valid private keys, all residues, all blinding factors; all digests, salts and encoded messages", "why_tests_cant": "All pairs of residues.", "anchors": ["src/algorithms/rsa.rs: rsa_encrypt, rsa_decrypt, rsa_decrypt_and_check", "src/lib.rs: hazmat"]}
{"id": "C74", "title": "Digest objects that have already absorbed data", "statement": "Octets absorbed by the hash of an Oaep scheme before use act exactly as a prefix of the label, in both directions. Octets absorbed by the mask hash of an Oaep scheme or by the digest of a Pss scheme can make the scheme reject its own ciphertexts or signatures.", "quantifier": "all hashes, prefixes and labels below 2^61 octets in total", "why_tests_cant": "All prefixes, labels and hashes.", "anchors": ["src/oaep.rs: Oaep", "src/pss.rs: Pss", "src/algorithms/oaep.rs", "src/algorithms/pss.rs"]}
{"id": "C75", "title": "Reported CRT values", "statement": "dp, dq and qinv of a valid key are the least positive numbers with e*dp = 1 mod p-1, e*dq = 1 mod q-1, q*qinv = 1 mod p, and the reported moduli are p and q; they are present after precompute (for primes stored no wider than d), absent after clear_precomputed, agree with the coefficient computed for documents, and no other field changes; n, e, d and primes of a new key are the values it was made from; crt_values never reports anything, even for multi-prime keys.", "quantifier": "all valid keys with any number of primes", "why_tests_cant": "All valid keys.", "anchors": ["src/key.rs: PrivateKeyParts for RsaPrivateKey, precompute, clear_precomputed, crt_coefficient"]}
{"id": "C76", "title": "Conversions between keys and key objects", "statement": "Converting a key to a signing or verifying key and back gives the identical key; the verifying key of a signing key is the one made from the public half; a clone of a verifying key equals it and gives the same verdicts; deprecated names give the same objects as the current ones.", "quantifier": "all keys, hashes, messages and signatures", "why_tests_cant": "All keys.", "anchors": ["src/pkcs1v15/signing_key.rs", "src/pkcs1v15/verifying_key.rs", "src/pss/signing_key.rs", "src/pss/blinded_signing_key.rs", "src/pss/verifying_key.rs", "src/pkcs1v15.rs: new_raw"]}
{"id": "C77", "title": "How far the random generator reaches", "statement": "Operations called without a generator give the same result in every environment. OAEP encryption depends only on the octets drawn for the seed, unblinded PSS signing only on those of the salt, PKCS#1 v1.5 encryption only on the padding string obtained: two generators agreeing on them, and otherwise different, give the same output.", "quantifier": "all pairs of generators of any type and state", "why_tests_cant": "Quantifies over all generators.", "anchors": ["src/algorithms/oaep.rs: encrypt_internal", "src/pss.rs: sign", "src/algorithms/pkcs1v15.rs: pkcs1v15_encrypt_pad", "src/dummy_rng.rs"]}
{"id": "C78", "title": "Blinding hides the ciphertext from the private exponentiation", "statement": "With a random source, the number the private exponent is applied to is c*v^e mod n for the first invertible v drawn below n. For two ciphertexts with the same greatest common divisor with n, any random source that never draws 0 and the same source multiplied by a fixed invertible number give identical exponentiated numbers, so the number tells nothing about which of the two was decrypted. Counting the single draws for an invertible ciphertext, each invertible number is reached exactly once, except the ciphertext itself, which is reached twice (0 is replaced by 1); and the greatest common divisor with n is not hidden.", "quantifier": "all valid keys, ciphertext representatives, random sources and retry counts", "why_tests_cant": "Quantifies over all random sources and over all draws below n.", "anchors": ["src/algorithms/rsa.rs: blind, rsa_decrypt"]}
{"id": "C79", "title": "What is asked of the random source", "statement": "Decryption and PKCS#1 v1.5 signing ask nothing without blinding and otherwise only for numbers below n, until one is usable. OAEP encryption asks once for a seed of the digest's length, PSS signing once for the salt and then only for blinding numbers, PKCS#1 v1.5 encryption once for the padding string and then for single octets, at least one per zero octet and none if there was none. This holds for failing runs too, which ask at most that.", "quantifier": "all keys, inputs and random sources, successful or failing", "why_tests_cant": "Needs all sources including failing ones; tests see only outputs.", "anchors": ["src/algorithms/rsa.rs: blind", "src/algorithms/pkcs1v15.rs: non_zero_random_bytes", "src/algorithms/oaep.rs: encrypt_internal", "src/pss.rs: sign, sign_digest"]}
{"id": "C80", "title": "No padding string, seed or salt is favoured", "statement": "If the octets of the random source are uniform, every non-zero padding string of PKCS#1 v1.5 encryption is equally likely, every OAEP seed is, and every salt of unblinded PSS signing; no padding string with a zero octet occurs. Different padding strings or seeds give different ciphertexts, and different salts different signatures.", "quantifier": "all valid keys, messages, hashes, labels, lengths of the octet stream and retry bounds", "why_tests_cant": "Statistical tests cannot establish equality of probabilities; the claim quantifies over the whole distribution.", "anchors": ["src/algorithms/pkcs1v15.rs: non_zero_random_bytes, pkcs1v15_encrypt_pad", "src/algorithms/oaep.rs: encrypt_internal", "src/pss.rs: sign_digest"]}
{"id": "C81", "title": "What loading a key shows", "statement": "Building a private key from components, from two primes or from a prime list shows, by the divisions of its exponent check, all primes in order to whoever sees the operands of variable-time divisions. The private exponent itself shows only its storage width and that it is right; a key refused for its exponent shows at which prime the check failed. Recovering primes, computing a private exponent and computing the CRT coefficient show only storage widths when they succeed.", "quantifier": "every modulus, exponent, private exponent and prime list; every pair of runs with equal public shape", "why_tests_cant": "Which values steer variable-time steps is a property of pairs of executions over all keys; a test sees one result and no trace.", "anchors": ["src/key.rs: from_components, from_p_q, from_primes, validate, crt_coefficient", "src/algorithms/rsa.rs: recover_primes, compute_private_exponent_euler_totient, compute_private_exponent_carmicheal"]}
{"id": "C82", "title": "Miscalculation of the private operation", "statement": "If any numbers computed inside the private-key operation come out wrong, in any way, the checked operation still releases a number only if its e-th power is the input. So decryption with a valid key never returns a wrong message, and a released signature opens to the encoding that was signed and gives no factor of the modulus away; it may however be the right signature plus the modulus, which verification rejects. The unchecked hazmat operation has no such protection: any disturbance of the exponentiation modulo the first prime yields a number that gives the second prime to anyone.", "quantifier": "every key, input, generator and every assignment of wrong values to the intermediate numbers (the final comparison is computed correctly)", "why_tests_cant": "A test cannot make the arithmetic fail at a chosen place, and cannot range over all wrong values at all places.", "anchors": ["src/algorithms/rsa.rs: rsa_decrypt_and_check, rsa_decrypt, blind, unblind", "src/hazmat.rs: rsa_decrypt", "src/pkcs1v15.rs: decrypt, sign", "src/oaep.rs: decrypt", "src/pss.rs: sign_pss_with_salt"]}
{"id": "C83", "title": "How much work a call does", "statement": "The modular exponentiations of a call are fixed by the key and by whether there is a generator to blind with. With a valid key, every ciphertext of admissible length and below the modulus costs the same exponentiations at the same widths (one with e for blinding, the private one, one with e for the check), whether it then decrypts or is refused for its padding; a ciphertext of the wrong length or not below the modulus, a message or digest that does not fit, and a generator that fails cost none; a signature costs what a decryption costs and an encryption exactly one. Carrying the CRT values does not make the private operation cheaper: it then makes two exponentiations as wide as the stored private exponent instead of one that is no wider, contrary to the documented purpose of precomputing them.", "quantifier": "All valid private keys of any number of primes, with and without CRT values, all well-formed public keys, all ciphertexts, messages, digests, labels and hash functions, all random generators including failing ones, any number of redraws; for the comparison with and without CRT values, every cost function that is positive and non-decreasing in the modulus width.", "why_tests_cant": "A test can time or count single calls on a few keys; that no ciphertext, padding outcome or generator behaviour changes the number or width of exponentiations is a statement over all of them, and that the CRT values cost more for every key and cost model cannot be sampled.", "anchors": ["src/algorithms/rsa.rs: rsa_decrypt, rsa_decrypt_and_check, blind, pow_mod_params", "src/key.rs: precompute, clear_precomputed", "src/pkcs1v15.rs: encrypt, decrypt, sign", "src/oaep.rs: encrypt, decrypt, encrypt_digest, decrypt_digest", "src/pss.rs: sign, sign_digest"]}
{"id": "C84", "title": "How often the random source is asked again", "statement": "Two places draw until a draw is usable, and with a uniform source both end quickly. Blinding: of all sequences of f draws below the modulus, those after which a decryption or signature is still asking are exactly u^f, where u counts the numbers from 1 to n-1 that share a factor with n: p+q-2 for two primes, at most the sum of n/p-1 in general, so with r primes of at least B a share of at most (r/B)^f. PKCS#1 v1.5 encryption: given the octets of a tape it succeeds exactly if at least as many of them are non-zero as the padding string has octets (w); 255^w of the 256^w tapes of w octets need no second request, and of the tapes with j octets to spare at most C(w+j,j+1)/256^(j+1) are not enough. Otherwise the call reports the generator's failure.", "quantifier": "All valid private keys of any number of primes, all well-formed public keys, all admissible messages, ciphertexts, digests and salts, every number of draws f and every length of tape; the counts range over all sequences and tapes of the given length.", "why_tests_cant": "A test sees the redraw on a seeded generator once or never; that the loops end for every share of random inputs but an exponentially small one is a count over astronomically many sequences.", "anchors": ["src/algorithms/rsa.rs: blind", "src/algorithms/pkcs1v15.rs: non_zero_random_bytes, pkcs1v15_encrypt_pad", "src/pkcs1v15.rs: encrypt, decrypt, sign", "src/pss.rs: sign_pss_with_salt_digest"]}
{"id": "C85", "title": "Generated keys survive export", "statement": "A key generated for b bits can be written as PKCS#8 and read back as an equal, valid key with CRT values exactly unless b mod 128 = 1; at those sizes the two primes are stored at different widths and writing the document panics (in builds with debug assertions). Its public key can always be written and read back. The key read back stores its modulus in the fewest limbs, so its public key accepts every PKCS#1 v1.5 signature made with the original key or with the key read back, also at the sizes where the generated key rejects its own signatures (C49). For any two-prime key writing panics if d is stored narrower than a prime or the primes are stored at different widths.", "quantifier": "Every bit size, exponent, behaviour of the prime generator, writer limit, optional blinding generator, hash and prefix; and every two-prime key with any storage widths.", "why_tests_cant": "Which sizes fail depends on b modulo 128, and tests export keys of a few common sizes.", "anchors": ["src/encoding.rs: to_pkcs8_der, TryFrom<PrivateKeyInfoRef>, to_public_key_der", "src/key.rs: RsaPrivateKey::new, new_with_exp, crt_coefficient", "src/algorithms/generate.rs: generate_multi_prime_key_with_exp", "src/pkcs1v15.rs: sign, verify"]}
{"id": "C86", "title": "No generated key is favoured", "statement": "If the prime generator is equally likely to draw any prime of a given set for each bit length, key generation returns every pair of primes fit for the exponent (different, and e coprime to (p-1)(q-1)) equally often and no other pair: of all sequences of f pairs of draws exactly (T^f - U^f)/(T - U) end with a given fit pair and exactly U^f are still drawing, where T counts the pairs and U the unfit ones. For a prime exponent such as the default 65537 the fit pairs are g(g-1) for an even bit size, where g counts the primes p with p-1 not a multiple of e, and g times the corresponding count of the longer primes for an odd one. The primes determine the key, whatever the source and the number of attempts.", "quantifier": "All bit sizes and exponents that key generation accepts, all finite sets of primes meeting the generator's contract, every number of attempts f; the counts range over all sequences of draws.", "why_tests_cant": "A test sees single keys; that the retry loop does not bias the choice is a count over all sequences of draws.", "anchors": ["src/algorithms/generate.rs: generate_multi_prime_key_with_exp", "src/key.rs: RsaPrivateKey::new, new_with_exp"]}
{"id": "C87", "title": "Every error has one stated cause", "statement": "With a valid key of at most 4096 bits each call reports exactly these errors. PKCS#1 v1.5 decryption: a decoding error iff the ciphertext is longer than n is stored, the decryption error iff its number is not below n or its decryption is not padded, the RNG error iff blinding cannot be drawn. OAEP decryption, for n of at least 11 bytes and a label under 2^61 bytes: the decryption error iff the length is not that of n, the number is not below n or the decryption is not padded, the RNG error as before; with a longer label never a message, but the call with digests as values then reports the decryption error and the one with digests as types label-too-long. Encryption: message-too-long iff the padding does not fit, the RNG error iff drawing the padding or seed fails, label-too-long (OAEP) iff the label has 2^61 bytes or more. PKCS#1 v1.5 signing: not-hashed iff the hash has the wrong length, then message-too-long, then the RNG error. PSS signing: invalid-padding-scheme iff there is no RNG, the RNG error iff salt or blinding cannot be drawn, not-hashed iff the hash has the wrong length, internal iff hash and salt do not fit. Verification: not-hashed (PKCS#1 v1.5) iff the hash has the wrong length, and the verification error for every other rejection. Validating a private key: the public key's error first, then invalid-prime iff a prime is 0, invalid-modulus iff the product is not n in n's width, invalid-exponent iff the first prime not fitting d and e is above 1 and no wider than twice d. No other error is reported by the decryption, encryption and signing calls.", "quantifier": "All keys, random number generators, messages, hashes, labels, ciphertexts and signatures, every error value; each theorem is an equivalence between the error and its causes.", "why_tests_cant": "A test observes one error for one input; that no other input reports it, and that no input with the cause reports another, is a statement about all inputs.", "anchors": ["src/errors.rs: Error", "src/pkcs1v15.rs: encrypt, decrypt, sign, verify", "src/oaep.rs: encrypt, decrypt, encrypt_digest, decrypt_digest", "src/pss.rs: sign, verify, sign_pss_with_salt", "src/key.rs: RsaPrivateKey::validate"]}
{"id": "C88", "title": "Release builds behave like checked builds", "statement": "The crate built without overflow checks and debug assertions returns the same as the checked build wherever the checked build does not panic: encryption, decryption, signing and verification, the typed keys, key construction and generation, documents and serde. For keys whose numbers have consistent sizes (no primality needed), with salt and digest lengths that fit usize together and signatures below 2^29 bytes, encryption, decryption, signing and verification are therefore the same in both builds, as are from_components with at least two primes other than 1 and not wider than d, and from_p_q and from_primes with odd primes. Verification accepts the same signatures in both builds for every signature and every salt length: where the checked build panics (a signature of 2^29 to 2^32 bytes, a salt length near 2^64) the other build refuses the signature or panics. With a salt length that fits, verification without checks returns for every signature. Where the checked build panics the other one may return a wrong result: a PKCS#1 v1.5 prefix for a digest too long for one-byte lengths has a wrapped length.", "quantifier": "All keys, generators, messages, ciphertexts, hashes, signatures, salt lengths below 2^64, documents and serde values, and every behaviour of the big-integer dependency on operands of unequal size.", "why_tests_cant": "Tests run in one build profile, and wrap-around appears only for particular sizes; that no input makes the profiles disagree is a statement about all inputs and both builds.", "anchors": ["Cargo.toml: profile", "src/algorithms/pad.rs: left_pad", "src/algorithms/pkcs1v15.rs: pkcs1v15_generate_prefix, decrypt_inner", "src/algorithms/pss.rs: emsa_pss_verify_pre, emsa_pss_verify_salt", "src/algorithms/rsa.rs: blind, unblind, rsa_decrypt", "src/algorithms/generate.rs: generate_multi_prime_key_with_exp", "src/key.rs: precompute", "src/pkcs1v15.rs: verify", "src/pss.rs: verify"]}
{"id": "C89", "title": "PSS algorithm identifiers as octets", "statement": "The algorithm identifier a PSS signing key returns encodes, as DER, to an RSASSA-PSS identifier of RFC 4055: the key's digest with NULL parameters under tag 0, MGF1 with the same digest under tag 1 and the salt length modulo 256 under tag 2, where a field equal to its default (SHA-1, MGF1 with SHA-1, 20) is absent. It is produced whenever the digest's OID leaves room and otherwise an encoding error is returned. No octets can be read as the identifier of two different parameters, so two keys have the same identifier exactly when they have the same digest and salt lengths congruent modulo 256, and any verifier that reads the identifier accepts the key's signatures exactly when the salt length is below 256. The default identifier of a digest names the digest and its output size modulo 256. A public key document that carries such an identifier is refused.", "quantifier": "All digest OIDs of any length, signing keys, salt lengths, documents and length limits below 2^32 of the DER library; whether or not that library's default SHA-1 identifier has NULL parameters.", "why_tests_cant": "Tests compare identifiers of one or two digests with stored bytes; that no two parameter sets share an encoding and that every identifier reads back is a statement about all OIDs and lengths.", "anchors": ["src/pss.rs: get_pss_signature_algo_id, get_default_pss_signature_algo_id", "src/pss/signing_key.rs: signature_algorithm_identifier", "src/pss/blinded_signing_key.rs: signature_algorithm_identifier", "src/encoding.rs: verify_algorithm_id"]}
{"id": "C90", "title": "Failed calls cannot be told apart", "statement": "Two decryptions with a valid key that fail report the same error value with the same text, whatever the ciphertexts (no wider than the modulus), padding schemes, hash functions and labels and whether or not blinding is used; two refused signatures for data of the expected length do too. The text and the printed form of each error of the crate differ from those of every other; errors taken over from the DER libraries keep their own text. The error of a signing or verifying object gives the cause with feature std and nothing without it. The text \"nprimes must be >= 2\" is shown exactly when a key is to be built from, or generated with, fewer than two primes.", "quantifier": "All valid keys, ciphertexts, schemes, labels, random sources, signatures and errors.", "why_tests_cant": "A padding oracle is a difference between two failing runs over all ciphertexts; tests look at single failures.", "anchors": ["src/errors.rs: Error, Display, From", "src/algorithms/pkcs1v15.rs: pkcs1v15_encrypt_unpad", "src/algorithms/oaep.rs: oaep_decrypt", "src/pkcs1v15.rs: decrypt", "src/oaep.rs: decrypt"]}
{"id": "C91", "title": "What secret-handling calls leave in memory", "statement": "Freed heap memory after a call: a decryption that returns a message leaves a buffer ending with that message, and whatever the padding leaves the decrypted number, although one copy of the number and of its octets is erased. A blinded operation erases r^e but leaves r, its inverse and a second copy of r^e. An encryption erases the octets of the encoded message but leaves the number; with PKCS#1 v1.5 and statically chosen OAEP digests every octet buffer left is the label or has the value of the ciphertext, and with digests chosen at run time the seed and the masked block are left, from which the message follows. A PKCS#8 export erases the octets of each private number but leaves the primes, the CRT values and the PKCS#1 structure of the document. A signature leaves its number, and every octet buffer left has the value the public key takes the signature to; PSS also leaves the salt and, with a digest chosen at run time, the hash of the salted message and blocks of its mask. A CRT operation on a two-prime key leaves one residue which, with the number computed, and another which, with the number it was given (the ciphertext, or with blinding a number left too), gives a factor of the modulus unless the two are equal; for a signature made without blinding that number is the signature. Nothing else is erased: the complete list is r^e of the blinding, the number decrypted or the signature once as octets and once as an integer, the encoded message of an encryption (a buffer of zeros when it fails), and the octets of the six private numbers of an export; Montgomery forms, salts and encoded messages of signatures are never erased. For every successful call, every decryption of a text as long as the modulus, every refused encryption and every signature refused before the private operation, the whole list of freed objects, in order and with contents, is given (the contents of a buffer the random source was filling when it failed are left open): a refused PKCS#1 v1.5 operation leaves at most an erased block, refused OAEP leaves the label and with run-time digests its hash, a ciphertext out of range leaves its number, and refused PSS leaves the buffer of the salt, not erased; when the random source fails while a blinding factor is sought, the modulus, the rejected candidates and the ciphertext or the encoded message (for PSS with the salt) are left and nothing is erased. The claims that decryption leaves no plaintext and that the leftovers do not reveal a factor are refuted.", "quantifier": "All keys, ciphertexts, messages, labels, hash functions, random sources and results, including failures.", "why_tests_cant": "Freed memory is not visible to a safe test, and what is left depends on every exit path.", "anchors": ["src/algorithms/pad.rs: uint_to_be_pad, uint_to_zeroizing_be_pad", "src/algorithms/rsa.rs: rsa_decrypt, blind, rsa_decrypt_and_check", "src/algorithms/oaep.rs: encrypt_internal, decrypt_inner", "src/algorithms/mgf.rs: mgf1_xor", "src/pkcs1v15.rs: encrypt, decrypt", "src/oaep.rs: encrypt, decrypt", "src/encoding.rs: to_pkcs8_der", "src/pss.rs: sign, sign_digest", "src/algorithms/pss.rs: emsa_pss_encode"]}
{"id": "C92", "title": "Every key a program can hold, by any sequence of calls", "statement": "Whatever sequence of constructors, generation, loading (PKCS#8, PKCS#1, serde), key objects, precompute and clearing a private key went through, its public half is acceptable, its primes multiply to the modulus (up to the stored width), its exponents match on every prime, validate accepts it and any CRT values in it are those of its numbers; every public key so obtained is acceptable. Precompute on it never panics. If the private exponent is stored at least as wide as the modulus, decryption and signing never panic; if it is stored narrower, they never succeed and a decryption of a ciphertext of the right length and range panics. Generated, loaded and computed keys are always of the first kind. A key that is kept - CRT values computed and cleared, put into key objects, saved and loaded, any number of times - stays equal to what it was and gives the same results. The claim that every key that validates can be used is refuted by a valid RSA key given to from_components with a narrow private exponent.", "quantifier": "All finite sequences of the listed calls, with any integers, documents, serialised data, prime sources, paddings, hash functions and random sources.", "why_tests_cant": "The states are reached by unbounded sequences of calls; tests try a few short ones.", "anchors": ["src/key.rs: RsaPrivateKey::from_components, from_p_q, from_primes, new, new_with_exp, precompute, clear_precomputed, validate, RsaPublicKey::new", "src/encoding.rs: TryFrom<PrivateKeyInfo>, to_pkcs8_der", "src/pkcs1v15/signing_key.rs: SigningKey", "src/pss/signing_key.rs: SigningKey", "src/pss/blinded_signing_key.rs: BlindedSigningKey", "src/algorithms/rsa.rs: rsa_decrypt"]}
{"id": "C93", "title": "What is accepted is exactly what can be produced", "statement": "For a valid key: OAEP decryption, by the generic scheme and by the digest-typed interface, returns a message exactly for the ciphertexts that encrypting that message can give under some random octets. PKCS#1 v1.5 decryption does so exactly for strings with the value of such a ciphertext (leading zero octets are free within the storage of the modulus). A string of the modulus length verifies as a PKCS#1 v1.5 signature exactly if signing that hash gives it. A PSS signature can be produced under some salt exactly if it verifies, is below the modulus and opens to at most emLen octets; with the key objects and a modulus whose bit length is not 1 modulo 8, verifying alone is equivalent. The claim that every accepted PSS signature could have been produced by the key is refuted: the generic scheme accepts a string at least n, and for a 65-bit modulus the key objects accept a number no salt gives.", "quantifier": "All valid keys, ciphertexts, signatures, hashes, messages, labels, salt lengths, hash functions, random sources and blinding choices.", "why_tests_cant": "Equality of two infinite sets: what every random choice can produce, and what is accepted.", "anchors": ["src/pkcs1v15.rs: encrypt, decrypt, sign, verify", "src/oaep.rs: encrypt, decrypt, decrypt_digest", "src/pss.rs: sign_digest, verify, verify_digest", "src/algorithms/pkcs1v15.rs: pkcs1v15_encrypt_pad, pkcs1v15_encrypt_unpad", "src/algorithms/oaep.rs: oaep_encrypt, oaep_decrypt", "src/algorithms/pss.rs: emsa_pss_encode, emsa_pss_verify"]}
{"id": "C94", "title": "How many ciphertexts and signatures are accepted", "statement": "For a valid key of k octets, PKCS#1 v1.5 decryption accepts exactly 255^8 (256^(k-10) - 255^(k-10)) strings of the modulus length: from 11 octets on, more than one number in 2^25 below n decrypts without an error. OAEP decryption with an h-octet hash accepts, of all strings of any length, exactly 256^h (256^(k-2h-1) - 1) / 255: fewer than one number in 255 * 256^h below n. Exactly one string of the modulus length is a PKCS#1 v1.5 signature of a fitting hash. Exactly 256^s strings below n are PSS signatures of a fitting hash with an s-octet salt if the bit length of n is not 1 modulo 8, by the generic scheme and by the key object; none if the hash has another length or does not fit. Without the condition on the bit length more can be accepted (refuted for a 65-bit modulus).", "quantifier": "All valid keys, hash functions, labels, hashes, salt lengths, blinding choices and random sources.", "why_tests_cant": "A count over all strings of the modulus length.", "anchors": ["src/pkcs1v15.rs: decrypt, verify", "src/oaep.rs: decrypt", "src/pss.rs: verify, verify_digest", "src/algorithms/pkcs1v15.rs: decrypt_inner", "src/algorithms/oaep.rs: decrypt_inner", "src/algorithms/pss.rs: emsa_pss_verify"]}
{"id": "C95", "title": "What exporting a key shows", "statement": "Exporting a two-prime private key to PKCS#8 (and serialising it) leaves a trace of jumps, indices, amounts copied and widths of big-integer operands. For keys stored at the same widths, the traces of two successful exports are equal exactly if each of the eight numbers of the PKCS#1 structure (n, e, d, p, q, d mod (p-1), d mod (q-1), the CRT coefficient) takes as many octets, written plainly and as a DER integer, as its counterpart. So the sizes of the secret numbers show and nothing else does; export is not oblivious: two valid private keys with the same public key and primes can be told apart (refuted for a 64-bit key).", "quantifier": "All pairs of two-prime keys whose numbers fit their widths and which the export accepts, and every limit on DER lengths.", "why_tests_cant": "An equality of execution traces for all pairs of keys.", "anchors": ["src/encoding.rs: to_pkcs8_der", "src/key.rs: crt_coefficient, Serialize"]}
{"id": "C96", "title": "What comparing private keys shows", "statement": "Comparing two private keys with == shows, for given widths and numbers of primes, the position of the first number in which they differ (modulus, public exponent, private exponent, primes in order) and nothing else: two comparisons leave the same trace exactly if these positions are equal. In particular wrong guesses of the private exponent all look the same, however close. The position itself does show (refuted: comparison in constant time for given widths).", "quantifier": "All quadruples of keys with pairwise equal widths and equally many primes, valid or not.", "why_tests_cant": "An equality of execution traces for all pairs of keys.", "anchors": ["src/key.rs: PartialEq for RsaPrivateKey, PartialEq for RsaPublicKey"]}
{"id": "C97", "title": "What the outcomes of other decryptions say about a ciphertext", "statement": "Given a ciphertext c with secret number m, anybody can form c * s^e mod n for any s. PKCS#1 v1.5 decryption of it succeeds exactly if m * s mod n, written as a block, is 00 02, eight or more octets other than 00, 00, message (so it lies between 2B and 3B); OAEP decryption exactly if it is an OAEP block for the label; otherwise both give the one decryption error. For PKCS#1 v1.5 and moduli of at least twelve octets these yes/no answers determine everything: no two ciphertexts have the same answers, and a program that knows the public key and the answers only computes m, hence the message, of every ciphertext prime to n, and in the same way the signature of every message (as the documentation of the function warns). Callers must therefore not let anybody learn whether a PKCS#1 v1.5 decryption succeeded.", "quantifier": "All valid keys, ciphertexts and factors s; each answer may come from a decryption with any working generator or none.", "why_tests_cant": "Ranges over all keys and ciphertexts and over every question that can be asked about each.", "anchors": ["src/pkcs1v15.rs: decrypt and its documentation (lines 150-158)", "src/oaep.rs: decrypt", "src/key.rs: RsaPrivateKey::decrypt, decrypt_blinded", "README.md"]}
{"id": "C98", "title": "What importing a key shows", "statement": "Reading a private key from a PKCS#8 document shows the primes: they can be read off the run, for every document that is accepted, because each prime less one is the divisor of a variable-time division (as for keys built from numbers, C81). Of the private exponent and the CRT numbers in the document it shows how many octets each takes, written plainly and as a DER integer, and nothing else: two accepted documents for one public key leave the same trace exactly if they have the same primes in the same order and the sizes of the four other numbers agree.", "quantifier": "All documents that are accepted, with either algorithm identifier, either version and any optional fields; for the last claim pairs of documents for one public key.", "why_tests_cant": "Ranges over all pairs of documents; timing and cache effects are not results that a test can compare.", "anchors": ["src/encoding.rs: TryFrom<PrivateKeyInfoRef> for RsaPrivateKey, uint_from_slice", "src/key.rs: RsaPrivateKey::from_components, validate, precompute", "src/algorithms/rsa.rs: compute_private_exponent"]}
{"id": "C99", "title": "What generating a key shows", "statement": "Generating a private key shows its primes, whatever the search for primes shows or hides: they can be read off the run of RsaPrivateKey::new and new_with_exp. The cause is the building of the key at the end. The rest of the generation (drawing pairs, comparing them, computing the modulus and the private exponent) shows no more than the search itself and, for each pair drawn, whether it was dropped because its primes are equal, dropped because the public exponent has no inverse, or kept; with a search that shows nothing two runs leave the same trace exactly if these verdicts agree, and two whole calls exactly if also the primes, in order, agree.", "quantifier": "All prime generators that honour their contract, bit sizes, public exponents, generator states and numbers of tries, and all pairs of runs, with the same or different generators.", "why_tests_cant": "Ranges over all generators and pairs of runs; timing and cache effects are not results that a test can compare.", "anchors": ["src/algorithms/generate.rs: generate_multi_prime_key_with_exp, generate_prime_with_rng", "src/key.rs: RsaPrivateKey::new, new_with_exp, from_components, validate, precompute", "src/algorithms/rsa.rs: compute_modulus, compute_private_exponent_euler_totient"]}
{"id": "C100", "title": "Which weak keys are excluded and which are not", "statement": "In every private key that is accepted the product e*d is at least every listed prime, so n is at most (e*d)^(number of primes); hence no accepted two-prime key whose n is at least e^4 has a private exponent short enough for Wiener's method. Generated keys have n < 2*e*d, and keys rebuilt from primes have e*d above the totient (or the lcm of p-1 and q-1). Imported exponents may be far shorter than n/e. The distance of the primes is not looked at: Fermat's method factors a two-prime modulus in exactly (p+q)/2 minus ceil(sqrt n), plus one, steps, and for every pair of different primes that the prime generator may return and that suits the exponent there is a source with which generation returns it, so generated keys may fall to a single step.", "quantifier": "All accepted component lists, all prime sources meeting their contract, all bit sizes and exponents, all pairs of primes, every number of steps.", "why_tests_cant": "Ranges over all keys; weak keys are too rare to be met by tests.", "anchors": ["src/key.rs: from_components, from_primes, from_p_q, RsaPrivateKey::new, new_with_exp, validate, check_public", "src/algorithms/generate.rs: generate_multi_prime_key_with_exp"]}
{"id": "C101", "title": "One exponent of a private key gives the factors", "statement": "Either CRT exponent that a valid key reports (dp or dq), together with the public key, gives a proper factor of n within e divisions. Every exponent that works with a valid key, its own d or any other, gives a proper factor for at least half of all bases from 1 to n-1. So no single exponent of a key may be published, and two keys must not share a modulus.", "quantifier": "All valid keys with any number of primes, both CRT exponents, all working exponents; the count ranges over all bases.", "why_tests_cant": "All keys and a count over all bases below n.", "anchors": ["src/key.rs: RsaPrivateKey::d, PrivateKeyParts::dp, dq"]}
{"id": "C102", "title": "Low public exponents", "statement": "Raw encryption of a number whose e-th power is below n is undone by an integer root, and one number encrypted raw to at least e public keys with exponent e and coprime moduli is read from the ciphertexts by a Chinese remainder and a root. PKCS#1 v1.5 encryption is not open to the first: for every public key, message and random source the e-th power of the padded message exceeds the modulus, so no integer root of the ciphertext is the padded message.", "quantifier": "All public keys, numbers, lists of recipients, messages and generators.", "why_tests_cant": "Ranges over all keys, messages and random sources.", "anchors": ["src/hazmat.rs: rsa_encrypt", "src/algorithms/rsa.rs: rsa_encrypt", "src/algorithms/pkcs1v15.rs: pkcs1v15_encrypt_pad", "src/key.rs: RsaPublicKey::encrypt, check_public"]}
{"id": "C103", "title": "One key used with several schemes", "statement": "A signature accepted under one public key both by PKCS#1 v1.5 and by PSS verification exists only if what was signed the first way ends in the octet BC, has the hash value of the PSS encoding just before it (if it is long enough), and the mask generated from that value is FF wherever both encodings are padding; so PSS verification, for every hash function and salt length, refuses a PKCS#1 v1.5 signature of a digest with another last octet. Signing and decrypting are not separated: the block that PKCS#1 v1.5 signing encodes, sent as a ciphertext, decrypts to a message exactly when the signature is a padding of it, and whoever finds r such that ciphertext * r^e is the block of T and obtains a signature of T reads the message. Nor are the two encryption schemes: a ciphertext made by OAEP encryption may decrypt under PKCS#1 v1.5 to another message.", "quantifier": "All keys, signatures, hash functions, salt lengths, messages, generators and multipliers r.", "why_tests_cant": "A statement about all signatures and all pairs of schemes.", "anchors": ["src/pkcs1v15.rs: sign, verify, encrypt, decrypt", "src/pss.rs: verify_digest", "src/algorithms/pkcs1v15.rs: pkcs1v15_sign_unpad, pkcs1v15_encrypt_unpad", "src/algorithms/pss.rs: emsa_pss_verify", "src/key.rs: RsaPublicKey::verify, RsaPrivateKey::sign, decrypt"]}
{"id": "C104", "title": "How much is hashed, and what verifying a signature costs", "statement": "OAEP decryption hashes nothing when the ciphertext has the wrong length or is not below the modulus, when the label is refused or blinding fails; for every other ciphertext it hashes the label and generates both masks in full, so that the number of hash computations and their input lengths do not tell right padding from wrong. OAEP encryption hashes the label even for a message that is then refused as too long, and the masks only when the seed was drawn. PSS signing hashes everything before the private key is used, or nothing. Verifying a PSS signature hashes either nothing, and then refuses, or exactly what a valid signature costs; PKCS#1 v1.5 verification hashes nothing. Verification makes one public exponentiation, whether it accepts or refuses, and none for a signature refused for its size. For a key read from DER that exponentiation has at most 4096 bits of modulus and 64 of exponent; RsaPublicKey::new does not bound the stored width of the exponent, so a key put together by the caller can make it arbitrarily wide.", "quantifier": "All keys, ciphertexts, signatures, digests, labels, hash functions, salt lengths and generators.", "why_tests_cant": "Tests see results, not how often a hash function is called for each of all inputs.", "anchors": ["src/algorithms/mgf.rs: mgf1_xor, mgf1_xor_digest", "src/algorithms/oaep.rs: oaep_encrypt, oaep_decrypt, decrypt_inner", "src/algorithms/pss.rs: emsa_pss_encode, emsa_pss_verify, emsa_pss_verify_pre", "src/oaep.rs: encrypt, decrypt", "src/pss.rs: sign, verify, verify_digest", "src/pkcs1v15.rs: verify", "src/key.rs: check_public_with_max_size"]}
{"id": "C105", "title": "What the refusal of an encoded key says about it", "statement": "Decoding a public key (from_public_key_der) reports one of four errors, each with its cause. The ASN.1 error: the input is not the DER of a SubjectPublicKeyInfo holding an RSA public key under one of the two RSA identifiers. The unknown-OID error: another algorithm is named. The missing-parameters error: rsaEncryption without NULL. The malformed-key error: other parameters with rsaEncryption or any with RSASSA-PSS, a bit string with unused bits, or numbers RsaPublicKey::new refuses. For private keys (from_pkcs8_der) the same, with the version error exactly for keys of more than two primes. Documents whose identifier can be read are refused with the error of their cause whatever the key in them. PKCS#1 documents have only the ASN.1, version and malformed-key errors. Deserialising reports an error of the format iff the value carries no octets, and otherwise the error of the document; for encryption and decryption keys, an error of the format or that of the key given in them. PSS signing and verifying keys, decoded or deserialised, are refused exactly as the key inside; PKCS#1 v1.5 ones too, except that a document marked RSASSA-PSS is refused with the unknown-OID error whatever else is wrong with it.", "quantifier": "All byte strings, all values of serde's data model, all identifiers, parameters and versions.", "why_tests_cant": "Tests try a few damaged documents and seldom look at which error comes back.", "anchors": ["src/encoding.rs: verify_algorithm_id, TryFrom<PrivateKeyInfoRef> for RsaPrivateKey, TryFrom<SubjectPublicKeyInfoRef> for RsaPublicKey", "src/key.rs: Deserialize for RsaPublicKey, RsaPrivateKey", "src/pkcs1v15/decrypting_key.rs: DecryptingKey", "src/oaep/decrypting_key.rs: DecryptingKey", "src/pkcs1v15/signing_key.rs: TryFrom<PrivateKeyInfoRef>", "src/pkcs1v15/verifying_key.rs: TryFrom<SubjectPublicKeyInfoRef>", "src/pss/signing_key.rs, src/pss/blinded_signing_key.rs, src/pss/verifying_key.rs: TryFrom"]}
{"id": "C106", "title": "Every outcome of exporting a key", "statement": "Exporting a public key (to_public_key_der) gives the DER of its SubjectPublicKeyInfo if that is no longer than the DER library's limit, and the ASN.1 error otherwise; nothing else happens. Exporting a private key (to_pkcs8_der) gives the version error for more than two primes, panics for fewer than two, panics for two primes of which one is 0 or 1, which are stored at different widths, or which are stored wider than d, reports the cryptography error for two other primes with a common factor, and otherwise gives the DER of the PrivateKeyInfo or, if that is too long, the ASN.1 error. Numbers of at most 2^20 bits are never too long when the limit is at least 2^21 octets. PKCS#1 documents are cut out of the other documents and so are produced, refused and panic together with them. Serialising, and exporting or serialising the wrapper types, fail with the error of the key inside.", "quantifier": "All public and private key objects, well-formed but otherwise arbitrary, all numbers of primes, all length limits below 2^32 (PKCS#1: 2^29).", "why_tests_cant": "Tests export a few good keys; the panics depend on how numbers are stored, and the length limit is out of reach.", "anchors": ["src/encoding.rs: EncodePrivateKey for RsaPrivateKey, EncodePublicKey for RsaPublicKey", "src/key.rs: crt_coefficient, Serialize for RsaPublicKey, RsaPrivateKey", "src/pkcs1v15/signing_key.rs: EncodePrivateKey", "src/pss/signing_key.rs: EncodePrivateKey", "src/pkcs1v15/verifying_key.rs: EncodePublicKey"]}
{"id": "C107", "title": "The raw operations on any type implementing the key traits", "statement": "rsa_encrypt, rsa_decrypt and rsa_decrypt_and_check take any type that implements PublicKeyParts or PrivateKeyParts. Whatever such a type answers, encryption is the RSA function for e and the modulus of n_params; inputs not below n are refused with the decryption error; and what rsa_decrypt_and_check releases encrypts to its input. With blinding there is no result at all unless n, n_params and n_bits_precision agree (debug builds), and the released number is below n. If any of dp, dq, qinv, p_params, q_params is missing, or there are more than two primes, the result without blinding is the power with d and the other values do not matter; if d is stored narrower than the input the call panics. A type that answers all five but lists fewer than two primes makes it panic. A type that answers with the numbers of a valid key and any selection of its CRT values decrypts exactly as that key. For RsaPrivateKey the generic operations are those the other properties speak of. Without blinding, if n and n_params disagree, the released number need not encrypt to the input under n.", "quantifier": "All combinations of answers of the accessors, related to each other or not; all inputs; all generators.", "why_tests_cant": "Tests use the crate's own key type only, so never see accessors that contradict each other or answer in part.", "anchors": ["src/algorithms/rsa.rs: rsa_encrypt, rsa_decrypt, rsa_decrypt_and_check, blind", "src/traits/keys.rs: PublicKeyParts, PrivateKeyParts", "src/hazmat.rs", "src/key.rs: PublicKeyParts for RsaPrivateKey, PrivateKeyParts for RsaPrivateKey"]}
{"id": "C108", "title": "Keys that share a modulus or a prime", "statement": "Nothing in the library ties a modulus to one owner, and these are the consequences. One number sent raw to two public keys with the same modulus, with exponents that have no common factor, is the only solution of an equation whose coefficients are the two ciphertexts and public numbers (for numbers coprime to the modulus). The primes of a two-prime private key and the public exponent of another key with the same modulus make, by from_p_q, a private key that decrypts everything encrypted to the other key and signs for it. If the moduli of two keys have a proper common factor, that factor and the quotient are primes, and from them and the public exponent from_p_q makes the private key of the two-prime one; this is so whenever the keys share a prime and the first modulus does not divide the second. The exponent has to be one the library accepts.", "quantifier": "All pairs of valid keys (the other one with any number of primes), all exponents, numbers, generators and blinding.", "why_tests_cant": "Tests use unrelated keys; that no pair of keys with common numbers is safe is a statement about all pairs.", "anchors": ["src/key.rs: RsaPrivateKey::from_p_q, RsaPublicKey", "src/algorithms/rsa.rs: rsa_encrypt, rsa_decrypt_and_check"]}
{"id": "C109", "title": "Keys as PEM text", "statement": "The text written for a key (to_pkcs8_pem, to_public_key_pem, to_pkcs1_pem, for private and public keys) is the RFC 7468 text of the DER document under the documented label: base 64 in lines of 64 characters, with the chosen line ending on every line and no other. There is a text exactly when there is a DER document. Reading the text, after any preamble without dashes or none, gives what reading the document gives. The same holds for any text with these lines, whatever mixture of line endings it has, with or without the last one; under another of the four labels it is refused and the document is not looked at. An accepted text consists of some preamble, the marker lines with the right label and between them exactly the base 64, in lines of 64 characters, of a document that is accepted as DER (blank lines may follow it). Signing and verifying keys are written and read in the same way. Writing a private key of two primes, or a public key, with any line ending and reading the text gives an equal key, under the same conditions as for DER (C33); when they fail the text is refused. A generated key, and PKCS#1 v1.5 and PSS signing keys made from it with the default prefix or salt length, come back equal and valid, except for the sizes at which export panics (C85). A key read from text has all the properties of keys obtained through the API (C92). Different documents have different base 64. Texts with other line lengths, header lines, anything after the end, or bits left over that are not zero are refused.", "quantifier": "All keys, documents, labels, line endings and preambles; for what is accepted, all texts.", "why_tests_cant": "Tests read and write six texts with one kind of line ending.", "anchors": ["src/lib.rs: documentation of PKCS#1 and PKCS#8 key encoding, re-exports pkcs1 and pkcs8", "Cargo.toml: feature pem", "src/encoding.rs", "tests/pkcs8.rs: encode_rsa2048_priv_pem", "tests/pkcs1.rs: encode_rsa2048_pub_pem", "src/pkcs1v15/signing_key.rs: EncodePrivateKey, TryFrom<PrivateKeyInfo>", "src/pss/signing_key.rs: EncodePrivateKey, TryFrom<PrivateKeyInfo>", "src/pss/verifying_key.rs: EncodePublicKey, TryFrom<SubjectPublicKeyInfoRef>"]}
