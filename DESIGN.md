# Formal model of RustCrypto/RSA: design

Source modelled: `/repo` (crate `rsa`, 0.10 pre-release, pinned commit), read as text.
Prover: Coq 8.16.1.  Sources: `rocq/theories`, logical prefix `Verif`.

## 1. Shape of the development

| layer | files | content |
|---|---|---|
| base | `Base.v`, `BytesLemmas.v` | `outcome` (Ok / Err / Panic / OutOfFuel), bytes, checked slice operations |
| bigint contract | `Bigint.v`, `NumTheory.v`, `Fermat.v` | `BoxedUint` as value + precision, Montgomery forms, modular inverse, Fermat/CRT facts |
| model | `M*.v` | one definition per Rust function, cited by file and lines; no proofs |
| specification | `Spec*.v` | RFC 8017 / NIST text written independently of the model |
| proofs | `P*.v` | lemmas about the model |
| test runs | `Sha.v`, `Vectors.v` | SHA-1/SHA-256 and the project's test vectors run on the model |
| properties | `Prop*.v` | property theorems, short proofs from the lemmas, with non-vacuity examples and `Print Assumptions` |

Results of Rust code are values of `outcome A`: `Ok a`, `Err e` (the crate's `Error`), `Panic`
(index out of range, failed `assert!`/`expect`/`unwrap`, integer underflow in a checked build), and
`OutOfFuel` for loops whose number of iterations is controlled by the environment (RNG retry loops).
Every theorem about such a loop quantifies over all fuel values.

Bytes are Coq's 256-constructor `byte`, so all byte strings are valid by typing. `usize` quantities are
`nat`; subtraction is checked (underflow = Panic). `u32`/`i32`/`u8` arithmetic is written with explicit
wrap-around or overflow checks wherever the source uses it. The model is of a build with overflow checks
and debug assertions; `MRelease.v` models a build without them (C88).

`BoxedUint` is modelled by its integer value and its precision in bits (a positive multiple of 64);
every operation says what happens to both. This matters: several findings below are about precision.

Random generators are arbitrary state machines (`try_fill`, `try_random_mod`, and a prime generator),
which may fail at any call. Hash functions are arbitrary functions with a fixed output length.

## 2. Trusted base

1. Coq 8.16.1's kernel (and `vm_compute` for examples).
2. Axioms: see section 5 (output of `Print Assumptions`).
3. The contracts of dependencies, which are not in `/repo` and are modelled, not verified:
   * `crypto-bigint` (0.7.0-pre): `BoxedUint` precision is a positive multiple of 64 bits;
     `from_be_slice(b, bits)` fails if `b` is longer than `ceil(bits/8)` bytes and rounds precision up
     to 64; `widen`/`shorten` panic in the wrong direction and `shorten` truncates; `*` adds
     precisions; `wrapping_mul` keeps the precision of the left operand; `-` panics on underflow and
     `+` on overflow; comparisons and equality are by value; `Hash` hashes the limbs;
     `inv_mod` returns the inverse in `[0,m)` iff it exists; Montgomery forms compute modulo their
     modulus and require equal precision (a debug assertion: modelled as Panic; in `MRelease.v` the
     result is then an arbitrary function of the operands);
     `to_be_bytes` has precision/8 bytes.
     Evidence in `/repo`: `recover_primes` widens `n` to the precision of a product; the regression
     file `tests/proptests.proptest-regressions` shows a 512-bit key whose `d` is printed with 768
     bits = 256+256+256; `src/pkcs1v15/signature.rs` test prints 42 as 16 hex digits.
   * `crypto-primes`: the generator returns a prime of exactly the requested bit length with the two
     top bits set and precision `64*ceil(bits/64)`; used only as a hypothesis of key-generation theorems.
   * `digest`: `update` appends, `finalize_reset` returns the hash of what was appended and resets.
   * `rand_core`: `try_fill_bytes` either fails or fills the whole buffer.
   * `der`/`pkcs1`/`pkcs8`/`spki`: DER encoders/decoders are modelled in `MDer.v` (definite lengths, minimal integers).
   * `pkcs8`: which optional fields may follow the key in a PKCS#8 document is left to an arbitrary
     predicate `tail_ok` in the theorems.
   * `serde`, `serdect`, `base16ct`: a serializer receives, and a deserializer offers, a value of serde's
     data model (`MSerde.v`); concrete formats are not modelled.
   * `pem-rfc7468`, `base64ct`: the texts they write and accept (`MPem.v`), from RFC 7468 and their documentation;
     all their errors are one.
   * `subtle`, `crypto-bigint`, `digest` for the theorems about execution traces (C66-C71, C79, C81): a
     `subtle` selection is one event without data; a call of a listed big-integer operation shows
     its operands' precisions only; hashing shows the length of its input. Operations the crate
     calls in variable time (`*_vartime`, comparison of public values) show their operands.
   For results (all other theorems) constant-time selections are modelled by their values.
4. `usize` is unbounded (sums of lengths do not overflow); allocation does not fail.

5. That the model computes what the crate computes is not provable here. As evidence `Vectors.v` runs the model,
   with SHA-1 and SHA-256 written out in `Sha.v`, on the vectors of the project's own tests: 512-bit
   decryption, PKCS#1 v1.5 and PSS signatures, the key regressions, the printed key of
   `proptests.proptest-regressions` with every precision, serde strings, PKCS#1/PKCS#8 documents of
   `tests/examples`, prime recovery, the printed signature, the PEM texts of `tests/examples`. All agree. These runs are tests, not
   proofs; no theorem depends on them and they leave no term in the compiled file. The 4096-bit private
   key is only decoded and re-encoded (building it takes minutes).

## 3. What is and is not modelled

| code | model |
|---|---|
| `src/algorithms/pad.rs`, `mgf.rs`, `pkcs1v15.rs`, `oaep.rs`, `pss.rs` | `MPad.v`, `MMgf.v`, `MPkcs1.v`, `MOaep.v`, `MPss.v` |
| `src/algorithms/rsa.rs`, `generate.rs` | `MRsa.v`, `MGenerate.v` |
| `src/key.rs` | `MKey.v`, `MMisc.v` (accessors), `MDebug.v` (Debug, Drop, Zeroize), `MSerde.v` |
| `src/pkcs1v15.rs`, `src/oaep.rs`, `src/pss.rs` | `MApi.v` |
| `src/pkcs1v15/*`, `src/oaep/*`, `src/pss/*` | `MWrap.v`, `MMisc.v`, `MSerde.v`, `MEncoding.v`, `MPssParams.v` |
| PEM text of the dependencies behind the feature "pem" | `MPem.v` |
| `src/errors.rs` | `Base.v` (the type), `MErrors.v` (texts, conversions) |
| `src/encoding.rs` and the DER it relies on | `MDer.v`, `MEncoding.v` |
| `src/traits/*` | trait declarations have no code; the provided methods are in `MKey.v`/`MApi.v` |
| secret-handling code of `src/algorithms/*`, `src/pkcs1v15.rs`, `src/oaep.rs`, `src/pss.rs`, `precompute` | again with execution traces: `MLeak.v`, `MLeakEnc.v`, `MLeakVerify.v` |
| key loading and building: `from_components`, `from_p_q`, `from_primes`, `validate`, `recover_primes`, `crt_coefficient` and the exponent computations | again with execution traces: `MLeakKey.v` |
| private-key import and export, key comparison, key generation | again with execution traces: `MLeakImport.v`, `MLeakExport.v`, `MLeakGen.v` |
| `rsa_decrypt`, `rsa_decrypt_and_check`, `blind` and the scheme functions calling them | again with faults: `MFault.v` |
| `rsa_encrypt`, `rsa_decrypt`, `rsa_decrypt_and_check`, `blind` for any implementor of the traits of src/traits/keys.rs | again over the accessors' answers: `MParts.v` (equal to `MRsa.v` for `RsaPrivateKey`: C107_own_type) |
| `rsa_decrypt`, `blind`, the encryption and decryption schemes, both signature schemes, `to_pkcs8_der` | again with the heap objects they free: `MResidue.v`, `MResidueSig.v` |
| every function above whose checked build can panic on overflow or a debug assertion (134 of them) | again without these checks: `MRelease.v` |
| `rsa_decrypt` in `src/algorithms/rsa.rs` | a second time, cut before the exponentiation: `MBlind.v` |

Simplifications, each also stated at the definition:

* DER: OID contents are compared as octets and their arcs not re-checked; otherPrimeInfos is not parsed (the code refuses such documents); the optional PKCS#8 fields are abstract (`tail_ok`).
* `Debug` output is the tree of formatter calls, not the text; `Zeroize` of a key is modelled as the list of
  fields overwritten (`MDebug.v`); the memory the other functions free is modelled in `MResidue.v` and `MResidueSig.v`.
* derived `Deserialize` is modelled for maps (`visit_map`) and for sequences (`visit_seq`); the format's own syntax is not.
* The opaque `signature::Error` is the error it wraps; `OsRng` is an arbitrary generator; `DummyRng`
  (`src/dummy_rng.rs`) is only ever passed as `None` and so has no model.

Not modelled: concrete serde formats, `std::error::Error` plumbing,
concurrency (the crate has no shared mutable state), micro-architectural effects beyond the trace of
C66-C71, compiler behaviour, benches and tests.

## 4. Plan per property

* **C01 PKCS#1 v1.5 encryption round trip** - Compose C06, C07 and C05: model `pk_encrypt`/`pk_decrypt`, prove decrypt(encrypt m) = Ok m for all RNG oracles.
* **C02 OAEP encryption round trip** - Same shape with `oaep_*`; MGF involution lemma plus DB parsing lemma.
* **C03 OAEP accepts exactly the well-formed encodings** - Spec predicate `oaep_wf` built from concatenations and an RFC MGF1; prove iff by analysing the index loop (loop invariant over the scanned prefix).
* **C04 OAEP label binding** - Corollary of C02/C03 with differing label hashes.
* **C05 PKCS#1 v1.5 decryption accepts exactly 00 02 PS 00 M** - Spec predicate on concatenations; invariant of the constant-time scan.
* **C06 PKCS#1 v1.5 encryption padding is well formed for every RNG** - Induction on the slice and on fuel of the retry loop.
* **C07 Raw RSA round trip in both directions** - Fermat's little theorem proved in `Fermat.v` from the standard library; product of distinct primes; CRT recombination lemma. PropBoundary.v: representatives stored at another width (C07_precisions, C07_precisions_blinded).
* **C08 CRT acceleration changes nothing** - State machine of precompute/clear over a valid key; induction on the list of calls.
* **C09 Blinding is transparent** - Algebra of c*r^e with r a unit; induction on fuel of the blinding loop. PropBoundary.v: blinded against unblinded PSS signing (C09_sign_pss).
* **C10 No faulty private-key result is ever released** - Direct from the model for arbitrary key record (no validity hypothesis).
* **C11 Out-of-range inputs to the private operation are rejected** - Direct from the model. PropBoundary.v: the traced operation makes no request and no exponentiation (C11_untouched).
* **C12 PKCS#1 v1.5 signature round trip** - Round trip through C07 and C13, with the exact precision condition; refutation theorem for other precisions and for generated keys.
* **C13 PKCS#1 v1.5 verification is exact** - Equality of EM with spec encoding, iff.
* **C14 PKCS#1 v1.5 signing is deterministic and unique** - Blinding transparency + injectivity (C46).
* **C15 PSS signature round trip** - Encode/verify round trip at EM level for all em_bits, then lifted to keys.
* **C16 PSS verification follows RFC 8017 EMSA-PSS-VERIFY** - Spec RFC 9.1.2 verification predicate; iff; refutation for bits = 1 mod 8.
* **C17 PSS verification range checks** - verify_digest Ok implies s<n; malleability theorem for the padding-scheme API.
* **C18 Signature length strictness** - Length theorem for Pss; theorem relating byte strings of equal value/limbs for PKCS#1 v1.5; concrete witness.
* **C19 Ciphertext length strictness** - As C18 for decryption.
* **C20 Outputs always have the modulus length** - Length of left_pad; OS2IP bound. PropBoundary.v: signature length without validity of the key (C20_sign_any).
* **C21 Integer/byte conversion is I2OSP** - OS2IP/I2OSP spec and iff.
* **C22 MGF1 conforms to RFC 8017 and both variants agree** - Loop invariant over the buffer; spec MGF1 as concatenation.
* **C23 Dynamic and static digest APIs agree** - Equalities of model functions.
* **C24 DigestInfo prefix is valid DER** - Independent DER spec (`SpecDer.v`); exact bound by comparing lengths; injectivity.
* **C25 Public key validation is exact** - Boolean reflection of check_public, plus encrypt returning ModulusTooLarge.
* **C26 Validation guarantees the RSA equation** - Algebra; product modulo 2^prec; refutation witness.
* **C27 Key constructors and panics** - Case analysis of from_components; refutation witnesses (prime 1, empty list).
* **C28 Prime recovery is sound and complete** - Soundness from b^2-4n=y^2; completeness by the NIST argument on (de-1)gcd(n-1,de-1).
* **C29 Rebuilding a key from its primes** - Invariants of compute_modulus and the exponents.
* **C30 Generated keys are valid** - Induction on fuel of the retry loop under the prime-generator contract.
* **C31 Key generation with an even exponent never returns** - Even exponent has no inverse modulo an even totient; induction on fuel.
* **C32 Too-small key sizes are refused up front** - binary64 via the (axiom-free, computational) stdlib SpecFloat; finite case split below 64 bits and 64 primes, sign argument for more primes.
* **C33 PKCS#8 and SPKI round trip** - `MDer.v`/`MEncoding.v` against `SpecDer.v`: exported bytes equal the spec document, import of the spec document by C50.
* **C34 Algorithm identifiers are checked exactly** - Case analysis.
* **C35 Signature objects preserve the value, not the byte length** - be-bytes lemmas. PropBoundary.v: strings of 2^29 bytes and more (C35_long).
* **C36 Key equality is an equivalence and agrees with hashing up to precision** - Relation algebra; refutation witness for hashing. The octets a hasher receives are stated for any encoding of integers (C36_hash_octets).
* **C37 Debug output never depends on secrets** - Non-interference statement on the rendered field list.
* **C38 Dropping a key erases d and the primes but not all CRT material** - Model of the pieces of memory a key owns and of what each holds when freed; refutation by an explicit recovery program. The allocator, the optimiser and copies made before the drop are outside the model.
* **C39 Decryption, verification and signing never panic** - Panic-freedom lemmas for each scheme, composed.
* **C40 Message length limits are exact** - iff statements on result constructors.
* **C41 RNG failures surface as Error::Rng** - Induction on the failing call.
* **C42 PSS needs randomness** - Case analysis plus C09.
* **C43 Serialisation of signing keys forgets scheme parameters** - Model of encode/decode wrappers.
* **C44 PSS algorithm identifier carries the salt length modulo 256** - Arithmetic modulo 256 and refutation.
* **C45 Raw encryption is modular exponentiation within the modulus precision** - Model of reduce_vartime; refutation witness.
* **C46 Public exponentiation is a permutation** - Injectivity from C07.
* **C47 Keypair views are consistent** - Equalities of wrapper functions.
* **C48 Signature object bytes under the padding-scheme API** - C35 lengths composed with C12/C15 and C18. PropBoundary.v: the exact condition for PKCS#1 v1.5 (C48_pkcs1_bytes_iff).
* **C49 Generated keys of some sizes reject their own signatures** - Width arithmetic of the generated modulus (C30) composed with C12; refutation at 160 bits.

* **C50 Import accepts exactly the importable private key documents** - `SpecDer.importable`; `import_exact`/`import_only` over the parsed structure composed with decode-of-encode lemmas.
* **C51 Only canonical DER is accepted** - Inversion of every decoder: what decodes is `der v`.
* **C52 Decoding arbitrary bytes returns** - `settled` predicate pushed through every decoder; witness for a prime equal to 1.
* **C53 Key objects and padding schemes encrypt and decrypt alike** - Unfold both sides to the same core function; compose with C01 and C02.
* **C54 Signing messages through key objects follows RFC 8017** - Reduce to the prehash forms (C12, C13, C15, C16); absorb lemma of the digest by induction on the pieces.
* **C55 Signatures as text and their equality** - Independent reading function in SpecHex.v; limb-wise printing proved equal to it by induction on the limbs.
* **C56 Equality of OAEP keys** - Reflection of the boolean equality.
* **C57 Randomly generated signing keys work** - Compose C30 (generation) with C54.
* **C58 Scheme constructors set the documented parameters** - Constructors unfolded inside the round-trip theorems.
* **C59 The default PSS algorithm identifier describes the default key** - Both sides computed and compared; C36 gives the contents.
* **C60 A signature binds hash function and message** - Injectivity of EMSA-PKCS1-v1_5 and of the PSS check on H.
* **C61 Serialised keys** - `SpecSerde.carries`; hexadecimal decoder proved equal to the reading relation of SpecHex.v by induction on pairs of digits; composed with C33, C43, C52.
* **C62 Serialised signatures** - C35 composed with the byte-string lemmas of C61.
* **C63 Serialised encryption and decryption keys** - Invariant of the field loop (`rest_of`, `rest_label`), by induction on the field list; formats that give the fields by position (`STuple`) by cases on the first four elements. `C63_public_layout` and `C63_private_layout` give the structures written, from the documents of C61.
* **C64 PKCS#1 documents** - Reduced to C33, C50 and the inversion lemmas of C51.
* **C65 Signature algorithm identifiers of PKCS#1 v1.5 keys** - Independent relation `SpecOid.oid_encoding`, proved injective; the encoder meets it by induction on the septets.
* **C66 What running a PKCS#1 v1.5 decryption shows** - Traced re-implementation (MLeak.v) proved to give the same results as the model of C01-C10 (PLeak.v); relational logic `agree` (same trace, related results, PLeakRel.v); inductions over the padding scan; converse by reading the slice offset out of the trace.
* **C67 What running an OAEP decryption shows** - Same method; MGF1 is shown oblivious by induction on the blocks, the separator scan by induction on the data block.
* **C68 What running the private operation shows** - `ag_rsa_decrypt` for keys of one shape; the blank key has the same shape.
* **C69 What running an encryption shows** - Same relational method.
* **C70 What running a signature shows** - Same relational method; signing composes the encoders with C68.
* **C71 What computing the CRT values shows** - Relational method; converse by computing the beginning of the trace for every valid key.
* **C72 Equal keys are interchangeable** - Every operation is rewritten in terms of n, e, d and the stored width of n (`eq_core` and friends in PMisc.v); the width counterexample is computed.
* **C73 Raw operations are multiplicative** - From the exact results of C08 and modular arithmetic. PropBlindSig.v composes them with the exact signing and verification results (C12, C15, C16): blind signatures are signatures (C73_blind_pkcs1v15, C73_blind_pss), and the value sent fits every message (C73_blindness, by exhibiting the other blinding factor).
* **C74 Digest objects that have already absorbed data** - Digest objects carry their pending octets in the model, so the general statement is by unfolding; the two failures are computed counterexamples.
* **C75 Reported CRT values** - From the inversion lemma of `precompute` and the congruences of a valid key; uniqueness of the inverse.
* **C76 Conversions between keys and key objects** - By computation on the records; these are one-line functions in the code.
* **C77 How far the random generator reaches** - Two-run statements; PKCS#1 v1.5 through the exact encryption lemma of C03.
* **C78 Blinding hides the ciphertext from the private exponentiation** - The private-key operation is cut at the exponentiation (MBlind.v, shown to compose to the operation); unique e-th roots of units from the private exponent, existence of a unit ratio between numbers with equal gcd for squarefree n, then the retry loop by induction (PBlind.v). Uniformity proper is refuted by the double count.
* **C79 What is asked of the random source** - Read off the execution traces of C66 to C71, where every request is an event; the request list is a homomorphism on the sequencing of traces, and all other steps are shown silent (PRequests.v).
* **C80 No padding string, seed or salt is favoured** - Uniform source: all octet tapes of a length, each once. An involution on tapes exchanges the outcomes of two padding strings, redraws included (PUniform.v); seeds and salts are prefixes of the tape and the encodings are injective in them (PUniform2.v).
* **C81 What loading a key shows** - Traced re-implementation of the constructors (MLeakKey.v) with result lemmas; `read_primes` reads the divisors off a trace by a homomorphism lemma; hiding by the relation `alike` (if both runs succeed, equal traces). The dependency's `/`, `%`, `gcd`, `sqrt` and `inv_mod` are taken to show precisions only, `rem_vartime` to show its modulus.
* **C82 Miscalculation of the private operation** - MFault.v repeats the operation with a possible replacement after each computed number (equal to the model without one: C82_no_fault). Soundness needs only that the result is a number of the width of n. A block beginning 00 is below n, hence the exact message (C82_decryption); signatures are determined modulo n only (C82_same_octets_refuted). C82_unchecked_betrays is the gcd attack on the unchecked operation, for every valid two-prime key. Faults in control flow, in the comparison and in the padding code are not modelled.
* **C83 How much work a call does** - SpecWork.v reads the exponentiations (widths of modulus and exponent) off a trace and defines the expected lists and a cost total; PWork.v shows that padding, hashing and conversion code makes none and computes the list of each traced function of MLeak.v and MLeakEnc.v by inversion over its binds; PropWork.v: C83_decrypt_pkcs1v15, C83_decrypt_oaep, C83_sign, C83_encrypt, C83_precomputed_costs_more, and C83_precompute_speeds_up_refuted for the documented purpose of `precompute`. Assumes that the time of the dependency's exponentiation is a function of the two widths (MLeak.v). Verification is in C104.
* **C84 How often the random source is asked again** - SpecDraws.v lists all sequences of draws and defines the source that reads one, the counts and binomial coefficients; PDraws.v shows by induction that an operation is still asking exactly if no number of the sequence is usable, counts the numbers sharing a factor with a product of distinct primes, and counts tapes by number of non-zero octets with the recurrence of the binomial coefficients; PropDraws.v: C84_sequences, C84_blinding_exact, C84_sharing, C84_blinding_rare, C84_padding_exact, C84_padding_at_once, C84_choose, C84_padding_rare, C84_once_refuted (a good source may be asked twice). Key generation's loop is counted in C86.
* **C85 Generated keys survive export** - Composes the exact generation theorem (C30) with the codec of C33: PExport.v computes the widths at which a generated key stores n, d and its primes, shows that export panics exactly when the widths of the primes differ (equal halves rounded to limbs: b mod 128 <> 1), and that import stores the modulus minimally; PropExport.v: C85_export, C85_public, C85_widths, C85_reimported_verifies, C85_repaired, C85_every_key_exports_refuted (a 129-bit key). The panic is the debug assertion on equal precisions of the dependency's inv_mod; its behaviour without that assertion is not modelled.
* **C86 No generated key is favoured** - SpecPairs.v defines a source drawing listed positions from given sets of primes, all sequences of draws and the counts; PPairs.v counts words by their first good letter by induction on their length, shows that generation returns the first fit pair (C30), transports the count through the positions, and counts fit pairs for a prime exponent; PropPairs.v: C86_ends, C86_still_drawing, C86_equal_shares, C86_primes_determine, C86_fit_pairs, C86_default_exponent. How the dependency draws a prime is outside the model.
* **C87 Every error has one stated cause** - PErrors.v turns the exact results of C19-C24, C12-C18 and C26 into equivalences, using that every generator either delivers, fails or runs out of attempts (SpecRng.v); PropErrors.v: C87_pkcs1v15_decrypt, C87_oaep_decrypt, C87_oaep_long_label, C87_pkcs1v15_encrypt, C87_oaep_encrypt, C87_pkcs1v15_sign, C87_pss_sign, C87_pkcs1v15_verify, C87_pss_verify, C87_validate, C87_never, with an example for each cause. The errors of the constructors are in C25, C27-C29 and C30-C32.
* **C88 Release builds behave like checked builds** - MRelease.v restates the 134 functions with wrapping arithmetic, no debug assertions and an arbitrary dependency on operands of unequal precision; PRelease.v proves for each that it agrees with the checked one unless that panics; with the absence of panics (C39, C27, C29) the outcomes are equal; PRelVerify.v follows verification where the checked build panics. PropRelease.v: C88_encrypt, C88_decrypt, C88_sign, C88_from_components, C88_from_p_q, C88_from_primes, C88_verify, C88_verify_outcome, C88_verify_returns, C88_key_types, C88_keys, C88_documents, C88_entry_points; C88_long_signature_refuted and C88_prefix_refuted show inputs on which the builds differ.
* **C89 PSS algorithm identifiers as octets** - SpecPssParams.v gives RSASSA-PSS-params as a relation between octets and values, with fields present or absent for defaults; MPssParams.v models the encoding and `Any::encode_from`; PPssParams.v proves the encoder equal to the relation's value, splits fields by tag for uniqueness and composes with C44. PropPssParams.v: C89_identifier, C89_canonical, C89_produced, C89_errors, C89_unambiguous, C89_same_identifier, C89_verifies, C89_default, C89_not_for_keys.
* **C90 Failed calls cannot be told apart** - MErrors.v models Display, Debug and the conversions of src/errors.rs; the errors of two failing runs are compared through the exact theorems of C03, C05, C13, C16. PropTexts.v: C90_decryptions, C90_verifications, C90_texts, C90_foreign, C90_signature_errors. C90_prime_count ties the one number in an error text to the code's limit.
* **C91 What secret-handling calls leave in memory** - MResidue.v and MResidueSig.v repeat the encryption, decryption, signing, blinding and export functions with the list of heap objects each frees, plain or erased (Zeroizing, zeroize); C91_results and C91_signing_results prove by refinement that the results are those of the other models. Not modelled: objects moved into dependencies and the dependencies' own temporaries (a Montgomery form's shared parameters are not counted as freed), the stack, what is left after a panic. PropResidue.v: C91_results, C91_plaintexts, C91_decrypted_block, C91_blinding, C91_encryption, C91_encryption_octets, C91_dynamic_seed, C91_export, C91_refuted; PropResidueSig.v: C91_signing_results, C91_pkcs1v15_signature, C91_pss_signature, C91_crt_factor, C91_input_factor, C91_signature_factor, C91_factor_refuted. PropErase.v (lemmas in PErase.v): the exact list of erased objects of every such call, C91_erased_raw, C91_erased_decryption, C91_erased_signature, C91_erased_encryption, C91_erased_export. PropInventory.v (spec SpecInventory.v, lemmas PInventory.v): the complete list of freed objects of each call, in order, with the contents and fate of each, written from the arithmetic of the operation: C91_complete_raw, C91_complete_decryption (right or wrong padding, long label, short key), C91_complete_signature, C91_complete_encryption, C91_complete_export. PropInventoryErr.v: the same list for calls that fail, C91_complete_refused_encryption (every error), C91_complete_refused_decryption (wrong length, out of range), C91_complete_refused_signature (padding too long, hash of the wrong length, key too small, no salt). PropInventoryFail.v: the list when the random source fails during blinding, C91_complete_failed_decryption (raw, PKCS#1 v1.5 and both OAEP paths) and C91_complete_failed_signature (PKCS#1 v1.5 and both PSS paths). Failed exports are covered only by the erased lists.
* **C92 Every key a program can hold, by any sequence of calls** - SpecLife.v defines the reachable keys (obtained, obtained_public) and the steps a kept key goes through (kept) as inductive predicates over the modelled calls; PLife.v proves an invariant by induction over them, from the exact theorems about each constructor (C26-C30, C33, C34, C60-C64). Excluded: the hazmat constructor new_unchecked and limits other than 4096 bits. Saving is stated for a modulus and exponent whose document fits (2^20 bits). PropLife.v: C92_private, C92_public, C92_precompute, C92_valid, C92_never_panics, C92_narrow_exponent, C92_wide, C92_kept, C92_kept_results, C92_always_usable_refuted.
* **C93 What is accepted is exactly what can be produced** - SpecBlind.v's tape generator hands out any chosen octets, so "some tape" ranges over every random choice. PAccept.v composes the exact decision theorems (C05, C06, C15, C16) with the exact production theorems (C01, C02, C40, C41, C80) and RSA inversion. PropAccept.v: C93_pkcs1v15_ciphertexts, C93_oaep_ciphertexts, C93_pkcs1v15_signatures, C93_pkcs1v15_keys, C93_pss_signatures, C93_pss_keys, C93_pss_refuted.
* **C94 How many ciphertexts and signatures are accepted** - SpecCount.v says what it means that N values satisfy a condition (a list without repetition holding exactly these). PCount.v counts padding strings, seeds, messages and salts and carries the count over by C93 and the injectivity of C80. PropCount.v: C94_pkcs1v15_ciphertexts, C94_oaep_ciphertexts, C94_pkcs1v15_signatures, C94_pss_signatures, C94_pss_refuted.
* **C95 What exporting a key shows** - MLeakExport.v traces the export with the events of MLeak.v; the dependency's UintRef::new is taken to look at leading zero octets one by one and its encoder to jump on the top bit and to show amounts copied, `%`, `-` and inv_mod to show widths only. PLeakExport.v proves the results equal to MEncoding.v's, one direction by the relation `alike` (C81), the other by reading the amounts copied off the trace. PropLeakExport.v: C95_same_program, C95_exact, C95_oblivious_refuted.
* **C96 What comparing private keys shows** - MLeakExport.v traces == with a jump after each comparison of numbers; the dependency's == of big integers is taken to show widths only. PropLeakExport.v: C96_same_program, C96_exact, C96_guesses, C96_constant_refuted.
* **C97 What the outcomes of other decryptions say about a ciphertext** - SpecOracle.v: `mauled`, the decidable `conforms`, and `recover`, the search through the numbers below n for one that fits the answers (a definition of what the answers determine, not an efficient attack). POracle.v: for a factor t other than 1 modulo n there is a well-formed block x with t*x mod n outside [2B, 3B): two blocks that differ in one octet (chosen by the size of t - 1) by the right amount are stretched too far apart. PropOracle.v: C97_question_pkcs1v15, C97_question_oaep, C97_recovered, C97_message, C97_forged, C97_told_apart; questions about single answers come from C05 and C03. Moduli of eleven octets, which allow the empty message only, are left out of the last four, as are ciphertexts that share a factor with n.
* **C98 What importing a key shows** - MLeakImport.v traces the import with the events of MLeak.v, including the der dependency's parser: it is taken to jump on the tag, on the first length octet, on each check, and on whether the first octet of an integer is 00 and the next octet has its top bit set, and to show the bounds of each slice it takes; the algorithm identifier and the optional fields are public. Building the key is MLeakKey.v. PLeakImport.v: same results; traces alike for numbers that look alike; the slice bounds of a trace give back the sizes; no variable-time division before the key is built. PropLeakImport.v: C98_same_program, C98_reveals_primes, C98_exact, C98_oblivious_refuted. Import from PKCS#1 and serde is the same code after the outer wrapping and is not traced separately; rejected documents are not compared.
* **C99 What generating a key shows** - MLeakGen.v traces the generation with the events of MLeak.v; what the search of the crypto-primes dependency shows is a parameter, and `bits` is taken to show the width only. SpecTries.v: the verdicts, stated over the generator interface. PLeakGen.v: same results; the trace of one round is computed, and is the same for all pairs with one verdict; no verdict's trace is a prefix of another's. PropLeakGen.v: C99_same_program, C99_reveals_primes, C99_search, C99_new, C99_oblivious_refuted. The theorems about verdicts are for two primes, all that the API generates.
* **C100 Which weak keys are excluded and which are not** - SpecWeak.v: Wiener's bound and Fermat's method, plain arithmetic. PWeak.v: a number congruent to 1 modulo p-1 and above 1 exceeds p-1; the search succeeds exactly at (p+q)/2, as a product of two primes has no other divisors. PropWeak.v: C100_exponent, C100_no_short_exponent, C100_generated_exponent, C100_rebuilt_exponent, C100_exponent_refuted, C100_fermat, C100_fermat_close, C100_any_pair, C100_distance_refuted.
* **C101 One exponent of a private key gives the factors** - SpecWeak.v: the two factoring methods. PWeak.v: e*dp-1 = k*(p-1) for some k below e. PSplit.v: multiplying a useless base by a fixed number that is 1 modulo q and of maximal two-adic order modulo p gives a useful one, injectively. PropWeak.v: C101_crt_exponent, C101_working_exponent. Any number of primes; primality and squarefreeness are needed (valid key).
* **C102 Low public exponents** - SpecBroadcast.v: integer root by bits, Chinese remainder, the attack. PBroadcast.v: both exact; a padded message is at least 2*256^(k-2) and e at least 2. PropBroadcast.v: C102_raw_small, C102_broadcast, C102_padded. Not claimed for OAEP, whose masked block has no lower bound.
* **C103 One key used with several schemes** - PCross.v: a block of octets with both encodings, octet by octet, lifted through the exact verification lemmas; signatures and decryptions as private powers. PropCross.v: C103_signatures, C103_refused, C103_key_objects, C103_signing_decrypts, C103_signing_reveals, C103_ciphertexts_refuted. The case with both schemes accepting uses a hash function made for it; that none exists for a given hash function cannot be stated without an assumption on it.
* **C104 How much is hashed, and what verifying a signature costs** - MLeakVerify.v adds traced verification; SpecHashing.v reads the hashed amounts off a trace and defines the amounts RFC 8017 asks for. PLeakVerify.v: the traced functions return what the plain ones do; PHashing.v: induction over the mask loop, then each function. PropHashing.v: C104_same_results, C104_decrypt_oaep, C104_encrypt_oaep, C104_sign_pss, C104_verify_pss, C104_verify_pkcs1v15, C104_verify_work, C104_decoded_key, C104_exponent_width_refuted. The time of a hash computation is taken to be a function of the length of its input.
* **C105 What the refusal of an encoded key says about it** - SpecRefusal.v writes down documents with any identifier, unused bits or further primes. PRefusal.v inverts the decoders on their error side: every refusal of the DER reader is one error, and what was read before a later refusal has the stated shape; conversely such documents are read. PropRefusal.v: C105_public, C105_private, C105_pkcs1_public, C105_pkcs1_private, C105_public_reported, C105_private_reported, C105_multi_prime_reported, C105_serialised, C105_serialised_structs, C105_pss_keys, C105_pkcs1v15_keys. The converse is stated for identifiers the DER dependency can read (readable_identifier), since the model does not check the octets of an unknown object identifier.
* **C106 Every outcome of exporting a key** - PExportAll.v shows that each step of the encoders gives the DER of X.690 or the ASN.1 error, and that a document that is returned is within the limit; the panics follow from the widths and values of the primes. PropExportAll.v: C106_public, C106_private, C106_no_length_error, C106_pkcs1, C106_wrappers.
* **C107 The raw operations on any type implementing the key traits** - MParts.v models the raw operations again over a record of accessor answers (an accessor answers the same each time). PParts.v: soundness by inversion, using that the result is a number as wide as n_params; a complete consistent set of answers gives the operation of MRsa.v, an incomplete one that of the key without precomputed values. The parts about blinding and about qinv's parameters are for debug builds, which assert the agreement. PropParts.v: C107_encrypt, C107_released, C107_blinded, C107_incomplete, C107_few_primes, C107_right_numbers, C107_own_type, C107_two_moduli_refuted.
* **C108 Keys that share a modulus or a prime** - PShared.v: Bezout coefficients made non-negative; a prime factor of a valid key's modulus is one of its primes, so the exponent is a unit below it and C29_pq_exact gives the key, C29_pq_result its numbers; a proper divisor of a product of two primes is one of them. PropShared.v: C108_common_modulus, C108_same_modulus, C108_shared_prime, C108_shared_prime_seen.
* **C109 Keys as PEM text** - MPem.v models the text format of the pem-rfc7468 and base64ct dependencies (from their documentation; their sources are not in the sandbox) and the label check; the DER conversions are those of MEncoding.v and MSerde.v. SpecPem.v: base 64 as the digits of the number the octets stand for, lines as an inductive predicate. PPem.v: encoder equal to the specification by induction on groups of three octets; decoder inverse and canonical; line breaking. PropPem.v: C109_private, C109_public, C109_pkcs1_private, C109_pkcs1_public, C109_any_endings, C109_accepted, C109_injective, C109_signing_keys, C109_verifying_keys, C109_round_trip_private, C109_round_trip_public, C109_obtained. PropTextLife.v composes these with C85 and C43: C109_generated, C109_generated_signing. Vectors.v runs the model on the six texts of tests/examples, both ways.

## 5. Print Assumptions

Every theorem named in `MANIFEST.json` is followed by `Print Assumptions` in its `Prop*.v` file, and
for every one of them Coq answers `Closed under the global context`: no axiom is used, neither of the
standard library nor of this development.

`coqchk` on the whole development also lists axioms of library files that happen to be loaded
(`Coq.ssr.ssrunder`: `Under_rel.Under_rel`, `Under_rel_from_rel`, `Under_relE`, `under_rel_done`,
`over_rel`, `over_rel_done`, and `Over_rel`), a module-type artefact of the standard library's `ssreflect` plugin
support; no theorem depends on them.

No functor, module type, `Declare Module`, plugin, `Admitted`, `Axiom`, or section-less `Variable` or
`Hypothesis` is used, and no kernel check is switched off.

## 6. Wrong programs

`seeded/LOG.jsonl` has one line per edit of a model definition tried in a scratch copy of the
development. Each edit is built with `make -k`; `first_failing_proofs` names the first proof that breaks
in every file that is reached, and `theorems_failed` the property theorems of the broken claim that
depend on one of them (`other_theorems_failed` counts the remaining ones). Because a file stops at its
first error this over-approximates: that the statement itself is false of the edited program was judged
by reading. `theorems_false_by_inspection` lists theorems that the edit makes false but that the build
did not reach. Edits that no theorem noticed led to the theorems under `theorems_tightened`; the few
edits that cannot be seen through the API are marked in `note`.
