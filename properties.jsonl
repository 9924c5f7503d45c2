{"id": "C01", "title": "DID URI round trip", "statement": "Parsing the URI that DID::build_uri produced for some query parameters gives back the same DID and the same parameters exactly when neither parameter value contains '?', '&' or '='; for every other pair of values the round trip loses or alters data.", "quantifier": "every DID and every pair of optional parameter values (arbitrary strings)", "why_tests_cant": "unit tests try one or two literal values; whether any string value survives is a statement about all strings", "anchors": ["core/src/did/mod.rs: DID::build_uri, DID::parse_uri", "core/src/did/query.rs: Params::build_query"]}
{"id": "C02", "title": "DID::parse_uri is total", "statement": "DID::parse_uri returns Ok for every string and never panics (its indexing is always in range); the DID part it returns is the text before the first '?' and contains no '?'.", "quantifier": "every input string", "why_tests_cant": "absence of a panic and of an error must hold for all strings", "anchors": ["core/src/did/mod.rs: DID::parse_uri"]}
{"id": "C03", "title": "Meaning of parsed query parameters", "statement": "DID::parse_uri looks only at the text between the first and the second '?'; a parameter is the text between the first and second '=' of the last '&'-separated item whose name is exactly the parameter name and which contains '='; every other item has no influence; without such an item the parameter is absent.", "quantifier": "every input string, with any number and order of query items", "why_tests_cant": "the number, order and repetition of items is unbounded", "anchors": ["core/src/did/mod.rs: DID::parse_uri", "core/src/did/query.rs: Params"]}
{"id": "C04", "title": "DID::build_uri outcomes", "statement": "build_uri(None) returns the identity value unchanged; build_uri(Some(params)) fails with BuildURIError exactly when both parameters are absent; otherwise it returns the identity value, '?', then address=... and hl=... in that order joined by '&', omitting absent ones. It never fails in another way.", "quantifier": "every DID and every parameter combination and values", "why_tests_cant": "must hold for every value of the parameters", "anchors": ["core/src/did/mod.rs: DID::build_uri", "core/src/did/query.rs: Params::build_query"]}
{"id": "C05", "title": "No query-parameter confusion", "statement": "Two different parameter sets never build the same query string when values contain no '&'. (Without the restriction the claim is false: a value containing '&hl=' builds the same URI as a genuine hl parameter, i.e. parameter injection.)", "quantifier": "every two parameter sets", "why_tests_cant": "injectivity quantifies over pairs of arbitrary strings", "anchors": ["core/src/did/query.rs: Params::build_query", "core/src/did/mod.rs: DID::build_uri, DID::parse_uri"]}
{"id": "C06", "title": "Shape of a generated DID", "statement": "DID::identity always succeeds; its value is 'did:prople:z' followed by base58btc characters only; it has exactly three ':'-separated segments; Identity::account returns the third one, and multibase-decoding that gives the lowercase hex text of BLAKE3(SHA-384(public key bytes)).", "quantifier": "every key pair", "why_tests_cant": "must hold for every public key, including hashes with leading zero bytes", "anchors": ["core/src/did/mod.rs: DID::identity", "core/src/identity/mod.rs: Identity::account, Identity::value"]}
{"id": "C07", "title": "A DID identifies one public key", "statement": "Two DIDs have the same identity value exactly when the hash of their public keys is the same: equal public keys always give equal values, and equal values with different public keys exhibit a collision of BLAKE3 or SHA-384.", "quantifier": "every two key pairs", "why_tests_cant": "injectivity over all pairs of keys", "anchors": ["core/src/did/mod.rs: DID::identity"]}
{"id": "C08", "title": "Identity::account on arbitrary strings", "statement": "Identity::account returns the text after the last ':' exactly when the identity string has at least two ':' characters, and InvalidDID otherwise; it never panics.", "quantifier": "every string given to Identity::new", "why_tests_cant": "must hold for all strings", "anchors": ["core/src/identity/mod.rs: Identity::new, Identity::account"]}
{"id": "C09", "title": "PEM backup restores the same DID", "statement": "If Account::build_pem succeeds then Account::from_pem / DID::from_pem on its output succeed and give an account with the same public key, same signatures and same identity value; if the PEM decoder rejects a text, DID::from_pem fails with InvalidPEM.", "quantifier": "every key pair, every PEM text", "why_tests_cant": "must hold for every key", "anchors": ["core/src/account/mod.rs: Account::build_pem, Account::from_pem", "core/src/did/mod.rs: DID::from_pem"]}
{"id": "C10", "title": "KeySecure backup restores the same DID", "statement": "Opening with the right password a KeySecure made from an account's private key restores an account with the same public key and a DID with the same identity value, for every password, salt, nonce and KDF parameters.", "quantifier": "every key pair, password, salt, nonce and KDF cost parameters", "why_tests_cant": "the space of passwords, salts and nonces is unbounded", "anchors": ["core/src/account/mod.rs: Account::from_keysecure", "core/src/did/mod.rs: DID::from_keysecure"]}
{"id": "C11", "title": "KeySecure opening is authenticated and total", "statement": "from_keysecure never panics; it returns an account only if cipher text and nonce are valid hex, the nonce is exactly 24 bytes, the KDF accepted password and salt, the AEAD decryption authenticated, the plaintext is UTF-8 and it is a PEM key, and the account is that key's. Every other outcome is a DecodeError or DecodePEMError (InvalidKeysecure at the DID level).", "quantifier": "every KeySecure value (also malformed) and every password", "why_tests_cant": "malformed inputs are unbounded; absence of a panic must hold for all", "anchors": ["core/src/account/mod.rs: Account::from_keysecure", "core/src/did/mod.rs: DID::from_keysecure"]}
{"id": "C12", "title": "Generated identity keys are stable", "statement": "Whatever sequence of build_auth_method and build_assertion_method calls is made on an identity, its authentication (assertion) keys are those produced by the first build_auth_method (build_assertion_method) call, absent if none was made; later calls never replace them and the identity value never changes.", "quantifier": "every sequence of calls, of any length, with any key-generation randomness", "why_tests_cant": "histories are unbounded", "anchors": ["core/src/identity/mod.rs: Identity::build_auth_method, Identity::build_assertion_method, Identity::get_authentication_method, Identity::get_assertion_method"]}
{"id": "C13", "title": "Exact shape of the published DID document", "statement": "For an identity reached by any call history, to_doc gives a document whose id is the identity value, whose contexts are the DID, ed25519 and x25519 contexts in that order, whose capability lists are absent, and whose authentication (assertion) list is absent when the method was never built and otherwise consists of the verification key entry followed by the agreement key entry, with the documented ids, types, controller and the generated public keys; all entry ids in a document are distinct.", "quantifier": "every identity and call history", "why_tests_cant": "histories and keys are unbounded", "anchors": ["core/src/identity/mod.rs: Identity::to_doc", "core/src/doc/mod.rs: Doc::generate, Doc::add_authentication, Doc::add_assertion"]}
{"id": "C14", "title": "Published keys decode to the generated keys", "statement": "For every entry of the document published by an identity, Primary::decode_pub_key succeeds and returns the public key belonging to the identity's private key for that entry (EdDSA for verification entries, ECDH for agreement entries).", "quantifier": "every key pair and call history", "why_tests_cant": "depends on base58, UTF-8 and hex round trips for every key", "anchors": ["core/src/doc/mod.rs: Primary::decode_pub_key", "core/src/keys/verification.rs: Key::generate, Pairs::decode_pub_key", "core/src/keys/agreement.rs: Key::generate, Pairs::decode_public_key", "core/src/identity/mod.rs: Identity::to_doc"]}
{"id": "C15", "title": "The DID document reveals no private key", "statement": "to_doc is a function of the identity value and of the public key strings only: two identities that differ only in their private keys publish identical documents.", "quantifier": "every two identities", "why_tests_cant": "non-interference is a property of pairs of executions", "anchors": ["core/src/identity/mod.rs: Identity::to_doc"]}
{"id": "C16", "title": "build_private_keys seals every key in its own slot", "statement": "build_private_keys succeeds exactly when sealing each present key succeeds; the result names the identity, has the authentication (assertion) part exactly when that method was built, and decrypting the verification (agreement) slot with the password returns the secret of the verification (agreement) key of the same method; on failure it returns BuildIdentityPrivateKeysError and nothing else.", "quantifier": "every identity, call history, password and sealing randomness", "why_tests_cant": "needs every combination of methods and failures", "anchors": ["core/src/identity/mod.rs: Identity::build_private_keys", "core/src/keys/secure.rs: PrivateKeyPairs::decrypt_verification, PrivateKeyPairs::decrypt_agreement"]}
{"id": "C17", "title": "Doc builder semantics", "statement": "After any sequence of add_context / add_assertion / add_authentication / add_cap_delegate / add_cap_invoke calls, each list contains exactly the values added to it, in call order (after the default context for contexts), is absent if none was added, and no call touches another list or the id.", "quantifier": "every sequence of builder calls", "why_tests_cant": "call sequences are unbounded", "anchors": ["core/src/doc/mod.rs: Doc::generate, Doc::add_context, Doc::add_assertion, Doc::add_authentication, Doc::add_cap_delegate, Doc::add_cap_invoke"]}
{"id": "C18", "title": "Doc validation", "statement": "Doc::validate succeeds exactly when the id is non-empty and there is at least one context; the missing id is reported first. Every document published by an identity with a non-empty value is valid.", "quantifier": "every document; every identity and call history", "why_tests_cant": "must hold for all documents", "anchors": ["core/src/doc/mod.rs: Doc::validate", "core/src/identity/mod.rs: Identity::to_doc"]}
{"id": "C19", "title": "Doc JSON round trip", "statement": "Deserializing the JSON text of a DID document gives back the same document; absent lists are omitted from the text and remain absent; two different documents never have the same JSON text.", "quantifier": "every document with arbitrary (UTF-8) strings and list lengths", "why_tests_cant": "escaping and nesting must be right for every string", "anchors": ["core/src/doc/mod.rs: Doc, Primary, Doc::to_json"]}
{"id": "C20", "title": "Public key decoding is directed by the declared type", "statement": "decode_pub_key returns an EdDSA key only for type Ed25519VerificationKey2020, an ECDH key only for X25519KeyAgreementKey2020, and fails with DecodePubKeyError for every other type and for every text that is not a multibase, UTF-8, hex encoding of a key; it never panics.", "quantifier": "every Primary entry (arbitrary type and key strings)", "why_tests_cant": "malformed strings are unbounded", "anchors": ["core/src/doc/mod.rs: Primary::decode_pub_key"]}
{"id": "C21", "title": "Key pair validity check", "statement": "Pairs::is_valid is true for every generated key pair. The stronger claim that is_valid implies a usable public key is false: it is true for a pair whose public key is empty or garbage, because the test is a disjunction.", "quantifier": "every key pair value", "why_tests_cant": "a universally quantified implication (and its refutation)", "anchors": ["core/src/keys/verification.rs: Pairs::is_valid", "core/src/keys/agreement.rs: Pairs::is_valid"]}
{"id": "C22", "title": "VC serialization is gated by validation", "statement": "VC::to_json and VC::to_jcs succeed exactly when the credential has a context, a type and a non-null subject; otherwise they fail with GenerateVCError naming the first missing item in that order.", "quantifier": "every credential", "why_tests_cant": "must hold for every credential", "anchors": ["core/src/verifiable/vc.rs: VC::validate, VC::to_json, VC::to_jcs"]}
{"id": "C23", "title": "VP serialization is gated by validation", "statement": "VP::to_json and VP::to_jcs succeed exactly when the presentation has a context, a type and at least one credential; the first missing item is reported. The embedded credentials themselves are not validated (an invalid VC is accepted inside a VP).", "quantifier": "every presentation", "why_tests_cant": "must hold for every presentation", "anchors": ["core/src/verifiable/vp.rs: VP::validate, VP::to_json, VP::to_jcs"]}
{"id": "C24", "title": "VC and VP JSON round trip", "statement": "Parsing the JSON text of a credential or presentation gives back the same object, with or without proof, provided nesting stays within the JSON parser's recursion limit (127 levels) and floating point numbers re-read exactly. Beyond the limit serialization succeeds but parsing fails.", "quantifier": "every credential/presentation: arbitrary strings, arbitrary subject value, any number of embedded credentials", "why_tests_cant": "arbitrary JSON values are unbounded in size and depth", "anchors": ["core/src/verifiable/vc.rs: VC::to_json, VC::parse_json_bytes", "core/src/verifiable/vp.rs: VP::to_json, VP::parse_json_bytes", "core/src/verifiable/proof/mod.rs: Proof"]}
{"id": "C25", "title": "VC, VP and Proof builder semantics", "statement": "After any sequence of builder calls, contexts, types and credentials contain exactly the added values in call order, and subject, proof, holder and each proof field hold the last value set (or their initial value); remove_proof clears only the proof, remove_proof_value clears only the proof value.", "quantifier": "every sequence of builder calls", "why_tests_cant": "call sequences are unbounded", "anchors": ["core/src/verifiable/vc.rs: VC::new, add_context, add_type, set_credential, proof, remove_proof, setup_proof", "core/src/verifiable/vp.rs: VP::new, add_context, add_type, add_credential, add_proof, set_holder", "core/src/verifiable/proof/mod.rs: Proof setters"]}
{"id": "C26", "title": "Canonical form is canonical", "statement": "The JCS texts of two credentials (presentations, proofs) are equal exactly when they carry the same data: same strings, same lists, and subjects equal as JSON up to the order of object members and up to the numeric value of numbers.", "quantifier": "every two credentials / presentations / proofs", "why_tests_cant": "canonicity is a statement about all pairs of documents", "anchors": ["core/src/verifiable/vc.rs: VC::to_jcs", "core/src/verifiable/vp.rs: VP::to_jcs", "core/src/verifiable/proof/mod.rs: Proof::to_jcs"]}
{"id": "C27", "title": "Canonical form is insensitive to construction order", "statement": "Reordering the members of any object inside a credential subject, at any depth, does not change the JCS text, so signatures do not depend on member order.", "quantifier": "every JSON value and every permutation of members at every depth", "why_tests_cant": "permutations at all depths are unbounded", "anchors": ["core/src/verifiable/vc.rs: VC::to_jcs", "core/src/verifiable/proof/transform.rs: transform_document"]}
{"id": "C28", "title": "Proof purpose names", "statement": "Converting a purpose to text and back gives the same purpose; any other text becomes Unknown; the JSON spelling of a purpose is the same as its display text, so setting a purpose from the display text and from JSON agree.", "quantifier": "every purpose and every string", "why_tests_cant": "the fallback case ranges over all strings", "anchors": ["core/src/verifiable/proof/types.rs: ProofPurpose, Display, From<String>", "core/src/verifiable/proof/mod.rs: Proof::purpose"]}
{"id": "C29", "title": "When add_proof succeeds and what it changes", "statement": "Integrity::add_proof succeeds exactly when the options have type DataIntegrityProof, cryptosuite eddsa-jcs-2022, a parseable creation date and a purpose other than unknown, and the document is valid; the secured document is the input document with its proof set to the options with only the proof value replaced by 'z'+base58btc of a signature over SHA-256(JCS(options)) followed by SHA-256(JCS(document)). Every failure is a ProofGenerationError.", "quantifier": "every key pair, document and options", "why_tests_cant": "must hold for every document and options", "anchors": ["core/src/verifiable/proof/integrity.rs: Integrity::add_proof", "core/src/verifiable/proof/eddsa.rs: EddsaJcs2022::create_proof"]}
{"id": "C30", "title": "Signed documents verify after transport", "statement": "A document without a proof, secured by add_proof with options that have an empty proof value, serialized with to_json and handed as bytes to verify_proof with the signer's public key and the same purpose, is verified, and the document returned is the original one.", "quantifier": "every key pair, every VC and VP (within JSON limits), all options accepted by add_proof", "why_tests_cant": "end-to-end claim over all documents", "anchors": ["core/src/verifiable/proof/integrity.rs: Integrity::add_proof, Integrity::verify_proof", "core/src/verifiable/proof/eddsa.rs", "core/src/verifiable/vc.rs", "core/src/verifiable/vp.rs"]}
{"id": "C31", "title": "Re-signing a document (refuted completeness)", "statement": "The unrestricted completeness claim is false: if the document given to add_proof already carries a proof, or the options carry a non-empty proof value, add_proof succeeds but the result does not verify, unless a hash collision or a signature valid for two messages occurs (the signer signs the old proof / proof value, the verifier removes them).", "quantifier": "every key pair, every document that already has a proof, all options", "why_tests_cant": "the failure is for all such documents, no test covers it", "anchors": ["core/src/verifiable/proof/eddsa.rs: create_proof, verify_proof", "core/src/verifiable/proof/integrity.rs: add_proof"]}
{"id": "C32", "title": "Exact acceptance condition of verify_proof", "statement": "verify_proof reports verified for given bytes exactly when they parse as a document carrying a proof of type DataIntegrityProof and cryptosuite eddsa-jcs-2022 with a parseable creation date, whose purpose is the expected one and not unknown, the document is valid, the proof value is multibase, and the public key accepts that signature on SHA-256(JCS(proof without value)) followed by SHA-256(JCS(document without proof)).", "quantifier": "every byte string, public key and expected purpose", "why_tests_cant": "attacker-controlled inputs are unbounded", "anchors": ["core/src/verifiable/proof/integrity.rs: Integrity::verify_proof", "core/src/verifiable/proof/eddsa.rs: EddsaJcs2022::verify_proof"]}
{"id": "C33", "title": "Tamper evidence", "statement": "If verify_proof accepts some bytes under a public key, then either the accepted document and its proof options carry exactly the data of one of the documents and options that were signed with the matching key, or the bytes contain a signature forgery, or two of the texts are a SHA-256 collision. So changing any context, type, id, issuer, subject data, purpose, verification method, date or credential of a signed document is detected.", "quantifier": "every history of add_proof calls and every byte string presented by an attacker", "why_tests_cant": "quantifies over all histories and all attacker inputs", "anchors": ["core/src/verifiable/proof/integrity.rs", "core/src/verifiable/proof/eddsa.rs", "core/src/verifiable/proof/hash.rs: generate_hash", "core/src/verifiable/proof/transform.rs", "core/src/verifiable/proof/config.rs"]}
{"id": "C34", "title": "Verification result consistency", "statement": "A verification result carries a document exactly when verified is true; that document is the parsed document without its proof, is valid, and signing it again is possible; an unverified result carries none.", "quantifier": "every byte string, public key and purpose", "why_tests_cant": "must hold for all inputs", "anchors": ["core/src/verifiable/proof/types.rs: CryptoSuiteVerificationResult::result", "core/src/verifiable/proof/eddsa.rs: verify_proof"]}
{"id": "C35", "title": "Proof purpose is enforced", "statement": "A proof is never accepted for another purpose than the one it was made for, and never for the unknown purpose: verify_proof fails with ProofVerificationError in both cases before looking at the signature; changing the purpose in the signed bytes changes the signed message.", "quantifier": "every document bytes, all pairs of purposes", "why_tests_cant": "must hold for all documents", "anchors": ["core/src/verifiable/proof/integrity.rs: verify_proof", "core/src/verifiable/proof/mod.rs: Proof::validate"]}
{"id": "C36", "title": "Expiry is not enforced (refuted)", "statement": "The claim that an expired proof is rejected is false: verify_proof consults no clock, and a proof signed with an expiry in the past verifies exactly like one with any other expiry text.", "quantifier": "every document and expiry text", "why_tests_cant": "shows the outcome for all expiry values", "anchors": ["core/src/verifiable/proof/mod.rs: Proof::expires", "core/src/verifiable/proof/integrity.rs: verify_proof"]}
{"id": "C37", "title": "Proof value encoding", "statement": "base58btc is a bijection between byte strings and its texts, so a signature has exactly one base58btc proof value; but verify_proof accepts any multibase base, so the same signature re-encoded (e.g. as base16) in the document is also accepted: the text of a verifying document is not unique.", "quantifier": "every byte string / every verified document", "why_tests_cant": "injectivity over all byte strings; malleability of every document", "anchors": ["core/src/verifiable/proof/eddsa.rs: verify_proof", "core/src/verifiable/proof/serialize.rs: ProofByte::encode"]}
{"id": "C38", "title": "Layout of the signed message", "statement": "The signed message is the 32-byte hash of the canonical proof options followed by the 32-byte hash of the canonical document; the pair of hashes can be recovered from it, so options and document cannot be confused with one another.", "quantifier": "every options/document pair", "why_tests_cant": "must hold for all pairs", "anchors": ["core/src/verifiable/proof/hash.rs: generate_hash", "core/src/verifiable/proof/config.rs: ProofConfig::hash", "core/src/verifiable/proof/transform.rs: TransformedDoc::hash"]}
{"id": "C39", "title": "Hashlink verification is exact", "statement": "verify_from_json(data, text) succeeds exactly when text is what generate_from_json(data) returns; in particular every generated hashlink verifies, other bases and altered texts are rejected with HashLinkError, and errors of to_json are passed through unchanged.", "quantifier": "every data value and every text", "why_tests_cant": "equivalence over all texts; needs injectivity of base58", "anchors": ["core/src/hashlink.rs: generate_from_json, verify_from_json"]}
{"id": "C40", "title": "Hashlinks bind content", "statement": "A hashlink is 'z' + base58btc of 0x1e 0x20 and the 32-byte BLAKE3 hash of the JSON text; if one hashlink verifies for two data values then their JSON texts are equal or are a BLAKE3 collision.", "quantifier": "every pair of data values", "why_tests_cant": "pairs of arbitrary data", "anchors": ["core/src/hashlink.rs: generate_from_json, verify_from_json", "core/src/types.rs: BLAKE3_HASH_CODE"]}
{"id": "C41", "title": "JSONValue and bytes", "statement": "JSONValue::try_from(bytes) succeeds exactly for valid UTF-8 and keeps the bytes; to_bytes followed by try_from gives the same value; the mime type is always application/json.", "quantifier": "every byte string", "why_tests_cant": "all byte strings, including malformed UTF-8", "anchors": ["core/src/types.rs: JSONValue"]}
{"id": "C42", "title": "User connection credential JSON", "statement": "The JSON text of a UserConnectionCredential is the documented nested object with camelCase/PascalCase member names and deserializes to the same value for all addresses and DIDs.", "quantifier": "every pair of strings", "why_tests_cant": "escaping must be right for all strings", "anchors": ["core/src/context/ext/user_connection.rs: UserConnectionCredential, UserConnectionCredentialContext, UserConnectionCredentialProperties"]}
{"id": "C43", "title": "Unsigned extra members have no effect", "statement": "Adding members with unknown names to the JSON object of a document changes neither the outcome of verify_proof nor the document it returns: nothing that is not covered by the signature reaches the caller.", "quantifier": "every document bytes and every set of extra members", "why_tests_cant": "all extra members at any position", "anchors": ["core/src/verifiable/vc.rs: VC::parse_json_bytes", "core/src/verifiable/proof/integrity.rs: verify_proof"]}
{"id": "C44", "title": "Strictness of document parsing", "statement": "parse_json_bytes accepts only a single JSON text: trailing non-blank bytes, duplicate or missing required members and members of the wrong type are rejected; an absent or null proof means no proof. Blanks around the text are irrelevant.", "quantifier": "every byte string", "why_tests_cant": "malformed inputs are unbounded", "anchors": ["core/src/verifiable/vc.rs: VC::parse_json_bytes", "core/src/verifiable/vp.rs: VP::parse_json_bytes", "core/src/verifiable/proof/mod.rs: Proof"]}
{"id": "C45", "title": "Generic integrity layer", "statement": "For every cryptosuite and document type, add_proof returns a document only if the suite produced a proof that passes validation and that proof is the one set; verify_proof consults the suite only for documents with a valid proof of the expected purpose, and passes the suite's answer through unchanged.", "quantifier": "every implementation of the cryptosuite and document traits", "why_tests_cant": "quantifies over all implementations", "anchors": ["core/src/verifiable/proof/integrity.rs: Integrity"]}
{"id": "C46", "title": "Credentials inside a verified presentation", "statement": "Are the credentials embedded in a presentation verified when the presentation is? No: a presentation into which any well-formed credential (unsigned, or with a bogus proof) was added before the holder signed verifies; the embedded credentials must be verified separately.", "quantifier": "every presentation, credential, key pair and options", "why_tests_cant": "a negative fact about all presentations and credentials", "anchors": ["core/src/verifiable/proof/integrity.rs: Integrity::verify_proof", "core/src/verifiable/vp.rs: VP"]}
{"id": "C47", "title": "Verification key and named issuer are not linked", "statement": "Does verification check that the key belongs to the issuer or verification method named in the document? No: for every issuer text and verification method text, a document naming them and signed by an arbitrary key verifies under that key; linking the names to the key is the caller's duty.", "quantifier": "every credential, key pair, issuer and verification method text", "why_tests_cant": "a negative fact about all names and keys", "anchors": ["core/src/verifiable/proof/integrity.rs: Integrity::verify_proof", "core/src/verifiable/proof/eddsa.rs: EddsaJcs2022::verify_proof"]}
{"id": "C48", "title": "Life of an identity", "statement": "For every identity value, call history, password and randomness: if building the private keys succeeds and an assertion (authentication) method was generated, then the stored JSON of the sealed keys reads back, the sealed verification key opens with the password and restores an account whose signatures on any well-formed credential (presentation) verify, after transport as JSON text, under the key decoded from the published DID document; the agreement key opens to the hex of the pair whose public key the document publishes.", "quantifier": "all identities, histories, passwords, randomness, documents and options", "why_tests_cant": "An end-to-end test uses a fixed identity, password and document; the property spans five modules and every history", "anchors": ["core/src/identity/mod.rs: Identity::build_private_keys, Identity::to_doc", "core/src/keys/secure.rs: IdentityPrivateKeyPairs, PrivateKeyPairs", "core/src/account/mod.rs: Account::from_pem", "core/src/verifiable/proof/integrity.rs: Integrity::add_proof, Integrity::verify_proof"]}
{"id": "C49", "title": "Relaying a document keeps it", "statement": "Parsing any accepted text of a complete credential or presentation and serializing the result gives a text that parses to the same document and has the same verification outcome for every key and purpose, provided its floats are ones that can be read back.", "quantifier": "all texts, keys, purposes", "why_tests_cant": "Tests re-serialize a few documents they built; the property is about every text an outsider can send", "anchors": ["core/src/verifiable/vc.rs: VC::to_json", "core/src/verifiable/vp.rs: VP::to_json", "core/src/verifiable/proof/integrity.rs: Integrity::verify_proof"]}
{"id": "C50", "title": "No confusion of credentials and presentations", "statement": "A text that verifies as a credential and as a presentation under one key carries one proof with one purpose and a single signature valid for two different messages, or exhibits a SHA-256 collision.", "quantifier": "all texts, keys, purposes", "why_tests_cant": "Needs a crafted polyglot text; no finite set of texts shows none is accepted", "anchors": ["core/src/verifiable/vc.rs: VC", "core/src/verifiable/vp.rs: VP", "core/src/verifiable/proof/integrity.rs: Integrity::verify_proof"]}
{"id": "C51", "title": "Texts of DID documents, parameters and user connections", "statement": "A byte string is read as a given DID document, URI parameter set or user connection credential exactly when it is a JSON text of an object with the required members of the right types, each at most once.", "quantifier": "all byte strings", "why_tests_cant": "Parsers have infinitely many inputs, tests a handful", "anchors": ["core/src/doc/mod.rs: Doc, Primary", "core/src/did/query.rs: Params", "core/src/context/ext/user_connection.rs"]}
{"id": "C52", "title": "URI parameters as JSON", "statement": "The JSON text of URI parameters is the stated one (absent values are null), reads back as the same parameters, and differs for different parameters.", "quantifier": "all parameters", "why_tests_cant": "Strings with escapes, empty strings and absent values combine without bound", "anchors": ["core/src/did/query.rs: Params"]}
{"id": "C53", "title": "Sealed keys as JSON", "statement": "The JSON text of the sealed private keys has the stated members, with absent slots left out, and reads back as the same sealed keys.", "quantifier": "all sealed keys", "why_tests_cant": "Depends on the contents of KeySecure and on which slots are present", "anchors": ["core/src/keys/secure.rs: IdentityPrivateKeyPairs::to_json"]}
{"id": "C54", "title": "Rebuilding a parsed URI", "statement": "The parameters parsed from any text contain no separator, and the URI built from them parses like the original text.", "quantifier": "all texts", "why_tests_cant": "Needs duplicated, malformed and unknown parameters in arbitrary order", "anchors": ["core/src/did/mod.rs: DID::build_uri, DID::parse_uri"]}
{"id": "C55", "title": "Hashlink through a URI", "statement": "A document's hashlink put in a DID URI is parsed back unchanged, accepts that document, and accepts another one only with a BLAKE3 collision.", "quantifier": "all documents, identities, addresses", "why_tests_cant": "Tests check one document and one altered document", "anchors": ["core/src/hashlink.rs: generate_from_json, verify_from_json", "core/src/did/mod.rs: DID::build_uri, DID::parse_uri"]}
{"id": "C56", "title": "Multiaddr of parameters", "statement": "parse_multiaddr returns nothing for an absent address, the parsed address for a valid one and GenerateMultiAddrError with the parser's message otherwise, also for parameters that went through a URI.", "quantifier": "all parameters", "why_tests_cant": "The address text ranges over all strings", "anchors": ["core/src/did/query.rs: Params::parse_multiaddr", "core/src/did/mod.rs: DID::parse_uri"]}
{"id": "C57", "title": "A document's keys belong to its DID (refuted)", "statement": "The claim that a valid DID document contains only keys of the account behind its DID is false: for every identity value and key pair some document validates, survives transport and gives that key for that DID.", "quantifier": "all identity values and key pairs", "why_tests_cant": "A test can show one such document; the theorem shows the crate binds no document", "anchors": ["core/src/doc/mod.rs: Doc::validate, Primary::decode_pub_key", "core/src/identity/mod.rs: Identity::to_doc"]}
{"id": "C58", "title": "Credentials inside presentations", "statement": "A credential signed by an issuer, put in a presentation signed by a holder and sent as text: the presentation verifies under the holder's key, and the credential taken out of the returned document, serialized again, verifies under the issuer's key and returns the original.", "quantifier": "all credentials, presentations, keys and options", "why_tests_cant": "Two signatures over nested documents, one of which is inside the other", "anchors": ["core/src/verifiable/vp.rs: VP", "core/src/verifiable/vc.rs: VC", "core/src/verifiable/proof/integrity.rs: Integrity"]}
{"id": "C59", "title": "Default user connection", "statement": "The default user connection credential equals the one built from default properties, has the stated JSON text and reads back as itself.", "quantifier": "all number and text renderings", "why_tests_cant": "Tests compare the serialization of a credential they built themselves", "anchors": ["core/src/context/ext/user_connection.rs"]}
{"id": "C60", "title": "Restored accounts sign alike", "statement": "A message signed by an account restored from a PEM backup verifies under the original account's public key.", "quantifier": "all accounts and messages", "why_tests_cant": "Tests use one generated key and one message", "anchors": ["core/src/account/mod.rs: Account::build_pem, Account::from_pem, Account::signature"]}
{"id": "C61", "title": "Errors of signing", "statement": "Signing fails exactly when one of its five checks fails (type, cryptosuite, creation date, completeness, purpose), with the error of the first that fails.", "quantifier": "all documents, options and keys", "why_tests_cant": "Priorities between simultaneous failures need all combinations", "anchors": ["core/src/verifiable/proof/integrity.rs: Integrity::add_proof", "core/src/verifiable/proof/eddsa.rs: EddsaJcs2022::create_proof"]}
{"id": "C62", "title": "Errors of verification", "statement": "Verification gives an error exactly when the text does not parse or one of the listed checks fails, with the error of the first that fails; otherwise it answers.", "quantifier": "all texts, keys and purposes", "why_tests_cant": "Priorities between simultaneous failures need all combinations", "anchors": ["core/src/verifiable/proof/integrity.rs: Integrity::verify_proof", "core/src/verifiable/proof/eddsa.rs: EddsaJcs2022::verify_proof"]}
{"id": "C63", "title": "Errors of opening a sealed key", "statement": "Opening a sealed account key fails exactly when one of its seven checks fails (cipher text hex, key derivation, nonce hex, nonce length, decryption, UTF-8, PEM), with the error of the first that fails; a DID wraps that error's text.", "quantifier": "all passwords and sealed keys", "why_tests_cant": "Priorities between simultaneous failures need all combinations", "anchors": ["core/src/account/mod.rs: Account::from_keysecure", "core/src/did/mod.rs: DID::from_keysecure"]}
{"id": "C64", "title": "Public key texts", "statement": "A key pair's or document entry's public key text decodes to k exactly when it is multibase text of UTF-8 hex text of k; each failure has its own error, in order, and pairs and entries with the same text agree.", "quantifier": "all texts, pairs and entries", "why_tests_cant": "Malformed texts at every layer cannot be enumerated", "anchors": ["core/src/keys/verification.rs: Pairs::decode_pub_key", "core/src/keys/agreement.rs: Pairs::decode_public_key", "core/src/doc/mod.rs: Primary::decode_pub_key"]}
{"id": "C65", "title": "Kinds of PEM and decryption errors", "statement": "Writing and reading PEM and decrypting stored keys fail exactly when the library call fails, keeping its message under the kind that names the operation.", "quantifier": "all accounts, texts, stored keys and passwords", "why_tests_cant": "Library failures are hard to provoke in tests", "anchors": ["core/src/account/mod.rs: Account::build_pem, Account::from_pem", "core/src/keys/secure.rs: PrivateKeyPairs::decrypt_verification, decrypt_agreement"]}
{"id": "C66", "title": "Errors of hashlink checks", "statement": "Checking a hashlink fails exactly when the link is no multibase text, is not base58btc, or does not hold the multihash of the data, with the error of the first of these.", "quantifier": "all data and links", "why_tests_cant": "Priorities between simultaneous failures need all combinations", "anchors": ["core/src/hashlink.rs: verify_from_json"]}
{"id": "C67", "title": "base58 and hex are positional numerals", "statement": "The base58btc text of a byte string is the only text over the alphabet that denotes the same number with as many leading ones as the bytes have leading zeros; the hex text is the only text over the hex digits that denotes the same number with twice the length.", "quantifier": "all byte strings and texts", "why_tests_cant": "Infinitely many byte strings", "anchors": ["core/src/did/mod.rs: DID::identity", "core/src/hashlink.rs: multibase text"]}
{"id": "C68", "title": "Lengths of identity values and hashlinks", "statement": "Every identity value has 99 characters when its digest starts with a byte below 32 and 100 otherwise; every hashlink has 47 characters and starts with zg.", "quantifier": "all keys and all data", "why_tests_cant": "The bound depends on the numeric value of every possible digest", "anchors": ["core/src/did/mod.rs: DID::identity", "core/src/hashlink.rs: generate_from_json"]}
{"id": "C69", "title": "Numbers survive transport only as far as their texts do", "statement": "The JSON text of a credential or presentation reads as that document with every number replaced by what its text means; it reads as the document itself exactly when every float in it is read back from its text. A signed document therefore verifies after transport when the numbers read have the canonical texts of those signed, and otherwise only by a forged signature or a hash collision; the claim that every signed document verifies after transport whatever numbers it holds is refuted.", "quantifier": "all documents with any numbers, all float writers and parsers", "why_tests_cant": "There are 2^64 floats and unboundedly many documents; the behaviour depends on the float writer and parser in use", "anchors": ["core/src/verifiable/vc.rs: VC::to_json, VC::parse_json_bytes", "core/src/verifiable/vp.rs: VP::to_json, VP::parse_json_bytes", "core/src/verifiable/proof/integrity.rs: verify_proof"]}
{"id": "C70", "title": "Canonical texts are fixed points and always transport", "statement": "Where canonical number texts are stable, the canonical text of a credential or presentation is read as a document with the same canonical text, and a signed document sent as its canonical text always verifies, returning the document with canonical numbers.", "quantifier": "all documents with any numbers in range", "why_tests_cant": "Needs all documents and all numbers", "anchors": ["core/src/verifiable/vc.rs: VC::to_jcs, VC::parse_json_bytes", "core/src/verifiable/vp.rs: VP::to_jcs, VP::parse_json_bytes", "core/src/verifiable/proof/integrity.rs: verify_proof"]}
{"id": "C71", "title": "Canonical member order and layout", "statement": "With members ordered as in RFC 8785 (by UTF-16 code units of their names), the canonical text of every object lists exactly its members in that order, and the canonical texts of proofs, credentials and presentations are the ones written out member by member. The order is total and can be had by the dependencies.", "quantifier": "all objects with UTF-8 names, all proofs, credentials and presentations", "why_tests_cant": "Byte order and UTF-16 order differ only for rare names", "anchors": ["core/src/types.rs: ToJCS", "core/src/verifiable/vc.rs: VC::to_jcs", "core/src/verifiable/vp.rs: VP::to_jcs", "core/src/verifiable/proof/mod.rs: Proof::to_jcs"]}
{"id": "C72", "title": "Accepted documents are the signed ones up to canonical numbers", "statement": "When verification accepts, the returned document is a document that was signed for the expected purpose, except that its numbers may be other numbers with the same canonical text; if the signed document has no numbers it is that document itself. Otherwise the very signature in the bytes was forged for the very data in them, or SHA-256 collides on that data and some that was signed.", "quantifier": "all byte strings, keys, purposes and all finite signing histories of credentials and presentations", "why_tests_cant": "Quantifies over all byte strings a sender could offer and all signing histories", "anchors": ["core/src/verifiable/proof/integrity.rs: verify_proof, add_proof", "core/src/verifiable/vc.rs: VC", "core/src/verifiable/vp.rs: VP"]}
{"id": "C73", "title": "Connection credentials carry the signed address and DID", "statement": "A credential whose subject is a user connection, signed, sent as JSON and verified, yields a document whose subject reads as the connection with exactly the signed address and DID; and where only such credentials are signed, any accepted document is one of them with its address and DID, or a signature was forged or SHA-256 collides.", "quantifier": "all addresses, DIDs, documents, keys, byte strings and histories", "why_tests_cant": "Quantifies over all strings and all byte strings offered for verification", "anchors": ["core/src/context/ext/user_connection.rs: UserConnectionCredential", "core/src/verifiable/vc.rs: VC::set_credential", "core/src/verifiable/proof/integrity.rs: verify_proof"]}
{"id": "C74", "title": "Documents of any type implementing Proofable", "statement": "For every document type, signing attaches exactly the signature over the hashes of the canonical options and of the document's own canonical text, and verification checks it over those of the parsed document without its proof; the answer depends only on the attached proof and that canonical text. A signed document verifies whenever its type keeps the proof it is given and drops it from the canonical text; if it does not drop it, the document is accepted only by a collision or a signature valid for two messages. The canonical text of any accepted document was signed for the expected purpose, or a signature was forged or SHA-256 collides.", "quantifier": "all document types, documents, options, keys, byte strings and histories", "why_tests_cant": "Quantifies over all implementations of a trait", "anchors": ["core/src/verifiable/proof/types.rs: Proofable", "core/src/verifiable/proof/eddsa.rs: create_proof, verify_proof", "core/src/verifiable/proof/integrity.rs: add_proof, verify_proof"]}
{"id": "C75", "title": "From a DID URI with a hashlink to an accepted document", "statement": "When a publisher puts the hashlink of its document in its DID URI, and a recipient starting from that URI checks the offered document against the hashlink, takes an EdDSA key of the assertion (authentication) list and accepts bytes as a credential (presentation) with it, then the DID and document are the publisher's, the key is that of the generated pair, and what was accepted was signed with it up to numbers with the same canonical text; otherwise BLAKE3 or SHA-256 collides or a signature was forged. With the publisher's own document every step succeeds.", "quantifier": "all DIDs, sequences of identity calls, addresses, offered texts, keys, byte strings and signing histories", "why_tests_cant": "Composes four modules and quantifies over everything an attacker could offer at each step", "anchors": ["core/src/did/mod.rs: DID::build_uri, DID::parse_uri", "core/src/hashlink.rs: generate_from_json, verify_from_json", "core/src/identity/mod.rs: Identity::to_doc", "core/src/doc/mod.rs: Primary::decode_pub_key", "core/src/verifiable/proof/integrity.rs: verify_proof"]}
{"id": "C76", "title": "Options left unset neither sign nor verify", "statement": "Proof options built from Proof::default by any sequence of setter calls sign a document exactly when type, cryptosuite, creation time and purpose were all set, each the last time to an accepted value, and the document has a canonical text; from Proof::new the type and cryptosuite may be left as they are. A document carrying options in which one of these was never set is an error for every key and purpose.", "quantifier": "all sequences of setter calls, all document types, documents, keys and purposes", "why_tests_cant": "Call sequences and document types are unbounded", "anchors": ["core/src/verifiable/proof/mod.rs: Proof::new, Proof::default, setters, validate", "core/src/verifiable/proof/eddsa.rs: create_proof, verify_proof", "core/src/verifiable/proof/integrity.rs: add_proof, verify_proof"]}
{"id": "C77", "title": "Which texts decode as hex and multibase", "statement": "A text decodes as hex to given bytes exactly when it is their hex text with letters in either case, and as multibase in a given base exactly when it is the base's letter followed by the text of the bytes in that base (one case only for the two hex bases); nothing else decodes.", "quantifier": "all texts, byte strings and bases (bases other than base58btc, base16 and identity through their own decoder)", "why_tests_cant": "All texts, including every malformed one", "anchors": ["core/src/hashlink.rs: verify_from_json", "core/src/keys/verification.rs: Pairs::decode_pub_key", "core/src/account/mod.rs: Account::from_keysecure", "core/src/verifiable/proof/eddsa.rs: verify_proof"]}
{"id": "C78", "title": "Error texts identify errors", "statement": "Two errors of the same enumeration (DID, account, proof, key store) with the same displayed text are the same error with the same detail, whatever texts the details are.", "quantifier": "all errors with all detail texts", "why_tests_cant": "Details are arbitrary texts and could imitate another error", "anchors": ["core/src/types.rs: DIDError", "core/src/account/mod.rs: AccountError", "core/src/verifiable/proof/types.rs: ProofError", "core/src/keys/secure.rs: Error"]}
{"id": "C79", "title": "Varints and multihash bytes determine what they encode", "statement": "The varint of a hash code or digest length is the unique minimal sequence of seven-bit groups for that number, and the bytes of a multihash, even followed by further bytes, determine the hash code, the digest and what follows.", "quantifier": "all numbers, all digests, all following bytes", "why_tests_cant": "The hashlink code only ever uses one code and one length, and uniqueness ranges over all byte sequences", "anchors": ["core/src/hashlink.rs: generate_from_json, verify_from_json"]}
{"id": "C80", "title": "The cryptosuite without the integrity layer", "statement": "EddsaJcs2022 used directly, for any document type: it creates a proof exactly for accepted options and a document with a canonical text, it answers exactly when the attached proof has accepted options, a decodable value and a canonical document, whatever the proof's purpose, and otherwise reports the first failing check. Integrity::verify_proof adds exactly the reading of the document and the comparison of the purpose, which must be known.", "quantifier": "all document types, documents, options, keys and crypto backends", "why_tests_cant": "Document types are open-ended and the equivalences range over all options and proofs", "anchors": ["core/src/verifiable/proof/eddsa.rs: EddsaJcs2022, create_proof, verify_proof", "core/src/verifiable/proof/integrity.rs: verify_proof"]}
{"id": "C81", "title": "Sealed keys open as the same account", "statement": "The private key of an account, sealed with a password, is opened by Account::from_keysecure as that account, still after any number of password changes, and so are the sealed verification keys build_private_keys puts in each slot. Decrypting the sealed key to a PEM text and reading that gives the same account.", "quantifier": "all accounts, passwords, randomness, sequences of password changes, identities", "why_tests_cant": "Tests seal one key with one password once", "anchors": ["core/src/account/mod.rs: from_keysecure, from_pem, privkey, build_pem", "core/src/identity/mod.rs: build_private_keys", "core/src/keys/verification.rs: build_keysecure"]}
{"id": "C82", "title": "Accepted documents were signed before, in every execution", "statement": "In every execution in which any number of key holders sign documents and bytes from anywhere are verified, whenever bytes are accepted for a key and a purpose, a document equal to the accepted one (numbers up to canonical text) was signed earlier, successfully, with that key and for that purpose; or, relative to what was signed earlier, the signature in the bytes is forged for the data in them, or SHA-256 collides on that data and some that was signed.", "quantifier": "all executions of any length, all keys, all bytes, all crypto backends", "why_tests_cant": "Executions and adversarial bytes are unbounded", "anchors": ["core/src/verifiable/proof/integrity.rs: add_proof, verify_proof", "core/src/verifiable/vc.rs: VC", "core/src/verifiable/vp.rs: VP"]}
{"id": "C83", "title": "Documents are written in the fewest bytes", "statement": "A string is written in the shortest of all forms JSON has for it, and but for capital hexadecimal digits no other form is as short; no numeral for an integer is shorter than the one written. Hence no text that names the members of a credential or presentation and is read as that document is shorter than what to_json and to_jcs write for it (numbers with a fraction written shortly). Only texts giving structs as arrays are shorter.", "quantifier": "all strings and all their JSON forms, all JSON texts of all values, all credentials and presentations", "why_tests_cant": "All forms of all strings and all texts of a document have to be compared", "anchors": ["core/src/types.rs: ToJSON, ToJCS", "core/src/verifiable/vc.rs: VC to_json, to_jcs", "core/src/verifiable/vp.rs: VP to_json, to_jcs"]}
{"id": "C84", "title": "Documents with floats survive transport", "statement": "Given that numbers are read and written as IEEE 754 and ECMAScript ask for: a number in a text is read as the nearest float (the even one of two) and refused only beyond all floats; every number is read back from its JSON text, and from its canonical text up to the nearest float; so a signed credential or presentation with any numbers verifies after being sent as JSON or as canonical JSON, and a document that was read can be written again with the same verification outcomes.", "quantifier": "all 64-bit floats and integers, all decimal number texts, all credentials, presentations, keys and proof options", "why_tests_cant": "There are 2^64 floats and infinitely many decimal texts; a wrong rounding shows in few of them", "anchors": ["core/src/verifiable/vc.rs: VC credential_subject, to_json, to_jcs, parse_json_bytes", "core/src/verifiable/vp.rs: VP to_json, to_jcs, parse_json_bytes", "core/src/verifiable/proof/transform.rs: transform_document"]}
{"id": "C85", "title": "Accepted numbers are the signed ones up to the nearest float, not exactly", "statement": "With IEEE 754 numbers: numbers with the same canonical text have the same nearest float, so in every execution each number of an accepted document has the same nearest float as the number that was signed (or the signer is impersonated). That the numbers are equal is false: a credential signed with the float 2^63 is accepted with the integer 9223372036854776000 in its place, whichever way canonical integers are written.", "quantifier": "all pairs of numbers; all executions, keys and byte strings", "why_tests_cant": "The pairs of different numbers with one canonical text have to be known", "anchors": ["core/src/verifiable/proof/eddsa.rs: EddsaJcs2022 verify_proof", "core/src/verifiable/proof/transform.rs: transform_document", "core/src/verifiable/vc.rs: VC to_jcs"]}
{"id": "C86", "title": "Which documents survive serde_json's fast reading of floats", "statement": "serde_json without its feature float_roundtrip reads a float by multiplying with or dividing by a float power of ten: of the digits at most 64 bits are kept (all where they fit), the kept number, the power of ten and the product or quotient are each rounded to the nearest float, and only results beyond the greatest float are refused. Decimals with digits up to 2^53 and powers of ten from -22 to 22 are still read as the nearest float, so a signed credential or presentation whose numbers are integers or floats written so verifies after transport and gives back exactly the document; and whatever is accepted was signed, with numbers of the same nearest floats. For other floats transport fails: 9.301078817733611 is read back as the next float, so a signed credential with that amount, sent unchanged, is refused (accepting it would take a forged signature or a collision).", "quantifier": "all decimals, documents, keys, executions and dependencies that write numbers as IEEE 754 asks for and read them the fast way", "why_tests_cant": "Short decimals are read exactly; the misread floats have 16 or 17 digits or large exponents, and example documents hardly contain one", "anchors": ["core/src/verifiable/vc.rs: VC credential_subject, parse_json_bytes", "core/src/verifiable/vp.rs: VP parse_json_bytes", "core/src/verifiable/proof/eddsa.rs: EddsaJcs2022 verify_proof"]}
{"id": "C87", "title": "Which creation times of proofs are accepted", "statement": "A proof's created timestamp passes validation exactly if it is a text of year, month, day, hour, minute, second, perhaps a fraction and an offset, with the white space and number lengths chrono tolerates, that names an existing date of the Gregorian calendar and an existing time (60 seconds included) in chrono's range of years; the instant it stands for counts calendar days since 1970-01-01. Every RFC 3339 timestamp is accepted with the instant it says. Documents are signed, and answered for by the verifier, only with such a timestamp. It is not true that only RFC 3339 timestamps are accepted.", "quantifier": "all byte strings as timestamps, all dates, all documents and keys, all dependencies that read timestamps as chrono does", "why_tests_cant": "The tests use one or two well-formed timestamps; calendars, offsets and tolerated spellings form an unbounded set", "anchors": ["core/src/verifiable/proof/mod.rs: Proof validate_created", "core/src/verifiable/proof/eddsa.rs: EddsaJcs2022 verify_proof"]}
{"id": "C88", "title": "Proof values and keys in every multibase base", "statement": "multibase::decode takes, beside base58btc, base16 and identity, exactly the texts of the multibase table (bases 2, 8, 10, 32, 36, 58flickr and 64 with their variants), each with one meaning. So a verifying credential or presentation still verifies, with the same result, when its signature is written in any of these bases, and each has a text for it; and a public key of a DID document is read from any of them. In the bases without padding and of one case a byte string has exactly one text; it is not true of the padded ones, where equals signs may end any block.", "quantifier": "all texts, byte strings, documents, keys and dependencies that decode these bases as multibase 0.9 does", "why_tests_cant": "The tests only meet base58btc texts made by the crate itself; other bases, padding and letter cases form an unbounded set", "anchors": ["core/src/verifiable/proof/eddsa.rs: EddsaJcs2022 verify_proof", "core/src/doc/mod.rs: Primary::decode_pub_key"]}
{"id": "C89", "title": "Hash collisions come down to the compression functions", "statement": "With SHA-256, SHA-384 and BLAKE3 themselves, two different messages with one digest contain, among the calls of the compression function made to hash them, two different inputs with one output (padding, length field, chunk counters and flags let no other collision in). So an accepted credential or presentation was signed, or a signature was forged, or SHA-256's compression function collides on blocks of these texts; the same for hashlinks that fit two texts (BLAKE3), DID values shared by two keys (SHA-384, BLAKE3) and one signing hash of two pairs of texts.", "quantifier": "all messages (of the lengths FIPS 180-4 allows), documents, keys and dependencies with these hash functions", "why_tests_cant": "No collision is known to test with; the claim is a reduction over all pairs of messages", "anchors": ["core/src/verifiable/proof/hash.rs: generate_hash", "core/src/hashlink.rs: verify_from_json", "core/src/did/mod.rs: DID::identity"]}
{"id": "C90", "title": "Floats have ECMAScript's digits", "statement": "The digits of a finite float in a document's canonical form and in the text serde_json writes are those of ECMAScript's Number::toString, which RFC 8785 asks for: among all number texts with this float as their nearest they are the fewest (at most 17), no text with as few digits is nearer, and if another is equally near the last digit is even. This leaves one value; the n, k and s of ECMAScript's steps exist, are unique, and the canonical form is the text its steps make of them.", "quantifier": "all finite floats, all JSON number texts, all dependencies that write numbers as C84 assumes", "why_tests_cant": "There are 2^64 floats and infinitely many texts competing for each; minimality is a statement about all of them", "anchors": ["core/src/verifiable/vc.rs: VC to_json, to_jcs", "core/src/verifiable/vp.rs: VP to_json, to_jcs", "core/src/types.rs: ToJCS, ToJSON"]}
{"id": "C91", "title": "Ed25519 signatures are correct and not malleable", "statement": "What Ed25519 (the algorithm behind KeyPair::signature and PubKey::verify, as RFC 8032 gives it) signs with any secret is accepted under that secret's public key on that message. Public key and signature are those that sections 5.1.5 and 5.1.6 make of the secret: a B and (r B, r + h a), where a and r come from the two halves of the secret's hash. Verification answers yes exactly if the public key and the signature's first half are the texts of curve points A and R, the second half is a number S below the group order, and S B = R + h A in the group of the curve. Accepted signatures have 64 bytes and their first 32 determine the rest. A document with an RFC 8032 key verifies exactly if the decoded proof value is accepted on the document's message, so that the correctness of signatures assumed elsewhere is proved.", "quantifier": "all secrets, messages, public keys, signatures, documents and dependencies whose signatures are those of RFC 8032", "why_tests_cant": "Correctness rests on the group law of the curve and the order of the base point, for 2^256 secrets and all messages", "anchors": ["core/src/verifiable/proof/serialize.rs: serialize_hashed_data", "core/src/verifiable/proof/verifier.rs: verify_signature", "core/src/verifiable/proof/eddsa.rs: EddsaJcs2022 create_proof, verify_proof"]}
{"id": "C92", "title": "A weak public key verifies everything", "statement": "An accepted proof does not show that the holder of a secret signed the document: under the public key 01 00 ... 00, which RFC 8032 reads, the signature 01 00 ... 00 is accepted on every message. Anybody can add that proof value to any credential or presentation, and verification with that key succeeds and returns the document. The crate does not refuse such keys.", "quantifier": "all messages, complete credentials and presentations, proof options, and dependencies whose signatures are those of RFC 8032", "why_tests_cant": "Tests use generated keys; the counterexample is one public key, for which the claim covers all messages and documents", "anchors": ["core/src/verifiable/proof/verifier.rs: verify_signature", "core/src/verifiable/proof/eddsa.rs: EddsaJcs2022 verify_proof", "core/src/doc/mod.rs: Primary::decode_pub_key"]}
{"id": "C93", "title": "Sealed keys open only with the right tag, and changed ones hardly ever", "statement": "If the crate's AEAD is XChaCha20-Poly1305, from_keysecure succeeds exactly if the decoded ciphertext is the sealed form (key stream, one-time key, Poly1305 tag) of a key's PEM text under the password's hash and the nonce; every text has one sealed form; the key stream is that of RFC 8439 under the subkey and nonce that XChaCha20 derives. If the ciphertext of a KeySecure is replaced by another one, with any tag, both open only if the one-time key is among at most 8n of the 2^234 possible ones, n being the number of 16-byte pieces under the tag; that list depends on the two ciphertexts and tags alone, not on password, salt, nonce or key. If only the tag is replaced, it never opens.", "quantifier": "all passwords, keysecures, ciphertexts below 2^64 bytes, tags and dependencies whose AEAD is XChaCha20-Poly1305", "why_tests_cant": "The claim counts keys for every pair of ciphertexts; a test tries single bit flips under one key", "anchors": ["core/src/account/mod.rs: from_keysecure", "core/src/keys/verification.rs: build_keysecure"]}
{"id": "C94", "title": "Hashes are FIPS 180-4's", "statement": "If the crate's SHA functions are those of the model, a proof signs SHA-256 of the canonical options followed by SHA-256 of the canonical document, and a DID's value comes from SHA-384 of its account key, where SHA-256, SHA-384 and SHA-512 are what FIPS 180-4 describes: a padded message in blocks, message schedule, rounds and sums modulo 2^32 or 2^64 word by word, and constants that are the first digits of the fractional parts of roots of the first 64 or 80 primes. Every message has exactly one digest.", "quantifier": "all messages of any length, all documents, options, key pairs and DIDs", "why_tests_cant": "Test vectors cover a few lengths and bit patterns; the equivalence holds for every message and every padding", "anchors": ["core/src/verifiable/proof/hash.rs: generate_hash", "core/src/verifiable/proof/transform.rs: hash", "core/src/verifiable/proof/config.rs: hash", "core/src/did/mod.rs: identity"]}
{"id": "C95", "title": "Hashlinks and DID values hold BLAKE3 digests as its paper describes them", "statement": "If the crate's hash functions are those of the model, a hashlink is the base58btc text of the bytes 1e 20 and the BLAKE3 digest of the JSON text, it verifies exactly if it decodes to these bytes, and a DID's value is the base58btc text of the hexadecimal BLAKE3 digest of the SHA-384 digest of its account key. BLAKE3 is what its paper describes: chunks of 1024 bytes as leaves of a tree whose left subtrees are complete and not smaller than the right ones, flags for start, end, parent and root, seven rounds that stir the columns and then the diagonals of a 4 by 4 matrix, and initial words from square roots of primes. Every text below 2^64 bytes has exactly one digest.", "quantifier": "all texts below 2^64 bytes, all hashlinks, all DIDs, all dependencies with these hash functions", "why_tests_cant": "Vectors cover some lengths; that the recursion over chunks builds the paper's tree for every length is a claim about all of them", "anchors": ["core/src/hashlink.rs: generate_from_json, verify_from_json", "core/src/did/mod.rs: identity"]}
{"id": "C96", "title": "A backup is the RFC 8410 file of the account's keys, and only files with matching keys are read", "statement": "If keys are written as PKCS#8 (RFC 5958, 8410) in PEM (RFC 7468), build_pem gives exactly the file holding the account's 32-byte secret and its public key: base64 in lines of 64 characters of a DER sequence of version 1, algorithm 1.3.101.112, the secret in two octet strings and the public key. Such a file is read by Account::from_pem exactly if the public key is the one RFC 8032 derives from the secret, and gives the account that signs with that secret; so a changed public key is refused. All backups have one length, and so have all sealed keys' cipher texts.", "quantifier": "all accounts, all secrets, public keys and line ends, all dependencies with such key files", "why_tests_cant": "A test writes and reads some keys; that nothing but the standard's file is written and that every mismatch of keys is refused is about all 2^512 pairs", "anchors": ["core/src/account/mod.rs: build_pem, from_pem, signature"]}
{"id": "C97", "title": "What is accepted was signed, down to RFC 8032's equation and FIPS 180-4's digests", "statement": "With RFC 8032 signatures, the model's hash functions and IEEE 754 numbers: in every execution, when bytes are accepted for a key, a document with exactly the options in the bytes was successfully signed with that key before, equal up to numbers with the same nearest float; or the very signature in the bytes satisfies RFC 8032's equation for a pair of digests that was not signed; or FIPS 180-4 gives one digest to two different texts, one of something signed and one accepted. Moreover all assumptions of the other properties hold at once for one concrete instance, for which the life of an identity needs no assumption.", "quantifier": "all executions of signers and verifiers, all bytes, all keys RFC 8032 can read, all dependencies with these functions", "why_tests_cant": "It is about every byte string an attacker may present after every history; and that assumptions do not contradict each other cannot be tested at all", "anchors": ["core/src/verifiable/proof/integrity.rs: add_proof, verify_proof", "core/src/verifiable/proof/eddsa.rs: verify_proof"]}
{"id": "C98", "title": "Network addresses in DID URIs: which texts are addresses, and which of them survive a URI", "statement": "With multiaddr's address syntax: the address of parsed parameters is read exactly when it is protocols written one after the other (names, ports, IPv4, IPv6, host names), and as those protocols. Addresses of known protocols whose host names contain no '?', '&' or '=' come back unchanged from a built URI, so all those without host names do. The stronger claim that every address which is read comes back is false: multiaddr takes any host name without a slash, one with '&hl=' in it yields a URI that parses to another host and a hashlink nobody asked for, and one with '?', '&' or '=' yields the host before that character. Nor does an address have one text: every address with a port has another.", "quantifier": "all texts, all protocol lists, all DIDs, all host names, all sets of further protocols", "why_tests_cant": "The grammar of IPv6 alone has unboundedly many spellings, and the injections hold for every host name and every hashlink", "anchors": ["core/src/did/query.rs: Params::parse_multiaddr, Params::build_query", "core/src/did/mod.rs: DID::build_uri, DID::parse_uri"]}
{"id": "C99", "title": "Challenges, domains and other unsigned claims are not checked", "statement": "The claim 'an accepted presentation or credential that names the verifier's challenge, domain, validity period or status was made for them' is false: from every text that gets an answer there is a text with the very same answer whose document and whose proof say any further things one likes, under any names that are not the crate's own. Accordingly the declared errors InvalidDomainError, InvalidChallengeError and ProofTransformationError are never returned: every error of signing and verification is ProofGenerationError or ProofVerificationError.", "quantifier": "all dependencies, all public keys, all texts, all lists of new names and values, all error values", "why_tests_cant": "It concerns every accepted text and every set of added members; that an error is never returned can only be shown for all inputs", "anchors": ["core/src/verifiable/proof/types.rs: ProofError", "core/src/verifiable/proof/mod.rs: Proof", "core/src/verifiable/proof/integrity.rs: verify_proof"]}
{"id": "C100", "title": "Two identities agree on one secret by way of their documents", "statement": "Take any two identities with any histories of calls, their published documents and their sealed private keys. The agreement key each opens with its password and the agreement key it decodes from the other's document give both the same X25519 secret in the sense of points on the curve, and it is not zero; the ladder of RFC 7748 computes exactly these multiples of points. Two further claims are false: documents with agreement keys of small order are decoded like others although every secret agreed with them is zero, and every key has a twin with other bytes, decoded as a different key, that agrees on the same secrets.", "quantifier": "all dependencies that follow RFC 7748, all pairs of identities, histories, passwords and places of keys, all secrets, all public keys that name a point", "why_tests_cant": "It concerns every pair of 32-byte secrets, of which tests see a handful, and the whole way of a key through documents and sealed texts; the exceptional points have negligible probability in random tests", "anchors": ["core/src/keys/agreement.rs: Key, Pairs", "core/src/doc/mod.rs: decode_pub_key_agreement", "core/src/identity/mod.rs: build_private_keys"]}
{"id": "C101", "title": "Key files open under the password's Argon2id tag and nothing else", "statement": "A key file opens for a password exactly if its costs, salt and password are in the ranges of Argon2 and its ciphertext is sealed under the 32-byte Argon2id tag that the recurrence of RFC 9106 gives for them; other costs are refused with an error. The computation in a memory that is written over in every pass gives exactly the tags of that recurrence, for all costs, since no block is written over before its last use. Inputs that differ are told apart by the text of the first hash. False: that the declared output length takes part; any allowed one opens the same key.", "quantifier": "all dependencies that follow RFC 9106 and RFC 8439, all key files, passwords, salts and costs; for the filling of the memory all compression functions, numbers of lanes, segments and passes", "why_tests_cant": "Reference vectors cover a few cost settings; which blocks may be referred to depends on pass, slice, lane and pseudo-random words, and errors at boundaries show up only for some memory contents", "anchors": ["core/src/account/mod.rs: Account::from_keysecure"]}
{"id": "C102", "title": "The password hash is Argon2id down to the bits of BLAKE2b", "statement": "The hash function inside the password hash is BLAKE2b of RFC 7693 and its form for digests of any size that of RFC 9106; the function that mixes two blocks applies the permutation of RFC 9106 (sums with a product of the lower halves, rotations by 32, 24, 16 and 63) to the rows and then to the columns of 8 times 8 pairs of words. So a password, a salt and costs have a key exactly if the costs are allowed, and the key is the tag of RFC 9106 in these terms.", "quantifier": "all texts shorter than 2^128 bytes, all digest sizes, all blocks of 128 words of 64 bits, all costs, passwords and salts in the ranges of Argon2", "why_tests_cant": "Vectors exercise a few messages; carries between words, counters beyond 2^64 bytes, texts of exactly one block and sizes of digests around 64 bytes are reached by few of them", "anchors": ["core/src/account/mod.rs: Account::from_keysecure"]}
{"id": "C103", "title": "Peer identifiers in addresses are read as multihashes in base58btc", "statement": "Behind the protocol name p2p of a network address stands a peer identifier: the base58btc text of a hash code, a size and a digest, where the code is SHA-256 with up to 64 bytes or identity with up to 42. It is read exactly then, every peer identifier has a text, and addresses with peers come back from a DID URI. Each has exactly one text if varints of more than 64 bits are refused; if their upper bits are dropped, each has another one. A SHA-256 peer identifier need not have 32 bytes.", "quantifier": "all texts, all peer identifiers, all DIDs, all addresses of known protocols and peers, all further protocols", "why_tests_cant": "Tests read a few well-formed peer identifiers; other sizes of digests, codes written with ten bytes and texts that nearly are peer identifiers are not among them", "anchors": ["core/src/did/query.rs: Params::parse_multiaddr", "core/src/did/mod.rs: DID::build_uri, DID::parse_uri"]}
{"id": "C104", "title": "Signatures of an account and proofs of documents are not separated", "statement": "In every execution with keys that sign documents and accounts that also sign bytes of whatever origin, an accepted document was signed as such before with that key, or an account with that key signed 64 bytes that are the hashes of its options and of its canonical text, or the key is impersonated. The claim that what is accepted was signed as a document is false: for every account, document and options, a signature of 64 bytes by Account::signature makes the document accepted; and every proof is such a signature.", "quantifier": "all executions, all documents, options, keys and messages", "why_tests_cant": "Tests sign documents with add_proof and messages with Account::signature separately; that one can stand for the other follows from the layout of the signed message, for every document", "anchors": ["core/src/account/mod.rs: Account::signature, Account::pubkey", "core/src/verifiable/proof/eddsa.rs: EddsaJcs2022", "core/src/verifiable/proof/integrity.rs: Integrity::add_proof, Integrity::verify_proof"]}
{"id": "C105", "title": "Sealed keys are not bound to the method, kind or identity they are stored under", "statement": "Is the key that opens in a stored identity the one of that method and identity? No: if the sealed keys of the two methods are exchanged in the stored text, or the two keys within a method, or the keys of another identity with the same password are put under this one's name, the text is read and every key opens without error, as the key of the other place; a credential signed with what then is stored for assertions is accepted for the key published for authentication.", "quantifier": "all identities, call histories, passwords, sealing randomness and documents", "why_tests_cant": "Tests open keys where they were sealed; that nothing ties a sealed key to its place concerns every rearrangement of every stored identity", "anchors": ["core/src/keys/secure.rs: PrivateKeyPairs, IdentityPrivateKeyPairs", "core/src/identity/mod.rs: Identity::build_private_keys"]}
{"id": "C106", "title": "The name of a verification method does not stand for one key", "statement": "Documents published for one identity value are the same exactly when the public keys in them are. Does the id of a verification method, which proofs refer to, stand for one key? No: an account restored from its backup has the same DID, but its methods are generated anew and published under the same ids, with keys that are the former ones only if the generated keys coincide.", "quantifier": "all accounts, backups, call histories and generated keys", "why_tests_cant": "Tests build one identity per account; that ids repeat over restored accounts while keys do not concerns pairs of histories", "anchors": ["core/src/identity/mod.rs: Identity::to_doc, Identity::build_assertion_method", "core/src/did/mod.rs: DID::from_pem, DID::identity"]}
