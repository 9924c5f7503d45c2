# prople/did in Rocq: design

The subject is the crate `prople-did-core` (`/repo/core/src`, the only crate with code in `/repo`). The
code is not run here; the model is a function-by-function reading of the Rust text, every definition
citing the lines it models.

## 1. How the code is modelled

* **Strings and byte vectors** are both `list byte` (`bytes`). A Rust `String` is a byte list with
  `utf8_valid s = true`; wherever that matters it is an explicit (boolean) hypothesis.
* **`Result`/`Option`** stay data. A panic is an explicit value `Panic` (`outcome`), used where the
  Rust code indexes a vector.
* **`&mut self` methods** return the new value. Random key generation takes the generated key as an
  argument, so a theorem over all arguments is a theorem over all random outcomes.
* **JSON.** `serde_json::to_string` is a byte-level printer; `serde_json::from_slice` and the code
  derived by `#[derive(Deserialize)]` are a byte-level streaming deserializer driven by a *schema*
  (`schema`: string, option, vec, `Value`, unit enum, struct): white space, escapes and surrogates,
  numbers, recursion limit 128, unknown members skipped (without limit), duplicate and missing
  members rejected, structs also readable from arrays, trailing characters rejected.
* **JCS** (`serde_jcs`) is the same printer after sorting members recursively, with the key order and
  the number formatter left as parameters (any total order, any formatter that emits number
  characters), so the theorems hold whichever of UTF-16 / raw byte order the pinned crate uses.
* **Base58btc, base16, hex, UTF-8, varint, multihash** are modelled concretely.
* **Cryptography and other dependencies** (SHA-2, BLAKE3, Ed25519, X25519, PEM, AEAD, KDF, KeySecure,
  chrono date parsing, multiaddr, the rarely used multibase bases, f64 text) are fields of the record
  `deps` (`Deps.v`) of *operations only*; a law a theorem needs about them is a named `Prop` and an
  explicit hypothesis of that theorem. No axioms, no module types.

### Files

| files | content |
|-------|---------|
| `Base` `Codec` `Json` `JsonParse` `Deps` `Types` `Did` `Keys` `KeyStore` `Doc` `Identity` `Hashlink` `UserConnection` `Proof` `Vc` `Suite` `ErrorText` | the model |
| `Float` `Fast` | IEEE 754 binary64 numbers and their decimal texts, concretely (C84, C85); serde_json's fast reading of them (C86) |
| `Time` | chrono's reading of timestamps, concretely (C87) |
| `Bases` | the remaining multibase bases, concretely (C88) |
| `Addr` | multiaddr's reading of network addresses: IPv4, IPv6, ports, host names, flags (C98) |
| `Peer` | multiaddr's reading of peer identifiers: base58btc, unsigned varints, multihash (C103) |
| `Ed25519` | Ed25519 signatures as the sample code of RFC 8032 computes them, with SHA-512 (C91, C92) |
| `X25519` | X25519 as the pseudo-code of RFC 7748 computes it (C100) |
| `Argon2` | Argon2id version 0x13 with BLAKE2b, in a memory that is written over as in the argon2 crate (C101) |
| `Pem` | files of Ed25519 private keys: PKCS#8 version 2 (RFC 5958, 8410) in PEM (RFC 7468) (C96) |
| `Aead` | XChaCha20-Poly1305 as RFC 8439 and draft-irtf-cfrg-xchacha describe it, without associated data (C93) |
| `Spec` `IdentitySpec` `JsonSpec` `VcSpec` `SuiteSpec` `MiscSpec` `Grammar` `TextSpec` `FlowSpec` `ExactSpec` `CanonSpec` `ConnSpec` `GenericSpec` `ChainSpec` `BuiltSpec` `DecodeSpec` `VarintSpec` `DirectSpec` `SealSpec` `WorldSpec` `ShortSpec` `FloatSpec` `FastSpec` `TimeSpec` `BasesSpec` `DigestSpec` `DigitsSpec` `Ed25519Spec` `AeadSpec` `ShaSpec` `ArxSpec` `PemSpec` `WholeSpec` `AddrSpec` `SessionSpec` `X25519Spec` `Argon2Spec` `Blake2Spec` `PeerSpec` `RawSpec` `MoveSpec` `NameSpec` | vocabulary of the theorem statements, independent of the functions modelled |
| `Primes` `Primes25519` `Primes1305` `Fp` `Edwards` | primality proofs (Pocklington) of 2^255 - 19, of the group order and of 2^130 - 5, the prime field, and the group law of twisted Edwards curves |
| `*Facts` `Ed25519Points` `FloatText` `FloatLaws` `FloatWorld` `DigitsText` | lemmas |
| `Hash` `Demo` `DemoFacts` `TextDemo` `FlowDemo` `CanonDemo` `FloatDemo` `FastDemo` `TimeDemo` `BasesDemo` `DigitsDemo` `Ed25519World` `AeadWorld` `ShaWorld` `ArxWorld` `PemWorld` `AddrDemo` `X25519World` `Argon2World` `Blake2World` | concrete dependencies (SHA-256, SHA-384 and BLAKE3 written out, toy signatures and ciphers) proved to satisfy every law; used in the examples beside the theorems |
| `PropsDid` `PropsIdentity` `PropsDoc` `PropsVc` `PropsSuite` `PropsMisc` `PropsText` `PropsFlow` `PropsExact` `PropsCanon` `PropsConn` `PropsGeneric` `PropsChain` `PropsBuilt` `PropsDecode` `PropsError` `PropsVarint` `PropsDirect` `PropsSeal` `PropsWorld` `PropsShort` `PropsFloat` `PropsFast` `PropsTime` `PropsBases` `PropsDigest` `PropsDigits` `PropsEd25519` `PropsAead` `PropsSha` `PropsArx` `PropsPem` `PropsWhole` `PropsAddr` `PropsSession` `PropsX25519` `PropsArgon2` `PropsBlake2` `PropsPeer` `PropsRaw` `PropsMove` `PropsName` | the property theorems `Cnn_…`, each closed by `exact` and followed by `Print Assumptions`, with an example meeting its hypotheses |
| `Replay` | the crate's own unit tests run on the model (tests, not proofs) |

`Grammar.v` is a declarative grammar of JSON texts (RFC 8259 trees, `render`, `value_of`);
`TextSpec.v` says which trees are credentials, presentations and proofs. `vc_text_iff` and its
siblings tie the byte-level parser to it in both directions, so statements about parsed documents do
not rest on the parser's own code.

## 2. Trusted base

1. Coq 8.16.1's kernel (checked again with `coqchk`), and `vm_compute` for closed computations in examples.
2. **`Print Assumptions`** answers *Closed under the global context* for every `Cnn_…` theorem: no
   axioms, neither of ours nor of the standard library. (`coqchk -o` lists the constants
   `Coq.ssr.ssrunder.*` because the standard library's ssreflect files declare a module type; no theorem uses them.)
3. The reading of the Rust text: section 3 says which functions are modelled. No translation tool is involved.
4. The reading of the dependencies modelled concretely (`serde_json`, derive macros, `multibase`
   base58btc/base16, `hex`, `multihash`, UTF-8). Their source is not in the sandbox; the readings are
   stated in the comments of `Json.v`, `JsonParse.v`, `Codec.v`.
5. Hypotheses. Every law of a dependency is a visible hypothesis of the theorems that need it:

| law | content | proved for |
|-----|---------|-----------|
| `ed_correct` | a signature verifies under its own key | `demo`; follows from `rfc8032` (C91) |
| `rfc8032` (C91, C92) | signatures are those of RFC 8032, with a secret behind every key pair; nothing about public keys the RFC cannot read | `ed25519` |
| `rfc7748` (C100) | agreement keys are secrets of 32 bytes, published as X25519 makes public keys of them; every 32 bytes are read as a public key | `agreeing`, `whole` |
| `sha256_size`, `sha384_size`, `blake3_size` | digest lengths 32, 48, 32 | the concrete functions in `Hash.v` |
| `ed_hex_law`, `dh_hex_law`, `ed_bytes_inj` | hex texts of keys read back; key bytes are injective | `demo`, `ed25519` |
| `pem_law`, `ed_seal_law`, `dh_seal_law` | PEM and sealed keys open to what was stored | `demo` |
| `ed_seal_form` (C81) | a sealed key holds the PEM text encrypted under the password hash with a 24-byte nonce | `demo`; follows from `xchacha` and `ed_sealed` (C93) |
| `xchacha`, `ed_sealed` (C93) | decryption is that of XChaCha20-Poly1305 and password hashes have 32 bytes; sealed keys hold the PEM text in that form | `locked` |
| `argon2` (C101) | password hashes are Argon2id tags of 32 bytes if costs, salt and password are in range, and errors otherwise | `whole` |
| `multiaddr18` (C98) | `str::parse::<Multiaddr>` reads addresses as `Addr.read_addr` does, with any further protocols `rest` of at most one argument each | `placed`, `whole` |
| `pkcs8` (C96) | key pairs have secrets of 32 bytes, sign as RFC 8032 asks for and are written as PKCS#8 files with LF or CR LF; such files are read if their keys belong together | `whole` |
| `jcs_order` | the JCS member order is a total order | `demo`, RFC 8785's order (C71) |
| `jcs_numbers` | JCS number texts consist of number characters | `demo`, `rfc` |
| `jcs_stable` | a JCS number text is read as a number with that text | `demo`, `rfc` |
| `jcs_utf16` | the JCS member order is that of UTF-16 code units | `rfc` |
| `floats_written` | float texts are JSON numbers | `demo`, `lossy` |
| `ieee` | floats are written with the shortest digits (serde_json's and ECMAScript's layout) and read as the nearest float; canonical integers are written exactly or as floats | `ieee_ints`, `ieee_floats_only` |
| `fast` | floats are written as for `ieee` and read by `Fast.read_fast` | `fast_ints` |
| `chrono` | timestamps are read by `Time.read_time` with some first and last year | `timely` |
| `real_hashes` (C89) | the hash functions are those of `Hash.v` (SHA-256, SHA-384, BLAKE3) | `demo` |
| `multibase09` | the remaining multibase bases are read by `Bases.other_bases` (texts starting with a rocket aside) | `based` |
| `ks_json_law`, `seals_wf`, `ks_wf` | KeySecure's own JSON form reads back (its fields are private to its crate, so the form is a parameter) | `demo` |

   Almost all laws hold at once for one instance, `PemWorld.whole` (C97; the exception is `fast`, which excludes `ieee`).

   No theorem assumes collision resistance or unforgeability: collisions and forgeries appear as
   disjuncts of the conclusions. These disjuncts name the very signature and the very texts that were
   accepted (`carried`, `impersonated`): that some forgery or some collision exists is true of every
   signature scheme and hash function and would say nothing.

**Floats.** Whether serde_json reads a float back from its text depends on a crate feature that cannot
be seen in the sandbox. Round-trip theorems therefore carry a per-number hypothesis (`number_ok`, part
of `vc_wf`/`vp_wf`, void for documents without floats); C69 says exactly what happens without it.
C84 and C85 do without it: they assume that numbers are read and written as IEEE 754 and ECMAScript ask
for (`ieee`, with `Float.v` as the concrete functions, a reading of those standards, not of the crates' sources).
C90 checks that reading: the canonical texts of `Float.v` are exactly those of ECMA-262's Number::toString as `DigitsSpec.v` quotes it.
C86 assumes serde_json's default instead (`fast`: no feature `float_roundtrip`, several roundings; `Fast.v` follows the
published source of serde_json, which is not in the sandbox).
C87 assumes chrono 0.4.31 or later (`chrono`); `Time.v` follows its published source, which is not in the sandbox.
C88 assumes multibase 0.9 (`multibase09`), after its published source and those of data-encoding and base-x.
C89 is about the hash functions of `Hash.v`, written after FIPS 180-4 and the BLAKE3 paper and compared with published vectors; that the `sha2` and `blake3` crates compute them is assumed (`real_hashes`).
C94 checks the SHA-2 functions (SHA-512, which Ed25519 uses, included): they are exactly those of `ShaSpec.v`, which says FIPS 180-4 with bits, primes and roots instead of shifts and tables.
C95 does the same for BLAKE3 and for ChaCha20's blocks (`ArxSpec.v`: columns and diagonals of a matrix of words stirred at once, chunks in a tree).
C91 and C92 assume RFC 8032 verification (`rfc8032`): `Ed25519.v` is its sample code, which gives the RFC's test vectors 1 and 2 (checked outside
the build, because `coqchk` needs minutes for each scalar multiplication). `Ed25519Spec.accepted` says the same with points and no algorithm.
`prople_crypto`'s source is not in the sandbox: if it calls ed25519-dalek's `verify_strict`, keys and nonces of small order are refused
and `rfc8032` does not hold of them.
C100 assumes that `prople_crypto::ecdh` is X25519 (`rfc7748`), sealing the secret's and publishing the public key's hex text and reading any 32 bytes, as
x25519-dalek does; `X25519.v` gives all values of RFC 7748, section 6.1 (checked outside the build, as for Ed25519). The common secret is computed by the crate's
callers: C100 says what they get by following the RFC. Public keys on the curve's twist, which name no point, are read too; what one has in common with them is not stated.
C93 assumes that `prople_crypto::aead` is XChaCha20-Poly1305 without associated data (`xchacha`), which the names in its API and the 24-byte
nonce suggest; for the password hash it only assumes 32 bytes (C101 models it). `Aead.v` follows the RFC and is compared with its vectors. C93 counts one-time keys: that the
cipher's key stream is unpredictable is not assumed and not proved.
C101 assumes that `prople_crypto::passphrase` is Argon2id version 0x13 without secret and associated data, called with the costs and the bytes of the
salt's text as `Account::from_keysecure` passes them, and fills a buffer of 32 bytes whatever `output_len` says (`argon2`); the ranges in `costs_ok` are those of the argon2 crate.
`Argon2.v` follows that crate's published source and RFC 9106. Two vectors of the reference implementation (256 KiB, two passes, one and two lanes)
and BLAKE2b of several texts were checked outside the build. C101 is about the memory and shares BLAKE2b and the compression function with the model;
C102 specifies these two by themselves. Strength against guessing is not stated.
C96 assumes that `prople_crypto` writes keys with ed25519-dalek 2's PKCS#8 (`pkcs8`): version 2 with the public key, after the published sources
of ed25519-dalek, pkcs8 and pem-rfc7468, which are not in the sandbox. The pair of keys in RFC 8410's example was checked to belong together outside the build.
C98 assumes that `multiaddr` 0.18 splits at slashes and reads the protocols named in `Addr.v` with the std parsers of numbers and internet addresses
(`multiaddr18`), after its published source, which is not in the sandbox. The remaining protocols are a parameter. C103 gives it for p2p, after the published sources
of `libp2p-identity`, `multihash` 0.19 and `unsigned-varint`; what the latter does with numbers of more than 64 bits differs or may differ between versions
and is the parameter `lossy` (theorems for both). Onion, garlic, certhash, memory and others stay a parameter.

**"Same data"** (C26, C69): two subjects are the same when they differ in member order and in numbers
with equal canonical texts only.

## 3. What is modelled and what is not

| source file | lines → definitions |
|---|---|
| `core/src/account/mod.rs` | 21-37 `account_error`, 40-42 `account`, 51-54 `account_new`, 56-61 `build_pem`, 63-69 `account_from_pem`, 71-90 `keysecure`, 71-107 `account_from_keysecure`, 109-119 `account_pubkey` |
| `core/src/context/ext/user_connection.rs` | 6 `CONTEXT_USER_AGENT_ADDRESS`, 10-12, 28-32, 44-49 `uc_properties_schema`, 13-16 `uc_properties`, 18-25 `uc_properties_default`, 28, 44 `uc_context_default`, 30-41 `uc_context`, 35-40, 52-56 `uc_context_new`, 47-57 `uc_credential`, 59-65 `uc_to_json` |
| `core/src/did/mod.rs` | 28-30 `did`, 39-43 `did_new`, 45-51 `did_from_pem`, 53-57 `did_from_keysecure`, 59-78 `did_identity`, 80-91 `build_uri_of`, 80-91 `build_uri`, 93-121 `parse_uri`, 104-117 `parse_items`, 128-308 `test_did` |
| `core/src/did/query.rs` | 6-11 `params`, 6 `params_default`, 6-11 `params_schema`, 6-11 `params_to_json`, 14-25 `parse_multiaddr`, 27-43 `build_query` |
| `core/src/doc/mod.rs` | 38-41 `public_key_decoded`, 45-56 `primary_schema`, 47-56 `primary`, 59-73 `decode_pub_key`, 75-89 `decode_pub_key_verification`, 91-106 `decode_pub_key_agreement`, 113 `doc_from_slice`, 115-135 `doc`, 138-148 `doc_generate`, 150-153 `doc_add_context`, 155-165 `doc_add_assertion`, 156-162 `push_opt`, 167-177 `doc_add_authentication`, 179-189 `doc_add_cap_delegate`, 191-201 `doc_add_cap_invoke`, 204-210 `doc_to_json`, 212-226 `doc_validate`, 228-352 `test_primary` |
| `core/src/hashlink.rs` | 12-20 `generate_from_json`, 15-16, 41-42 `wrap_multihash`, 28-49 `verify_from_json`, 51-123 `fake_message` |
| `core/src/identity/mod.rs` | 16-19 `verification_method`, 27-31 `identity`, 34-40 `identity_new`, 46-58 `identity_account`, 68-75 `build_auth_method`, 77-84 `build_assertion_method`, 86-97 `build_verification_method`, 101-150 `to_doc`, 154-199 `build_private_keys`, 160-177 `seal_method` |
| `core/src/keys/agreement.rs` | 21-24 `apairs`, 27-30 `apairs_is_valid`, 32-43 `apairs_decode_public_key`, 47-51 `apairs_build_keysecure`, 68-82 `agreement_generate` |
| `core/src/keys/secure.rs` | 11-27 `keysecure_error_text`, 11-27 `keysecure_error`, 41-46 `pairs_schema`, 43-46 `private_key_pairs`, 49-56 `decrypt_verification`, 58-65 `decrypt_agreement`, 71-81 `ipk_schema`, 73-81 `identity_private_keys`, 84-90 `identity_private_keys_new`, 93-99 `ipk_to_json` |
| `core/src/keys/verification.rs` | 12-17 `verification_error`, 21-24 `vpairs`, 27-35 `vpairs_is_valid`, 37-46 `vpairs_decode_pub_key`, 50-54 `vpairs_build_keysecure`, 69-86 `verification_generate` |
| `core/src/types.rs` | 16-33 `DID_SYNTAX_MARK`, 36-106 `did_error`, 38-105 `did_error_text`, 108-109 `json_value`, 112-114 `jv_mime_type`, 116-119 `jv_to_bytes`, 122-132 `jv_from`, 134-141 `jv_to_string`, 143-152 `jv_try_from` |
| `core/src/verifiable/proof/config.rs` | 42-61 `generate_proof_config` |
| `core/src/verifiable/proof/eddsa.rs` | 32-35 `eddsa_jcs_2022`, 37-68 `eddsa_create_proof`, 71-112 `eddsa_verify_proof` |
| `core/src/verifiable/proof/hash.rs` | 33-50 `generate_hash` |
| `core/src/verifiable/proof/integrity.rs` | 44-58 `integrity_add_proof`, 67-102 `integrity_verify_proof`, 105-741 `fake_suite` |
| `core/src/verifiable/proof/mod.rs` | 34-66 `proof_schema`, 36-66 `proof`, 68-81 `proof_default`, 84-95 `proof_new`, 97-99 `proof_typ`, 101-103 `set_signature_as_string`, 105-107 `proof_purpose`, 109-111 `proof_method`, 113-115 `proof_cryptosuite`, 117-119 `proof_created`, 121-123 `proof_expires`, 125-128 `remove_proof_value`, 138-151 `proof_validate`, 154-162 `validate_type`, 164-181 `validate_cryptosuite`, 185-200 `validate_created`, 203-209 `proof_to_jcs`, 229-243 `add_proof` |
| `core/src/verifiable/proof/serialize.rs` | 37-40 `proof_byte_encode`, 43-46 `proof_byte_to_hex`, 69-73 `serialize_hashed_data` |
| `core/src/verifiable/proof/transform.rs` | 23-31 `hash_text`, 39-55 `transform_document`, 57-311 `fake_doc` |
| `core/src/verifiable/proof/types.rs` | 15, 24 `DEFAULT_PROOF_CRYPTOSUITE`, 30 `purpose_eqb`, 32-50 `purpose`, 33-49 `purpose_serde`, 52-63 `purpose_text`, 65-76 `purpose_from`, 84-99 `proof_error`, 131-136 `proofable`, 146-152 `verification_result`, 158-178 `verification_of`, 180-196 `cryptosuite` |
| `core/src/verifiable/proof/verifier.rs` | 7-17 `verify_signature` |
| `core/src/verifiable/vc.rs` | 19-36 `vc_schema`, 21-36 `vc`, 39-48 `vc_new`, 50-53 `vc_add_context`, 55-58 `vc_add_type`, 60-63 `vc_set_credential`, 65-68, 126-129 `vc_set_proof`, 71-84 `vc_to_json`, 86-95 `vc_to_jcs`, 97-119 `vc_validate`, 121-143 `vc_proofable`, 131-136 `vc_parse_json_bytes`, 138-142 `vc_remove_proof`, 145-258 `test_vc` |
| `core/src/verifiable/vp.rs` | 15-32 `vp_schema`, 17-32 `vp`, 41-49 `vp_new`, 51-54 `vp_add_context`, 56-59 `vp_add_type`, 61-64 `vp_add_credential`, 66-69, 128-131 `vp_add_proof`, 71-74 `vp_set_holder`, 77-89 `vp_to_json`, 91-99 `vp_to_jcs`, 101-121 `vp_validate`, 123-145 `vp_proofable`, 133-138 `vp_parse_json_bytes`, 140-144 `vp_remove_proof`, 147-219 `test_vp` |

Not modelled separately:

* getters and plain field access (`get_authentication_method`, `get_assertion_method`, …), `Default`/`Clone`/`Debug`/`PartialEq` derives where they only copy, re-exports (`lib.rs`, `verifiable/mod.rs`, `keys/mod.rs`, `context/mod.rs`), trait declarations without code (`Validator`, `ToJSON`, `ToJCS`, `KeySecureBuilder`…; their implementations are modelled);
* `#[cfg(test)]` code and mocks;
* the texts of dependency error messages (fields of `deps`), time, randomness quality, memory safety, side channels, and the cryptographic strength of the primitives;
* IO and concurrency: the crate has none.

## 4. Properties

Statements are in `properties.jsonl`, theorem names in `MANIFEST.json`. A name ending in `_refuted`
states that the natural claim is false of the code, with the witness or the exact reason.

| id | property | proof |
|----|----------|-------|
| C01 | DID URI round trip | list induction on `split`; iff and injectivity; witness for the parameter injection |
| C02 | DID::parse_uri is total | list induction on `split`; iff and injectivity; witness for the parameter injection |
| C03 | Meaning of parsed query parameters | list induction on `split`; iff and injectivity; witness for the parameter injection |
| C04 | DID::build_uri outcomes | list induction on `split`; iff and injectivity; witness for the parameter injection |
| C05 | No query-parameter confusion | list induction on `split`; iff and injectivity; witness for the parameter injection |
| C06 | Shape of a generated DID | base58 decode/encode inverse, alphabet lemma, split lemma |
| C07 | A DID identifies one public key | injectivity of hex and base58; exact iff on the digests |
| C08 | Identity::account on arbitrary strings | base58 decode/encode inverse, alphabet lemma, split lemma |
| C09 | PEM backup restores the same DID | rewriting with PEM/AEAD laws; case analysis for the exact success condition |
| C10 | KeySecure backup restores the same DID | rewriting with PEM/AEAD laws; case analysis for the exact success condition |
| C11 | KeySecure opening is authenticated and total | rewriting with PEM/AEAD laws; case analysis for the exact success condition |
| C12 | Generated identity keys are stable | induction over call histories (`irun`); base58/UTF-8/hex round trips |
| C13 | Exact shape of the published DID document | induction over call histories (`irun`); base58/UTF-8/hex round trips |
| C14 | Published keys decode to the generated keys | induction over call histories (`irun`); base58/UTF-8/hex round trips |
| C15 | The DID document reveals no private key | induction over call histories (`irun`); base58/UTF-8/hex round trips |
| C16 | build_private_keys seals every key in its own slot | induction over call histories (`irun`); base58/UTF-8/hex round trips |
| C17 | Doc builder semantics | induction over call lists; case analysis |
| C18 | Doc validation | induction over call lists; case analysis |
| C19 | Doc JSON round trip | generic serde round trip over schemas (induction on the schema) |
| C20 | Public key decoding is directed by the declared type | induction over call lists; case analysis |
| C21 | Key pair validity check | case analysis and a `_refuted` witness |
| C22 | VC serialization is gated by validation | case analysis; induction over builder calls |
| C23 | VP serialization is gated by validation | case analysis; induction over builder calls |
| C24 | VC and VP JSON round trip | generic serde round trip with the depth limit in both directions |
| C25 | VC, VP and Proof builder semantics | case analysis; induction over builder calls |
| C26 | Canonical form is canonical | unique readability of the printer by induction on trees; sorting is a canonical form |
| C27 | Canonical form is insensitive to construction order | unique readability of the printer by induction on trees; sorting is a canonical form |
| C28 | Proof purpose names | case analysis over all strings |
| C29 | When add_proof succeeds and what it changes | exact characterisation (iff) of the whole pipeline for any document type, instantiated for VC and VP |
| C30 | Signed documents verify after transport | from the exact characterisations; collisions and forgeries are explicit disjuncts |
| C31 | Re-signing a document (refuted completeness) | from the exact characterisations; collisions and forgeries are explicit disjuncts |
| C32 | Exact acceptance condition of verify_proof | exact characterisation (iff) of the whole pipeline for any document type, instantiated for VC and VP |
| C33 | Tamper evidence | from the exact characterisations; collisions and forgeries are explicit disjuncts |
| C34 | Verification result consistency | exact characterisation (iff) of the whole pipeline for any document type, instantiated for VC and VP |
| C35 | Proof purpose is enforced | from the exact characterisations; collisions and forgeries are explicit disjuncts |
| C36 | Expiry is not enforced (refuted) | from the exact characterisations; collisions and forgeries are explicit disjuncts |
| C37 | Proof value encoding | from the exact characterisations; collisions and forgeries are explicit disjuncts |
| C38 | Layout of the signed message | from the exact characterisations; collisions and forgeries are explicit disjuncts |
| C39 | Hashlink verification is exact | base58 bijection; multihash layout |
| C40 | Hashlinks bind content | base58 bijection; multihash layout |
| C41 | JSONValue and bytes | direct |
| C42 | User connection credential JSON | generic serde round trip over schemas (induction on the schema) |
| C43 | Unsigned extra members have no effect | the grammar theorems over trees: what may change in a text without changing the document |
| C44 | Strictness of document parsing | the grammar theorems over trees: what may change in a text without changing the document |
| C45 | Generic integrity layer | case analysis over abstract suites and documents |
| C46 | Credentials inside a verified presentation | from the exact characterisations; collisions and forgeries are explicit disjuncts |
| C47 | Verification key and named issuer are not linked | from the exact characterisations; collisions and forgeries are explicit disjuncts |
| C48 | Life of an identity | composition of C13-C16, C30, C53 along a life of an identity |
| C49 | Relaying a document keeps it | round trip of parsed documents |
| C50 | No confusion of credentials and presentations | disjoint required members; tamper evidence across document types |
| C51 | Texts of DID documents, parameters and user connections | parser and grammar in both directions, induction on trees |
| C52 | URI parameters as JSON | generic serde round trip; injectivity of the text |
| C53 | Sealed keys as JSON | generic serde round trip; injectivity of the text |
| C54 | Rebuilding a parsed URI | split lemmas composed with the hashlink and multiaddr characterisations |
| C55 | Hashlink through a URI | split lemmas composed with the hashlink and multiaddr characterisations |
| C56 | Multiaddr of parameters | split lemmas composed with the hashlink and multiaddr characterisations |
| C57 | A document's keys belong to its DID (refuted) | general construction of a counterexample for every key |
| C58 | Credentials inside presentations | round trip of each embedded credential |
| C59 | Default user connection | direct from the laws |
| C60 | Restored accounts sign alike | direct from the laws |
| C61 | Errors of signing | ordered list of checks; first failing check characterises the error (iff) |
| C62 | Errors of verification | ordered list of checks; first failing check characterises the error (iff) |
| C63 | Errors of opening a sealed key | ordered list of checks; first failing check characterises the error (iff) |
| C64 | Public key texts | ordered list of checks; first failing check characterises the error (iff) |
| C65 | Kinds of PEM and decryption errors | ordered list of checks; first failing check characterises the error (iff) |
| C66 | Errors of hashlink checks | ordered list of checks; first failing check characterises the error (iff) |
| C67 | base58 and hex are positional numerals | positional numeral systems: uniqueness by induction on digits |
| C68 | Lengths of identity values and hashlinks | bounds on the numeral of 64 hex characters, integer arithmetic on powers of 58 |
| C69 | Numbers survive transport only as far as their texts do | induction over values relating each number to the meaning of its text; refutation by a concrete lossy parser |
| C70 | Canonical texts are fixed points and always transport | the same induction with canonical numbers; stability gives a fixed point |
| C71 | Canonical member order and layout | UTF-8/UTF-16 order embedding; sorted permutation; layout by computation on literal names |
| C72 | Accepted documents are the signed ones up to canonical numbers | induction over values with equal data and sorted names; composition with C33 |
| C73 | Connection credentials carry the signed address and DID | composition of C30, C42 and C72 |
| C74 | Documents of any type implementing Proofable | case analysis on the checks, for an arbitrary dictionary of document operations |
| C75 | From a DID URI with a hashlink to an accepted document | composition of C55, C19, C14 and C72 (C48 for the honest direction) |
| C76 | Options left unset neither sign nor verify | the last call of a setter, by induction on the calls; C74 |
| C77 | Which texts decode as hex and multibase | checking the 256 bytes, induction on the bytes decoded |
| C78 | Error texts identify errors | case analysis on all pairs of errors |
| C79 | Varints and multihash bytes determine what they encode | induction on the groups of seven bits |
| C80 | The cryptosuite without the integrity layer | symbolic execution of each check in order |
| C81 | Sealed keys open as the same account | the exact condition of opening and induction on the changes of password |
| C82 | Accepted documents were signed before, in every execution | induction on the past of an execution, and C72 |
| C83 | Documents are written in the fewest bytes | induction on the JSON syntax tree and on the type read, with per-byte case analysis for escapes and uniqueness of decimal digits |
| C84 | Documents with floats survive transport | correctness of bitwise search for the nearest float over exact rationals, decimal layouts read back by induction on digits, then lifted through the parser and signature theorems |
| C85 | Accepted numbers are the signed ones up to the nearest float, not exactly | canonical texts are read back as one number with the nearest float of both; the execution theorem C82 with numbers compared so; a witness text |
| C86 | Which documents survive serde_json's fast reading of floats | induction over the digits and the divisions for every text; small digits and powers of ten are exact floats, so one rounding is left, which is the nearest float; the transport theorem C30 with that; the execution theorem C82; computation for the witness and C69 for every credential with it |
| C87 | Which creation times of proofs are accepted | the reader as a function on bytes, each field's reader characterised by the texts it takes; the day count by lengths of months and years; the document theorems of C29 and C32 |
| C88 | Proof values and keys in every multibase base | bit lists cut into groups and put together again, base conversion as for base58, blocks of padded texts; a table of 19 bases checked entry by entry; C37's theorem with the texts that decode to the signature |
| C89 | Hash collisions come down to the compression functions | Merkle-Damgard induction from the last block, with the length field separating messages of different block counts; for BLAKE3 induction over the tree, flags separating chunks from parents and first blocks from later ones; then C33, C38, C40 and C07 |
| C90 | Floats have ECMAScript's digits | Rational arithmetic over the interval of decimals read as the float: the k-digit decimals next to the value decide whether k digits suffice, 17 always do, and the only decimals outside the grid of k digits compare with the powers of ten at its ends |
| C91 | Ed25519 signatures are correct and not malleable | Pocklington certificates for both primes, the prime field as a subtype, associativity of the Edwards addition law with cofactors found by computer algebra and checked by ring, d not a square by Euler's criterion, the order of the base point by computation in extended coordinates; then the sample code refines the group |
| C92 | A weak public key verifies everything | The neutral element's multiples are neutral, so S = 0 and R neutral satisfy the equation for every hash; then the document laws |
| C93 | Sealed keys open only with the right tag, and changed ones hardly ever | Poly1305's difference polynomial over the prime field of 2^130-5 has at most n roots (induction, Euclid's lemma), at most 8 reductions of it, and each r leaves one s; opening and sealing are related byte by byte to the specification |
| C94 | Hashes are FIPS 180-4's | bitwise equality of words below 2^w, uniqueness of the message schedule by strong induction, of padding by divisibility, of digits of roots by monotony, of the k-th prime by counting; the 80 primes and the digits are computed with a proved test |
| C95 | Hashlinks and DID values hold BLAKE3 digests as its paper describes them | half rounds are functions of lines of the matrix, shown equal to the model's eight sequential steps by computation on sixteen variables; induction on blocks and on chunks; the split point of a tree is unique because 2^k < n <= 2^(k+1) |
| C96 | A backup is the RFC 8410 file of the account's keys, and only files with matching keys are read | base64 by packing groups of six bits, unique decoding; the DER layout is unfolded from nested tag-length-value definitions; lengths by computation with 32-byte variables |
| C97 | What is accepted was signed, down to RFC 8032's equation and FIPS 180-4's digests | C85 with the carried signature and options, translated by verify_accepted (C91) and sha256_iff (C94); the instance combines Ed25519 keys in files, XChaCha20-Poly1305 seals, IEEE numbers, chrono times and multibase |
| C98 | Network addresses in DID URIs: which texts are addresses, and which of them survive a URI | Reader and grammar proved equivalent (numerals by induction from the right, the first double colon, splitting at slashes); composed with C01 and C05 |
| C99 | Challenges, domains and other unsigned claims are not checked | Construction of the tree with the added members, read by C44's grammar as the same document; case analysis of all error paths |
| C100 | Two identities agree on one secret by way of their documents | Differential addition on the Montgomery form of the curve in an abstract field, invariant of the ladder by induction on bits, group order for the secret not to vanish; composed with C14, C16 and C19 |
| C101 | Key files open under the password's Argon2id tag and nothing else | Invariant of the memory (every cell holds the latest block of its number) by induction on blocks, lanes, slices and passes; existence of the recurrence's blocks by strong recursion; composed with C93 |
| C102 | The password hash is Argon2id down to the bits of BLAKE2b | Words by bits: every half round is a relation on four words at a time that has exactly one solution; the rounds, blocks, rows and columns by induction and place; well-formedness of every block of the recurrence by strong induction, then C101 |
| C103 | Peer identifiers in addresses are read as multihashes in base58btc | Varint reader equivalent to the form of C79 by induction on the bytes; multihash and base58btc by their inverses; addresses by C98 with the parameter filled in; a second ten-byte varint for every code below 128 |
| C104 | Signatures of an account and proofs of documents are not separated | C82 on the events that are documents; whether the accepted message was among the bytes signed is decided; the rest follows from the exact conditions of signing and verifying (C29, C30) |
| C105 | Sealed keys are not bound to the method, kind or identity they are stored under | Round trip of the stored JSON (C53) and opening of each slot (C16) for the rearranged record; signing and publishing by C14 and C30 |
| C106 | The name of a verification method does not stand for one key | Exact shape of published documents (C13), injectivity of key texts, and restoring from PEM (C09) |

## 5. Seeded faults

`seeded/LOG.jsonl` has one line per wrong program tried: the definition edited, the replacement, the
claim it breaks, the theorems that then fail, and theorems tightened or added because of it. The edits
are made in a copy of the model; a theorem counts as failed when its proof, or a lemma it depends on,
no longer checks. Where an entry has a `method`, it says how this was found: most runs stop at the first
broken lemma, and `theorems_failed` is then derived from the proof dependencies, not observed theorem
by theorem. Where `first_broken` only ran into the time limit, a `note` says so; that is weaker than a
proof that fails.
