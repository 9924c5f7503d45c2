(** C63-C68: exact errors of the key operations, and the exact texts of base58 and hex. *)
From Verif Require Import Base Codec Json Deps Types Did Keys KeyStore Doc Identity Hashlink
  Spec MiscSpec JsonSpec FlowSpec ExactSpec ExactFacts Demo DemoFacts PropsDid.

(** C63. Opening a sealed key fails exactly when one of its seven checks fails, with the error of the first that fails. *)
Theorem C63_opening_errors : forall D pw ks e,
  account_from_keysecure D pw ks = Err e <-> first_failure (opening_checks D pw ks) e.
Proof. exact opening_errors. Qed.
Print Assumptions C63_opening_errors.
Theorem C63_did_opening_errors : forall D pw ks e, did_from_keysecure D pw ks = Err e <->
  exists m, (first_failure (opening_checks D pw ks) (DecodeError m) /\ e = InvalidKeysecure (B "unable to decode: " ++ m)) \/
            (first_failure (opening_checks D pw ks) (DecodePEMError m) /\ e = InvalidKeysecure (B "decode pem failed: " ++ m)).
Proof. exact did_opening_errors. Qed.
Print Assumptions C63_did_opening_errors.
(** Several checks fail at once; the first decides. *)
Definition broken_ks (cipher salt nonce : string) : keysecure :=
  {| ks_cipher_text := B cipher; ks_kdf_params := {| m_cost := 32; p_cost := 8; t_cost := 2; output_len := Some 32%N |};
     ks_salt := B salt; ks_nonce := B nonce; ks_rest := B "xchacha20poly1305" |}.
Definition opening_error (ks : keysecure) : option account_error :=
  match account_from_keysecure demo (B "pw") ks with Err e => Some e | Ok _ => None end.
Example C63_example :
  opening_error (broken_ks "zz" "short" "zz") = Some (DecodeError (B "Invalid character")) /\
  opening_error (broken_ks "00" "short" "zz") = Some (DecodeError (B "salt is too short")) /\
  opening_error (broken_ks "00" "long enough" "zz") = Some (DecodeError (B "Invalid character")) /\
  opening_error (broken_ks "00" "long enough" "00") = Some (DecodeError (B "unable to decode nonce")) /\
  opening_error (broken_ks "00" "long enough" "000102030405060708090a0b0c0d0e0f1011121314151617") = Some (DecodeError (B "aead")).
Proof. vm_compute. repeat split; reflexivity. Qed.

(** C64. When a public key text decodes, and to which key; a pair and a document entry with the same text agree. *)
Theorem C64_pair_key_text : forall D (p : vpairs D),
  (forall k, vpairs_decode_pub_key p = Ok k <-> key_text D (ed_pub_from_hex D) (vp_pub_key p) k) /\
  (forall e, vpairs_decode_pub_key p = Err e <-> (forall k, ~ key_text D (ed_pub_from_hex D) (vp_pub_key p) k) /\ e = DecodePublicKeyError).
Proof. exact pair_key_text. Qed.
Print Assumptions C64_pair_key_text.
Theorem C64_pair_agreement_text : forall D (p : apairs D),
  (forall k, apairs_decode_public_key p = Ok k <-> key_text D (dh_pub_from_hex D) (ap_pub_key p) k) /\
  (apairs_decode_public_key p = Err tt <-> forall k, ~ key_text D (dh_pub_from_hex D) (ap_pub_key p) k).
Proof. exact pair_agreement_text. Qed.
Print Assumptions C64_pair_agreement_text.
Theorem C64_entry_errors : forall D p e, decode_pub_key D p = Err e <->
  (pr_type p = B "Ed25519VerificationKey2020" /\ first_failure (key_text_checks D "EDDSA" (ed_pub_from_hex D) (pr_multibase p)) e) \/
  (pr_type p = B "X25519KeyAgreementKey2020" /\ first_failure (key_text_checks D "ECDH" (dh_pub_from_hex D) (pr_multibase p)) e) \/
  (pr_type p <> B "Ed25519VerificationKey2020" /\ pr_type p <> B "X25519KeyAgreementKey2020" /\
   e = DecodePubKeyError (B "unknown verification type")).
Proof. exact entry_errors. Qed.
Print Assumptions C64_entry_errors.
Theorem C64_pair_entry_agree : forall D (p : vpairs D) (q : apairs D) i c,
  (forall k, vpairs_decode_pub_key p = Ok k <->
     decode_pub_key D {| pr_id := i; pr_controller := c; pr_type := B "Ed25519VerificationKey2020"; pr_multibase := vp_pub_key p |} = Ok (EdDSA D k)) /\
  (forall k, apairs_decode_public_key q = Ok k <->
     decode_pub_key D {| pr_id := i; pr_controller := c; pr_type := B "X25519KeyAgreementKey2020"; pr_multibase := ap_pub_key q |} = Ok (ECDH D k)).
Proof. exact pair_entry_agree. Qed.
Print Assumptions C64_pair_entry_agree.
Definition entry_error (kind : string) (t : bytes) : option did_error :=
  match decode_pub_key demo {| pr_id := B "i"; pr_controller := B "c"; pr_type := B kind; pr_multibase := t |} with Err e => Some e | Ok _ => None end.
Example C64_example :
  key_text demo (ed_pub_from_hex demo) (mb_encode58 (hex_encode (B "key"))) (B "key") /\
  entry_error "Ed25519VerificationKey2020" (mb_encode58 (hex_encode (B "key"))) = None /\
  entry_error "X25519KeyAgreementKey2020" (B "z0") = Some (DecodePubKeyError (B "unable to decode encoded multibase to ECDH public key")) /\
  entry_error "Ed25519VerificationKey2020" (mb_encode58 [xff]) = Some (DecodePubKeyError (B "unable convert public key to string")) /\
  entry_error "Ed25519VerificationKey2020" (mb_encode58 (B "zz")) = Some (DecodePubKeyError (B "unable to restore public key")) /\
  entry_error "RSA" (B "z0") = Some (DecodePubKeyError (B "unknown verification type")).
Proof.
  split; [exists Base58Btc, (hex_encode (B "key")); repeat split; vm_compute; reflexivity|].
  vm_compute. repeat split; reflexivity.
Qed.

(** C65. PEM and decryption failures keep the library's message and carry the kind that names the failed operation. *)
Theorem C65_pem_errors : forall D (a : account D) e,
  build_pem a = Err e <-> exists m, ed_to_pem D (ed_priv_key D (acc_pair a)) = Err m /\ e = EncodePEMError m.
Proof. exact pem_errors. Qed.
Print Assumptions C65_pem_errors.
Theorem C65_read_pem_errors : forall D t e,
  account_from_pem D t = Err e <-> exists m, ed_from_pem D t = Err m /\ e = DecodePEMError m.
Proof. exact read_pem_errors. Qed.
Print Assumptions C65_read_pem_errors.
Theorem C65_decrypt_errors : forall D p pw e,
  (decrypt_verification D p pw = Err e <-> exists m, ks_decrypt D (pk_verification p) pw = Err m /\ e = DecryptError m) /\
  (decrypt_agreement D p pw = Err e <-> exists m, ks_decrypt D (pk_aggrement p) pw = Err m /\ e = DecryptError m).
Proof. exact decrypt_errors. Qed.
Print Assumptions C65_decrypt_errors.
Definition pem_error (t : bytes) : option account_error :=
  match account_from_pem demo t with Err e => Some e | Ok _ => None end.
Example C65_example :
  pem_error (B "no pem") = Some (DecodePEMError (B "no header")) /\
  (let good := broken_ks "00" "long enough" "zz" in let bad := broken_ks "00" "long enough" "00" in
   decrypt_verification demo {| pk_verification := good; pk_aggrement := bad |} (B "pw") = Err (DecryptError (B "cannot open")) /\
   decrypt_agreement demo {| pk_verification := good; pk_aggrement := bad |} (B "pw") = Err (DecryptError (B "aead"))).
Proof. vm_compute. repeat split; reflexivity. Qed.

(** C66. Checking a hashlink fails exactly when one of three checks fails, with the error of the first that fails. *)
Theorem C66_hashlink_errors : forall D, blake3_size D -> forall s t e,
  verify_from_json D (Ok (JSONValue s)) t = Err e <-> first_failure (hashlink_checks D s t) e.
Proof. exact hashlink_errors. Qed.
Print Assumptions C66_hashlink_errors.
Example C66_example :
  blake3_size demo /\
  verify_from_json demo (Ok (JSONValue (B "{}"))) (B "z0") = Err (HashLinkError (B "Unknown base code")) /\
  verify_from_json demo (Ok (JSONValue (B "{}"))) (B "z11") = Err (HashLinkError (B "invalid hashlink")).
Proof. split; [exact demo_blake3_size|]. vm_compute. split; reflexivity. Qed.

(** C67. base58btc and hex texts are positional numerals: the text of a byte string is the only text over the
    alphabet that denotes the same number and has as many leading zeros (base58) or twice the length (hex). *)
Theorem C67_base58_number : forall s,
  number58 (base58_encode s) = number256 s /\ leading "1"%byte (base58_encode s) = leading x00 s.
Proof. exact base58_number. Qed.
Print Assumptions C67_base58_number.
Theorem C67_base58_unique : forall s t, base58_text t -> number58 t = number256 s -> leading "1"%byte t = leading x00 s -> t = base58_encode s.
Proof. exact base58_unique. Qed.
Print Assumptions C67_base58_unique.
Theorem C67_hex_number : forall s,
  number16 (hex_encode s) = number256 s /\ length (hex_encode s) = (2 * length s)%nat /\ hex_text (hex_encode s).
Proof. exact hex_number. Qed.
Print Assumptions C67_hex_number.
Theorem C67_hex_unique : forall s t, hex_text t -> number16 t = number256 s -> length t = (2 * length s)%nat -> t = hex_encode s.
Proof. exact hex_unique. Qed.
Print Assumptions C67_hex_unique.
(** The base58 specification's test vector "Hello World!" and one with leading zeros. *)
Example C67_example :
  base58_encode (B "Hello World!") = B "2NEpo7TZRRrLZSi2U" /\
  number58 (B "2NEpo7TZRRrLZSi2U") = number256 (B "Hello World!") /\
  base58_encode [x00; x00; x28; x7f; xb4; xcd] = B "11233QC4" /\ leading "1"%byte (B "11233QC4") = 2%nat /\
  hex_encode [x0f; xa0] = B "0fa0" /\ number16 (B "0fa0") = 4000%N.
Proof. vm_compute. repeat split; reflexivity. Qed.

(** C68. Every identity value has 99 characters when its digest starts with a byte below 32 and 100 otherwise; every hashlink has 47 and starts with "zg". *)
Theorem C68_did_length : forall D (d : did D) i, blake3_size D -> did_identity d = Ok i -> exists x s,
  blake3 D (sha384 D (ed_pub_bytes D (ed_pub_key D (acc_pair (did_account d))))) = x :: s /\
  length (id_value i) = if (Byte.to_N x <? 32)%N then 99%nat else 100%nat.
Proof. exact did_length. Qed.
Print Assumptions C68_did_length.
Theorem C68_hashlink_length : forall D data t, blake3_size D -> generate_from_json D data = Ok t ->
  length t = 47%nat /\ exists r, t = B "zg" ++ r.
Proof. exact hashlink_length. Qed.
Print Assumptions C68_hashlink_length.
Example C68_example :
  blake3_size demo /\ length (did_value demo_did) = 100%nat /\ length (did_value (did_new demo (B "t"))) = 99%nat /\
  match generate_from_json demo (Ok (JSONValue (B "{}"))) with Ok t => firstn 2 t = B "zg" | Err _ => False end.
Proof. split; [exact demo_blake3_size|]. vm_compute. repeat split; reflexivity. Qed.
