(** core/src/verifiable/proof: transform, config, hash, serialize, verifier, eddsa, integrity. *)
From Verif Require Import Base Codec Json JsonParse Deps Types Proof.
Set Implicit Arguments.

Section Suite.
  Variable D : deps.

  (** core/src/verifiable/proof/transform.rs:39-55 *)
  Definition transform_document {T} (P : proofable T) (doc : T) (opts : proof) : result bytes proof_error :=
    let? _ := validate_type opts in
    let? _ := validate_cryptosuite opts in
    let? canonical_document :=
      map_err (fun err => ProofGenerationError (did_error_text err)) (pf_to_jcs P doc) in
    Ok canonical_document.
  (** core/src/verifiable/proof/transform.rs:23-31 and config.rs:27-35 *)
  Definition hash_text (t : bytes) : result bytes proof_error := Ok (sha256 D t).

  (** core/src/verifiable/proof/config.rs:42-61 *)
  Definition generate_proof_config (options : proof) : result bytes proof_error :=
    let? _ := validate_type options in
    let? _ := validate_cryptosuite options in
    let? _ := validate_created D options in
    let? canonical_proof_config :=
      map_err (fun err => ProofGenerationError (did_error_text err)) (proof_to_jcs D options) in
    Ok canonical_proof_config.

  (** core/src/verifiable/proof/hash.rs:33-50 *)
  Definition generate_hash (transformed_doc proof_config : bytes) : result bytes proof_error :=
    let? document_hash := map_err (fun err => ProofGenerationError (proof_error_text err)) (hash_text transformed_doc) in
    let? config_hash := map_err (fun err => ProofGenerationError (proof_error_text err)) (hash_text proof_config) in
    Ok (config_hash ++ document_hash).

  (** core/src/verifiable/proof/serialize.rs:69-73 *)
  Definition serialize_hashed_data (hashed : bytes) (keypair : ed_pair D) : bytes := ed_sign D keypair hashed.
  (** core/src/verifiable/proof/serialize.rs:37-40 *)
  Definition proof_byte_encode (p : bytes) : bytes := mb_encode58 p.
  (** core/src/verifiable/proof/serialize.rs:43-46 *)
  Definition proof_byte_to_hex (p : bytes) : bytes := hex_encode p.

  (** core/src/verifiable/proof/verifier.rs:7-17 *)
  Definition verify_signature (pubkey : ed_pub D) (hashed signature : bytes) : result bool proof_error :=
    let? verified := map_err ProofVerificationError (ed_verify D pubkey hashed (proof_byte_to_hex signature)) in
    Ok verified.

  (** core/src/verifiable/proof/eddsa.rs:37-68 *)
  Definition eddsa_create_proof {T} (P : proofable T) (keypair : ed_pair D) (unsecured_document : T) (opts : proof)
    : result proof proof_error :=
    let? proof_config := generate_proof_config opts in
    let? transformed_data := transform_document P unsecured_document opts in
    let? hashed_data := generate_hash transformed_data proof_config in
    let proof_bytes := serialize_hashed_data hashed_data keypair in
    let proof_encoded := proof_byte_encode proof_bytes in
    Ok (set_signature_as_string opts proof_encoded).

  (** core/src/verifiable/proof/eddsa.rs:71-112 *)
  Definition eddsa_verify_proof {T} (P : proofable T) (pubkey : ed_pub D) (secured_document : T)
    : result (verification_result T) proof_error :=
    let unsecured_doc := pf_remove_proof P secured_document in
    let? proof_doc := ok_or (ProofVerificationError (B "missing proof from given document"))
                            (pf_get_proof P secured_document) in
    let proof_options := remove_proof_value proof_doc in
    let proof_value := p_value proof_doc in
    let? (_, proof_bytes) := ok_or (ProofVerificationError (mb_error D proof_value))
                                    (mb_decode (mb_other D) proof_value) in
    let? transformed_data := transform_document P unsecured_doc proof_options in
    let? proof_config := generate_proof_config proof_options in
    let? hashed_data := generate_hash transformed_data proof_config in
    let? is_verified := verify_signature pubkey hashed_data proof_bytes in
    Ok (verification_of is_verified unsecured_doc).

  (** core/src/verifiable/proof/eddsa.rs:32-35 *)
  Definition eddsa_jcs_2022 {T} (P : proofable T) : cryptosuite D T :=
    {| cs_create_proof := eddsa_create_proof P; cs_verify_proof := eddsa_verify_proof P |}.

  (** core/src/verifiable/proof/integrity.rs:44-58 *)
  Definition integrity_add_proof {T} (P : proofable T) (cs : cryptosuite D T) (keypair : ed_pair D) (doc : T) (opts : proof)
    : result T proof_error :=
    let? proof := cs_create_proof cs keypair doc opts in
    let? _ := map_err (fun err => ProofGenerationError (did_error_text err)) (proof_validate proof) in
    Ok (pf_setup_proof P doc proof).

  (** core/src/verifiable/proof/integrity.rs:67-102 *)
  Definition integrity_verify_proof {T} (P : proofable T) (cs : cryptosuite D T) (pubkey : ed_pub D)
    (document_bytes : bytes) (expected : purpose) : result (verification_result T) proof_error :=
    let? secured_doc := pf_parse_json_bytes P document_bytes in
    let? proof_doc := ok_or (ProofVerificationError (B "missing document proof")) (pf_get_proof P secured_doc) in
    let? _ := map_err (fun err => ProofVerificationError (did_error_text err)) (proof_validate proof_doc) in
    if negb (purpose_eqb (p_purpose proof_doc) expected)
    then Err (ProofVerificationError (B "mismatch proof purpose"))
    else cs_verify_proof cs pubkey secured_doc.

  (** core/src/verifiable/proof/mod.rs:229-243: [DataIntegrityEddsaJcs2022::<TDoc>::new().build()]. *)
  Definition add_proof {T} (P : proofable T) := integrity_add_proof P (eddsa_jcs_2022 P).
  Definition verify_proof {T} (P : proofable T) := integrity_verify_proof P (eddsa_jcs_2022 P).
End Suite.
