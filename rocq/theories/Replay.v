(** The crate's own unit tests, run on the model. They are tests, not proofs: a check that the model behaves as the
    authors say the code does. Each is named after its Rust test; where the outcome does not depend on the
    dependencies it is checked for all of them. Tests that only exercise mocks or dependencies are left out. *)
From Verif Require Import Base Codec Json JsonParse Deps Types Did Keys Doc Identity Hashlink UserConnection Proof Vc Suite Demo PropsVc PropsSuite.

(** core/src/hashlink.rs:51-123 *)
Definition fake_message (m : string) : to_json_result :=
  Ok (jv_from (json_text (serde_number demo_f64_text) (JObj [(B "message", JStr (B m))]))).
Definition hl_of (m : string) : bytes := match generate_from_json demo (fake_message m) with Ok h => h | Err _ => [] end.
Example test_generate_hl_from_json : is_ok (generate_from_json demo (fake_message "hello world")) = true /\ In "z"%byte (hl_of "hello world").
Proof. split; [vm_compute; reflexivity|vm_compute; auto]. Qed.
Example test_verify_hl_from_json : verify_from_json demo (fake_message "hello world") (hl_of "hello world") = Ok tt.
Proof. vm_compute. reflexivity. Qed.
Example test_verify_hl_invalid :
  verify_from_json demo (fake_message "invalid") (hl_of "hello world") = Err (HashLinkError (B "invalid hashlink")) /\
  did_error_text (HashLinkError (B "invalid hashlink")) = B "error hashlink: invalid hashlink".
Proof. split; vm_compute; reflexivity. Qed.

(** core/src/did/query.rs:46-108 *)
Example test_build_query_string : build_query {| address := Some (B "test-addr"); hl := Some (B "test-hl") |} = Some (B "address=test-addr&hl=test-hl").
Proof. reflexivity. Qed.
Example test_build_query_one_param : build_query {| address := Some (B "test-addr"); hl := None |} = Some (B "address=test-addr").
Proof. reflexivity. Qed.
Example test_build_query_empty : build_query params_default = None.
Proof. reflexivity. Qed.

(** core/src/did/mod.rs:128-308; a key stands for the generated one *)
Definition test_did : did demo := did_new demo (B "a key").
Definition value_of_did (d : did demo) : bytes := match did_identity d with Ok i => id_value i | Err _ => [] end.
Example test_regenerate_from_pem :
  match build_pem (did_account test_did) with
  | Ok pem => match did_from_pem demo pem with Ok d => value_of_did d = value_of_did test_did | Err _ => False end
  | Err _ => False end.
Proof. vm_compute. reflexivity. Qed.
Example test_build_did_uri_with_params :
  build_uri test_did (Some {| address := Some (B "test-addr"); hl := Some (B "test-hl") |}) =
  Ok (value_of_did test_did ++ B "?" ++ B "address=test-addr&hl=test-hl").
Proof. vm_compute. reflexivity. Qed.
Example test_build_did_uri_without_params : build_uri test_did None = Ok (value_of_did test_did).
Proof. vm_compute. reflexivity. Qed.
Definition test_keysecure : keysecure :=
  match demo_seal (B "01234567", B "012345678901234567890123") (demo_pem (B "a key")) (B "password") with
  | Ok ks => ks
  | Err _ => {| ks_cipher_text := []; ks_kdf_params := {| m_cost := 0; p_cost := 0; t_cost := 0; output_len := None |}; ks_salt := []; ks_nonce := []; ks_rest := [] |}
  end.
Example test_rebuild_did_from_keysecure :
  match did_from_keysecure demo (B "password") test_keysecure with
  | Ok d => build_pem (did_account d) = build_pem (did_account test_did) /\ value_of_did d = value_of_did test_did
  | Err _ => False end.
Proof. vm_compute. split; reflexivity. Qed.
Example test_rebuild_did_from_keysecure_invalid_password : is_ok (did_from_keysecure demo (B "invalid") test_keysecure) = false.
Proof. vm_compute. reflexivity. Qed.
Example test_parse_uri_with_full_queries :
  parse_uri (B "did:prople:test?address=test-addr&hl=test-hl") = Ret (Ok (B "did:prople:test", {| address := Some (B "test-addr"); hl := Some (B "test-hl") |})).
Proof. reflexivity. Qed.
Example test_parse_uri_with_single_query :
  parse_uri (B "did:prople:test?address=test-svc") = Ret (Ok (B "did:prople:test", {| address := Some (B "test-svc"); hl := None |})).
Proof. reflexivity. Qed.
Example test_parse_uri_without_queries :
  parse_uri (B "did:prople:test") = Ret (Ok (B "did:prople:test", {| address := None; hl := None |})).
Proof. reflexivity. Qed.

(** core/src/account/mod.rs:122-190 *)
Example test_parse_account_error_invalid_input :
  match account_from_pem demo (B "invalid") with Err (DecodePEMError _) => True | _ => False end.
Proof. vm_compute. exact I. Qed.

(** core/src/doc/mod.rs:228-352 *)
Definition test_primary : primary :=
  {| pr_id := B "id"; pr_controller := B "controller"; pr_type := B "verification"; pr_multibase := B "multibase" |}.
Example test_add_assertion : forall D,
  match doc_to_json D (doc_add_assertion (doc_add_assertion (doc_generate (B "test")) test_primary) test_primary) with
  | Ok (JSONValue t) => match doc_from_slice D t with
      | Some d => doc_authentication d = None /\ doc_cap_delegate d = None /\ doc_cap_invoke d = None /\
          match doc_assertion d with Some l => length l = 2%nat | None => False end
      | None => False end
  | Err _ => False end.
Proof. intros D. cbv. repeat split. Qed.
Example test_validation_success : doc_validate (doc_generate (B "test")) = Ok tt.
Proof. reflexivity. Qed.
Example test_validation_error : is_ok (doc_validate {| doc_context := []; doc_id := B "test"; doc_authentication := None; doc_assertion := None;
  doc_cap_delegate := None; doc_cap_invoke := None |}) = false.
Proof. reflexivity. Qed.
Example test_decode_public_key_invalid_type : forall D,
  match decode_pub_key D {| pr_id := B "id"; pr_controller := B "controller"; pr_type := B "unknown"; pr_multibase := [] |} with
  | Err (DecodePubKeyError _) => True | _ => False end.
Proof. intros D. exact I. Qed.

(** core/src/keys/verification.rs:89-118, core/src/keys/agreement.rs:85-107 *)
Example test_generate_keypairs : vpairs_is_valid (verification_generate demo (B "a key")) = true /\ apairs_is_valid (agreement_generate demo (B "a key")) = true.
Proof. split; vm_compute; reflexivity. Qed.

(** core/src/context/ext/user_connection.rs:67-80 *)
Example test_build_user_connection_credential_json : forall D, uc_to_json D uc_credential_default =
  Ok (jv_from (B "{""UserConnectionCredential"":{""@context"":{""userAgentAddress"":""https://schema.org/identifier"",""userDid"":""https://www.w3.org/2018/credentials/#VerifiableCredential""}}}")).
Proof. reflexivity. Qed.

(** core/src/verifiable/vc.rs:145-258 *)
Definition test_vc : vc := vc_add_type (vc_add_context (vc_add_context (vc_new (B "id") (B "issuer")) (B "context1")) (B "context2")) (B "VerifiableCredential").
Definition test_subject : json :=
  JObj [(B "connection", JObj [(B "user_agent", JStr (B "test_agent")); (B "user_did", JStr (B "test_did"))]); (B "id", JStr (B "id"))].
Example test_generate_credential : forall D, vc_to_json D (vc_set_credential test_vc test_subject) =
  Ok (jv_from (B "{""@context"":[""context1"",""context2""],""type"":[""VerifiableCredential""],""credentialSubject"":{""connection"":{""user_agent"":""test_agent"",""user_did"":""test_did""},""id"":""id""},""id"":""id"",""issuer"":""issuer""}")).
Proof. reflexivity. Qed.
Example test_generate_credential_jcs : forall D, is_ok (vc_to_jcs D (vc_set_credential test_vc test_subject)) = true.
Proof. reflexivity. Qed.
Example test_generate_empty_context : forall D, vc_to_json D (vc_new (B "id") (B "issuer")) = Err (GenerateVCError (B "vc_error: empty context")).
Proof. reflexivity. Qed.
Example test_generate_empty_types : forall D,
  vc_to_json D (vc_add_context (vc_add_context (vc_new (B "id") (B "issuer")) (B "context1")) (B "context2")) = Err (GenerateVCError (B "vc_error: empty types")).
Proof. reflexivity. Qed.
Example test_generate_empty_credential : forall D, vc_to_json D test_vc = Err (GenerateVCError (B "vc_error: credential should not be null")).
Proof. reflexivity. Qed.

(** core/src/verifiable/vp.rs:147-219 *)
Definition test_vp : vp := vp_add_type (vp_add_context (vp_add_context vp_new (B "context1")) (B "context2")) (B "type").
Example test_generate_json : forall D, vp_to_json D (vp_add_credential test_vp (vc_new (B "id1") (B "issuer"))) =
  Ok (jv_from (B "{""@context"":[""context1"",""context2""],""type"":[""type""],""verifiableCredential"":[{""@context"":[],""type"":[],""credentialSubject"":null,""id"":""id1"",""issuer"":""issuer""}]}")).
Proof. reflexivity. Qed.
Example test_generate_jcs : forall D, is_ok (vp_to_jcs D (vp_add_credential test_vp (vc_new (B "id1") (B "issuer")))) = true.
Proof. reflexivity. Qed.
Example test_validate_failed_context_empty : forall D, vp_to_json D vp_new = Err (GenerateJSONError (B "vp: empty context")).
Proof. reflexivity. Qed.
Example test_validate_failed_types_empty : forall D, vp_to_json D (vp_add_context vp_new (B "context1")) = Err (GenerateJSONError (B "vp: empty types")).
Proof. reflexivity. Qed.
Example test_validate_failed_credential_empty : forall D,
  vp_to_json D (vp_add_type (vp_add_context vp_new (B "context1")) (B "type")) = Err (GenerateJSONError (B "vp: empty credentials")).
Proof. reflexivity. Qed.

(** core/src/verifiable/proof/mod.rs:245-262, eddsa.rs:194-215 *)
Example test_proof_default : forall D, let p := proof_method (proof_purpose proof_default (B "assertionMethod")) (B "testing") in
  match from_slice (f64_parse D) proof_schema (to_json_text D proof_schema (proof_data p)) with
  | Some x => match data_proof x with Some q => p_purpose q = AssertionMethod /\ p_method q = B "testing" | None => False end
  | None => False end.
Proof. intros D. cbv. split; reflexivity. Qed.
Example test_error_proof_config : forall D T (P : proofable T) kp v,
  eddsa_create_proof D P kp v proof_default = Err (ProofGenerationError (B "invalid proof type")).
Proof. reflexivity. Qed.

(** core/src/verifiable/proof/transform.rs:57-311, with documents given by their canonical text *)
Definition fake_doc (jcs : result bytes did_error) : proofable unit :=
  {| pf_get_proof := fun _ => None; pf_remove_proof := fun v => v; pf_setup_proof := fun v _ => v; pf_parse_json_bytes := fun _ => Ok tt;
     pf_to_json := fun _ => Ok (jv_from (B "hello world")); pf_to_jcs := fun _ => jcs; pf_validate := fun _ => Ok tt |}.
Definition good_options : proof := proof_cryptosuite (proof_typ proof_default DEFAULT_PROOF_TYPE) DEFAULT_PROOF_CRYPTOSUITE.
Example test_error_to_jcs : match transform_document (fake_doc (Err (GenerateJSONJCSError (B "error jcs")))) tt good_options with
  | Err (ProofGenerationError m) => exists a b, m = a ++ B "error jcs" ++ b | _ => False end.
Proof. exists (B "error generate JCS: "), []. reflexivity. Qed.
Example test_success : transform_document (fake_doc (Ok (B "jcs"))) tt good_options = Ok (B "jcs").
Proof. reflexivity. Qed.
Example test_invalid_cryptosuite : match transform_document (fake_doc (Ok (B "jcs"))) tt (proof_cryptosuite good_options (B "other")) with
  | Err (ProofGenerationError _) => True | _ => False end.
Proof. exact I. Qed.

(** core/src/verifiable/proof/integrity.rs:105-741, with a suite in place of the mock *)
Definition fake_suite (D : deps) (p : result proof proof_error) : cryptosuite D unit :=
  {| cs_create_proof := fun _ _ _ => p; cs_verify_proof := fun _ v => Ok {| verified := true; document := Some v |} |}.
Definition fake_secured (r : result unit proof_error) (q : option proof) : proofable unit :=
  {| pf_get_proof := fun _ => q; pf_remove_proof := fun v => v; pf_setup_proof := fun v _ => v; pf_parse_json_bytes := fun _ => r;
     pf_to_json := fun _ => Ok (jv_from (B "hello world")); pf_to_jcs := fun _ => Ok (B "jcs"); pf_validate := fun _ => Ok tt |}.
Definition mentions {T} (r : result T proof_error) (wrap : bytes -> proof_error) (m : bytes) : Prop := exists a b, r = Err (wrap (a ++ m ++ b)).
Example test_error_create_proof_error : forall D kp,
  integrity_add_proof (fake_doc (Ok [])) (fake_suite D (Err (ProofGenerationError (B "unable to create proof")))) kp tt proof_default =
  Err (ProofGenerationError (B "unable to create proof")).
Proof. reflexivity. Qed.
Example test_validation_error_missing_type : forall D kp,
  mentions (integrity_add_proof (fake_doc (Ok [])) (fake_suite D (Ok proof_default)) kp tt proof_default) ProofGenerationError (B "missing type").
Proof. intros. exists (B "validation error: "), []. reflexivity. Qed.
Example test_validation_error_unknown_purpose : forall D kp,
  mentions (integrity_add_proof (fake_doc (Ok [])) (fake_suite D (Ok (proof_method (proof_typ proof_default (B "fake-type")) (B "fake-verification-method")))) kp tt proof_default)
    ProofGenerationError (B "unknown proof purpose").
Proof. intros. exists (B "validation error: "), []. reflexivity. Qed.
Example test_missing_type : forall D pk,
  mentions (integrity_verify_proof (fake_secured (Ok tt) (Some proof_default)) (fake_suite D (Ok proof_default)) pk (B "hello world") AssertionMethod)
    ProofVerificationError (B "missing type").
Proof. intros. exists (B "validation error: "), []. reflexivity. Qed.
Example test_unknown_purpose : forall D pk,
  mentions (integrity_verify_proof (fake_secured (Ok tt) (Some (proof_method (proof_typ proof_default (B "fake type")) (B "fake-method")))) (fake_suite D (Ok proof_default))
    pk (B "hello world") AssertionMethod) ProofVerificationError (B "unknown proof purpose").
Proof. intros. exists (B "validation error: "), []. reflexivity. Qed.
Example test_error_parse_doc_bytes : forall D pk,
  integrity_verify_proof (fake_secured (Err (ProofVerificationError (B "error parse doc bytes"))) None) (fake_suite D (Ok proof_default)) pk (B "hello world") AssertionMethod =
  Err (ProofVerificationError (B "error parse doc bytes")).
Proof. reflexivity. Qed.
Example test_error_missing_proof_doc : forall D pk,
  integrity_verify_proof (fake_secured (Ok tt) None) (fake_suite D (Ok proof_default)) pk (B "hello world") AssertionMethod =
  Err (ProofVerificationError (B "missing document proof")).
Proof. reflexivity. Qed.
Definition fake_proof (u : string) : proof := proof_purpose (proof_method (proof_new (B "fake-id")) (B "fake-method")) (B u).
Example test_error_mismatch_proof_purpose : forall D pk,
  integrity_verify_proof (fake_secured (Ok tt) (Some (fake_proof "authentication"))) (fake_suite D (Ok proof_default)) pk (B "hello world") AssertionMethod =
  Err (ProofVerificationError (B "mismatch proof purpose")).
Proof. reflexivity. Qed.
Example test_verify_success : forall D pk,
  integrity_verify_proof (fake_secured (Ok tt) (Some (fake_proof "assertionMethod"))) (fake_suite D (Ok proof_default)) pk (B "hello world") AssertionMethod =
  Ok {| verified := true; document := Some tt |}.
Proof. reflexivity. Qed.

(** core/src/verifiable/proof/eddsa.rs:342-366 *)
Example test_verify_vc_success :
  let v := vc_set_credential (vc_add_type (vc_add_context (vc_new (B "id") (B "issuer")) (B "context")) (B "type")) (JStr (B "credential")) in
  match eddsa_create_proof demo (vc_proofable demo) demo_key v (proof_created good_options (B "2024-01-01T00:00:00Z")) with
  | Ok p => match eddsa_verify_proof demo (vc_proofable demo) (ed_pub_key demo demo_key) (vc_set_proof v p) with Ok r => verified r = true | Err _ => False end
  | Err _ => False end.
Proof. vm_compute. reflexivity. Qed.
