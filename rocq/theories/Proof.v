(** core/src/verifiable/proof/mod.rs and core/src/verifiable/proof/types.rs *)
From Verif Require Import Base Codec Json JsonParse Deps Types.
Set Implicit Arguments.

(** core/src/verifiable/proof/types.rs:15, 24 *)
Definition DEFAULT_PROOF_CRYPTOSUITE : bytes := B "eddsa-jcs-2022".
Definition DEFAULT_PROOF_TYPE : bytes := B "DataIntegrityProof".

(** core/src/verifiable/proof/types.rs:32-50 *)
Inductive purpose :=
| AssertionMethod | Authentication | KeyAgreement | CapabilityDelegation | CapabilityInvocation | Unknown.
(** derived PartialEq, core/src/verifiable/proof/types.rs:30 *)
Definition purpose_eqb (a b : purpose) : bool :=
  match a, b with
  | AssertionMethod, AssertionMethod | Authentication, Authentication | KeyAgreement, KeyAgreement
  | CapabilityDelegation, CapabilityDelegation | CapabilityInvocation, CapabilityInvocation
  | Unknown, Unknown => true
  | _, _ => false
  end.
(** Display: core/src/verifiable/proof/types.rs:52-63 *)
Definition purpose_text (p : purpose) : bytes :=
  match p with
  | AssertionMethod => B "assertionMethod"
  | Authentication => B "authentication"
  | KeyAgreement => B "keyAgreement"
  | CapabilityDelegation => B "capabilityDelegation"
  | CapabilityInvocation => B "capabilityInvocation"
  | Unknown => B "unknown"
  end.
(** core/src/verifiable/proof/types.rs:65-76 *)
Definition purpose_from (value : bytes) : purpose :=
  if bytes_eqb value (B "assertionMethod") then AssertionMethod
  else if bytes_eqb value (B "authentication") then Authentication
  else if bytes_eqb value (B "keyAgreement") then KeyAgreement
  else if bytes_eqb value (B "capabilityDelegation") then CapabilityDelegation
  else if bytes_eqb value (B "capabilityInvocation") then CapabilityInvocation
  else Unknown.
(** serde renames, core/src/verifiable/proof/types.rs:33-49, in declaration order *)
Definition purpose_serde (p : purpose) : bytes :=
  match p with
  | AssertionMethod => B "assertionMethod"
  | Authentication => B "authentication"
  | KeyAgreement => B "keyAgreement"
  | CapabilityDelegation => B "capabilityDelegation"
  | CapabilityInvocation => B "capabilityInvocation"
  | Unknown => B "unknown"
  end.
Definition all_purposes : list purpose :=
  [AssertionMethod; Authentication; KeyAgreement; CapabilityDelegation; CapabilityInvocation; Unknown].
Definition purpose_schema : schema := SEnum (map purpose_serde all_purposes).
Definition data_purpose (x : data) : option purpose :=
  match x with
  | DEnum n => find (fun p => bytes_eqb (purpose_serde p) n) all_purposes
  | _ => None
  end.

(** core/src/verifiable/proof/types.rs:84-99 *)
Inductive proof_error :=
| ProofGenerationError (m : bytes)
| ProofVerificationError (m : bytes)
| ProofTransformationError (m : bytes)
| InvalidDomainError (m : bytes)
| InvalidChallengeError (m : bytes).
Definition proof_error_text (e : proof_error) : bytes :=
  match e with
  | ProofGenerationError m => B "proof generation error: " ++ m
  | ProofVerificationError m => B "proof verification error: " ++ m
  | ProofTransformationError m => B "proof transformation error: " ++ m
  | InvalidDomainError m => B "invalid domain error: " ++ m
  | InvalidChallengeError m => B "invalid challenge error: " ++ m
  end.

(** core/src/verifiable/proof/mod.rs:36-66 *)
Record proof := {
  p_id : bytes;
  p_typ : bytes;
  p_purpose : purpose;
  p_value : bytes;
  p_method : bytes;
  p_created : option bytes;
  p_expires : option bytes;
  p_cryptosuite : option bytes
}.
(** core/src/verifiable/proof/mod.rs:68-81 *)
Definition proof_default : proof :=
  {| p_id := []; p_typ := []; p_purpose := Unknown; p_value := []; p_method := [];
     p_created := None; p_expires := None; p_cryptosuite := None |}.
(** core/src/verifiable/proof/mod.rs:84-95 *)
Definition proof_new (id : bytes) : proof :=
  {| p_id := id; p_typ := DEFAULT_PROOF_TYPE; p_purpose := Unknown; p_value := []; p_method := [];
     p_created := None; p_expires := None; p_cryptosuite := Some DEFAULT_PROOF_CRYPTOSUITE |}.
(** core/src/verifiable/proof/mod.rs:97-99 *)
Definition proof_typ (p : proof) (t : bytes) : proof :=
  {| p_id := p_id p; p_typ := t; p_purpose := p_purpose p; p_value := p_value p; p_method := p_method p;
     p_created := p_created p; p_expires := p_expires p; p_cryptosuite := p_cryptosuite p |}.
(** core/src/verifiable/proof/mod.rs:101-103 *)
Definition set_signature_as_string (p : proof) (sig : bytes) : proof :=
  {| p_id := p_id p; p_typ := p_typ p; p_purpose := p_purpose p; p_value := sig; p_method := p_method p;
     p_created := p_created p; p_expires := p_expires p; p_cryptosuite := p_cryptosuite p |}.
(** core/src/verifiable/proof/mod.rs:105-107 *)
Definition proof_purpose (p : proof) (s : bytes) : proof :=
  {| p_id := p_id p; p_typ := p_typ p; p_purpose := purpose_from s; p_value := p_value p; p_method := p_method p;
     p_created := p_created p; p_expires := p_expires p; p_cryptosuite := p_cryptosuite p |}.
(** core/src/verifiable/proof/mod.rs:109-111 *)
Definition proof_method (p : proof) (m : bytes) : proof :=
  {| p_id := p_id p; p_typ := p_typ p; p_purpose := p_purpose p; p_value := p_value p; p_method := m;
     p_created := p_created p; p_expires := p_expires p; p_cryptosuite := p_cryptosuite p |}.
(** core/src/verifiable/proof/mod.rs:113-115 *)
Definition proof_cryptosuite (p : proof) (s : bytes) : proof :=
  {| p_id := p_id p; p_typ := p_typ p; p_purpose := p_purpose p; p_value := p_value p; p_method := p_method p;
     p_created := p_created p; p_expires := p_expires p; p_cryptosuite := Some s |}.
(** core/src/verifiable/proof/mod.rs:117-119 *)
Definition proof_created (p : proof) (c : bytes) : proof :=
  {| p_id := p_id p; p_typ := p_typ p; p_purpose := p_purpose p; p_value := p_value p; p_method := p_method p;
     p_created := Some c; p_expires := p_expires p; p_cryptosuite := p_cryptosuite p |}.
(** core/src/verifiable/proof/mod.rs:121-123 *)
Definition proof_expires (p : proof) (e : bytes) : proof :=
  {| p_id := p_id p; p_typ := p_typ p; p_purpose := p_purpose p; p_value := p_value p; p_method := p_method p;
     p_created := p_created p; p_expires := Some e; p_cryptosuite := p_cryptosuite p |}.
(** core/src/verifiable/proof/mod.rs:125-128 *)
Definition remove_proof_value (p : proof) : proof :=
  {| p_id := p_id p; p_typ := p_typ p; p_purpose := p_purpose p; p_value := []; p_method := p_method p;
     p_created := p_created p; p_expires := p_expires p; p_cryptosuite := p_cryptosuite p |}.

(** core/src/verifiable/proof/mod.rs:138-151 *)
Definition proof_validate (p : proof) : result unit did_error :=
  if is_empty (p_typ p) then Err (ValidateError (B "missing type"))
  else match p_purpose p with
       | Unknown => Err (ValidateError (B "unknown proof purpose"))
       | _ => Ok tt
       end.
(** core/src/verifiable/proof/mod.rs:154-162 *)
Definition validate_type (p : proof) : result unit proof_error :=
  if negb (bytes_eqb (p_typ p) DEFAULT_PROOF_TYPE) then Err (ProofGenerationError (B "invalid proof type")) else Ok tt.
(** core/src/verifiable/proof/mod.rs:164-181 *)
Definition validate_cryptosuite (p : proof) : result unit proof_error :=
  match p_cryptosuite p with
  | Some suite =>
    if negb (bytes_eqb suite DEFAULT_PROOF_CRYPTOSUITE) then Err (ProofGenerationError (B "invalid cryptosuite")) else Ok tt
  | None => Err (ProofGenerationError (B "missing cryptosuite"))
  end.
(** core/src/verifiable/proof/mod.rs:185-200 *)
Definition validate_created (D : deps) (p : proof) : result unit proof_error :=
  match p_created p with
  | Some created =>
    let? _ := map_err ProofGenerationError (datetime D created) in
    Ok tt
  | None => Err (ProofGenerationError (B "invalid created format"))
  end.

(** Derived Serialize/Deserialize, core/src/verifiable/proof/mod.rs:34-66. *)
Definition proof_schema : schema :=
  SStruct [(B "id", false, SString); (B "type", false, SString); (B "proofPurpose", false, purpose_schema);
           (B "proofValue", false, SString); (B "verificationMethod", false, SString);
           (B "created", true, SOption SString); (B "expires", true, SOption SString);
           (B "cryptosuite", true, SOption SString)].
Definition proof_data (p : proof) : data :=
  DStruct [DStr (p_id p); DStr (p_typ p); DEnum (purpose_serde (p_purpose p)); DStr (p_value p); DStr (p_method p);
           opt_data DStr (p_created p); opt_data DStr (p_expires p); opt_data DStr (p_cryptosuite p)].
Definition data_proof (x : data) : option proof :=
  match x with
  | DStruct [DStr i; DStr t; pu; DStr v; DStr m; c; e; s] =>
    match data_purpose pu, data_opt data_str c, data_opt data_str e, data_opt data_str s with
    | Some pu', Some c', Some e', Some s' =>
      Some {| p_id := i; p_typ := t; p_purpose := pu'; p_value := v; p_method := m;
              p_created := c'; p_expires := e'; p_cryptosuite := s' |}
    | _, _, _, _ => None
    end
  | _ => None
  end.
(** core/src/verifiable/proof/mod.rs:203-209 *)
Definition proof_to_jcs (D : deps) (p : proof) : result bytes did_error :=
  Ok (to_jcs_text D proof_schema (proof_data p)).

(** core/src/verifiable/proof/types.rs:131-136: the [Proofable] trait (with its supertraits [ToJSON],
    [ToJCS], [Validator]) as a dictionary of operations. *)
Record proofable (T : Type) := {
  pf_get_proof : T -> option proof;
  pf_remove_proof : T -> T;
  pf_setup_proof : T -> proof -> T;
  pf_parse_json_bytes : bytes -> result T proof_error;
  pf_to_json : T -> result json_value did_error;
  pf_to_jcs : T -> result bytes did_error;
  pf_validate : T -> result unit did_error
}.

(** core/src/verifiable/proof/types.rs:146-152 *)
Record verification_result (T : Type) := { verified : bool; document : option T }.
(** core/src/verifiable/proof/types.rs:158-178 *)
Definition verification_of {T} (v : bool) (doc : T) : verification_result T :=
  if v then {| verified := true; document := Some doc |} else {| verified := false; document := None |}.

(** core/src/verifiable/proof/types.rs:180-196: the [CryptoSuiteBuilder] trait as a dictionary. *)
Record cryptosuite (D : deps) (T : Type) := {
  cs_create_proof : ed_pair D -> T -> proof -> result proof proof_error;
  cs_verify_proof : ed_pub D -> T -> result (verification_result T) proof_error
}.
