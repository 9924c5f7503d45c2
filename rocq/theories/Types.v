(** core/src/types.rs: constants, errors, JSONValue. *)
From Verif Require Import Base Codec Json JsonParse Deps.
Set Implicit Arguments.

(** core/src/types.rs:16-33 *)
Definition DID_SYNTAX_MARK : byte := ":"%byte.
Definition DID_SYNTAX_SCHEME : bytes := B "did".
Definition DID_SYNTAX_METHOD : bytes := B "prople".
Definition CONTEXT_DEFAULT : bytes := B "https://www.w3.org/ns/did/v1".
Definition CONTEXT_ED25519 : bytes := B "https://w3id.org/security/suites/ed25519-2020/v1".
Definition CONTEXT_X25519 : bytes := B "https://w3id.org/security/suites/x25519-2020/v1".
Definition CONTEXT_VC_V2 : bytes := B "https://www.w3.org/ns/credentials/v2".
Definition CONTEXT_VC : bytes := B "https://www.w3.org/2018/credentials/#VerifiableCredential".
Definition VERIFICATION_TYPE_ED25519 : bytes := B "Ed25519VerificationKey2020".
Definition VERIFICATION_TYPE_X25519 : bytes := B "X25519KeyAgreementKey2020".
Definition JSON_MIME_TYPE : bytes := B "application/json".
Definition BLAKE3_HASH_CODE : N := 0x1e.

(** core/src/types.rs:36-106 *)
Inductive did_error :=
| InvalidDID
| InvalidPEM
| InvalidKeysecure (m : bytes)
| GenerateMultiAddrError (m : bytes)
| GenerateDocError (m : bytes)
| GenerateJSONError (m : bytes)
| GenerateJSONJCSError (m : bytes)
| GenerateVCError (m : bytes)
| GenerateHashLinkError (m : bytes)
| BuildProofError (m : bytes)
| BuildPayloadError (m : bytes)
| ValidateError (m : bytes)
| DecodeJSONError (m : bytes)
| InvalidJSONBytes (m : bytes)
| DecodePubKeyError (m : bytes)
| HashLinkError (m : bytes)
| ParseURIError (m : bytes)
| BuildAuthError
| BuildAssertionError
| BuildURIError
| BuildDocError
| SaveSecureKeysError
| ProofInvalid.

(** The Display texts of core/src/types.rs:38-105 ([to_string]). *)
Definition did_error_text (e : did_error) : bytes :=
  match e with
  | InvalidDID => B "invalid did"
  | InvalidPEM => B "invalid pem"
  | InvalidKeysecure m => B "invalid keysecure: " ++ m
  | GenerateMultiAddrError m => B "error generate multiaddr: " ++ m
  | GenerateDocError m => B "error generate DID DOC: " ++ m
  | GenerateJSONError m => B "error generate JSON: " ++ m
  | GenerateJSONJCSError m => B "error generate JCS: " ++ m
  | GenerateVCError m => B "error generate VC: " ++ m
  | GenerateHashLinkError m => B "error generate hashlink: " ++ m
  | BuildProofError m => B "error build proof: " ++ m
  | BuildPayloadError m => B "error build payload: " ++ m
  | ValidateError m => B "validation error: " ++ m
  | DecodeJSONError m => B "error decode json value: " ++ m
  | InvalidJSONBytes m => B "unable to get JSON from bytes: " ++ m
  | DecodePubKeyError m => B "error decode public key: " ++ m
  | HashLinkError m => B "error hashlink: " ++ m
  | ParseURIError m => B "error parse uri: " ++ m
  | BuildAuthError => B "error build auth"
  | BuildAssertionError => B "error build assertion"
  | BuildURIError => B "error build DID uri"
  | BuildDocError => B "error build DID DOC"
  | SaveSecureKeysError => B "unable to save key secure"
  | ProofInvalid => B "proof: signature invalid"
  end.

(** core/src/types.rs:108-109 *)
Inductive json_value := JSONValue (text : bytes).
(** core/src/types.rs:122-132 ([From<String>], [From<&str>]) *)
Definition jv_from (s : bytes) : json_value := JSONValue s.
(** core/src/types.rs:112-114 *)
Definition jv_mime_type (_ : json_value) : bytes := JSON_MIME_TYPE.
(** core/src/types.rs:116-119 *)
Definition jv_to_bytes (v : json_value) : bytes := match v with JSONValue s => s end.
(** core/src/types.rs:134-141 ([Display], hence [to_string]) *)
Definition jv_to_string (v : json_value) : bytes := match v with JSONValue s => s end.
(** core/src/types.rs:143-152 *)
Definition jv_try_from (D : deps) (value : bytes) : result json_value did_error :=
  let? out := (if utf8_valid value then Ok value else Err (InvalidJSONBytes (utf8_error D value))) in
  Ok (JSONValue out).

(** [serde_json::to_string] / [serde_jcs::to_string] of a value of a shape. Both succeed on every value
    of the shapes of this crate (simplification: serde_json can fail only for non-string map keys and
    failing Serialize implementations, none of which occur). *)
Definition to_json_text (D : deps) (sc : schema) (x : data) : bytes :=
  json_text (serde_number (f64_text D)) (ser sc x).
Definition to_jcs_text (D : deps) (sc : schema) (x : data) : bytes :=
  jcs_text (jcs_leb D) (jcs_number D) (ser sc x).

(** Conversions between Rust values and [data]. *)
Definition opt_data {A} (f : A -> data) (o : option A) : data :=
  match o with Some x => DSome (f x) | None => DNone end.
Definition vec_data {A} (f : A -> data) (l : list A) : data := DVec (map f l).
Definition data_str (x : data) : option bytes := match x with DStr s => Some s | _ => None end.
Definition data_opt {A} (g : data -> option A) (x : data) : option (option A) :=
  match x with DNone => Some None | DSome y => option_map Some (g y) | _ => None end.
Definition data_vec {A} (g : data -> option A) (x : data) : option (list A) :=
  match x with DVec l => map_opt g l | _ => None end.
