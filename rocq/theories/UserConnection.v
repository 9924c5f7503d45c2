(** core/src/context/ext/user_connection.rs *)
From Verif Require Import Base Codec Json JsonParse Deps Types.
Set Implicit Arguments.

(** core/src/context/ext/user_connection.rs:6 *)
Definition CONTEXT_USER_AGENT_ADDRESS : bytes := B "https://schema.org/identifier".
(** core/src/context/ext/user_connection.rs:13-16 *)
Record uc_properties := { user_agent_address : bytes; user_did : bytes }.
(** core/src/context/ext/user_connection.rs:18-25 *)
Definition uc_properties_default : uc_properties :=
  {| user_agent_address := CONTEXT_USER_AGENT_ADDRESS; user_did := CONTEXT_VC |}.
(** core/src/context/ext/user_connection.rs:30-41 *)
Record uc_context := { uc_ctx : uc_properties }.
(** core/src/context/ext/user_connection.rs:47-57 *)
Record uc_credential := { user_connection_credential : uc_context }.

(** core/src/context/ext/user_connection.rs:35-40, 52-56 *)
Definition uc_context_new (properties : uc_properties) : uc_context := {| uc_ctx := properties |}.
Definition uc_credential_new (context : uc_context) : uc_credential := {| user_connection_credential := context |}.
(** derived [Default], core/src/context/ext/user_connection.rs:28, 44 *)
Definition uc_context_default : uc_context := {| uc_ctx := uc_properties_default |}.
Definition uc_credential_default : uc_credential := {| user_connection_credential := uc_context_default |}.

(** Derived Serialize/Deserialize with [rename_all]: core/src/context/ext/user_connection.rs:10-12, 28-32, 44-49 *)
Definition uc_properties_schema : schema :=
  SStruct [(B "userAgentAddress", false, SString); (B "userDid", false, SString)].
Definition uc_context_schema : schema := SStruct [(B "@context", false, uc_properties_schema)].
Definition uc_schema : schema := SStruct [(B "UserConnectionCredential", false, uc_context_schema)].
Definition uc_data (c : uc_credential) : data :=
  let p := uc_ctx (user_connection_credential c) in
  DStruct [DStruct [DStruct [DStr (user_agent_address p); DStr (user_did p)]]].
Definition data_uc (x : data) : option uc_credential :=
  match x with
  | DStruct [DStruct [DStruct [DStr a; DStr d]]] =>
    Some {| user_connection_credential := {| uc_ctx := {| user_agent_address := a; user_did := d |} |} |}
  | _ => None
  end.

(** core/src/context/ext/user_connection.rs:59-65 *)
Definition uc_to_json (D : deps) (c : uc_credential) : result json_value did_error :=
  Ok (jv_from (to_json_text D uc_schema (uc_data c))).
Definition uc_from_slice (D : deps) (s : bytes) : option uc_credential :=
  match from_slice (f64_parse D) uc_schema s with Some x => data_uc x | None => None end.
