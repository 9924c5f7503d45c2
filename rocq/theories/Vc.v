(** core/src/verifiable/vc.rs and core/src/verifiable/vp.rs *)
From Verif Require Import Base Codec Json JsonParse Deps Types Proof.
Set Implicit Arguments.

(** core/src/verifiable/vc.rs:21-36 *)
Record vc := {
  vc_contexts : list bytes;
  vc_types : list bytes;
  vc_subject : json;
  vc_proof : option proof;
  vc_id : bytes;
  vc_issuer : bytes
}.
(** core/src/verifiable/vc.rs:39-48 *)
Definition vc_new (id issuer : bytes) : vc :=
  {| vc_contexts := []; vc_types := []; vc_subject := JNull; vc_proof := None; vc_id := id; vc_issuer := issuer |}.
(** core/src/verifiable/vc.rs:50-53 *)
Definition vc_add_context (v : vc) (c : bytes) : vc :=
  {| vc_contexts := vc_contexts v ++ [c]; vc_types := vc_types v; vc_subject := vc_subject v;
     vc_proof := vc_proof v; vc_id := vc_id v; vc_issuer := vc_issuer v |}.
(** core/src/verifiable/vc.rs:55-58 *)
Definition vc_add_type (v : vc) (t : bytes) : vc :=
  {| vc_contexts := vc_contexts v; vc_types := vc_types v ++ [t]; vc_subject := vc_subject v;
     vc_proof := vc_proof v; vc_id := vc_id v; vc_issuer := vc_issuer v |}.
(** core/src/verifiable/vc.rs:60-63 *)
Definition vc_set_credential (v : vc) (j : json) : vc :=
  {| vc_contexts := vc_contexts v; vc_types := vc_types v; vc_subject := j;
     vc_proof := vc_proof v; vc_id := vc_id v; vc_issuer := vc_issuer v |}.
(** core/src/verifiable/vc.rs:65-68, 126-129 *)
Definition vc_set_proof (v : vc) (p : proof) : vc :=
  {| vc_contexts := vc_contexts v; vc_types := vc_types v; vc_subject := vc_subject v;
     vc_proof := Some p; vc_id := vc_id v; vc_issuer := vc_issuer v |}.
(** core/src/verifiable/vc.rs:138-142 *)
Definition vc_remove_proof (v : vc) : vc :=
  {| vc_contexts := vc_contexts v; vc_types := vc_types v; vc_subject := vc_subject v;
     vc_proof := None; vc_id := vc_id v; vc_issuer := vc_issuer v |}.

(** [self.credential_subject == Value::Null] *)
Definition is_null (j : json) : bool := match j with JNull => true | _ => false end.
(** core/src/verifiable/vc.rs:97-119 *)
Definition vc_validate (v : vc) : result unit did_error :=
  if is_empty (vc_contexts v) then Err (GenerateVCError (B "vc_error: empty context"))
  else if is_empty (vc_types v) then Err (GenerateVCError (B "vc_error: empty types"))
  else if is_null (vc_subject v) then Err (GenerateVCError (B "vc_error: credential should not be null"))
  else Ok tt.

(** Derived Serialize/Deserialize, core/src/verifiable/vc.rs:19-36. *)
Definition vc_schema : schema :=
  SStruct [(B "@context", false, SVec SString); (B "type", false, SVec SString);
           (B "credentialSubject", false, SValue); (B "proof", true, SOption proof_schema);
           (B "id", false, SString); (B "issuer", false, SString)].
Definition vc_data (v : vc) : data :=
  DStruct [vec_data DStr (vc_contexts v); vec_data DStr (vc_types v); DVal (vc_subject v);
           opt_data proof_data (vc_proof v); DStr (vc_id v); DStr (vc_issuer v)].
Definition data_vc (x : data) : option vc :=
  match x with
  | DStruct [c; t; DVal j; p; DStr i; DStr s] =>
    match data_vec data_str c, data_vec data_str t, data_opt data_proof p with
    | Some c', Some t', Some p' =>
      Some {| vc_contexts := c'; vc_types := t'; vc_subject := j; vc_proof := p'; vc_id := i; vc_issuer := s |}
    | _, _, _ => None
    end
  | _ => None
  end.

(** core/src/verifiable/vc.rs:71-84 *)
Definition vc_to_json (D : deps) (v : vc) : result json_value did_error :=
  match vc_validate v with
  | Ok _ => Ok (jv_from (to_json_text D vc_schema (vc_data v)))
  | Err err => Err err
  end.
(** core/src/verifiable/vc.rs:86-95 *)
Definition vc_to_jcs (D : deps) (v : vc) : result bytes did_error :=
  match vc_validate v with
  | Ok _ => Ok (to_jcs_text D vc_schema (vc_data v))
  | Err err => Err err
  end.
(** core/src/verifiable/vc.rs:131-136 *)
Definition vc_parse_json_bytes (D : deps) (s : bytes) : result vc proof_error :=
  match from_slice (f64_parse D) vc_schema s with
  | Some x => ok_or (ProofGenerationError (json_error D vc_schema s)) (data_vc x)
  | None => Err (ProofGenerationError (json_error D vc_schema s))
  end.
(** core/src/verifiable/vc.rs:121-143 *)
Definition vc_proofable (D : deps) : proofable vc :=
  {| pf_get_proof := vc_proof; pf_remove_proof := vc_remove_proof; pf_setup_proof := vc_set_proof;
     pf_parse_json_bytes := vc_parse_json_bytes D; pf_to_json := vc_to_json D; pf_to_jcs := vc_to_jcs D;
     pf_validate := vc_validate |}.

(** core/src/verifiable/vp.rs:17-32 *)
Record vp := {
  vp_contexts : list bytes;
  vp_types : list bytes;
  vp_credentials : list vc;
  vp_proof : option proof;
  vp_holder : option bytes
}.
(** core/src/verifiable/vp.rs:41-49 *)
Definition vp_new : vp :=
  {| vp_contexts := []; vp_types := []; vp_credentials := []; vp_proof := None; vp_holder := None |}.
(** core/src/verifiable/vp.rs:51-54 *)
Definition vp_add_context (v : vp) (c : bytes) : vp :=
  {| vp_contexts := vp_contexts v ++ [c]; vp_types := vp_types v; vp_credentials := vp_credentials v;
     vp_proof := vp_proof v; vp_holder := vp_holder v |}.
(** core/src/verifiable/vp.rs:56-59 *)
Definition vp_add_type (v : vp) (t : bytes) : vp :=
  {| vp_contexts := vp_contexts v; vp_types := vp_types v ++ [t]; vp_credentials := vp_credentials v;
     vp_proof := vp_proof v; vp_holder := vp_holder v |}.
(** core/src/verifiable/vp.rs:61-64 *)
Definition vp_add_credential (v : vp) (c : vc) : vp :=
  {| vp_contexts := vp_contexts v; vp_types := vp_types v; vp_credentials := vp_credentials v ++ [c];
     vp_proof := vp_proof v; vp_holder := vp_holder v |}.
(** core/src/verifiable/vp.rs:66-69, 128-131 *)
Definition vp_add_proof (v : vp) (p : proof) : vp :=
  {| vp_contexts := vp_contexts v; vp_types := vp_types v; vp_credentials := vp_credentials v;
     vp_proof := Some p; vp_holder := vp_holder v |}.
(** core/src/verifiable/vp.rs:71-74 *)
Definition vp_set_holder (v : vp) (h : bytes) : vp :=
  {| vp_contexts := vp_contexts v; vp_types := vp_types v; vp_credentials := vp_credentials v;
     vp_proof := vp_proof v; vp_holder := Some h |}.
(** core/src/verifiable/vp.rs:140-144 *)
Definition vp_remove_proof (v : vp) : vp :=
  {| vp_contexts := vp_contexts v; vp_types := vp_types v; vp_credentials := vp_credentials v;
     vp_proof := None; vp_holder := vp_holder v |}.
(** core/src/verifiable/vp.rs:101-121 *)
Definition vp_validate (v : vp) : result unit did_error :=
  if is_empty (vp_contexts v) then Err (GenerateJSONError (B "vp: empty context"))
  else if is_empty (vp_types v) then Err (GenerateJSONError (B "vp: empty types"))
  else if is_empty (vp_credentials v) then Err (GenerateJSONError (B "vp: empty credentials"))
  else Ok tt.

(** Derived Serialize/Deserialize, core/src/verifiable/vp.rs:15-32. *)
Definition vp_schema : schema :=
  SStruct [(B "@context", false, SVec SString); (B "type", false, SVec SString);
           (B "verifiableCredential", false, SVec vc_schema); (B "proof", true, SOption proof_schema);
           (B "holder", true, SOption SString)].
Definition vp_data (v : vp) : data :=
  DStruct [vec_data DStr (vp_contexts v); vec_data DStr (vp_types v); vec_data vc_data (vp_credentials v);
           opt_data proof_data (vp_proof v); opt_data DStr (vp_holder v)].
Definition data_vp (x : data) : option vp :=
  match x with
  | DStruct [c; t; cr; p; h] =>
    match data_vec data_str c, data_vec data_str t, data_vec data_vc cr, data_opt data_proof p, data_opt data_str h with
    | Some c', Some t', Some cr', Some p', Some h' =>
      Some {| vp_contexts := c'; vp_types := t'; vp_credentials := cr'; vp_proof := p'; vp_holder := h' |}
    | _, _, _, _, _ => None
    end
  | _ => None
  end.
(** core/src/verifiable/vp.rs:77-89 *)
Definition vp_to_json (D : deps) (v : vp) : result json_value did_error :=
  match vp_validate v with
  | Ok _ => Ok (jv_from (to_json_text D vp_schema (vp_data v)))
  | Err err => Err err
  end.
(** core/src/verifiable/vp.rs:91-99 *)
Definition vp_to_jcs (D : deps) (v : vp) : result bytes did_error :=
  match vp_validate v with
  | Ok _ => Ok (to_jcs_text D vp_schema (vp_data v))
  | Err err => Err err
  end.
(** core/src/verifiable/vp.rs:133-138 *)
Definition vp_parse_json_bytes (D : deps) (s : bytes) : result vp proof_error :=
  match from_slice (f64_parse D) vp_schema s with
  | Some x => ok_or (ProofGenerationError (json_error D vp_schema s)) (data_vp x)
  | None => Err (ProofGenerationError (json_error D vp_schema s))
  end.
(** core/src/verifiable/vp.rs:123-145 *)
Definition vp_proofable (D : deps) : proofable vp :=
  {| pf_get_proof := vp_proof; pf_remove_proof := vp_remove_proof; pf_setup_proof := vp_add_proof;
     pf_parse_json_bytes := vp_parse_json_bytes D; pf_to_json := vp_to_json D; pf_to_jcs := vp_to_jcs D;
     pf_validate := vp_validate |}.
