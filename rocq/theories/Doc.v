(** core/src/doc/mod.rs *)
From Verif Require Import Base Codec Json JsonParse Deps Types.
Set Implicit Arguments.

(** core/src/doc/mod.rs:47-56 *)
Record primary := {
  pr_id : bytes;
  pr_controller : bytes;
  pr_type : bytes;
  pr_multibase : bytes
}.

(** core/src/doc/mod.rs:115-135 *)
Record doc := {
  doc_context : list bytes;
  doc_id : bytes;
  doc_authentication : option (list primary);
  doc_cap_invoke : option (list primary);
  doc_cap_delegate : option (list primary);
  doc_assertion : option (list primary)
}.

Section Doc.
  Variable D : deps.

  (** core/src/doc/mod.rs:38-41 *)
  Inductive public_key_decoded := EdDSA (k : ed_pub D) | ECDH (k : dh_pub D).

  (** core/src/doc/mod.rs:75-89 *)
  Definition decode_pub_key_verification (p : primary) : result (ed_pub D) did_error :=
    let? (_, pubkey_bytes) :=
      ok_or (DecodePubKeyError (B "unable to decode encoded multibase to EDDSA public key"))
            (mb_decode (mb_other D) (pr_multibase p)) in
    let? pubkey_string := (if utf8_valid pubkey_bytes then Ok pubkey_bytes
                           else Err (DecodePubKeyError (B "unable convert public key to string"))) in
    let? pubkey := ok_or (DecodePubKeyError (B "unable to restore public key")) (ed_pub_from_hex D pubkey_string) in
    Ok pubkey.

  (** core/src/doc/mod.rs:91-106 *)
  Definition decode_pub_key_agreement (p : primary) : result (dh_pub D) did_error :=
    let? (_, pubkey_bytes) :=
      ok_or (DecodePubKeyError (B "unable to decode encoded multibase to ECDH public key"))
            (mb_decode (mb_other D) (pr_multibase p)) in
    let? pubkey_string := (if utf8_valid pubkey_bytes then Ok pubkey_bytes
                           else Err (DecodePubKeyError (B "unable convert public key to string"))) in
    let? pubkey := ok_or (DecodePubKeyError (B "unable to restore public key")) (dh_pub_from_hex D pubkey_string) in
    Ok pubkey.

  (** core/src/doc/mod.rs:59-73 *)
  Definition decode_pub_key (p : primary) : result public_key_decoded did_error :=
    if bytes_eqb (pr_type p) VERIFICATION_TYPE_ED25519 then
      let? public_key := decode_pub_key_verification p in Ok (EdDSA public_key)
    else if bytes_eqb (pr_type p) VERIFICATION_TYPE_X25519 then
      let? public_key := decode_pub_key_agreement p in Ok (ECDH public_key)
    else Err (DecodePubKeyError (B "unknown verification type")).
End Doc.

(** core/src/doc/mod.rs:138-148 *)
Definition doc_generate (did : bytes) : doc :=
  {| doc_context := [CONTEXT_DEFAULT]; doc_id := did; doc_authentication := None;
     doc_cap_invoke := None; doc_cap_delegate := None; doc_assertion := None |}.

(** [push] when present, then [Some(vec![x])] when absent (the pattern of core/src/doc/mod.rs:156-162). *)
Definition push_opt {A} (o : option (list A)) (x : A) : option (list A) :=
  let o1 := match o with Some l => Some (l ++ [x]) | None => None end in
  if is_none o1 then Some [x] else o1.

(** core/src/doc/mod.rs:150-153 *)
Definition doc_add_context (d : doc) (c : bytes) : doc :=
  {| doc_context := doc_context d ++ [c]; doc_id := doc_id d; doc_authentication := doc_authentication d;
     doc_cap_invoke := doc_cap_invoke d; doc_cap_delegate := doc_cap_delegate d; doc_assertion := doc_assertion d |}.
(** core/src/doc/mod.rs:155-165 *)
Definition doc_add_assertion (d : doc) (p : primary) : doc :=
  {| doc_context := doc_context d; doc_id := doc_id d; doc_authentication := doc_authentication d;
     doc_cap_invoke := doc_cap_invoke d; doc_cap_delegate := doc_cap_delegate d;
     doc_assertion := push_opt (doc_assertion d) p |}.
(** core/src/doc/mod.rs:167-177 *)
Definition doc_add_authentication (d : doc) (p : primary) : doc :=
  {| doc_context := doc_context d; doc_id := doc_id d;
     doc_authentication := push_opt (doc_authentication d) p;
     doc_cap_invoke := doc_cap_invoke d; doc_cap_delegate := doc_cap_delegate d; doc_assertion := doc_assertion d |}.
(** core/src/doc/mod.rs:179-189 *)
Definition doc_add_cap_delegate (d : doc) (p : primary) : doc :=
  {| doc_context := doc_context d; doc_id := doc_id d; doc_authentication := doc_authentication d;
     doc_cap_invoke := doc_cap_invoke d; doc_cap_delegate := push_opt (doc_cap_delegate d) p;
     doc_assertion := doc_assertion d |}.
(** core/src/doc/mod.rs:191-201 *)
Definition doc_add_cap_invoke (d : doc) (p : primary) : doc :=
  {| doc_context := doc_context d; doc_id := doc_id d; doc_authentication := doc_authentication d;
     doc_cap_invoke := push_opt (doc_cap_invoke d) p; doc_cap_delegate := doc_cap_delegate d;
     doc_assertion := doc_assertion d |}.

(** Derived Serialize/Deserialize: core/src/doc/mod.rs:45-56 and 113-135 (names after [rename],
    [skip_serializing_if]). *)
Definition primary_schema : schema :=
  SStruct [(B "id", false, SString); (B "controller", false, SString);
           (B "type", false, SString); (B "publicKeyMultibase", false, SString)].
Definition primary_data (p : primary) : data :=
  DStruct [DStr (pr_id p); DStr (pr_controller p); DStr (pr_type p); DStr (pr_multibase p)].
Definition data_primary (x : data) : option primary :=
  match x with
  | DStruct [DStr i; DStr c; DStr t; DStr m] =>
    Some {| pr_id := i; pr_controller := c; pr_type := t; pr_multibase := m |}
  | _ => None
  end.
Definition doc_schema : schema :=
  SStruct [(B "@context", false, SVec SString); (B "id", false, SString);
           (B "authentication", true, SOption (SVec primary_schema));
           (B "capabilityInvocation", true, SOption (SVec primary_schema));
           (B "capabilityDelegation", true, SOption (SVec primary_schema));
           (B "assertionMethod", true, SOption (SVec primary_schema))].
Definition doc_data (d : doc) : data :=
  DStruct [vec_data DStr (doc_context d); DStr (doc_id d);
           opt_data (vec_data primary_data) (doc_authentication d);
           opt_data (vec_data primary_data) (doc_cap_invoke d);
           opt_data (vec_data primary_data) (doc_cap_delegate d);
           opt_data (vec_data primary_data) (doc_assertion d)].
Definition data_doc (x : data) : option doc :=
  match x with
  | DStruct [c; DStr i; au; ci; cd; ass] =>
    match data_vec data_str c, data_opt (data_vec data_primary) au, data_opt (data_vec data_primary) ci,
          data_opt (data_vec data_primary) cd, data_opt (data_vec data_primary) ass with
    | Some c', Some au', Some ci', Some cd', Some ass' =>
      Some {| doc_context := c'; doc_id := i; doc_authentication := au';
              doc_cap_invoke := ci'; doc_cap_delegate := cd'; doc_assertion := ass' |}
    | _, _, _, _, _ => None
    end
  | _ => None
  end.

(** core/src/doc/mod.rs:204-210 *)
Definition doc_to_json (D : deps) (d : doc) : result json_value did_error :=
  Ok (jv_from (to_json_text D doc_schema (doc_data d))).
(** [serde_json::from_slice::<Doc>] (the derived Deserialize of core/src/doc/mod.rs:113) *)
Definition doc_from_slice (D : deps) (s : bytes) : option doc :=
  match from_slice (f64_parse D) doc_schema s with Some x => data_doc x | None => None end.

(** core/src/doc/mod.rs:212-226 *)
Definition doc_validate (d : doc) : result unit did_error :=
  if is_empty (doc_id d) then Err (ValidateError (B "[doc]: missing id"))
  else if is_empty (doc_context d) then Err (ValidateError (B "[doc]: at least one context must be filled"))
  else Ok tt.
