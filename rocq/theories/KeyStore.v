(** core/src/keys/secure.rs: the JSON form of sealed keys. *)
From Verif Require Import Base Codec Json JsonParse Deps Types Keys.
Set Implicit Arguments.

Section KeyStore.
  (** The JSON value of a [KeySecure], a type of prople_crypto with derived Serialize and Deserialize.
      Simplification: it is written and read as a [Value] (members in the order of their names) and then converted. *)
  Variable ks_json : keysecure -> json.
  Variable json_ks : json -> option keysecure.

  (** core/src/keys/secure.rs:41-46 *)
  Definition pairs_schema : schema := SStruct [(B "verification", false, SValue); (B "aggrement", false, SValue)].
  Definition pairs_data (p : private_key_pairs) : data :=
    DStruct [DVal (ks_json (pk_verification p)); DVal (ks_json (pk_aggrement p))].
  Definition data_pairs (x : data) : option private_key_pairs :=
    match x with
    | DStruct [DVal v; DVal a] =>
      match json_ks v, json_ks a with
      | Some v', Some a' => Some {| pk_verification := v'; pk_aggrement := a' |}
      | _, _ => None
      end
    | _ => None
    end.

  (** core/src/keys/secure.rs:71-81 *)
  Definition ipk_schema : schema :=
    SStruct [(B "identity", false, SString); (B "authentication", true, SOption pairs_schema);
             (B "assertion", true, SOption pairs_schema)].
  Definition ipk_data (k : identity_private_keys) : data :=
    DStruct [DStr (ipk_identity k); opt_data pairs_data (ipk_authentication k); opt_data pairs_data (ipk_assertion k)].
  Definition data_ipk (x : data) : option identity_private_keys :=
    match x with
    | DStruct [DStr i; au; ass] =>
      match data_opt data_pairs au, data_opt data_pairs ass with
      | Some au', Some ass' => Some {| ipk_identity := i; ipk_authentication := au'; ipk_assertion := ass' |}
      | _, _ => None
      end
    | _ => None
    end.

  (** core/src/keys/secure.rs:93-99 *)
  Definition ipk_to_json (D : deps) (k : identity_private_keys) : result json_value did_error :=
    Ok (jv_from (to_json_text D ipk_schema (ipk_data k))).
  (** [serde_json::from_slice::<IdentityPrivateKeyPairs>] *)
  Definition ipk_from_slice (D : deps) (s : bytes) : option identity_private_keys :=
    match from_slice (f64_parse D) ipk_schema s with Some x => data_ipk x | None => None end.
End KeyStore.
