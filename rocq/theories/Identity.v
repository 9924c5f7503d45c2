(** core/src/identity/mod.rs and the identity part of core/src/did/mod.rs. *)
From Verif Require Import Base Codec Json JsonParse Deps Types Did Keys Doc.
Set Implicit Arguments.

Section Identity.
  Variable D : deps.

  (** core/src/identity/mod.rs:16-19 *)
  Record verification_method := { vm_verification : vpairs D; vm_agreement : apairs D }.
  (** core/src/identity/mod.rs:27-31 *)
  Record identity := {
    id_value : bytes;
    id_authentication : option verification_method;
    id_assertion : option verification_method
  }.
  (** core/src/identity/mod.rs:34-40 *)
  Definition identity_new (val : bytes) : identity :=
    {| id_value := val; id_authentication := None; id_assertion := None |}.

  (** core/src/identity/mod.rs:46-58 *)
  Definition identity_account (i : identity) : result bytes did_error :=
    let value := split DID_SYNTAX_MARK (id_value i) in
    if (length value <? 3)%nat then Err InvalidDID
    else ok_or InvalidDID (last_opt value).

  (** core/src/identity/mod.rs:86-97; the two generated key pairs are arguments. *)
  Definition build_verification_method (ed : ed_pair D) (dh : dh_pair D) : verification_method :=
    {| vm_verification := verification_generate D ed; vm_agreement := agreement_generate D dh |}.
  (** core/src/identity/mod.rs:68-75 *)
  Definition build_auth_method (i : identity) (ed : ed_pair D) (dh : dh_pair D) : identity :=
    if is_none (id_authentication i) then
      {| id_value := id_value i; id_authentication := Some (build_verification_method ed dh);
         id_assertion := id_assertion i |}
    else i.
  (** core/src/identity/mod.rs:77-84 *)
  Definition build_assertion_method (i : identity) (ed : ed_pair D) (dh : dh_pair D) : identity :=
    if is_none (id_assertion i) then
      {| id_value := id_value i; id_authentication := id_authentication i;
         id_assertion := Some (build_verification_method ed dh) |}
    else i.

  (** core/src/identity/mod.rs:101-150 *)
  Definition to_doc (i : identity) : doc :=
    let auth_verification_id := id_value i ++ B "#key-auth-verification" in
    let auth_aggreement_id := id_value i ++ B "#key-auth-aggrement" in
    let assertion_verification_id := id_value i ++ B "#key-assertion-verification" in
    let assertion_aggreement_id := id_value i ++ B "#key-assertion-aggrement" in
    let d0 := doc_generate (id_value i) in
    let d1 := doc_add_context (doc_add_context d0 CONTEXT_ED25519) CONTEXT_X25519 in
    let d2 :=
      match id_authentication i with
      | Some auth =>
        doc_add_authentication
          (doc_add_authentication d1
             {| pr_id := auth_verification_id; pr_controller := id_value i;
                pr_type := VERIFICATION_TYPE_ED25519; pr_multibase := vp_pub_key (vm_verification auth) |})
          {| pr_id := auth_aggreement_id; pr_controller := id_value i;
             pr_type := VERIFICATION_TYPE_X25519; pr_multibase := ap_pub_key (vm_agreement auth) |}
      | None => d1
      end in
    match id_assertion i with
    | Some assertion =>
      doc_add_assertion
        (doc_add_assertion d2
           {| pr_id := assertion_verification_id; pr_controller := id_value i;
              pr_type := VERIFICATION_TYPE_ED25519; pr_multibase := vp_pub_key (vm_verification assertion) |})
        {| pr_id := assertion_aggreement_id; pr_controller := id_value i;
           pr_type := VERIFICATION_TYPE_X25519; pr_multibase := ap_pub_key (vm_agreement assertion) |}
    | None => d2
    end.

  (** core/src/identity/mod.rs:160-177 (and 179-196): sealing the two keys of one method. [r1], [r2] are
      the random draws. *)
  Definition seal_method (m : verification_method) (r1 r2 : ks_rand D) (password : bytes)
    : result private_key_pairs keysecure_error :=
    let? v := map_err (fun _ => BuildIdentityPrivateKeysError)
                      (vpairs_build_keysecure r1 (vm_verification m) password) in
    let? a := map_err (fun _ => BuildIdentityPrivateKeysError)
                      (apairs_build_keysecure r2 (vm_agreement m) password) in
    Ok {| pk_verification := v; pk_aggrement := a |}.
  (** core/src/identity/mod.rs:154-199 *)
  Definition build_private_keys (i : identity) (password : bytes) (r1 r2 r3 r4 : ks_rand D)
    : result identity_private_keys keysecure_error :=
    let pairs := identity_private_keys_new (id_value i) in
    let? pairs1 :=
      match id_authentication i with
      | Some authentication =>
        let? p := seal_method authentication r1 r2 password in
        Ok {| ipk_identity := ipk_identity pairs; ipk_authentication := Some p; ipk_assertion := ipk_assertion pairs |}
      | None => Ok pairs
      end in
    let? pairs2 :=
      match id_assertion i with
      | Some assertion =>
        let? p := seal_method assertion r3 r4 password in
        Ok {| ipk_identity := ipk_identity pairs1; ipk_authentication := ipk_authentication pairs1; ipk_assertion := Some p |}
      | None => Ok pairs1
      end in
    Ok pairs2.

  (** core/src/did/mod.rs:28-30 *)
  Record did := { did_account : account D }.
  (** core/src/did/mod.rs:39-43; the generated key pair is an argument. *)
  Definition did_new (generated : ed_pair D) : did := {| did_account := account_new D generated |}.
  (** core/src/did/mod.rs:45-51 *)
  Definition did_from_pem (val : bytes) : result did did_error :=
    let? d := map_err (fun _ => InvalidPEM) (map_ok (fun a => {| did_account := a |}) (account_from_pem D val)) in
    Ok d.
  (** core/src/did/mod.rs:53-57 *)
  Definition did_from_keysecure (password : bytes) (ks : keysecure) : result did did_error :=
    map_err (fun err => InvalidKeysecure (account_error_text err))
            (map_ok (fun v => {| did_account := v |}) (account_from_keysecure D password ks)).
  (** core/src/did/mod.rs:59-78 *)
  Definition did_identity (d : did) : result identity did_error :=
    let pubkey_in_bytes := ed_pub_bytes D (account_pubkey (did_account d)) in
    let pubkey_sha3 := sha384 D pubkey_in_bytes in
    let pubkey_blake3 := blake3 D pubkey_sha3 in
    let pubkey_hex := hex_encode pubkey_blake3 in
    let base58_encoded := mb_encode58 pubkey_hex in
    let id := DID_SYNTAX_SCHEME ++ B ":" ++ DID_SYNTAX_METHOD ++ B ":" ++ base58_encoded in
    Ok (identity_new id).
  (** core/src/did/mod.rs:80-91 *)
  Definition build_uri (d : did) (ps : option params) : result bytes did_error :=
    let? i := did_identity d in
    build_uri_of (id_value i) ps.
End Identity.
