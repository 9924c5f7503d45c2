(** core/src/account/mod.rs and core/src/keys. *)
From Verif Require Import Base Codec Json JsonParse Deps Types.
Set Implicit Arguments.

(** core/src/account/mod.rs:21-37 *)
Inductive account_error :=
| DecodeError (m : bytes)
| ParseHexError (m : bytes)
| InvalidPublicKey (m : bytes)
| EncodePEMError (m : bytes)
| DecodePEMError (m : bytes).
Definition account_error_text (e : account_error) : bytes :=
  match e with
  | DecodeError m => B "unable to decode: " ++ m
  | ParseHexError m => B "unable to parse: " ++ m
  | InvalidPublicKey m => B "invalid public key: " ++ m
  | EncodePEMError m => B "encode pem failed: " ++ m
  | DecodePEMError m => B "decode pem failed: " ++ m
  end.

(** core/src/keys/secure.rs:11-27 *)
Inductive keysecure_error :=
| BuildKeySecureError
| BuildIdentityPrivateKeysError
| BuildJSONError
| StorageError
| DecryptError (m : bytes).

(** core/src/keys/verification.rs:12-17 *)
Inductive verification_error := GeneratePrivKeyError | DecodePublicKeyError | GenerateSecureKeyError.

Section Keys.
  Variable D : deps.

  (** core/src/account/mod.rs:40-42 *)
  Record account := { acc_pair : ed_pair D }.
  (** core/src/account/mod.rs:51-54; the generated key pair is an argument. *)
  Definition account_new (generated : ed_pair D) : account := {| acc_pair := generated |}.
  (** core/src/account/mod.rs:56-61 *)
  Definition build_pem (a : account) : result bytes account_error :=
    map_err EncodePEMError (ed_to_pem D (ed_priv_key D (acc_pair a))).
  (** core/src/account/mod.rs:63-69 *)
  Definition account_from_pem (val : bytes) : result account account_error :=
    let? a := map_err DecodePEMError (map_ok (fun v => {| acc_pair := v |}) (ed_from_pem D val)) in
    Ok a.

  (** [hex::decode] with its error text, and [Vec<u8>::try_into::<[u8; 24]>]. *)
  Definition hex_decode_res (s : bytes) : result bytes bytes :=
    match hex_decode s with Some b => Ok b | None => Err (hex_error D s) end.
  Definition to_array24 (b : bytes) : option bytes := if Nat.eqb (length b) 24 then Some b else None.

  (** core/src/account/mod.rs:71-107 *)
  Definition account_from_keysecure (password : bytes) (ks : keysecure) : result account account_error :=
    let encrypted_text := ks_cipher_text ks in
    let? decoded_encrypted_text := map_err DecodeError (hex_decode_res encrypted_text) in
    let kp := ks_kdf_params ks in
    let passphrase_kdf_params :=
      {| m_cost := m_cost kp; p_cost := p_cost kp; t_cost := t_cost kp; output_len := output_len kp |} in
    let salt_vec := ks_salt ks in
    let? kdf_hash := map_err DecodeError (kdf D passphrase_kdf_params password salt_vec) in
    let nonce := ks_nonce ks in
    let? nonce_decoded := map_err DecodeError (hex_decode_res nonce) in
    let? nonce_value := ok_or (DecodeError (B "unable to decode nonce")) (to_array24 nonce_decoded) in
    let? decrypted := map_err DecodeError (aead_decrypt D kdf_hash nonce_value decoded_encrypted_text) in
    let? to_pem := (if utf8_valid decrypted then Ok decrypted else Err (DecodeError (utf8_error D decrypted))) in
    account_from_pem to_pem.

  (** core/src/account/mod.rs:109-119 *)
  Definition account_pubkey (a : account) : ed_pub D := ed_pub_key D (acc_pair a).
  Definition account_privkey (a : account) : ed_priv D := ed_priv_key D (acc_pair a).
  Definition account_sign (a : account) (m : bytes) : bytes := ed_sign D (acc_pair a) m.

  (** core/src/keys/verification.rs:21-24 *)
  Record vpairs := { vp_pub_key : bytes; vp_priv_key : ed_priv D }.
  (** core/src/keys/verification.rs:27-35 *)
  Definition vpairs_is_valid (p : vpairs) : bool :=
    match ed_to_pem D (vp_priv_key p) with
    | Ok pem => negb (is_empty (vp_pub_key p)) || negb (is_empty pem)
    | Err _ => false
    end.
  (** core/src/keys/verification.rs:37-46 *)
  Definition vpairs_decode_pub_key (p : vpairs) : result (ed_pub D) verification_error :=
    let? (_, pubkey_bytes) := ok_or DecodePublicKeyError (mb_decode (mb_other D) (vp_pub_key p)) in
    let? pubkey_string := (if utf8_valid pubkey_bytes then Ok pubkey_bytes else Err DecodePublicKeyError) in
    let? pubkey := ok_or DecodePublicKeyError (ed_pub_from_hex D pubkey_string) in
    Ok pubkey.
  (** core/src/keys/verification.rs:50-54 *)
  Definition vpairs_build_keysecure (rnd : ks_rand D) (p : vpairs) (password : bytes) : result keysecure keysecure_error :=
    map_err (fun _ => BuildKeySecureError) (ed_seal D rnd (vp_priv_key p) password).
  (** core/src/keys/verification.rs:69-86; the generated key pair is an argument. *)
  Definition verification_generate (keypair : ed_pair D) : vpairs :=
    {| vp_pub_key := mb_encode58 (ed_pub_to_hex D (ed_pub_key D keypair));
       vp_priv_key := ed_priv_key D keypair |}.

  (** core/src/keys/agreement.rs:21-24 *)
  Record apairs := { ap_pub_key : bytes; ap_priv_key : dh_pair D }.
  (** core/src/keys/agreement.rs:27-30 *)
  Definition apairs_is_valid (p : apairs) : bool :=
    negb (is_empty (ap_pub_key p)) || negb (is_empty (dh_to_hex D (ap_priv_key p))).
  (** core/src/keys/agreement.rs:32-43 (its error type has the single value DecodePublicKeyError) *)
  Definition apairs_decode_public_key (p : apairs) : result (dh_pub D) unit :=
    let? (_, pubkey_bytes) := ok_or tt (mb_decode (mb_other D) (ap_pub_key p)) in
    let? pubkey_string := (if utf8_valid pubkey_bytes then Ok pubkey_bytes else Err tt) in
    let? pubkey := ok_or tt (dh_pub_from_hex D pubkey_string) in
    Ok pubkey.
  (** core/src/keys/agreement.rs:47-51 *)
  Definition apairs_build_keysecure (rnd : ks_rand D) (p : apairs) (password : bytes) : result keysecure keysecure_error :=
    map_err (fun _ => BuildKeySecureError) (dh_seal D rnd (ap_priv_key p) password).
  (** core/src/keys/agreement.rs:68-82 *)
  Definition agreement_generate (keypair : dh_pair D) : apairs :=
    {| ap_pub_key := mb_encode58 (dh_pub_to_hex D (dh_pub_key D keypair)); ap_priv_key := keypair |}.

  (** core/src/keys/secure.rs:43-46 *)
  Record private_key_pairs := { pk_verification : keysecure; pk_aggrement : keysecure }.
  (** core/src/keys/secure.rs:49-56 *)
  Definition decrypt_verification (p : private_key_pairs) (password : bytes) : result bytes keysecure_error :=
    let? decrypted := map_err DecryptError (ks_decrypt D (pk_verification p) password) in
    Ok decrypted.
  (** core/src/keys/secure.rs:58-65 *)
  Definition decrypt_agreement (p : private_key_pairs) (password : bytes) : result bytes keysecure_error :=
    let? decrypted := map_err DecryptError (ks_decrypt D (pk_aggrement p) password) in
    Ok decrypted.
  (** core/src/keys/secure.rs:73-81 *)
  Record identity_private_keys := {
    ipk_identity : bytes;
    ipk_authentication : option private_key_pairs;
    ipk_assertion : option private_key_pairs
  }.
  (** core/src/keys/secure.rs:84-90 *)
  Definition identity_private_keys_new (identity : bytes) : identity_private_keys :=
    {| ipk_identity := identity; ipk_authentication := None; ipk_assertion := None |}.
End Keys.
