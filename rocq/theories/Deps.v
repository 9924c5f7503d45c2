(** The operations the crate calls in its dependencies (core/Cargo.toml:18-24) and that are not
    modelled concretely. The record holds operations only; what a theorem needs to know about them is
    one of the laws below, taken as an explicit hypothesis. *)
From Verif Require Import Base Codec Json JsonParse.
Set Implicit Arguments.

(** [prople_crypto::passphrase::kdf_params::KdfParams]. *)
Record kdf_params := { m_cost : N; p_cost : N; t_cost : N; output_len : option N }.

(** [prople_crypto::keysecure::KeySecure]: the parts read by core/src/account/mod.rs:71-90
    ([crypto.cipher_text], [crypto.kdf_params.params], [crypto.kdf_params.salt],
    [crypto.cipher_params.nonce]), and the fields the crate never reads, together. *)
Record keysecure := {
  ks_cipher_text : bytes;
  ks_kdf_params : kdf_params;
  ks_salt : bytes;
  ks_nonce : bytes;
  ks_rest : bytes
}.

(** Fallible operations return the text of their error. *)
Record deps := {
  (** [sha2::Sha256], [sha2::Sha384], [blake3::hash] *)
  sha256 : bytes -> bytes;
  sha384 : bytes -> bytes;
  blake3 : bytes -> bytes;

  (** [prople_crypto::eddsa]: KeyPair, PubKey, PrivKey *)
  ed_pair : Type;
  ed_pub : Type;
  ed_priv : Type;
  ed_pub_key : ed_pair -> ed_pub;                    (* KeyPair::pub_key *)
  ed_priv_key : ed_pair -> ed_priv;                  (* KeyPair::priv_key *)
  ed_sign : ed_pair -> bytes -> bytes;               (* KeyPair::signature(m).sign() *)
  ed_verify : ed_pub -> bytes -> bytes -> result bool bytes;  (* PubKey::verify(m, signature hex) *)
  ed_pub_bytes : ed_pub -> bytes;                    (* PubKey::serialize *)
  ed_pub_to_hex : ed_pub -> bytes;                   (* PubKey::to_hex *)
  ed_pub_from_hex : bytes -> option ed_pub;          (* PubKey::from_hex *)
  ed_to_pem : ed_priv -> result bytes bytes;         (* PrivKey::to_pem *)
  ed_from_pem : bytes -> result ed_pair bytes;       (* KeyPair::from_pem *)

  (** [prople_crypto::ecdh]: KeyPair, PublicKey *)
  dh_pair : Type;
  dh_pub : Type;
  dh_pub_key : dh_pair -> dh_pub;                    (* KeyPair::pub_key *)
  dh_pub_to_hex : dh_pub -> bytes;                   (* PublicKey::to_hex *)
  dh_pub_from_hex : bytes -> option dh_pub;          (* PublicKey::from_hex *)
  dh_to_hex : dh_pair -> bytes;                      (* KeyPair::to_hex *)

  (** [prople_crypto]: passphrase, aead, keysecure. [ks_rand] is the random salt and nonce drawn when
      sealing. *)
  kdf : kdf_params -> bytes -> bytes -> result bytes bytes;          (* Passphrase::hash(password, salt) *)
  aead_decrypt : bytes -> bytes -> bytes -> result bytes bytes;      (* AEAD::decrypt: key, nonce, cipher text *)
  ks_rand : Type;
  ed_seal : ks_rand -> ed_priv -> bytes -> result keysecure bytes;   (* PrivKey::to_keysecure(password) *)
  dh_seal : ks_rand -> dh_pair -> bytes -> result keysecure bytes;   (* ecdh KeyPair::to_keysecure(password) *)
  ks_decrypt : keysecure -> bytes -> result bytes bytes;             (* KeySecure::decrypt(password) *)

  (** text libraries *)
  f64_text : N -> bytes;                             (* serde_json float text, by bits *)
  f64_parse : bytes -> option N;                     (* serde_json float parser *)
  jcs_number : number -> bytes;                      (* serde_jcs number text *)
  jcs_leb : bytes -> bytes -> bool;                  (* serde_jcs member order *)
  mb_other : bytes -> option (N * bytes);            (* multibase bases not in [Codec] *)
  datetime : bytes -> result Z bytes;                (* str::parse::<chrono::DateTime<Utc>> *)
  maddr : Type;
  multiaddr : bytes -> result maddr bytes;           (* str::parse::<Multiaddr> *)

  (** texts of dependency errors *)
  mb_error : bytes -> bytes;                         (* multibase::decode *)
  mh_error : bytes -> bytes;                         (* Multihash::wrap *)
  hex_error : bytes -> bytes;                        (* hex::decode *)
  utf8_error : bytes -> bytes;                       (* String::from_utf8 *)
  json_error : schema -> bytes -> bytes              (* serde_json::from_slice *)
}.

(** ** Laws *)
Section Laws.
  Variable D : deps.

  (** A signature made with a key pair verifies under its public key (RFC 8032 correctness). *)
  Definition ed_correct : Prop :=
    forall kp m, ed_verify D (ed_pub_key D kp) m (hex_encode (ed_sign D kp m)) = Ok true.

  (** Digest sizes. *)
  Definition sha256_size : Prop := forall m, length (sha256 D m) = 32%nat.
  Definition sha384_size : Prop := forall m, length (sha384 D m) = 48%nat.
  Definition blake3_size : Prop := forall m, length (blake3 D m) = 32%nat.

  (** Public keys survive their hex text, which is UTF-8. *)
  Definition ed_hex_law : Prop :=
    forall k, utf8_valid (ed_pub_to_hex D k) = true /\ ed_pub_from_hex D (ed_pub_to_hex D k) = Some k.
  Definition dh_hex_law : Prop :=
    forall k, utf8_valid (dh_pub_to_hex D k) = true /\ dh_pub_from_hex D (dh_pub_to_hex D k) = Some k.

  (** The bytes of a public key determine it. *)
  Definition ed_bytes_inj : Prop := forall k k', ed_pub_bytes D k = ed_pub_bytes D k' -> k = k'.

  (** Reading a private key's PEM text gives the key pair back. *)
  Definition pem_law : Prop :=
    forall kp pem, ed_to_pem D (ed_priv_key D kp) = Ok pem ->
      utf8_valid pem = true /\ ed_from_pem D pem = Ok kp.

  (** JCS: any total order on member names, number texts made of number characters. *)
  Definition is_num_char (c : byte) : bool :=
    inr 48 57 c || beq c "-"%byte || beq c "+"%byte || beq c "."%byte || beq c "e"%byte || beq c "E"%byte.
  Definition num_token (t : bytes) : bool := negb (is_empty t) && forallb is_num_char t.
  Definition jcs_numbers : Prop := forall n, num_token (jcs_number D n) = true.
  Definition jcs_order : Prop :=
    (forall a b, jcs_leb D a b = true \/ jcs_leb D b a = true) /\
    (forall a b, jcs_leb D a b = true -> jcs_leb D b a = true -> a = b) /\
    (forall a b c, jcs_leb D a b = true -> jcs_leb D b c = true -> jcs_leb D a c = true).

  (** Sealing: opening with the same password returns the sealed secret (the PEM text of an EdDSA key,
      the hex text of an ECDH key pair). *)
  Definition ed_seal_law : Prop := forall rnd sk pw ks,
    ed_seal D rnd sk pw = Ok ks -> exists pem, ed_to_pem D sk = Ok pem /\ ks_decrypt D ks pw = Ok pem.
  Definition dh_seal_law : Prop := forall rnd kp pw ks,
    dh_seal D rnd kp pw = Ok ks -> ks_decrypt D ks pw = Ok (dh_to_hex D kp).
End Laws.
