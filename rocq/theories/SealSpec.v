(** Sealed private keys opened as accounts (C81). *)
From Verif Require Import Base Codec Deps Types Keys Doc Identity.

Section Seal.
  Variable D : deps.
  (** A law of prople-crypto: a sealed key holds the PEM text, encrypted under the password's hash with a nonce of 24 bytes. *)
  Definition ed_seal_form : Prop := forall rnd sk pw ks, ed_seal D rnd sk pw = Ok ks ->
    exists pem cipher key nonce, ed_to_pem D sk = Ok pem /\
      hex_decode (ks_cipher_text ks) = Some cipher /\ kdf D (ks_kdf_params ks) pw (ks_salt ks) = Ok key /\
      hex_decode (ks_nonce ks) = Some nonce /\ length nonce = 24%nat /\ aead_decrypt D key nonce cipher = Ok pem.
  (** Changing passwords: each time the key is opened with the present password and sealed with a new one. *)
  Fixpoint resealed (pw : bytes) (ks : keysecure) (changes : list (ks_rand D * bytes)) (pw' : bytes) (ks' : keysecure) : Prop :=
    match changes with
    | [] => pw' = pw /\ ks' = ks
    | (rnd, next) :: l => exists a k, account_from_keysecure D pw ks = Ok a /\ ed_seal D rnd (account_privkey a) next = Ok k /\ resealed next k l pw' ks'
    end.
  (** The sealed verification key of a slot opens as the account of the generated key. *)
  Definition slot_opens (o : option private_key_pairs) (pw : bytes) (k : option (ed_pair D * dh_pair D)) : Prop :=
    match o, k with
    | Some p, Some (ed, _) => account_from_keysecure D pw (pk_verification p) = Ok (account_new D ed)
    | None, None => True
    | _, _ => False
    end.
End Seal.
