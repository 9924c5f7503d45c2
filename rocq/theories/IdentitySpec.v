(** Specification vocabulary for accounts, keys and identities (C12-C16). *)
From Verif Require Import Base Codec Deps Types Keys Doc Identity Spec.
Set Implicit Arguments.
Unset Strict Implicit.

Section IdentitySpec.
  Variable D : deps.
  (** One call, with the key pairs it generated. *)
  Definition icall := identity_call (ed_pair D) (dh_pair D).

  (** Its effect on an identity. *)
  Definition istep (i : identity D) (c : icall) : identity D :=
    match c with
    | CallAuth ed dh => build_auth_method i ed dh
    | CallAssertion ed dh => build_assertion_method i ed dh
    end.

  (** The identity after a history of calls. *)
  Definition irun (i : identity D) (cs : list icall) : identity D := fold_left istep cs i.

  (** The four key values of a method are those of the generated pairs; public keys are published as multibase (base58btc) of their hex text. *)
  Definition has_keys (m : verification_method D) (k : ed_pair D * dh_pair D) : Prop :=
    vp_priv_key (vm_verification m) = ed_priv_key D (fst k) /\
    vp_pub_key (vm_verification m) = mb_encode58 (ed_pub_to_hex D (ed_pub_key D (fst k))) /\
    ap_priv_key (vm_agreement m) = snd k /\
    ap_pub_key (vm_agreement m) = mb_encode58 (dh_pub_to_hex D (dh_pub_key D (snd k))).

  (** A slot holds the keys of [k], or both are absent. *)
  Definition slot_keys (o : option (verification_method D)) (k : option (ed_pair D * dh_pair D)) : Prop :=
    match o, k with Some m, Some k => has_keys m k | None, None => True | _, _ => False end.

  (** The two entries published for a method: verification key, then agreement key. *)
  Definition entries (v suffix_v suffix_a : bytes) (k : ed_pair D * dh_pair D) : list primary :=
    [ {| pr_id := v ++ suffix_v; pr_controller := v; pr_type := B "Ed25519VerificationKey2020";
         pr_multibase := mb_encode58 (ed_pub_to_hex D (ed_pub_key D (fst k))) |};
      {| pr_id := v ++ suffix_a; pr_controller := v; pr_type := B "X25519KeyAgreementKey2020";
         pr_multibase := mb_encode58 (dh_pub_to_hex D (dh_pub_key D (snd k))) |} ].

  (** All entries of a document. *)
  Definition all_entries (d : doc) : list primary :=
    match doc_authentication d with Some l => l | None => [] end ++
    match doc_cap_invoke d with Some l => l | None => [] end ++
    match doc_cap_delegate d with Some l => l | None => [] end ++
    match doc_assertion d with Some l => l | None => [] end.

  (** Reading the published entries gives the public keys of the generated pairs. *)
  Definition decodes_to (l : option (list primary)) (k : option (ed_pair D * dh_pair D)) : Prop :=
    match l, k with
    | Some [e1; e2], Some (ed, dh) =>
        decode_pub_key D e1 = Ok (EdDSA D (ed_pub_key D ed)) /\ decode_pub_key D e2 = Ok (ECDH D (dh_pub_key D dh))
    | None, None => True
    | _, _ => False
    end.

  (** What of an identity is public: its value and the public key strings. *)
  Definition public_method (m : verification_method D) : bytes * bytes :=
    (vp_pub_key (vm_verification m), ap_pub_key (vm_agreement m)).

  Definition public_part (i : identity D) : bytes * option (bytes * bytes) * option (bytes * bytes) :=
    (id_value i, option_map public_method (id_authentication i), option_map public_method (id_assertion i)).

  (** The slot contains the sealed keys of the method, each in its place; absent iff the method is. *)
  Definition sealed (m : option (verification_method D)) (rv ra : ks_rand D) (pw : bytes) (o : option private_key_pairs) : Prop :=
    match m, o with
    | Some m, Some p =>
        ed_seal D rv (vp_priv_key (vm_verification m)) pw = Ok (pk_verification p) /\
        dh_seal D ra (ap_priv_key (vm_agreement m)) pw = Ok (pk_aggrement p)
    | None, None => True
    | _, _ => False
    end.

  (** Opening the two parts of a slot gives the secrets of the generated keys. *)
  Definition opens_to (o : option private_key_pairs) (pw : bytes) (k : option (ed_pair D * dh_pair D)) : Prop :=
    match o, k with
    | Some p, Some (ed, dh) =>
        (exists pem, ed_to_pem D (ed_priv_key D ed) = Ok pem /\ decrypt_verification D p pw = Ok pem) /\
        decrypt_agreement D p pw = Ok (dh_to_hex D dh)
    | None, None => True
    | _, _ => False
    end.
End IdentitySpec.
