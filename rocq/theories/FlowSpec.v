(** Specification vocabulary of C48-C60. *)
From Verif Require Import Base Codec Json Deps Types Did Keys Doc UserConnection Proof Vc JsonParseFacts JsonSpec Spec Grammar TextSpec.
Set Implicit Arguments.

(** ** Stored keys (C48, C53) *)
Section Store.
  Variable ks_json : keysecure -> json.
  Definition pairs_json (p : private_key_pairs) : json :=
    JObj [(B "verification", ks_json (pk_verification p)); (B "aggrement", ks_json (pk_aggrement p))].
  Definition ipk_json (k : identity_private_keys) : json :=
    JObj ([(B "identity", JStr (ipk_identity k))]
          ++ opt_member "authentication" (option_map pairs_json (ipk_authentication k))
          ++ opt_member "assertion" (option_map pairs_json (ipk_assertion k))).
End Store.
(** What the Rust types of a [KeySecure] guarantee: strings are UTF-8, costs are u32, lengths are usize. *)
Definition u32 (n : N) : Prop := (n < 2 ^ 32)%N.
Definition ks_wf (k : keysecure) : Prop :=
  utf8 (ks_cipher_text k) /\ utf8 (ks_salt k) /\ utf8 (ks_nonce k) /\ utf8 (ks_rest k) /\
  u32 (m_cost (ks_kdf_params k)) /\ u32 (p_cost (ks_kdf_params k)) /\ u32 (t_cost (ks_kdf_params k)) /\
  opt_all (fun n => n < 2 ^ 64)%N (output_len (ks_kdf_params k)).
Definition pairs_wf (p : private_key_pairs) : Prop := ks_wf (pk_verification p) /\ ks_wf (pk_aggrement p).
Definition ipk_wf (k : identity_private_keys) : Prop :=
  utf8 (ipk_identity k) /\ opt_all pairs_wf (ipk_authentication k) /\ opt_all pairs_wf (ipk_assertion k).
Definition seals_wf (D : deps) : Prop :=
  (forall rnd k pw ks, ed_seal D rnd k pw = Ok ks -> ks_wf ks) /\ (forall rnd k pw ks, dh_seal D rnd k pw = Ok ks -> ks_wf ks).
(** A JSON form for [KeySecure] values: a well-formed value, not nested too deep, that can be read back. *)
Definition ks_json_law (D : deps) (ks_json : keysecure -> json) (json_ks : json -> option keysecure) : Prop :=
  forall k, ks_wf k -> json_ks (ks_json k) = Some k /\ value_ok (f64_text D) (f64_parse D) (ks_json k) /\ (depth (ks_json k) <= 125)%nat.

(** ** Numbers in a JSON value (C49) *)
Section Numbers.
  Variable P : number -> Prop.
  Fixpoint all_numbers (j : json) : Prop :=
    match j with
    | JNum n => P n
    | JArr l => fold_right (fun x Q => all_numbers x /\ Q) True l
    | JObj m => fold_right (fun kv Q => all_numbers (snd kv) /\ Q) True m
    | _ => True
    end.
End Numbers.
(** A float that is written as a text the parser reads as the same float. *)
Definition rereads (D : deps) (n : number) : Prop :=
  match n with Float b => parse_token (f64_parse D) (f64_text D b) = Some (Float b) | _ => True end.
Definition vc_rereads (D : deps) (v : vc) : Prop := all_numbers (rereads D) (vc_subject v).
Definition vp_rereads (D : deps) (v : vp) : Prop := Forall (vc_rereads D) (vp_credentials v).

(** ** Texts of DID documents, parameters and user connections (C51) *)
Definition is_primary (p : primary) : tree -> Prop :=
  is_object [required (B "id") (is_string (pr_id p)); required (B "controller") (is_string (pr_controller p));
             required (B "type") (is_string (pr_type p)); required (B "publicKeyMultibase") (is_string (pr_multibase p))].
Definition is_doc (d : doc) : tree -> Prop :=
  is_object [required (B "@context") (is_list is_string (doc_context d)); required (B "id") (is_string (doc_id d));
             optional (B "authentication") (is_list is_primary) (doc_authentication d);
             optional (B "capabilityInvocation") (is_list is_primary) (doc_cap_invoke d);
             optional (B "capabilityDelegation") (is_list is_primary) (doc_cap_delegate d);
             optional (B "assertionMethod") (is_list is_primary) (doc_assertion d)].
Definition is_params (p : params) : tree -> Prop :=
  is_object [optional (B "address") is_string (address p); optional (B "hl") is_string (hl p)].
Definition is_uc (agent_address did : bytes) : tree -> Prop :=
  is_object [required (B "UserConnectionCredential")
    (is_object [required (B "@context")
      (is_object [required (B "userAgentAddress") (is_string agent_address); required (B "userDid") (is_string did)])])].

(** ** Errors of signing and verification (C61, C62) *)
(** A check fails with some errors or none. The error reported is that of the first check that fails. *)
Fixpoint first_failure {E} (checks : list (E -> Prop)) (e : E) : Prop :=
  match checks with
  | [] => False
  | c :: l => c e \/ ((forall e', ~ c e') /\ first_failure l e)
  end.
Section Errors.
  Variable D : deps.
  Definition gen (P : bytes -> Prop) (e : proof_error) : Prop := exists m, P m /\ e = ProofGenerationError m.
  Definition ver (P : bytes -> Prop) (e : proof_error) : Prop := exists m, P m /\ e = ProofVerificationError m.
  Definition wrong_type (o : proof) (m : bytes) : Prop := p_typ o <> B "DataIntegrityProof" /\ m = B "invalid proof type".
  Definition wrong_suite (o : proof) (m : bytes) : Prop :=
    (p_cryptosuite o = None /\ m = B "missing cryptosuite") \/
    (exists s, p_cryptosuite o = Some s /\ s <> B "eddsa-jcs-2022" /\ m = B "invalid cryptosuite").
  Definition wrong_created (o : proof) (m : bytes) : Prop :=
    (p_created o = None /\ m = B "invalid created format") \/ (exists c, p_created o = Some c /\ datetime D c = Err m).
  Definition unknown_purpose (o : proof) (m : bytes) : Prop := p_purpose o = Unknown /\ m = B "validation error: unknown proof purpose".
  Definition vc_incomplete (v : vc) (m : bytes) : Prop :=
    (vc_contexts v = [] /\ m = B "error generate VC: vc_error: empty context") \/
    (vc_contexts v <> [] /\ vc_types v = [] /\ m = B "error generate VC: vc_error: empty types") \/
    (vc_contexts v <> [] /\ vc_types v <> [] /\ vc_subject v = JNull /\ m = B "error generate VC: vc_error: credential should not be null").
  Definition vp_incomplete (v : vp) (m : bytes) : Prop :=
    (vp_contexts v = [] /\ m = B "error generate JSON: vp: empty context") \/
    (vp_contexts v <> [] /\ vp_types v = [] /\ m = B "error generate JSON: vp: empty types") \/
    (vp_contexts v <> [] /\ vp_types v <> [] /\ vp_credentials v = [] /\ m = B "error generate JSON: vp: empty credentials").
  (** What signing checks, in order. *)
  Definition signing_checks (incomplete : bytes -> Prop) (o : proof) : list (proof_error -> Prop) :=
    [gen (wrong_type o); gen (wrong_suite o); gen (wrong_created o); gen incomplete; gen (unknown_purpose o)].
  (** What verification checks of a parsed document with proof [o], in order; [message] is the signed message. *)
  Definition verification_checks (incomplete : bytes -> Prop) (message : bytes) (pk : ed_pub D) (expected : purpose) (o : option proof)
    : list (proof_error -> Prop) :=
    match o with
    | None => [ver (fun m => m = B "missing document proof")]
    | Some o =>
      [ver (fun m => p_typ o = [] /\ m = B "validation error: missing type");
       ver (unknown_purpose o);
       ver (fun m => p_purpose o <> expected /\ m = B "mismatch proof purpose");
       ver (fun m => mb_decode (mb_other D) (p_value o) = None /\ m = mb_error D (p_value o));
       gen (wrong_type o); gen (wrong_suite o); gen incomplete; gen (wrong_created o);
       ver (fun m => exists b sig, mb_decode (mb_other D) (p_value o) = Some (b, sig) /\ ed_verify D pk message (hex_encode sig) = Err m)]
    end.
End Errors.
