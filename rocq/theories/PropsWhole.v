(** C97: accepted documents in terms of the standards, and dependencies that meet all assumptions at once. *)
From Coq Require Import ZArith.
From Verif Require Addr AddrDemo.
From Verif Require Import Base Codec Json JsonParse Deps Types Keys KeyStore Doc Identity Proof Vc Suite JsonSpec Spec IdentitySpec VcSpec SuiteSpec MiscSpec FlowSpec CanonSpec ReadFacts ConnSpec WorldSpec
  PropsVc Float FloatSpec FloatDemo FlowDemo TimeSpec BasesSpec DigestSpec AeadSpec SealSpec Ed25519 Ed25519Spec ShaSpec PemSpec X25519Spec X25519World Argon2Spec Argon2World PemWorld WholeSpec WholeFacts.

(** C97. With the signatures of RFC 8032, the hashes of the model and IEEE 754 numbers, in every execution, when bytes are accepted
    for a key, a document with these options was signed with that key before, with numbers of the same nearest floats; or the very
    signature in the bytes satisfies RFC 8032's equation for hashes that were not signed; or FIPS 180-4 gives the same digest to
    two texts, one signed and one accepted. *)
Theorem C97_vc : forall D, rfc8032 D -> real_hashes D -> ieee D -> forall run, Forall (@real_event D) run ->
  forall past pk s e future r, readable (ed_pub_bytes D pk) -> run = past ++ VerifiesVc D pk s e :: future ->
  verify_proof D (vc_proofable D) pk s e = Ok r -> verified r = true ->
  exists w o sig, document r = Some w /\ carried D (vc_proofable D) s o sig /\ p_purpose o = e /\
    ((exists kp v, In (Signs D kp (SignVc v o)) past /\ ed_pub_bytes D (ed_pub_key D kp) = ed_pub_bytes D pk /\
        signs_ok D kp (SignVc v o) = true /\ vc_renumbered same_float v w) \/
     forged D pk past o (vc_json w) sig \/ collides D pk past o (vc_json w)).
Proof. exact standard_vc. Qed.
Print Assumptions C97_vc.
Theorem C97_vp : forall D, rfc8032 D -> real_hashes D -> ieee D -> forall run, Forall (@real_event D) run ->
  forall past pk s e future r, readable (ed_pub_bytes D pk) -> run = past ++ VerifiesVp D pk s e :: future ->
  verify_proof D (vp_proofable D) pk s e = Ok r -> verified r = true ->
  exists w o sig, document r = Some w /\ carried D (vp_proofable D) s o sig /\ p_purpose o = e /\
    ((exists kp v, In (Signs D kp (SignVp v o)) past /\ ed_pub_bytes D (ed_pub_key D kp) = ed_pub_bytes D pk /\
        signs_ok D kp (SignVp v o) = true /\ vp_renumbered same_float v w) \/
     forged D pk past o (vp_json w) sig \/ collides D pk past o (vp_json w)).
Proof. exact standard_vp. Qed.
Print Assumptions C97_vp.
(** The assumptions of all properties about signing, sealing, reading and writing hold at once for concrete dependencies (with
    the number reading of C84; that of C86 is another), ... *)
Theorem C97_laws :
  rfc8032 whole /\ rfc7748 whole seed_bytes /\ real_hashes whole /\ ieee whole /\ multibase09 whole /\ chrono (-262143) 262142 whole /\ pkcs8 whole /\ xchacha whole /\ argon2 whole /\ ed_sealed whole /\
  ed_correct whole /\ ed_hex_law whole /\ ed_bytes_inj whole /\ dh_hex_law whole /\ pem_law whole /\ ed_seal_law whole /\ dh_seal_law whole /\ seals_wf whole /\
  ks_json_law whole demo_ks_json demo_json_ks /\ jcs_order whole /\ jcs_utf16 whole /\ jcs_numbers whole /\ jcs_stable whole /\ floats_written whole /\
  sha256_size whole /\ sha384_size whole /\ blake3_size whole /\ (exists view, Addr.multiaddr18 AddrDemo.nothing_else whole view).
Proof. exact whole_laws. Qed.
Print Assumptions C97_laws.
(** ... for which the life of an identity (C48) needs no assumptions: keys are sealed and stored, the document is published;
    whoever reads the stored keys and knows the password signs credentials that the published key verifies. *)
Theorem C97_life : forall v (cs : list (icall whole)) pw r1 r2 r3 r4 ks, utf8 v ->
  build_private_keys (irun (identity_new whole v) cs) pw r1 r2 r3 r4 = Ok ks ->
  forall ed dh, first_assertion cs = Some (ed, dh) ->
  exists stored published ks' d p pem a e1 e2,
    ipk_to_json demo_ks_json whole ks = Ok (JSONValue stored) /\ doc_to_json whole (to_doc (irun (identity_new whole v) cs)) = Ok (JSONValue published) /\
    ipk_from_slice demo_json_ks whole stored = Some ks' /\ ipk_assertion ks' = Some p /\ decrypt_verification whole p pw = Ok pem /\ account_from_pem whole pem = Ok a /\
    doc_from_slice whole published = Some d /\ doc_id d = v /\ doc_assertion d = Some [e1; e2] /\
    exists pk, decode_pub_key whole e1 = Ok (EdDSA whole pk) /\
    forall c o c', vc_shape real c -> proof_wf o -> (depth (vc_subject c) <= 126)%nat -> vc_proof c = None -> p_value o = [] ->
      add_proof whole (vc_proofable whole) (acc_pair a) c o = Ok c' ->
      exists t, vc_to_json whole c' = Ok (JSONValue t) /\
        verify_proof whole (vc_proofable whole) pk t (p_purpose o) = Ok {| verified := true; document := Some c |}.
Proof. exact whole_life. Qed.
Print Assumptions C97_life.
(** A run of these dependencies: a credential with 0.1, 5e-324 and -0.0 is signed, sent and accepted. *)
Example C97_example : exists t,
  let run := [Signs whole sevens (SignVc decimal_vc demo_proof); VerifiesVc whole (ed_pub_key whole sevens) t AssertionMethod] in
  Forall (@real_event whole) run /\ readable (ed_pub_bytes whole (ed_pub_key whole sevens)) /\ signs_ok whole sevens (SignVc decimal_vc demo_proof) = true /\
  verify_proof whole (vc_proofable whole) (ed_pub_key whole sevens) t AssertionMethod = Ok {| verified := true; document := Some decimal_vc |}.
Proof. exact whole_run. Qed.
