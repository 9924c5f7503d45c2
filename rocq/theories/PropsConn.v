(** C72, C73: what accepted documents are, and connection credentials. *)
From Verif Require Import Base Codec Json JsonParse Deps Types Proof Vc Suite UserConnection JsonSpec Spec VcSpec SuiteSpec FlowSpec CanonSpec ConnSpec
  ReadFacts ConnFacts Demo DemoFacts CanonDemo PropsVc PropsSuite PropsCanon.

(** C72. An accepted document is one that was signed for the expected purpose, except that its numbers may be others
    with the same canonical text; without numbers it is that document itself. Otherwise there is a forgery or a collision. *)
Theorem C72_vc : forall D pk history s e r, sha256_size D -> jcs_numbers D -> Forall signing_wf history ->
  verify_proof D (vc_proofable D) pk s e = Ok r -> verified r = true ->
  exists w o sig, document r = Some w /\ carried D (vc_proofable D) s o sig /\ p_purpose o = e /\
    ((exists v, In (SignVc v o) history /\ vc_renumbered (equal_canonical D) v w /\
        (all_numbers (fun _ => False) (vc_subject v) -> w = v)) \/
     impersonated D pk history o (vc_json w) sig).
Proof. exact vc_accepted. Qed.
Print Assumptions C72_vc.
Theorem C72_vp : forall D pk history s e r, sha256_size D -> jcs_numbers D -> Forall signing_wf history ->
  verify_proof D (vp_proofable D) pk s e = Ok r -> verified r = true ->
  exists w o sig, document r = Some w /\ carried D (vp_proofable D) s o sig /\ p_purpose o = e /\
    ((exists v, In (SignVp v o) history /\ vp_renumbered (equal_canonical D) v w /\
        (Forall (fun c => all_numbers (fun _ => False) (vc_subject c)) (vp_credentials v) -> w = v)) \/
     impersonated D pk history o (vp_json w) sig).
Proof. exact vp_accepted. Qed.
Print Assumptions C72_vp.
Definition document_of {T} (r : result (verification_result T) proof_error) : option T := match r with Ok x => document x | Err _ => None end.
(** The numbers may really be others: the float 7, sent as canonical text, is accepted as the integer 7. *)
Example C72_example :
  let k : ed_pair rfc := B "key one" in
  let w := vc_set_credential float_vc (JObj [(B "rate", JNum (PosInt 7)); (B "sum", JNum (PosInt 5))]) in
  sha256_size rfc /\ jcs_numbers rfc /\ Forall signing_wf [SignVc float_vc demo_proof; SignVp demo_vp demo_proof] /\
  document_of (verify_proof rfc (vc_proofable rfc) (ed_pub_key rfc k) (signed_with rfc k float_vc (jcs_write rfc)) AssertionMethod) = Some w /\
  vc_renumbered (equal_canonical rfc) float_vc w /\ w <> float_vc.
Proof.
  cbv zeta. split; [exact demo_sha256_size|]. split; [exact rfc_numbers|].
  split; [repeat constructor; vm_compute; auto|]. split; [vm_compute; reflexivity|].
  split; [|vm_compute; discriminate]. eexists. split; [|reflexivity]. apply RObj.
  constructor; [split; [reflexivity|]|constructor; [split; [reflexivity|]|constructor]]; apply RNum; vm_compute; reflexivity.
Qed.

(** C73. A signed connection credential, sent and verified, tells its recipient the address and DID that were signed ... *)
Theorem C73_sent : forall D kp v o a d, ed_correct D -> vc_wf D v -> utf8 a -> utf8 d ->
  vc_contexts v <> [] -> vc_types v <> [] -> vc_proof v = None -> proof_wf o -> p_value o = [] -> options_ok D o -> p_purpose o <> Unknown ->
  exists v' t w, add_proof D (vc_proofable D) kp (vc_set_credential v (uc_json a d)) o = Ok v' /\ vc_to_json D v' = Ok (JSONValue t) /\
    verify_proof D (vc_proofable D) (ed_pub_key D kp) t (p_purpose o) = Ok {| verified := true; document := Some w |} /\
    uc_from_slice D (json_text (serde_number (f64_text D)) (vc_subject w)) = Some (connection a d).
Proof. exact connection_sent. Qed.
Print Assumptions C73_sent.
(** ... and where only connection credentials are signed, whatever is accepted is one of them, with its address and DID,
    or there is a forgery or a collision. *)
Theorem C73_bound : forall D pk history s e r, sha256_size D -> jcs_numbers D ->
  Forall (fun x => exists v o a d, x = SignVc v o /\ vc_shape (fun _ => True) v /\ vc_subject v = uc_json a d) history ->
  verify_proof D (vc_proofable D) pk s e = Ok r -> verified r = true ->
  exists w o sig, document r = Some w /\ carried D (vc_proofable D) s o sig /\ p_purpose o = e /\
    ((exists a d, In (SignVc w o) history /\ vc_subject w = uc_json a d /\
       uc_from_slice D (json_text (serde_number (f64_text D)) (vc_subject w)) = Some (connection a d)) \/
    impersonated D pk history o (vc_json w) sig).
Proof. exact connection_bound. Qed.
Print Assumptions C73_bound.
Example C73_example :
  let v := vc_set_credential demo_vc (uc_json (B "/ip4/10.0.0.1") (B "did:prople:z2")) in
  ed_correct demo /\ sha256_size demo /\ jcs_numbers demo /\ vc_wf demo demo_vc /\ vc_shape (fun _ => True) v /\ vc_contexts demo_vc <> [] /\ vc_types demo_vc <> [] /\
  vc_proof demo_vc = None /\ proof_wf demo_proof /\ p_value demo_proof = [] /\ options_ok demo demo_proof /\ p_purpose demo_proof <> Unknown /\
  document_of (verify_proof demo (vc_proofable demo) (ed_pub_key demo demo_key) (signed_text (vc_proofable demo) v demo_proof) AssertionMethod) = Some v /\
  uc_from_slice demo (json_text (serde_number (f64_text demo)) (vc_subject v)) = Some (connection (B "/ip4/10.0.0.1") (B "did:prople:z2")).
Proof.
  cbv zeta. split; [exact demo_ed_correct|]. split; [exact demo_sha256_size|]. split; [exact demo_jcs_numbers|]. split; [exact (proj1 C24_example)|].
  split; [repeat constructor; vm_compute; auto|]. split; [discriminate|]. split; [discriminate|]. split; [reflexivity|]. split; [repeat split; exact I|].
  split; [reflexivity|]. split; [exact (proj1 C29_example)|]. split; [discriminate|]. split; vm_compute; reflexivity.
Qed.
