(** C82: executions with several signers and a verifier. *)
From Verif Require Import Base Codec Json Deps Types Proof Vc Suite JsonSpec Spec VcSpec SuiteSpec FlowSpec CanonSpec ReadFacts ConnSpec WorldSpec WorldFacts
  Demo DemoFacts PropsVc PropsSuite.

(** C82. In every execution, when bytes are accepted for a key, the document was signed before, for the expected purpose,
    successfully and with that key (numbers up to their canonical text); or, given what was signed before, the key's holder
    is impersonated. *)
Theorem C82_vc : forall D run, Forall (event_wf D) run -> forall past pk s e future r, sha256_size D -> jcs_numbers D ->
  run = past ++ VerifiesVc D pk s e :: future ->
  verify_proof D (vc_proofable D) pk s e = Ok r -> verified r = true ->
  exists w o sig, document r = Some w /\ carried D (vc_proofable D) s o sig /\ p_purpose o = e /\
    ((exists kp v, In (Signs D kp (SignVc v o)) past /\ ed_pub_bytes D (ed_pub_key D kp) = ed_pub_bytes D pk /\
        signs_ok D kp (SignVc v o) = true /\ vc_renumbered (equal_canonical D) v w /\
        (all_numbers (fun _ => False) (vc_subject v) -> w = v)) \/
     attack D pk past o (vc_json w) sig).
Proof. exact run_vc. Qed.
Print Assumptions C82_vc.
Theorem C82_vp : forall D run, Forall (event_wf D) run -> forall past pk s e future r, sha256_size D -> jcs_numbers D ->
  run = past ++ VerifiesVp D pk s e :: future ->
  verify_proof D (vp_proofable D) pk s e = Ok r -> verified r = true ->
  exists w o sig, document r = Some w /\ carried D (vp_proofable D) s o sig /\ p_purpose o = e /\
    ((exists kp v, In (Signs D kp (SignVp v o)) past /\ ed_pub_bytes D (ed_pub_key D kp) = ed_pub_bytes D pk /\
        signs_ok D kp (SignVp v o) = true /\ vp_renumbered (equal_canonical D) v w /\
        (Forall (fun c => all_numbers (fun _ => False) (vc_subject c)) (vp_credentials v) -> w = v)) \/
     attack D pk past o (vp_json w) sig).
Proof. exact run_vp. Qed.
Print Assumptions C82_vp.
(** Two signers; one also fails to sign; the credential of the first is accepted with the first key only. *)
Definition other_key : ed_pair demo := B "another key".
Definition vague_proof : proof := with_purpose demo_proof Unknown.
Definition demo_past : list (event demo) :=
  [Signs demo other_key (SignVp demo_vp demo_proof); Signs demo demo_key (SignVc demo_vc demo_proof); Signs demo demo_key (SignVc demo_vc vague_proof)].
Example C82_example :
  let s := signed_text (vc_proofable demo) demo_vc demo_proof in
  Forall (event_wf demo) (demo_past ++ [VerifiesVc demo (ed_pub_key demo demo_key) s AssertionMethod]) /\ sha256_size demo /\ jcs_numbers demo /\
  map (fun ev => match ev with Signs _ kp x => signs_ok demo kp x | _ => false end) demo_past = [true; true; false] /\
  length (signed_by demo (ed_pub_key demo demo_key) demo_past) = 1%nat /\
  outcome_of (verify_proof demo (vc_proofable demo) (ed_pub_key demo demo_key) s AssertionMethod) = Some true /\
  outcome_of (verify_proof demo (vc_proofable demo) (ed_pub_key demo other_key) s AssertionMethod) = Some false.
Proof.
  cbv zeta. split; [repeat constructor; vm_compute; auto|]. split; [exact demo_sha256_size|]. split; [exact demo_jcs_numbers|].
  repeat split; vm_compute; reflexivity.
Qed.
