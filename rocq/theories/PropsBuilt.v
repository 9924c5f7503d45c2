(** C76: proof options built by their setters. *)
From Verif Require Import Base Codec Json Deps Types Proof Vc Suite JsonSpec Spec VcSpec SuiteSpec BuiltSpec BuiltFacts Demo DemoFacts PropsVc PropsSuite.

(** C76. Options started from the default ones sign a document of any type exactly when the type, the cryptosuite, the creation
    time and the purpose were all set, each the last time to an accepted value, and the document has a canonical text ... *)
Theorem C76_default : forall D T (P : proofable T) kp v cs,
  (exists v', add_proof D P kp v (proof_run proof_default cs) = Ok v') <->
  set_last PfTyp cs (B "DataIntegrityProof") /\ set_last PfCryptosuite cs (B "eddsa-jcs-2022") /\
  (exists c z, set_last PfCreated cs c /\ datetime D c = Ok z) /\
  (exists s u, set_last PfPurpose cs s /\ named_purpose s u /\ u <> Unknown) /\ exists t, pf_to_jcs P v = Ok t.
Proof. exact default_signs. Qed.
Print Assumptions C76_default.
(** ... options started from [Proof::new] may leave the type and the cryptosuite as they are ... *)
Theorem C76_new : forall D T (P : proofable T) kp v id cs,
  (exists v', add_proof D P kp v (proof_run (proof_new id) cs) = Ok v') <->
  (never_set PfTyp cs \/ set_last PfTyp cs (B "DataIntegrityProof")) /\ (never_set PfCryptosuite cs \/ set_last PfCryptosuite cs (B "eddsa-jcs-2022")) /\
  (exists c z, set_last PfCreated cs c /\ datetime D c = Ok z) /\
  (exists s u, set_last PfPurpose cs s /\ named_purpose s u /\ u <> Unknown) /\ exists t, pf_to_jcs P v = Ok t.
Proof. exact new_signs. Qed.
Print Assumptions C76_new.
(** ... and a document carrying options in which one of these was never set is not accepted with any key, for any purpose. *)
Theorem C76_unset : forall D T (P : proofable T) cs v s pk e, pf_parse_json_bytes P s = Ok v -> pf_get_proof P v = Some (proof_run proof_default cs) ->
  never_set PfTyp cs \/ never_set PfCryptosuite cs \/ never_set PfCreated cs \/ never_set PfPurpose cs ->
  exists m, verify_proof D P pk s e = Err m.
Proof. exact unset_rejected. Qed.
Print Assumptions C76_unset.
Theorem C76_default_fields : forall cs, proof_run proof_default cs =
  {| p_id := []; p_typ := last_set pf_typ [] cs; p_purpose := last_set pf_pur Unknown cs; p_value := last_set pf_val [] cs; p_method := last_set pf_met [] cs;
     p_created := last_set pf_cre None cs; p_expires := last_set pf_exp None cs; p_cryptosuite := last_set pf_sui None cs |}.
Proof. exact default_fields. Qed.
Print Assumptions C76_default_fields.
Definition all_set : list proof_call :=
  [PfTyp (B "x"); PfPurpose (B "authentication"); PfTyp (B "DataIntegrityProof"); PfCreated (B "2024-01-01T00:00:00Z"); PfCryptosuite (B "eddsa-jcs-2022");
   PfPurpose (B "assertionMethod"); PfMethod (B "m")].
Definition no_purpose : list proof_call := [PfTyp (B "DataIntegrityProof"); PfCreated (B "2024-01-01T00:00:00Z"); PfCryptosuite (B "eddsa-jcs-2022"); PfSignature (B "z1")].
Example C76_example :
  set_last PfTyp all_set (B "DataIntegrityProof") /\ set_last PfPurpose all_set (B "assertionMethod") /\ never_set PfPurpose no_purpose /\
  is_ok (add_proof demo (vc_proofable demo) demo_key demo_vc (proof_run proof_default all_set)) = true /\
  is_ok (add_proof demo (vc_proofable demo) demo_key demo_vc (proof_run proof_default no_purpose)) = false /\
  is_ok (add_proof demo (vc_proofable demo) demo_key demo_vc (proof_run (proof_new (B "i")) (skipn 3 all_set))) = true /\
  exists t, vc_to_json demo (vc_with_proof demo_vc (Some (proof_run proof_default no_purpose))) = Ok (JSONValue t) /\
    (exists v, vc_parse_json_bytes demo t = Ok v /\ vc_proof v = Some (proof_run proof_default no_purpose)) /\
    outcome_of (verify_proof demo (vc_proofable demo) (ed_pub_key demo demo_key) t Unknown) = None.
Proof.
  split; [exists [PfTyp (B "x"); PfPurpose (B "authentication")]; eexists; split; [reflexivity|]; intros y I; repeat destruct I as [I|I]; try discriminate; exact I|].
  split; [exists (firstn 5 all_set); eexists; split; [reflexivity|]; intros y I; repeat destruct I as [I|I]; try discriminate; exact I|].
  split; [intros y I; repeat destruct I as [I|I]; try discriminate; exact I|].
  split; [vm_compute; reflexivity|]. split; [vm_compute; reflexivity|]. split; [vm_compute; reflexivity|].
  eexists. split; [vm_compute; reflexivity|]. split; [eexists; split; vm_compute; reflexivity|]. vm_compute; reflexivity.
Qed.
