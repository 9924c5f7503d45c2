(** C105: sealed keys are not bound to their place. *)
From Verif Require Import Base Codec Json Deps Types Doc Did Keys KeyStore Identity Proof Vc Suite JsonSpec Spec IdentitySpec VcSpec SuiteSpec FlowSpec MoveSpec MoveFacts
  Demo DemoFacts FlowDemo PropsIdentity PropsVc PropsSuite PropsFlow.

(** C105. "Stored keys that open are those of the method and the identity they stand under" is false, though every single sealed key is
    authenticated (C11, C93). With the keys of the two methods exchanged, the stored text is read and opens without error ... *)
Theorem C105_methods_refuted : forall D ks_json json_ks, ks_json_law D ks_json json_ks -> seals_wf D -> ed_seal_law D -> dh_seal_law D ->
  forall v (cs : list (icall D)) pw r1 r2 r3 r4 ks, utf8 v -> build_private_keys (irun (identity_new D v) cs) pw r1 r2 r3 r4 = Ok ks ->
  exists t, ipk_to_json ks_json D (turned ks) = Ok (JSONValue t) /\ ipk_from_slice json_ks D t = Some (turned ks) /\
    ipk_identity (turned ks) = v /\ opens_to (ipk_authentication (turned ks)) pw (first_assertion cs) /\ opens_to (ipk_assertion (turned ks)) pw (first_auth cs).
Proof. exact moved_turned. Qed.
Print Assumptions C105_methods_refuted.
(** ... and a credential signed with what is stored for assertions is accepted for the key published for authentication. *)
Theorem C105_signs_refuted : forall D ks_json json_ks, ks_json_law D ks_json json_ks -> seals_wf D -> ed_seal_law D -> dh_seal_law D ->
  pem_law D -> ed_correct D -> ed_hex_law D -> dh_hex_law D ->
  forall v (cs : list (icall D)) pw r1 r2 r3 r4 ks ed dh, utf8 v -> build_private_keys (irun (identity_new D v) cs) pw r1 r2 r3 r4 = Ok ks ->
  first_auth cs = Some (ed, dh) ->
  exists stored ks' p pem a e1 e2,
    ipk_to_json ks_json D (turned ks) = Ok (JSONValue stored) /\ ipk_from_slice json_ks D stored = Some ks' /\ ipk_identity ks' = v /\
    ipk_assertion ks' = Some p /\ decrypt_verification D p pw = Ok pem /\ account_from_pem D pem = Ok a /\
    doc_authentication (to_doc (irun (identity_new D v) cs)) = Some [e1; e2] /\
    exists pk, decode_pub_key D e1 = Ok (EdDSA D pk) /\
    forall c o c', vc_wf D c -> proof_wf o -> (depth (vc_subject c) <= 126)%nat -> vc_proof c = None -> p_value o = [] ->
      add_proof D (vc_proofable D) (acc_pair a) c o = Ok c' ->
      exists t, vc_to_json D c' = Ok (JSONValue t) /\
        verify_proof D (vc_proofable D) pk t (p_purpose o) = Ok {| verified := true; document := Some c |}.
Proof. exact moved_signs. Qed.
Print Assumptions C105_signs_refuted.
(** Keys that another identity sealed with the same password open under this one's name. *)
Theorem C105_identities_refuted : forall D ks_json json_ks, ks_json_law D ks_json json_ks -> seals_wf D -> ed_seal_law D -> dh_seal_law D ->
  forall v v' (cs cs' : list (icall D)) pw r1 r2 r3 r4 r1' r2' r3' r4' ks ks', utf8 v -> utf8 v' ->
  build_private_keys (irun (identity_new D v) cs) pw r1 r2 r3 r4 = Ok ks -> build_private_keys (irun (identity_new D v') cs') pw r1' r2' r3' r4' = Ok ks' ->
  exists t, ipk_to_json ks_json D (renamed ks ks') = Ok (JSONValue t) /\ ipk_from_slice json_ks D t = Some (renamed ks ks') /\
    ipk_identity (renamed ks ks') = v /\ opens_to (ipk_authentication (renamed ks ks')) pw (first_auth cs') /\ opens_to (ipk_assertion (renamed ks ks')) pw (first_assertion cs').
Proof. exact moved_renamed. Qed.
Print Assumptions C105_identities_refuted.
(** Within a method, what opens as a verification key may be the agreement key and the other way round. *)
Theorem C105_kinds_refuted : forall D ks_json json_ks, ks_json_law D ks_json json_ks -> seals_wf D -> ed_seal_law D -> dh_seal_law D ->
  forall v (cs : list (icall D)) pw r1 r2 r3 r4 ks ed dh p, utf8 v -> build_private_keys (irun (identity_new D v) cs) pw r1 r2 r3 r4 = Ok ks ->
  first_assertion cs = Some (ed, dh) -> ipk_assertion ks = Some p ->
  let k := {| ipk_identity := v; ipk_authentication := ipk_authentication ks; ipk_assertion := Some (crossed p) |} in
  exists t, ipk_to_json ks_json D k = Ok (JSONValue t) /\ ipk_from_slice json_ks D t = Some k /\
    decrypt_verification D (crossed p) pw = Ok (dh_to_hex D dh) /\
    exists pem, ed_to_pem D (ed_priv_key D ed) = Ok pem /\ decrypt_agreement D (crossed p) pw = Ok pem.
Proof. exact moved_crossed. Qed.
Print Assumptions C105_kinds_refuted.
(** An identity with two methods; its keys turned round open as each other's. *)
Definition slot_pem (pw : bytes) (o : option private_key_pairs) : option bytes :=
  match o with Some p => match decrypt_verification demo p pw with Ok pem => Some pem | Err _ => None end | None => None end.
Example C105_example :
  let r : ks_rand demo := (B "salt salt", B "nonce of twenty-four byt") in
  ks_json_law demo demo_ks_json demo_json_ks /\ seals_wf demo /\ ed_seal_law demo /\ dh_seal_law demo /\ pem_law demo /\ ed_correct demo /\
  ed_hex_law demo /\ dh_hex_law demo /\ utf8 (B "did:prople:z1") /\
  first_assertion demo_calls = Some (B "e1", B "d1") /\ first_auth demo_calls = Some (B "e3", B "d3") /\
  match build_private_keys (irun (identity_new demo (B "did:prople:z1")) demo_calls) (B "pw") r r r r with
  | Ok ks =>
    (exists a b, slot_pem (B "pw") (ipk_authentication ks) = Some a /\ slot_pem (B "pw") (ipk_assertion ks) = Some b /\ bytes_eqb a b = false /\
      slot_pem (B "pw") (ipk_authentication (turned ks)) = Some b /\ slot_pem (B "pw") (ipk_assertion (turned ks)) = Some a) /\
    slot_pem (B "no") (ipk_assertion (turned ks)) = None
  | Err _ => False
  end.
Proof.
  cbv zeta. destruct C48_example as (H1 & H2 & H3 & H4 & H5 & H6 & H7 & H8 & H9 & _ & H10 & H11 & _).
  do 11 (split; [assumption|]). vm_compute. split; [eexists _, _; repeat split; reflexivity|reflexivity].
Qed.
