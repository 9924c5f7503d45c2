(** C22-C28: credentials, presentations and proofs as data. *)
From Coq Require Import Permutation.
From Verif Require Import Base Codec Json JsonParse Deps Types Proof Vc JsonSpec VcSpec JsonFacts JsonParseFacts VcFacts Demo DemoFacts.
Notation text D := (json_text (serde_number (f64_text D))).
Notation canonical_text D := (jcs_text (jcs_leb D) (jcs_number D)).

(** Values used in the examples. *)
Definition demo_subject : json := JObj [(B "age", JNum (PosInt 42)); (B "name", JStr (B "a""b"))].
Definition demo_proof : proof :=
  proof_run (proof_new (B "id1")) [PfPurpose (B "assertionMethod"); PfCreated (B "2024-01-02T03:04:05Z"); PfMethod (B "did:x#k")].
Definition demo_vc : vc :=
  vc_run (vc_new (B "urn:1") (B "did:prople:z1")) [VcAddContext (B "c1"); VcAddType (B "t1"); VcAddType (B "t2"); VcSetCredential demo_subject].
Definition demo_vp : vp :=
  vp_run vp_new [VpAddContext (B "c1"); VpAddType (B "t1"); VpAddCredential demo_vc; VpSetHolder (B "did:prople:z2")].

(** C22. A credential serializes exactly when it is complete; otherwise the first missing item is named. *)
Theorem C22_vc_to_json : forall D v,
  (forall t, vc_to_json D v = Ok t <-> vc_complete v /\ t = JSONValue (text D (vc_json v))) /\
  (forall e, vc_to_json D v = Err e <-> vc_missing v e).
Proof. exact vc_to_json_spec. Qed.
Print Assumptions C22_vc_to_json.
Theorem C22_vc_to_jcs : forall D v,
  (forall t, vc_to_jcs D v = Ok t <-> vc_complete v /\ t = canonical_text D (vc_json v)) /\
  (forall e, vc_to_jcs D v = Err e <-> vc_missing v e).
Proof. exact vc_to_jcs_spec. Qed.
Print Assumptions C22_vc_to_jcs.
Example C22_example :
  vc_complete demo_vc /\
  vc_to_json demo demo_vc = Ok (JSONValue (B "{""@context"":[""c1""],""type"":[""t1"",""t2""],""credentialSubject"":{""age"":42,""name"":""a\""b""},""id"":""urn:1"",""issuer"":""did:prople:z1""}")) /\
  vc_to_jcs demo demo_vc = Ok (B "{""@context"":[""c1""],""credentialSubject"":{""age"":42,""name"":""a\""b""},""id"":""urn:1"",""issuer"":""did:prople:z1"",""type"":[""t1"",""t2""]}") /\
  vc_missing (vc_new (B "urn:1") (B "did:x")) (GenerateVCError (B "vc_error: empty context")).
Proof. split; [repeat split; discriminate|]. split; [vm_compute; reflexivity|]. split; [vm_compute; reflexivity|]. left. split; reflexivity. Qed.

(** C23. The same for presentations ... *)
Theorem C23_vp_to_json : forall D v,
  (forall t, vp_to_json D v = Ok t <-> vp_complete v /\ t = JSONValue (text D (vp_json v))) /\
  (forall e, vp_to_json D v = Err e <-> vp_missing v e).
Proof. exact vp_to_json_spec. Qed.
Print Assumptions C23_vp_to_json.
Theorem C23_vp_to_jcs : forall D v,
  (forall t, vp_to_jcs D v = Ok t <-> vp_complete v /\ t = canonical_text D (vp_json v)) /\
  (forall e, vp_to_jcs D v = Err e <-> vp_missing v e).
Proof. exact vp_to_jcs_spec. Qed.
Print Assumptions C23_vp_to_jcs.
(** ... whose credentials are not validated: any credential, complete or not, is accepted inside. *)
Theorem C23_credentials_unchecked : forall D v c,
  vp_contexts v <> [] -> vp_types v <> [] -> exists t, vp_to_json D (vp_add_credential v c) = Ok t.
Proof. exact vp_credentials_unchecked. Qed.
Print Assumptions C23_credentials_unchecked.
Example C23_example :
  vp_complete demo_vp /\ vp_missing vp_new (GenerateJSONError (B "vp: empty context")) /\
  let bad := vc_new (B "urn:2") (B "did:x") in
  vc_missing bad (GenerateVCError (B "vc_error: empty context")) /\
  vp_to_json demo (vp_add_credential (vp_add_type (vp_add_context vp_new (B "c")) (B "t")) bad) =
  Ok (JSONValue (B "{""@context"":[""c""],""type"":[""t""],""verifiableCredential"":[{""@context"":[],""type"":[],""credentialSubject"":null,""id"":""urn:2"",""issuer"":""did:x""}]}")).
Proof. split; [repeat split; discriminate|]. split; [left; split; reflexivity|]. split; [left; split; reflexivity | vm_compute; reflexivity]. Qed.

(** C24. The JSON text reads back as the same object, within the parser's recursion limit and only there. *)
Theorem C24_vc_round_trip : forall D v t, vc_wf D v -> vc_to_json D v = Ok (JSONValue t) ->
  ((depth (vc_subject v) <= 126)%nat -> vc_parse_json_bytes D t = Ok v) /\
  ((126 < depth (vc_subject v))%nat -> exists e, vc_parse_json_bytes D t = Err e).
Proof. exact vc_round_trip. Qed.
Print Assumptions C24_vc_round_trip.
Theorem C24_vp_round_trip : forall D v t, vp_wf D v -> vp_to_json D v = Ok (JSONValue t) ->
  (Forall (fun c => (depth (vc_subject c) <= 124)%nat) (vp_credentials v) -> vp_parse_json_bytes D t = Ok v) /\
  (Exists (fun c => (124 < depth (vc_subject c))%nat) (vp_credentials v) -> exists e, vp_parse_json_bytes D t = Err e).
Proof. exact vp_round_trip. Qed.
Print Assumptions C24_vp_round_trip.
Fixpoint nested (n : nat) : json := match n with O => JArr [] | S n => JArr [nested n] end.
Example C24_example :
  vc_wf demo demo_vc /\ vp_wf demo demo_vp /\ vc_wf demo (vc_set_proof demo_vc demo_proof) /\
  (forall n, vc_wf demo (vc_set_credential demo_vc (nested n)) /\ depth (nested n) = S n).
Proof.
  assert (W : vc_wf demo demo_vc).
  { repeat split; try (repeat constructor); vm_compute; auto. }
  split; [exact W|]. split; [|split].
  - unfold vp_wf. split; [repeat constructor|]. split; [repeat constructor|]. split; [constructor; [exact W | constructor]|]. split; [exact I | reflexivity].
  - destruct W as (W1 & W2 & W3 & W4 & W5 & W6).
    split; [exact W1|]. split; [exact W2|]. split; [exact W3|]. split; [|split; [exact W5 | exact W6]]. repeat split; reflexivity.
  - intros n. split; [|induction n; cbn [nested depth fold_right]; [reflexivity | rewrite IHn; lia]].
    destruct W as (W1 & W2 & W3 & W4 & W5 & W6).
    split; [exact W1|]. split; [exact W2|]. split; [|split; [exact W4 | split; [exact W5 | exact W6]]].
    unfold subject_wf. cbn [vc_subject vc_set_credential]. clear. induction n; cbn; auto.
Qed.

(** C25. Builders: lists collect the added values in call order, other fields hold the last value set. *)
Theorem C25_vc_builder : forall id issuer cs, vc_run (vc_new id issuer) cs =
  {| vc_contexts := added vc_ctx cs; vc_types := added vc_typ cs; vc_subject := last_set vc_sub JNull cs;
     vc_proof := last_set vc_prf None cs; vc_id := id; vc_issuer := issuer |}.
Proof. exact vc_builder. Qed.
Print Assumptions C25_vc_builder.
Theorem C25_vc_builder_from : forall v cs, vc_run v cs =
  {| vc_contexts := vc_contexts v ++ added vc_ctx cs; vc_types := vc_types v ++ added vc_typ cs;
     vc_subject := last_set vc_sub (vc_subject v) cs; vc_proof := last_set vc_prf (vc_proof v) cs;
     vc_id := vc_id v; vc_issuer := vc_issuer v |}.
Proof. exact vc_builder_from. Qed.
Print Assumptions C25_vc_builder_from.
Theorem C25_vp_builder : forall cs, vp_run vp_new cs =
  {| vp_contexts := added vp_ctx cs; vp_types := added vp_typ cs; vp_credentials := added vp_crd cs;
     vp_proof := last_set vp_prf None cs; vp_holder := last_set vp_hld None cs |}.
Proof. exact vp_builder. Qed.
Print Assumptions C25_vp_builder.
Theorem C25_vp_builder_from : forall v cs, vp_run v cs =
  {| vp_contexts := vp_contexts v ++ added vp_ctx cs; vp_types := vp_types v ++ added vp_typ cs;
     vp_credentials := vp_credentials v ++ added vp_crd cs; vp_proof := last_set vp_prf (vp_proof v) cs;
     vp_holder := last_set vp_hld (vp_holder v) cs |}.
Proof. exact vp_builder_from. Qed.
Print Assumptions C25_vp_builder_from.
Theorem C25_proof_builder : forall id cs, proof_run (proof_new id) cs =
  {| p_id := id; p_typ := last_set pf_typ (B "DataIntegrityProof") cs; p_purpose := last_set pf_pur Unknown cs;
     p_value := last_set pf_val [] cs; p_method := last_set pf_met [] cs;
     p_created := last_set pf_cre None cs; p_expires := last_set pf_exp None cs;
     p_cryptosuite := last_set pf_sui (Some (B "eddsa-jcs-2022")) cs |}.
Proof. exact proof_builder. Qed.
Print Assumptions C25_proof_builder.
Theorem C25_proof_builder_from : forall p cs, proof_run p cs =
  {| p_id := p_id p; p_typ := last_set pf_typ (p_typ p) cs; p_purpose := last_set pf_pur (p_purpose p) cs;
     p_value := last_set pf_val (p_value p) cs; p_method := last_set pf_met (p_method p) cs;
     p_created := last_set pf_cre (p_created p) cs; p_expires := last_set pf_exp (p_expires p) cs;
     p_cryptosuite := last_set pf_sui (p_cryptosuite p) cs |}.
Proof. exact proof_builder_from. Qed.
Print Assumptions C25_proof_builder_from.
Example C25_example :
  let p := proof_run (proof_new (B "i")) [PfTyp (B "a"); PfSignature (B "s"); PfTyp (B "b"); PfRemoveValue; PfExpires (B "e")] in
  p_typ p = B "b" /\ p_value p = [] /\ p_expires p = Some (B "e") /\ p_created p = None /\
  vc_contexts demo_vc = [B "c1"] /\ vc_types demo_vc = [B "t1"; B "t2"] /\
  vc_proof (vc_run demo_vc [VcSetProof demo_proof; VcRemoveProof; VcAddType (B "t3")]) = None.
Proof. repeat split. Qed.

(** C26. Canonical texts are equal exactly when the data are. *)
Theorem C26_vc_canonical : forall D, jcs_order D -> jcs_numbers D -> forall a b ta tb,
  vc_unique a -> vc_unique b -> vc_to_jcs D a = Ok ta -> vc_to_jcs D b = Ok tb -> (ta = tb <-> same_vc D a b).
Proof. exact vc_to_jcs_canonical. Qed.
Print Assumptions C26_vc_canonical.
Theorem C26_vp_canonical : forall D, jcs_order D -> jcs_numbers D -> forall a b ta tb,
  vp_unique a -> vp_unique b -> vp_to_jcs D a = Ok ta -> vp_to_jcs D b = Ok tb -> (ta = tb <-> same_vp D a b).
Proof. exact vp_to_jcs_canonical. Qed.
Print Assumptions C26_vp_canonical.
Theorem C26_proof_canonical : forall D, jcs_numbers D -> forall p q,
  proof_to_jcs D p = proof_to_jcs D q <-> p = q.
Proof. exact proof_to_jcs_canonical. Qed.
Print Assumptions C26_proof_canonical.
(** Values in memory have unique member names. *)
Theorem C26_wf_unique : forall D, (forall v, vc_wf D v -> vc_unique v) /\ (forall v, vp_wf D v -> vp_unique v).
Proof. exact (fun D => conj (@vc_wf_unique D) (@vp_wf_unique D)). Qed.
Print Assumptions C26_wf_unique.
(** Two credentials with the same data in another member order, and one with other data. *)
Definition demo_subject2 : json := JObj [(B "name", JStr (B "a""b")); (B "age", JNum (PosInt 42))].
Example C26_example :
  jcs_order demo /\ jcs_numbers demo /\ vc_unique demo_vc /\
  let other := vc_set_credential demo_vc demo_subject2 in
  demo_vc <> other /\ same_vc demo demo_vc other /\ vc_to_jcs demo demo_vc = vc_to_jcs demo other /\
  bytes_eqb (match vc_to_jcs demo demo_vc with Ok t => t | Err _ => [] end)
            (match vc_to_jcs demo (vc_add_type demo_vc (B "t3")) with Ok t => t | Err _ => [] end) = false.
Proof.
  split; [exact demo_jcs_order|]. split; [exact demo_jcs_numbers|].
  split; [exact (vc_wf_unique (proj1 C24_example))|].
  split; [discriminate|]. split.
  - do 2 (split; [reflexivity|]). split; [|repeat split].
    cbn. repeat split; eexists; split; eauto; reflexivity.
  - split; vm_compute; reflexivity.
Qed.

(** C27. Reordering the members of any object in the subject, at any depth, leaves the canonical text. *)
Theorem C27_member_order : forall D, jcs_order D -> jcs_numbers D -> forall v j1 j2,
  unique_names j1 -> reordered j1 j2 -> vc_to_jcs D (vc_set_credential v j1) = vc_to_jcs D (vc_set_credential v j2).
Proof. exact vc_to_jcs_reordered. Qed.
Print Assumptions C27_member_order.
Example C27_example : unique_names demo_subject /\ reordered demo_subject demo_subject2 /\ demo_subject <> demo_subject2.
Proof.
  split; [exact (vc_wf_unique (proj1 C24_example))|]. split; [|discriminate].
  eapply ReObj; [|apply perm_swap]. repeat constructor.
Qed.

(** C28. Purpose names. *)
Theorem C28_purpose_of_text : forall s p, purpose_from s = p <-> named_purpose s p.
Proof. exact purpose_from_spec. Qed.
Print Assumptions C28_purpose_of_text.
Theorem C28_purpose_round_trip : forall p, purpose_from (purpose_text p) = p.
Proof. exact purpose_from_text. Qed.
Print Assumptions C28_purpose_round_trip.
Theorem C28_purpose_spellings : forall p, purpose_text p = purpose_name p /\ purpose_serde p = purpose_name p.
Proof. exact purpose_spellings. Qed.
Print Assumptions C28_purpose_spellings.
Example C28_example :
  purpose_from (B "keyAgreement") = KeyAgreement /\ purpose_from (B "KeyAgreement") = Unknown /\
  from_slice (f64_parse demo) purpose_schema (B " ""keyAgreement"" ") = Some (DEnum (B "keyAgreement")) /\
  from_slice (f64_parse demo) purpose_schema (B """KeyAgreement""") = None.
Proof. repeat split. Qed.
