(** C29-C38, C45-C47: signing and verification. *)
From Verif Require Import Base Codec Json JsonParse Deps Types Proof Vc Suite Spec JsonSpec VcSpec SuiteSpec SuiteFacts
  JsonParseFacts VcFacts Demo DemoFacts PropsVc.

(** C29. When signing succeeds, and the whole effect: only the proof is set, to the options with the
    signature over hash(options) ++ hash(document) as base58btc multibase text. *)
Theorem C29_vc_add_proof : forall D kp v o v',
  add_proof D (vc_proofable D) kp v o = Ok v' <->
  options_ok D o /\ p_purpose o <> Unknown /\ vc_complete v /\
  v' = vc_with_proof v (Some (with_value o (mb_encode58 (ed_sign D kp (message D o (vc_json v)))))).
Proof. exact (fun D => doc_add_proof (vc_doc_laws D)). Qed.
Print Assumptions C29_vc_add_proof.
Theorem C29_vp_add_proof : forall D kp v o v',
  add_proof D (vp_proofable D) kp v o = Ok v' <->
  options_ok D o /\ p_purpose o <> Unknown /\ vp_complete v /\
  v' = vp_with_proof v (Some (with_value o (mb_encode58 (ed_sign D kp (message D o (vp_json v)))))).
Proof. exact (fun D => doc_add_proof (vp_doc_laws D)). Qed.
Print Assumptions C29_vp_add_proof.
Theorem C29_errors : forall D T (P : proofable T) kp v o e, add_proof D P kp v o = Err e -> exists m, e = ProofGenerationError m.
Proof. exact add_proof_error. Qed.
Print Assumptions C29_errors.
Definition demo_key : ed_pair demo := B "key one".
Example C29_example :
  options_ok demo demo_proof /\ p_purpose demo_proof <> Unknown /\ vc_complete demo_vc /\ vp_complete demo_vp /\
  is_ok (add_proof demo (vc_proofable demo) demo_key demo_vc demo_proof) = true /\
  is_ok (add_proof demo (vc_proofable demo) demo_key demo_vc (proof_purpose demo_proof (B "nonsense"))) = false /\
  is_ok (add_proof demo (vc_proofable demo) demo_key demo_vc (proof_created demo_proof (B "yesterday"))) = false /\
  is_ok (add_proof demo (vc_proofable demo) demo_key (vc_set_credential demo_vc JNull) demo_proof) = false.
Proof.
  split; [split; [reflexivity|]; split; [reflexivity|]; do 2 eexists; split; reflexivity|].
  split; [discriminate|]. split; [repeat split; discriminate|]. split; [repeat split; discriminate|].
  repeat split; vm_compute; reflexivity.
Qed.

(** C30. A signed document, sent as JSON text, verifies and is returned as it was before signing. *)
Theorem C30_vc_transport : forall D kp v o v', ed_correct D ->
  vc_wf D v -> proof_wf o -> (depth (vc_subject v) <= 126)%nat ->
  vc_proof v = None -> p_value o = [] ->
  add_proof D (vc_proofable D) kp v o = Ok v' ->
  exists t, vc_to_json D v' = Ok (JSONValue t) /\
    verify_proof D (vc_proofable D) (ed_pub_key D kp) t (p_purpose o) = Ok {| verified := true; document := Some v |}.
Proof. exact (fun D => doc_transport (vc_doc_laws D)). Qed.
Print Assumptions C30_vc_transport.
Theorem C30_vp_transport : forall D kp v o v', ed_correct D ->
  vp_wf D v -> proof_wf o -> Forall (fun c => (depth (vc_subject c) <= 124)%nat) (vp_credentials v) ->
  vp_proof v = None -> p_value o = [] ->
  add_proof D (vp_proofable D) kp v o = Ok v' ->
  exists t, vp_to_json D v' = Ok (JSONValue t) /\
    verify_proof D (vp_proofable D) (ed_pub_key D kp) t (p_purpose o) = Ok {| verified := true; document := Some v |}.
Proof. exact (fun D => doc_transport (vp_doc_laws D)). Qed.
Print Assumptions C30_vp_transport.
Definition outcome_of {T} (r : result (verification_result T) proof_error) : option bool :=
  match r with Ok x => Some (verified x) | Err _ => None end.
Definition signed_text {T} (P : proofable T) (v : T) (o : proof) : bytes :=
  match add_proof demo P demo_key v o with
  | Ok v' => match pf_to_json P v' with Ok (JSONValue t) => t | Err _ => [] end
  | Err _ => []
  end.
Example C30_example :
  ed_correct demo /\ vc_wf demo demo_vc /\ vp_wf demo demo_vp /\ proof_wf demo_proof /\ p_value demo_proof = [] /\
  vc_proof demo_vc = None /\ vp_proof demo_vp = None /\
  outcome_of (verify_proof demo (vc_proofable demo) (ed_pub_key demo demo_key) (signed_text (vc_proofable demo) demo_vc demo_proof) AssertionMethod) = Some true /\
  outcome_of (verify_proof demo (vc_proofable demo) (B "another key" : ed_pub demo) (signed_text (vc_proofable demo) demo_vc demo_proof) AssertionMethod) = Some false /\
  outcome_of (verify_proof demo (vc_proofable demo) (ed_pub_key demo demo_key) (signed_text (vc_proofable demo) demo_vc demo_proof) Authentication) = None /\
  outcome_of (verify_proof demo (vp_proofable demo) (ed_pub_key demo demo_key) (signed_text (vp_proofable demo) demo_vp demo_proof) AssertionMethod) = Some true.
Proof.
  split; [exact demo_ed_correct|]. split; [exact (proj1 C24_example)|]. split; [exact (proj1 (proj2 C24_example))|].
  split; [repeat split; exact I|]. repeat (split; [reflexivity|]). repeat split; vm_compute; reflexivity.
Qed.

(** C31. Completeness without those two conditions is false: the result of signing again does not verify,
    barring a collision or a signature that is valid for two messages. *)
Theorem C31_vc_resigning_refuted : forall D kp v o v' t e r, sha256_size D -> jcs_numbers D ->
  vc_wf D v -> proof_wf o -> (depth (vc_subject v) <= 126)%nat ->
  (vc_proof v <> None \/ p_value o <> []) ->
  add_proof D (vc_proofable D) kp v o = Ok v' -> vc_to_json D v' = Ok (JSONValue t) ->
  verify_proof D (vc_proofable D) (ed_pub_key D kp) t e = Ok r -> verified r = true ->
  let m1 := message D o (vc_json v) in
  let m2 := message D (with_value o []) (vc_json (vc_with_proof v None)) in
  (m1 <> m2 /\ ed_verify D (ed_pub_key D kp) m2 (hex_encode (ed_sign D kp m1)) = Ok true) \/
  collision (sha256 D) (canonical D (proof_json o)) (canonical D (proof_json (with_value o []))) \/
  collision (sha256 D) (canonical D (vc_json v)) (canonical D (vc_json (vc_with_proof v None))).
Proof. exact (fun D => doc_resigning (vc_doc_laws D)). Qed.
Print Assumptions C31_vc_resigning_refuted.
Theorem C31_vp_resigning_refuted : forall D kp v o v' t e r, sha256_size D -> jcs_numbers D ->
  vp_wf D v -> proof_wf o -> Forall (fun c => (depth (vc_subject c) <= 124)%nat) (vp_credentials v) ->
  (vp_proof v <> None \/ p_value o <> []) ->
  add_proof D (vp_proofable D) kp v o = Ok v' -> vp_to_json D v' = Ok (JSONValue t) ->
  verify_proof D (vp_proofable D) (ed_pub_key D kp) t e = Ok r -> verified r = true ->
  let m1 := message D o (vp_json v) in
  let m2 := message D (with_value o []) (vp_json (vp_with_proof v None)) in
  (m1 <> m2 /\ ed_verify D (ed_pub_key D kp) m2 (hex_encode (ed_sign D kp m1)) = Ok true) \/
  collision (sha256 D) (canonical D (proof_json o)) (canonical D (proof_json (with_value o []))) \/
  collision (sha256 D) (canonical D (vp_json v)) (canonical D (vp_json (vp_with_proof v None))).
Proof. exact (fun D => doc_resigning (vp_doc_laws D)). Qed.
Print Assumptions C31_vp_resigning_refuted.
(** Signing succeeds and verification answers "not verified": the premises but the last are reachable. *)
Example C31_example :
  sha256_size demo /\ jcs_numbers demo /\
  outcome_of (verify_proof demo (vc_proofable demo) (ed_pub_key demo demo_key)
    (signed_text (vc_proofable demo) (vc_set_proof demo_vc demo_proof) demo_proof) AssertionMethod) = Some false /\
  outcome_of (verify_proof demo (vc_proofable demo) (ed_pub_key demo demo_key)
    (signed_text (vc_proofable demo) demo_vc (with_value demo_proof (B "x"))) AssertionMethod) = Some false.
Proof. split; [exact demo_sha256_size|]. split; [exact demo_jcs_numbers|]. split; vm_compute; reflexivity. Qed.

(** C32. Every answer of verification, exactly: it is [verified] iff the key accepts the signature. *)
Theorem C32_vc_verify : forall D pk s e r,
  verify_proof D (vc_proofable D) pk s e = Ok r <->
  exists v p b sig x,
    vc_parse_json_bytes D s = Ok v /\ vc_proof v = Some p /\ options_ok D p /\
    p_purpose p = e /\ e <> Unknown /\ vc_complete v /\
    mb_decode (mb_other D) (p_value p) = Some (b, sig) /\
    ed_verify D pk (message D (with_value p []) (vc_json (vc_with_proof v None))) (hex_encode sig) = Ok x /\
    r = {| verified := x; document := if x then Some (vc_with_proof v None) else None |}.
Proof. exact (fun D => doc_verify (vc_doc_laws D)). Qed.
Print Assumptions C32_vc_verify.
Theorem C32_vp_verify : forall D pk s e r,
  verify_proof D (vp_proofable D) pk s e = Ok r <->
  exists v p b sig x,
    vp_parse_json_bytes D s = Ok v /\ vp_proof v = Some p /\ options_ok D p /\
    p_purpose p = e /\ e <> Unknown /\ vp_complete v /\
    mb_decode (mb_other D) (p_value p) = Some (b, sig) /\
    ed_verify D pk (message D (with_value p []) (vp_json (vp_with_proof v None))) (hex_encode sig) = Ok x /\
    r = {| verified := x; document := if x then Some (vp_with_proof v None) else None |}.
Proof. exact (fun D => doc_verify (vp_doc_laws D)). Qed.
Print Assumptions C32_vp_verify.
Example C32_example :
  let s := signed_text (vc_proofable demo) demo_vc demo_proof in
  outcome_of (verify_proof demo (vc_proofable demo) (ed_pub_key demo demo_key) s AssertionMethod) = Some true /\
  outcome_of (verify_proof demo (vc_proofable demo) (ed_pub_key demo demo_key) (B " " ++ s ++ B " ") AssertionMethod) = Some true /\
  outcome_of (verify_proof demo (vc_proofable demo) (ed_pub_key demo demo_key) (s ++ B "x") AssertionMethod) = None /\
  outcome_of (verify_proof demo (vp_proofable demo) (ed_pub_key demo demo_key) s AssertionMethod) = None.
Proof. repeat split; vm_compute; reflexivity. Qed.

(** C33. Accepted bytes carry exactly the data of a document and options in the history of what was signed
    (credentials and presentations mixed), or there is a forgery, or a SHA-256 collision. *)
Theorem C33_vc_tamper_evident : forall D, sha256_size D -> jcs_numbers D ->
  forall pk history s e r, verify_proof D (vc_proofable D) pk s e = Ok r -> verified r = true ->
  exists v p b sig, vc_parse_json_bytes D s = Ok v /\ vc_proof v = Some p /\ mb_decode (mb_other D) (p_value p) = Some (b, sig) /\
    document r = Some (vc_with_proof v None) /\ p_purpose p = e /\ vc_unique v /\
    ((exists v0, In (SignVc v0 (with_value p [])) history /\ same_vc D v0 (vc_with_proof v None)) \/
     forgery D pk history (message D (with_value p []) (vc_json (vc_with_proof v None))) sig \/
     text_collision D history (with_value p []) (vc_json (vc_with_proof v None))).
Proof. exact @vc_tamper. Qed.
Print Assumptions C33_vc_tamper_evident.
Theorem C33_vp_tamper_evident : forall D, sha256_size D -> jcs_numbers D ->
  forall pk history s e r, verify_proof D (vp_proofable D) pk s e = Ok r -> verified r = true ->
  exists v p b sig, vp_parse_json_bytes D s = Ok v /\ vp_proof v = Some p /\ mb_decode (mb_other D) (p_value p) = Some (b, sig) /\
    document r = Some (vp_with_proof v None) /\ p_purpose p = e /\ vp_unique v /\
    ((exists v0, In (SignVp v0 (with_value p [])) history /\ same_vp D v0 (vp_with_proof v None)) \/
     forgery D pk history (message D (with_value p []) (vp_json (vp_with_proof v None))) sig \/
     text_collision D history (with_value p []) (vp_json (vp_with_proof v None))).
Proof. exact @vp_tamper. Qed.
Print Assumptions C33_vp_tamper_evident.
(** The signed document itself is accepted; one altered in transit is not. *)
Example C33_example :
  let s := signed_text (vc_proofable demo) demo_vc demo_proof in
  let altered := vc_add_type demo_vc (B "admin") in
  let forged := match add_proof demo (vc_proofable demo) demo_key demo_vc demo_proof with
                | Ok v => match vc_to_json demo (vc_add_type v (B "admin")) with Ok (JSONValue t) => t | _ => [] end
                | Err _ => [] end in
  sha256_size demo /\ jcs_numbers demo /\
  outcome_of (verify_proof demo (vc_proofable demo) (ed_pub_key demo demo_key) s AssertionMethod) = Some true /\
  outcome_of (verify_proof demo (vc_proofable demo) (ed_pub_key demo demo_key) forged AssertionMethod) = Some false.
Proof. split; [exact demo_sha256_size|]. split; [exact demo_jcs_numbers|]. split; vm_compute; reflexivity. Qed.

(** C34. A result has a document exactly when verified; the document is the parsed one without its proof,
    is complete, and can be signed again with the same options. *)
Theorem C34_vc_result : forall D pk s e r, verify_proof D (vc_proofable D) pk s e = Ok r ->
  (verified r = true <-> document r <> None) /\
  (forall d, document r = Some d ->
     exists v p, vc_parse_json_bytes D s = Ok v /\ d = vc_with_proof v None /\ vc_complete d /\ vc_proof v = Some p /\
       forall kp, exists d', add_proof D (vc_proofable D) kp d (with_value p []) = Ok d').
Proof. exact (fun D => doc_result (vc_doc_laws D)). Qed.
Print Assumptions C34_vc_result.
Theorem C34_vp_result : forall D pk s e r, verify_proof D (vp_proofable D) pk s e = Ok r ->
  (verified r = true <-> document r <> None) /\
  (forall d, document r = Some d ->
     exists v p, vp_parse_json_bytes D s = Ok v /\ d = vp_with_proof v None /\ vp_complete d /\ vp_proof v = Some p /\
       forall kp, exists d', add_proof D (vp_proofable D) kp d (with_value p []) = Ok d').
Proof. exact (fun D => doc_result (vp_doc_laws D)). Qed.
Print Assumptions C34_vp_result.
Example C34_example :
  match verify_proof demo (vc_proofable demo) (ed_pub_key demo demo_key) (signed_text (vc_proofable demo) demo_vc demo_proof) AssertionMethod with
  | Ok r => verified r = true /\ document r = Some demo_vc | Err _ => False end /\
  match verify_proof demo (vc_proofable demo) (B "another key" : ed_pub demo) (signed_text (vc_proofable demo) demo_vc demo_proof) AssertionMethod with
  | Ok r => verified r = false /\ document r = None | Err _ => False end.
Proof. split; vm_compute; split; reflexivity. Qed.

(** C35. Another purpose than the expected one, or the unknown one, is an error, and the same one whatever
    the key, the signature and the document. *)
Theorem C35_vc_purpose : forall D e p, p_purpose p <> e \/ p_purpose p = Unknown ->
  exists m, forall pk s v signature, vc_parse_json_bytes D s = Ok v -> vc_proof v = Some (with_value p signature) ->
    verify_proof D (vc_proofable D) pk s e = Err (ProofVerificationError m).
Proof. exact (fun D => doc_purpose D (vc_proofable D)). Qed.
Print Assumptions C35_vc_purpose.
Theorem C35_vp_purpose : forall D e p, p_purpose p <> e \/ p_purpose p = Unknown ->
  exists m, forall pk s v signature, vp_parse_json_bytes D s = Ok v -> vp_proof v = Some (with_value p signature) ->
    verify_proof D (vp_proofable D) pk s e = Err (ProofVerificationError m).
Proof. exact (fun D => doc_purpose D (vp_proofable D)). Qed.
Print Assumptions C35_vp_purpose.
Theorem C35_unknown_never : forall D pk s r r',
  verify_proof D (vc_proofable D) pk s Unknown <> Ok r /\ verify_proof D (vp_proofable D) pk s Unknown <> Ok r'.
Proof. exact (fun D pk s r r' => conj (doc_unknown (vc_doc_laws D) (pk := pk) (s := s) (r := r)) (doc_unknown (vp_doc_laws D) (pk := pk) (s := s) (r := r'))). Qed.
Print Assumptions C35_unknown_never.
(** Changing the purpose changes the signed message. *)
Theorem C35_purpose_signed : forall D, sha256_size D -> jcs_numbers D ->
  forall o j j' u, u <> p_purpose o -> message D o j = message D (with_purpose o u) j' ->
  collision (sha256 D) (canonical D (proof_json o)) (canonical D (proof_json (with_purpose o u))).
Proof. exact purpose_message. Qed.
Print Assumptions C35_purpose_signed.
Example C35_example :
  match verify_proof demo (vc_proofable demo) (ed_pub_key demo demo_key) (signed_text (vc_proofable demo) demo_vc demo_proof) Authentication with
  | Err e => e = ProofVerificationError (B "mismatch proof purpose") | Ok _ => False end /\
  bytes_eqb (message demo demo_proof (vc_json demo_vc)) (message demo (with_purpose demo_proof Authentication) (vc_json demo_vc)) = false.
Proof. split; vm_compute; reflexivity. Qed.

(** C36. "Expired proofs are rejected" is false: whatever the expiry, the signed document verifies. *)
Theorem C36_expiry_enforced_refuted : forall D kp v o x, ed_correct D ->
  vc_wf D v -> (depth (vc_subject v) <= 126)%nat -> vc_complete v -> vc_proof v = None ->
  proof_wf o -> p_value o = [] -> options_ok D o -> p_purpose o <> Unknown -> opt_all utf8 x ->
  exists v' t, add_proof D (vc_proofable D) kp v (with_expiry o x) = Ok v' /\ vc_to_json D v' = Ok (JSONValue t) /\
    verify_proof D (vc_proofable D) (ed_pub_key D kp) t (p_purpose o) = Ok {| verified := true; document := Some v |}.
Proof. exact vc_expiry. Qed.
Print Assumptions C36_expiry_enforced_refuted.
Theorem C36_vp_expiry_enforced_refuted : forall D kp v o x, ed_correct D ->
  vp_wf D v -> Forall (fun c => (depth (vc_subject c) <= 124)%nat) (vp_credentials v) -> vp_complete v -> vp_proof v = None ->
  proof_wf o -> p_value o = [] -> options_ok D o -> p_purpose o <> Unknown -> opt_all utf8 x ->
  exists v' t, add_proof D (vp_proofable D) kp v (with_expiry o x) = Ok v' /\ vp_to_json D v' = Ok (JSONValue t) /\
    verify_proof D (vp_proofable D) (ed_pub_key D kp) t (p_purpose o) = Ok {| verified := true; document := Some v |}.
Proof. exact vp_expiry. Qed.
Print Assumptions C36_vp_expiry_enforced_refuted.
Example C36_example :
  outcome_of (verify_proof demo (vc_proofable demo) (ed_pub_key demo demo_key)
    (signed_text (vc_proofable demo) demo_vc (with_expiry demo_proof (Some (B "1970-01-01T00:00:00Z")))) AssertionMethod) = Some true.
Proof. vm_compute. reflexivity. Qed.

(** C37. base58btc is a bijection, so a signature has one base58btc proof value ... *)
Theorem C37_base58_bijection :
  (forall x, base58_text (base58_encode x)) /\ (forall x y, base58_encode x = base58_encode y -> x = y) /\
  (forall t, base58_text t -> exists x, base58_encode x = t).
Proof. exact base58_bijection. Qed.
Print Assumptions C37_base58_bijection.
Theorem C37_one_base58_value : forall D t sig,
  mb_decode (mb_other D) t = Some (Base58Btc, sig) <-> t = proof_byte_encode sig.
Proof. exact proof_value_unique. Qed.
Print Assumptions C37_one_base58_value.
(** C37. ... but the verifier takes any base: the same signature in another encoding is accepted too. *)
Theorem C37_vc_reencoded : forall D pk s e d v p b sig u b',
  verify_proof D (vc_proofable D) pk s e = Ok {| verified := true; document := d |} ->
  vc_parse_json_bytes D s = Ok v -> vc_wf D v -> vc_proof v = Some p ->
  mb_decode (mb_other D) (p_value p) = Some (b, sig) ->
  utf8 u -> mb_decode (mb_other D) u = Some (b', sig) ->
  exists t, vc_to_json D (vc_with_proof v (Some (with_value p u))) = Ok (JSONValue t) /\
    verify_proof D (vc_proofable D) pk t e = Ok {| verified := true; document := d |}.
Proof. exact (fun D => doc_reencoded (vc_doc_laws D)). Qed.
Print Assumptions C37_vc_reencoded.
Theorem C37_vp_reencoded : forall D pk s e d v p b sig u b',
  verify_proof D (vp_proofable D) pk s e = Ok {| verified := true; document := d |} ->
  vp_parse_json_bytes D s = Ok v -> vp_wf D v -> vp_proof v = Some p ->
  mb_decode (mb_other D) (p_value p) = Some (b, sig) ->
  utf8 u -> mb_decode (mb_other D) u = Some (b', sig) ->
  exists t, vp_to_json D (vp_with_proof v (Some (with_value p u))) = Ok (JSONValue t) /\
    verify_proof D (vp_proofable D) pk t e = Ok {| verified := true; document := d |}.
Proof. exact (fun D => doc_reencoded (vp_doc_laws D)). Qed.
Print Assumptions C37_vp_reencoded.
Example C37_example :
  let hexed := match add_proof demo (vc_proofable demo) demo_key demo_vc demo_proof with
    | Ok v => match vc_proof v with
      | Some p => match mb_decode (mb_other demo) (p_value p) with
        | Some (_, sig) => match vc_to_json demo (vc_with_proof v (Some (with_value p (mb_encode16 sig)))) with Ok (JSONValue t) => t | _ => [] end
        | None => [] end
      | None => [] end
    | Err _ => [] end in
  bytes_eqb hexed (signed_text (vc_proofable demo) demo_vc demo_proof) = false /\
  outcome_of (verify_proof demo (vc_proofable demo) (ed_pub_key demo demo_key) hexed AssertionMethod) = Some true.
Proof. split; vm_compute; reflexivity. Qed.

(** C38. Layout of the signed message. *)
Theorem C38_layout : forall D, sha256_size D -> forall t c, exists m, generate_hash D t c = Ok m /\
  length m = 64%nat /\ firstn 32 m = sha256 D c /\ skipn 32 m = sha256 D t.
Proof. exact hash_layout. Qed.
Print Assumptions C38_layout.
Theorem C38_separated : forall D, sha256_size D -> forall t c t' c' m,
  generate_hash D t c = Ok m -> generate_hash D t' c' = Ok m ->
  (t = t' \/ collision (sha256 D) t t') /\ (c = c' \/ collision (sha256 D) c c').
Proof. exact hash_split. Qed.
Print Assumptions C38_separated.
Example C38_example : sha256_size demo /\
  match generate_hash demo (B "doc") (B "config"), generate_hash demo (B "config") (B "doc") with
  | Ok a, Ok b => bytes_eqb a b = false /\ firstn 32 a = skipn 32 b | _, _ => False end.
Proof. split; [exact demo_sha256_size|]. vm_compute. split; reflexivity. Qed.

(** C45. The generic layer, for every cryptosuite and document type. *)
Theorem C45_add_proof : forall D T (P : proofable T) (cs : cryptosuite D T) kp v o v',
  integrity_add_proof P cs kp v o = Ok v' <->
  exists p, cs_create_proof cs kp v o = Ok p /\ p_typ p <> [] /\ p_purpose p <> Unknown /\ v' = pf_setup_proof P v p.
Proof. exact integrity_add. Qed.
Print Assumptions C45_add_proof.
Theorem C45_verify_admitted : forall D T (P : proofable T) (cs : cryptosuite D T) pk s e v p,
  pf_parse_json_bytes P s = Ok v -> pf_get_proof P v = Some p -> p_typ p <> [] -> p_purpose p <> Unknown -> p_purpose p = e ->
  integrity_verify_proof P cs pk s e = cs_verify_proof cs pk v.
Proof. exact integrity_verify_ask. Qed.
Print Assumptions C45_verify_admitted.
(** Otherwise the answer is an error that does not depend on suite or key. *)
Theorem C45_verify_refused : forall D T (P : proofable T) s e,
  (forall v p, ~ (pf_parse_json_bytes P s = Ok v /\ pf_get_proof P v = Some p /\ p_typ p <> [] /\ p_purpose p <> Unknown /\ p_purpose p = e)) ->
  exists err, forall (cs : cryptosuite D T) pk, integrity_verify_proof P cs pk s e = Err err.
Proof. exact integrity_verify_not_ask. Qed.
Print Assumptions C45_verify_refused.
(** A suite that accepts everything shows the premises reachable. *)
Example C45_example :
  let yes : cryptosuite demo vc := {| cs_create_proof := fun _ _ o => Ok o; cs_verify_proof := fun _ v => Ok {| verified := true; document := Some v |} |} in
  let s := match vc_to_json demo (vc_set_proof demo_vc demo_proof) with Ok (JSONValue t) => t | _ => [] end in
  integrity_add_proof (vc_proofable demo) yes demo_key demo_vc demo_proof = Ok (vc_set_proof demo_vc demo_proof) /\
  integrity_verify_proof (vc_proofable demo) yes (B "pk" : ed_pub demo) s AssertionMethod = Ok {| verified := true; document := Some (vc_set_proof demo_vc demo_proof) |} /\
  is_ok (integrity_verify_proof (vc_proofable demo) yes (B "pk" : ed_pub demo) s KeyAgreement) = false /\
  is_ok (integrity_add_proof (vc_proofable demo) yes demo_key demo_vc (proof_purpose demo_proof [])) = false.
Proof. repeat split; vm_compute; reflexivity. Qed.

(** C46. "The credentials inside a verified presentation are verified" is false: any credential may be added
    before the holder signs. *)
Theorem C46_credentials_verified_refuted : forall D kp v c o, ed_correct D ->
  vp_wf D v -> vp_contexts v <> [] -> vp_types v <> [] -> vp_proof v = None ->
  Forall (fun c => (depth (vc_subject c) <= 124)%nat) (vp_credentials v) ->
  vc_wf D c -> (depth (vc_subject c) <= 124)%nat ->
  proof_wf o -> p_value o = [] -> options_ok D o -> p_purpose o <> Unknown ->
  exists v' t, add_proof D (vp_proofable D) kp (vp_add_credential v c) o = Ok v' /\ vp_to_json D v' = Ok (JSONValue t) /\
    verify_proof D (vp_proofable D) (ed_pub_key D kp) t (p_purpose o) =
    Ok {| verified := true; document := Some (vp_add_credential v c) |}.
Proof. exact vp_unverified_credential. Qed.
Print Assumptions C46_credentials_verified_refuted.
Example C46_example :
  let bogus := vc_set_proof demo_vc (with_value demo_proof (B "zzz")) in
  outcome_of (verify_proof demo (vp_proofable demo) (ed_pub_key demo demo_key)
    (signed_text (vp_proofable demo) (vp_add_credential demo_vp bogus) demo_proof) AssertionMethod) = Some true /\
  outcome_of (verify_proof demo (vc_proofable demo) (ed_pub_key demo demo_key)
    (match vc_to_json demo bogus with Ok (JSONValue t) => t | _ => [] end) AssertionMethod) = None.
Proof. split; vm_compute; reflexivity. Qed.

(** C47. "The verifying key is the one of the named issuer or verification method" is false: any names verify. *)
Theorem C47_key_linked_refuted : forall D kp v o method issuer, ed_correct D ->
  vc_wf D v -> (depth (vc_subject v) <= 126)%nat -> vc_complete v -> vc_proof v = None ->
  proof_wf o -> p_value o = [] -> options_ok D o -> p_purpose o <> Unknown -> utf8 method -> utf8 issuer ->
  let claimed := {| vc_contexts := vc_contexts v; vc_types := vc_types v; vc_subject := vc_subject v; vc_proof := None;
                    vc_id := vc_id v; vc_issuer := issuer |} in
  exists v' t, add_proof D (vc_proofable D) kp claimed (proof_method o method) = Ok v' /\ vc_to_json D v' = Ok (JSONValue t) /\
    verify_proof D (vc_proofable D) (ed_pub_key D kp) t (p_purpose o) = Ok {| verified := true; document := Some claimed |}.
Proof. exact vc_any_issuer. Qed.
Print Assumptions C47_key_linked_refuted.
Theorem C47_vp_key_linked_refuted : forall D kp v o method holder, ed_correct D ->
  vp_wf D v -> Forall (fun c => (depth (vc_subject c) <= 124)%nat) (vp_credentials v) -> vp_complete v -> vp_proof v = None ->
  proof_wf o -> p_value o = [] -> options_ok D o -> p_purpose o <> Unknown -> utf8 method -> opt_all utf8 holder ->
  let claimed := {| vp_contexts := vp_contexts v; vp_types := vp_types v; vp_credentials := vp_credentials v; vp_proof := None; vp_holder := holder |} in
  exists v' t, add_proof D (vp_proofable D) kp claimed (proof_method o method) = Ok v' /\ vp_to_json D v' = Ok (JSONValue t) /\
    verify_proof D (vp_proofable D) (ed_pub_key D kp) t (p_purpose o) = Ok {| verified := true; document := Some claimed |}.
Proof. exact vp_any_holder. Qed.
Print Assumptions C47_vp_key_linked_refuted.
Example C47_example :
  outcome_of (verify_proof demo (vc_proofable demo) (ed_pub_key demo demo_key)
    (signed_text (vc_proofable demo) demo_vc (proof_method demo_proof (B "did:someone-else#key"))) AssertionMethod) = Some true.
Proof. vm_compute. reflexivity. Qed.
