(** C48-C62: properties of several operations together, stored forms, and exact errors. *)
From Verif Require Import Base Codec Json JsonParse Deps Types Did Keys KeyStore Doc Identity Hashlink UserConnection Proof Vc Suite
  JsonSpec Spec IdentitySpec VcSpec SuiteSpec MiscSpec Grammar TextSpec FlowSpec JsonParseFacts DocTextFacts FlowFacts Demo DemoFacts FlowDemo
  PropsDid PropsIdentity PropsVc PropsSuite.

(** C48. The whole life of an identity: its keys are sealed and stored as JSON, its document is published as JSON.
    Whoever reads the stored keys and knows the password signs documents that everybody verifies with the key
    decoded from the published document. *)
Theorem C48_assertion : forall D ks_json json_ks,
  ks_json_law D ks_json json_ks -> seals_wf D -> ed_seal_law D -> dh_seal_law D -> pem_law D -> ed_correct D -> ed_hex_law D -> dh_hex_law D ->
  forall v (cs : list (icall D)) pw r1 r2 r3 r4 ks, utf8 v ->
  build_private_keys (irun (identity_new D v) cs) pw r1 r2 r3 r4 = Ok ks ->
  forall ed dh, first_assertion cs = Some (ed, dh) ->
  exists stored published ks' d p pem a e1 e2,
    ipk_to_json ks_json D ks = Ok (JSONValue stored) /\ doc_to_json D (to_doc (irun (identity_new D v) cs)) = Ok (JSONValue published) /\
    ipk_from_slice json_ks D stored = Some ks' /\ ipk_assertion ks' = Some p /\ decrypt_verification D p pw = Ok pem /\ account_from_pem D pem = Ok a /\
    doc_from_slice D published = Some d /\ doc_id d = v /\ doc_assertion d = Some [e1; e2] /\
    decrypt_agreement D p pw = Ok (dh_to_hex D dh) /\ decode_pub_key D e2 = Ok (ECDH D (dh_pub_key D dh)) /\
    exists pk, decode_pub_key D e1 = Ok (EdDSA D pk) /\
    forall c o c', vc_wf D c -> proof_wf o -> (depth (vc_subject c) <= 126)%nat -> vc_proof c = None -> p_value o = [] ->
      add_proof D (vc_proofable D) (acc_pair a) c o = Ok c' ->
      exists t, vc_to_json D c' = Ok (JSONValue t) /\
        verify_proof D (vc_proofable D) pk t (p_purpose o) = Ok {| verified := true; document := Some c |}.
Proof. exact life_assertion. Qed.
Print Assumptions C48_assertion.
Theorem C48_authentication : forall D ks_json json_ks,
  ks_json_law D ks_json json_ks -> seals_wf D -> ed_seal_law D -> dh_seal_law D -> pem_law D -> ed_correct D -> ed_hex_law D -> dh_hex_law D ->
  forall v (cs : list (icall D)) pw r1 r2 r3 r4 ks, utf8 v ->
  build_private_keys (irun (identity_new D v) cs) pw r1 r2 r3 r4 = Ok ks ->
  forall ed dh, first_auth cs = Some (ed, dh) ->
  exists stored published ks' d p pem a e1 e2,
    ipk_to_json ks_json D ks = Ok (JSONValue stored) /\ doc_to_json D (to_doc (irun (identity_new D v) cs)) = Ok (JSONValue published) /\
    ipk_from_slice json_ks D stored = Some ks' /\ ipk_authentication ks' = Some p /\ decrypt_verification D p pw = Ok pem /\ account_from_pem D pem = Ok a /\
    doc_from_slice D published = Some d /\ doc_id d = v /\ doc_authentication d = Some [e1; e2] /\
    decrypt_agreement D p pw = Ok (dh_to_hex D dh) /\ decode_pub_key D e2 = Ok (ECDH D (dh_pub_key D dh)) /\
    exists pk, decode_pub_key D e1 = Ok (EdDSA D pk) /\
    forall c o c', vp_wf D c -> proof_wf o -> Forall (fun x => (depth (vc_subject x) <= 124)%nat) (vp_credentials c) ->
      vp_proof c = None -> p_value o = [] ->
      add_proof D (vp_proofable D) (acc_pair a) c o = Ok c' ->
      exists t, vp_to_json D c' = Ok (JSONValue t) /\
        verify_proof D (vp_proofable D) pk t (p_purpose o) = Ok {| verified := true; document := Some c |}.
Proof. exact life_authentication. Qed.
Print Assumptions C48_authentication.
Definition demo_keys : result identity_private_keys keysecure_error :=
  let r : ks_rand demo := (B "salt salt", B "nonce of twenty-four byt") in
  build_private_keys (irun (identity_new demo (B "did:prople:z1")) demo_calls) (B "pw") r r r r.
Example C48_example :
  ks_json_law demo demo_ks_json demo_json_ks /\ seals_wf demo /\ ed_seal_law demo /\ dh_seal_law demo /\ pem_law demo /\ ed_correct demo /\
  ed_hex_law demo /\ dh_hex_law demo /\ utf8 (B "did:prople:z1") /\ is_ok demo_keys = true /\
  first_assertion demo_calls = Some (B "e1", B "d1") /\ first_auth demo_calls = Some (B "e3", B "d3") /\
  is_ok (add_proof demo (vc_proofable demo) (B "e1" : ed_pair demo) demo_vc demo_proof) = true /\
  is_ok (add_proof demo (vp_proofable demo) (B "e3" : ed_pair demo) demo_vp demo_proof) = true.
Proof.
  split; [exact demo_ks_json_law|]. split; [exact demo_seals_wf|]. split; [exact demo_ed_seal_law|]. split; [exact demo_dh_seal_law|].
  split; [exact demo_pem_law|]. split; [exact demo_ed_correct|]. split; [exact demo_ed_hex|]. split; [exact demo_dh_hex|].
  repeat split; vm_compute; reflexivity.
Qed.

(** C49. Reading a document and writing it again (relaying) keeps the document and every verification outcome,
    when the floats in it are ones that can be read back. *)
Theorem C49_vc_relay : forall D s v, vc_parse_json_bytes D s = Ok v -> vc_complete v -> vc_rereads D v ->
  exists t, vc_to_json D v = Ok (JSONValue t) /\ vc_parse_json_bytes D t = Ok v /\
    forall pk e, verify_proof D (vc_proofable D) pk t e = verify_proof D (vc_proofable D) pk s e.
Proof. exact vc_reserialised. Qed.
Print Assumptions C49_vc_relay.
Theorem C49_vp_relay : forall D s v, vp_parse_json_bytes D s = Ok v -> vp_complete v -> vp_rereads D v ->
  exists t, vp_to_json D v = Ok (JSONValue t) /\ vp_parse_json_bytes D t = Ok v /\
    forall pk e, verify_proof D (vp_proofable D) pk t e = verify_proof D (vp_proofable D) pk s e.
Proof. exact vp_reserialised. Qed.
Print Assumptions C49_vp_relay.
(** A text with blanks, members in another order, an unknown member and a float. *)
Definition relay_text : bytes :=
  B " { ""admin"" : true, ""credentialSubject"":{""b"":7e0,""a"":-3}, ""type"":[""t""], ""@context"":[""c""], ""issuer"":""me"", ""id"":""i"" } ".
Example C49_example :
  match vc_parse_json_bytes demo relay_text with
  | Ok v => vc_complete v /\ vc_rereads demo v /\
            vc_to_json demo v = Ok (JSONValue (B "{""@context"":[""c""],""type"":[""t""],""credentialSubject"":{""a"":-3,""b"":7e0},""id"":""i"",""issuer"":""me""}"))
  | Err _ => False end.
Proof. vm_compute. repeat split; discriminate. Qed.

(** C50. A text accepted both as a credential and as a presentation has one proof, for one purpose, whose
    signature holds for two different messages, unless two documents collide under SHA-256. *)
Theorem C50_same_proof : forall D s v w, vc_parse_json_bytes D s = Ok v -> vp_parse_json_bytes D s = Ok w ->
  vc_contexts v = vp_contexts w /\ vc_types v = vp_types w /\ vc_proof v = vp_proof w.
Proof. exact both_same. Qed.
Print Assumptions C50_same_proof.
Theorem C50_type_confusion : forall D, sha256_size D -> jcs_numbers D -> forall pk s e e' r r',
  verify_proof D (vc_proofable D) pk s e = Ok r -> verified r = true ->
  verify_proof D (vp_proofable D) pk s e' = Ok r' -> verified r' = true ->
  e = e' /\ exists v w p b sig,
    vc_parse_json_bytes D s = Ok v /\ vp_parse_json_bytes D s = Ok w /\ vc_proof v = Some p /\ vp_proof w = Some p /\
    mb_decode (mb_other D) (p_value p) = Some (b, sig) /\
    let j1 := vc_json (vc_with_proof v None) in let j2 := vp_json (vp_with_proof w None) in
    let m1 := message D (with_value p []) j1 in let m2 := message D (with_value p []) j2 in
    ed_verify D pk m1 (hex_encode sig) = Ok true /\ ed_verify D pk m2 (hex_encode sig) = Ok true /\
    (m1 <> m2 \/ collision (sha256 D) (canonical D j1) (canonical D j2)).
Proof. exact both_verify. Qed.
Print Assumptions C50_type_confusion.
(** Under a hash with collisions, a signed credential with a presentation's members added is accepted as both;
    under SHA-256 it is accepted as a credential only. *)
Definition weak_text (D : deps) (key : ed_pair D) : bytes :=
  match add_proof D (vc_proofable D) key demo_vc demo_proof with
  | Ok v => match vc_to_json D v with
            | Ok (JSONValue t) => firstn (length t - 1) t ++ B ",""holder"":""me"",""verifiableCredential"":[" ++ t ++ B "]}"
            | Err _ => [] end
  | Err _ => []
  end.
Example C50_example :
  sha256_size weak /\ jcs_numbers weak /\
  let k : ed_pair weak := demo_key in let s := weak_text weak k in
  outcome_of (verify_proof weak (vc_proofable weak) (ed_pub_key weak k) s AssertionMethod) = Some true /\
  outcome_of (verify_proof weak (vp_proofable weak) (ed_pub_key weak k) s AssertionMethod) = Some true /\
  let s := weak_text demo demo_key in
  outcome_of (verify_proof demo (vc_proofable demo) (ed_pub_key demo demo_key) s AssertionMethod) = Some true /\
  outcome_of (verify_proof demo (vp_proofable demo) (ed_pub_key demo demo_key) s AssertionMethod) = Some false.
Proof. split; [exact weak_sha256_size|]. split; [exact weak_jcs_numbers|]. cbv zeta. repeat split; vm_compute; reflexivity. Qed.

(** C51. Exactly which texts are DID documents, URI parameters and user connections, and what they mean. *)
Theorem C51_doc : forall D s d, doc_from_slice D s = Some d <-> text_of (is_doc d) s.
Proof. exact doc_text_iff. Qed.
Print Assumptions C51_doc.
Theorem C51_params : forall D s p, params_from_slice D s = Some p <-> text_of (is_params p) s.
Proof. exact params_text_iff. Qed.
Print Assumptions C51_params.
Theorem C51_user_connection : forall D s a d,
  uc_from_slice D s = Some {| user_connection_credential := {| uc_ctx := {| user_agent_address := a; user_did := d |} |} |} <->
  text_of (is_uc a d) s.
Proof. exact uc_text_iff. Qed.
Print Assumptions C51_user_connection.
Example C51_example :
  doc_from_slice demo (B " {""id"":""did:x"",""more"":[1,{}],""assertionMethod"":[{""publicKeyMultibase"":""z1"",""type"":""t"",""controller"":""c"",""id"":""i""}],""@context"":[],""authentication"":null}") =
    Some {| doc_context := []; doc_id := B "did:x"; doc_authentication := None; doc_cap_invoke := None; doc_cap_delegate := None;
            doc_assertion := Some [{| pr_id := B "i"; pr_controller := B "c"; pr_type := B "t"; pr_multibase := B "z1" |}] |} /\
  doc_from_slice demo (B "{""id"":""did:x"",""@context"":null}") = None /\
  doc_from_slice demo (B "{""id"":""did:x"",""@context"":[],""id"":""did:y""}") = None /\
  params_from_slice demo (B "{""hl"":""A"",""x"":1}") = Some {| address := None; hl := Some (B "A") |} /\
  params_from_slice demo (B "{""hl"":1}") = None /\
  uc_from_slice demo (B "{""UserConnectionCredential"":{""@context"":{""userDid"":""d""}}}") = None.
Proof. repeat split; vm_compute; reflexivity. Qed.

(** C52. URI parameters as JSON: the text, its round trip, and that different parameters have different texts. *)
Theorem C52_text : forall D p, params_to_json D p = JSONValue (json_text (serde_number (f64_text D)) (params_json p)).
Proof. exact params_text. Qed.
Print Assumptions C52_text.
Theorem C52_round_trip : forall D p, params_wf p -> exists t, params_to_json D p = JSONValue t /\ params_from_slice D t = Some p.
Proof. exact params_round_trip. Qed.
Print Assumptions C52_round_trip.
Theorem C52_injective : forall D p q, params_wf p -> params_wf q -> params_to_json D p = params_to_json D q -> p = q.
Proof. exact params_text_inj. Qed.
Print Assumptions C52_injective.
Theorem C52_read_wf : forall D s p, params_from_slice D s = Some p -> params_wf p.
Proof. exact params_read. Qed.
Print Assumptions C52_read_wf.
Example C52_example :
  let p := {| address := Some (B "a""b"); hl := None |} in
  params_wf p /\ params_to_json demo p = JSONValue (B "{""address"":""a\""b"",""hl"":null}") /\
  params_to_json demo {| address := Some []; hl := Some (B "h") |} = JSONValue (B "{""address"":"""",""hl"":""h""}").
Proof. repeat split; vm_compute; reflexivity. Qed.

(** C53. Sealed keys as JSON: the text, and that reading it gives the same sealed keys. *)
Theorem C53_text : forall D ks_json k,
  ipk_to_json ks_json D k = Ok (JSONValue (json_text (serde_number (f64_text D)) (ipk_json ks_json k))).
Proof. exact ipk_text. Qed.
Print Assumptions C53_text.
Theorem C53_round_trip : forall D ks_json json_ks, ks_json_law D ks_json json_ks ->
  forall k, ipk_wf k -> exists t, ipk_to_json ks_json D k = Ok (JSONValue t) /\ ipk_from_slice json_ks D t = Some k.
Proof. exact ipk_round_trip. Qed.
Print Assumptions C53_round_trip.
Definition demo_ks : keysecure :=
  {| ks_cipher_text := B "00ff"; ks_kdf_params := {| m_cost := 32; p_cost := 8; t_cost := 2; output_len := Some 32 |};
     ks_salt := B "s"; ks_nonce := B "ab"; ks_rest := B "r" |}.
Example C53_example :
  let k := {| ipk_identity := B "did:x"; ipk_authentication := None; ipk_assertion := Some {| pk_verification := demo_ks; pk_aggrement := demo_ks |} |} in
  ks_json_law demo demo_ks_json demo_json_ks /\ ipk_wf k /\
  let ks := B "{""cipher_text"":""00ff"",""kdf_params"":{""m_cost"":32,""output_len"":32,""p_cost"":8,""t_cost"":2},""nonce"":""ab"",""rest"":""r"",""salt"":""s""}" in
  ipk_to_json demo_ks_json demo k =
    Ok (JSONValue (B "{""identity"":""did:x"",""assertion"":{""verification"":" ++ ks ++ B ",""aggrement"":" ++ ks ++ B "}}")).
Proof. cbv zeta. split; [exact demo_ks_json_law|]. split; [|vm_compute; reflexivity]. repeat split. Qed.

(** C54. Whatever text was parsed, its parameters contain no separator, and the URI built again from them
    parses the same. *)
Theorem C54_parsed_clean : forall uri did p, parse_uri uri = Ret (Ok (did, p)) -> clean (address p) /\ clean (hl p).
Proof. exact uri_parsed_clean. Qed.
Print Assumptions C54_parsed_clean.
Theorem C54_rebuilt : forall D (d : did D) i uri p uri', did_identity d = Ok i -> parse_uri uri = Ret (Ok (id_value i, p)) ->
  build_uri d (match address p, hl p with None, None => None | _, _ => Some p end) = Ok uri' -> parse_uri uri' = parse_uri uri.
Proof. exact uri_rebuilt. Qed.
Print Assumptions C54_rebuilt.
Example C54_example :
  let uri := did_value demo_did ++ B "?x=1&hl=h=2&hl=h1&address=a?b" in
  let p := {| address := Some (B "a"); hl := Some (B "h1") |} in
  match parse_uri uri with
  | Ret (Ok (d, q)) => d = did_value demo_did /\ (clean (address q) /\ clean (hl q)) /\
      match build_uri demo_did (Some q) with Ok uri' => uri' <> uri /\ parse_uri uri' = parse_uri uri | Err _ => False end
  | _ => False end.
Proof. vm_compute. intuition discriminate. Qed.

(** C55. A URI carrying a document's hashlink: the receiver who gets the URI gets the hashlink back, and the only
    document it accepts is that one, unless two documents collide under BLAKE3. *)
Theorem C55_uri_hashlink : forall D, blake3_size D -> forall (d : did D) i a dc h uri,
  did_identity d = Ok i -> clean a -> generate_from_json D (doc_to_json D dc) = Ok h ->
  build_uri d (Some {| address := a; hl := Some h |}) = Ok uri ->
  parse_uri uri = Ret (Ok (id_value i, {| address := a; hl := Some h |})) /\
  forall dc', doc_wf dc -> doc_wf dc' ->
    (dc' = dc -> verify_from_json D (doc_to_json D dc') h = Ok tt) /\
    (verify_from_json D (doc_to_json D dc') h = Ok tt ->
     dc' = dc \/ collision (blake3 D) (json_text (serde_number (f64_text D)) (doc_json dc')) (json_text (serde_number (f64_text D)) (doc_json dc))).
Proof. exact uri_hashlink. Qed.
Print Assumptions C55_uri_hashlink.
Example C55_example :
  let dc := to_doc (irun (identity_new demo (B "did:prople:z1")) demo_calls) in
  let dc' := to_doc (irun (identity_new demo (B "did:prople:z2")) demo_calls) in
  blake3_size demo /\ clean (Some (B "/ip4/1.2.3.4")) /\
  match generate_from_json demo (doc_to_json demo dc) with
  | Ok h => is_ok (build_uri demo_did (Some {| address := Some (B "/ip4/1.2.3.4"); hl := Some h |})) = true /\
            is_ok (verify_from_json demo (doc_to_json demo dc) h) = true /\ is_ok (verify_from_json demo (doc_to_json demo dc') h) = false
  | Err _ => False end.
Proof. split; [exact demo_blake3_size|]. vm_compute. intuition discriminate. Qed.

(** C56. The address of parsed parameters as a multiaddr: every outcome, and through a URI. *)
Theorem C56_outcomes : forall D p,
  (forall r, parse_multiaddr D p = Ok r <->
     match r with Some a => exists s, address p = Some s /\ multiaddr D s = Ok a | None => address p = None end) /\
  (forall e, parse_multiaddr D p = Err e <-> exists s m, address p = Some s /\ multiaddr D s = Err m /\ e = GenerateMultiAddrError m).
Proof. exact multiaddr_outcomes. Qed.
Print Assumptions C56_outcomes.
Theorem C56_through_uri : forall D (d : did D) i s h uri, did_identity d = Ok i -> clean (Some s) -> clean h ->
  build_uri d (Some {| address := Some s; hl := h |}) = Ok uri ->
  exists p, parse_uri uri = Ret (Ok (id_value i, p)) /\
    parse_multiaddr D p = match multiaddr D s with Ok a => Ok (Some a) | Err m => Err (GenerateMultiAddrError m) end.
Proof. exact uri_multiaddr. Qed.
Print Assumptions C56_through_uri.
Example C56_example :
  clean (Some (B "/ip4/1.2.3.4")) /\ clean None /\
  is_ok (build_uri demo_did (Some {| address := Some (B "/ip4/1.2.3.4"); hl := None |})) = true /\
  parse_multiaddr demo {| address := Some (B "ip4"); hl := None |} = Err (GenerateMultiAddrError (B "invalid multiaddr")).
Proof. vm_compute. intuition discriminate. Qed.

(** C57. "A valid document for a DID contains keys of that DID's account" is false: for every identity value and
    every key pair there is a document that validates, survives transport, and gives that key for that DID. *)
Theorem C57_document_bound_to_did_refuted : forall D v (ed : ed_pair D) (dh : dh_pair D), ed_hex_law D -> utf8 v -> v <> [] ->
  exists dc t e1 e2, doc_id dc = v /\ doc_validate dc = Ok tt /\ doc_to_json D dc = Ok (JSONValue t) /\ doc_from_slice D t = Some dc /\
    doc_assertion dc = Some [e1; e2] /\ pr_controller e1 = v /\ decode_pub_key D e1 = Ok (EdDSA D (ed_pub_key D ed)).
Proof. exact doc_unbound. Qed.
Print Assumptions C57_document_bound_to_did_refuted.
Example C57_example :
  ed_hex_law demo /\ utf8 (did_value demo_did) /\ did_value demo_did <> [] /\
  bytes_eqb (ed_pub_key demo (acc_pair (did_account demo_did))) (ed_pub_key demo (B "the key of somebody else" : ed_pair demo)) = false.
Proof. split; [exact demo_ed_hex|]. vm_compute. intuition discriminate. Qed.

(** C58. A credential signed by its issuer and put in a presentation signed by its holder: the presentation
    verifies, and the credential taken out of it and written again verifies too. *)
Theorem C58_embedded : forall D issuer holder c o c' v q v', ed_correct D ->
  vc_wf D c -> proof_wf o -> (depth (vc_subject c) <= 124)%nat -> vc_proof c = None -> p_value o = [] ->
  add_proof D (vc_proofable D) issuer c o = Ok c' ->
  vp_wf D v -> proof_wf q -> Forall (fun c => (depth (vc_subject c) <= 124)%nat) (vp_credentials v) -> vp_proof v = None -> p_value q = [] ->
  In c' (vp_credentials v) ->
  add_proof D (vp_proofable D) holder v q = Ok v' ->
  exists t d c2 t2, vp_to_json D v' = Ok (JSONValue t) /\
    verify_proof D (vp_proofable D) (ed_pub_key D holder) t (p_purpose q) = Ok {| verified := true; document := Some d |} /\
    In c2 (vp_credentials d) /\ vc_to_json D c2 = Ok (JSONValue t2) /\
    verify_proof D (vc_proofable D) (ed_pub_key D issuer) t2 (p_purpose o) = Ok {| verified := true; document := Some c |}.
Proof. exact embedded_verifies. Qed.
Print Assumptions C58_embedded.
Example C58_example :
  match add_proof demo (vc_proofable demo) demo_key demo_vc demo_proof with
  | Ok c' =>
    let v := vp_add_credential demo_vp c' in
    In c' (vp_credentials v) /\ vp_proof v = None /\
    is_ok (add_proof demo (vp_proofable demo) (B "the holder's key" : ed_pair demo) v (with_purpose demo_proof Authentication)) = true
  | Err _ => False end.
Proof.
  destruct (add_proof demo (vc_proofable demo) demo_key demo_vc demo_proof) as [c'|] eqn:E.
  - cbv zeta. split; [cbn; auto|]. split; [reflexivity|]. assert (X : vc_complete c').
    { apply C29_vc_add_proof in E as (_ & _ & C & ->). exact C. }
    destruct (add_proof demo (vp_proofable demo) _ _ _) eqn:F; [reflexivity|]. exfalso.
    assert (G : exists v', add_proof demo (vp_proofable demo) (B "the holder's key" : ed_pair demo) (vp_add_credential demo_vp c') (with_purpose demo_proof Authentication) = Ok v').
    { eexists. apply C29_vp_add_proof. split; [split; [reflexivity|]; split; [reflexivity|]; do 2 eexists; split; reflexivity|].
      split; [discriminate|]. split; [repeat split; discriminate|]. reflexivity. }
    destruct G as [v' G]. rewrite G in F. discriminate.
  - assert (X : is_ok (add_proof demo (vc_proofable demo) demo_key demo_vc demo_proof) = true) by (vm_compute; reflexivity).
    rewrite E in X. discriminate.
Qed.

(** C59. The default user connection credential: it is the one built from the default properties, its exact text,
    and it can be read back. *)
Theorem C59_default : forall D,
  uc_to_json D uc_credential_default = uc_to_json D (uc_credential_new (uc_context_new uc_properties_default)) /\
  uc_to_json D uc_credential_default =
    Ok (JSONValue (json_text (serde_number (f64_text D))
      (uc_json (B "https://schema.org/identifier") (B "https://www.w3.org/2018/credentials/#VerifiableCredential")))) /\
  forall t, uc_to_json D uc_credential_default = Ok (JSONValue t) -> uc_from_slice D t = Some uc_credential_default.
Proof. exact uc_default_text. Qed.
Print Assumptions C59_default.
Example C59_example : is_ok (uc_to_json demo uc_credential_default) = true.
Proof. vm_compute. reflexivity. Qed.

(** C60. What a restored account signs verifies under the original account's public key. *)
Theorem C60_restored_signs : forall D (a : account D) pem m, ed_correct D -> pem_law D -> build_pem a = Ok pem ->
  exists a', account_from_pem D pem = Ok a' /\ ed_verify D (account_pubkey a) m (hex_encode (account_sign a' m)) = Ok true.
Proof. exact restored_signs. Qed.
Print Assumptions C60_restored_signs.
Example C60_example : ed_correct demo /\ pem_law demo /\ is_ok (build_pem (account_new demo (B "k1"))) = true.
Proof. split; [exact demo_ed_correct|]. split; [exact demo_pem_law|]. reflexivity. Qed.

(** C61. Exactly when signing fails, and with which error: the first check that fails decides. *)
Theorem C61_vc_signing_errors : forall D kp v o e,
  add_proof D (vc_proofable D) kp v o = Err e <-> first_failure (signing_checks D (vc_incomplete v) o) e.
Proof. exact vc_signing_errors. Qed.
Print Assumptions C61_vc_signing_errors.
Theorem C61_vp_signing_errors : forall D kp v o e,
  add_proof D (vp_proofable D) kp v o = Err e <-> first_failure (signing_checks D (vp_incomplete v) o) e.
Proof. exact vp_signing_errors. Qed.
Print Assumptions C61_vp_signing_errors.
Example C61_example :
  add_proof demo (vc_proofable demo) demo_key (vc_set_credential demo_vc JNull) (proof_created demo_proof (B "yesterday")) =
    Err (ProofGenerationError (B "input contains invalid characters")) /\
  add_proof demo (vc_proofable demo) demo_key (vc_set_credential demo_vc JNull) (proof_purpose demo_proof (B "x")) =
    Err (ProofGenerationError (B "error generate VC: vc_error: credential should not be null")) /\
  add_proof demo (vp_proofable demo) demo_key demo_vp (proof_purpose demo_proof (B "x")) =
    Err (ProofGenerationError (B "validation error: unknown proof purpose")).
Proof. repeat split; vm_compute; reflexivity. Qed.

(** C62. Exactly when verification fails (does not answer), and with which error. *)
Theorem C62_vc_verification_errors : forall D pk s x e,
  verify_proof D (vc_proofable D) pk s x = Err e <->
  vc_parse_json_bytes D s = Err e \/
  exists v, vc_parse_json_bytes D s = Ok v /\
    first_failure (verification_checks D (vc_incomplete v)
      (match vc_proof v with Some o => message D (with_value o []) (vc_json (vc_with_proof v None)) | None => [] end) pk x (vc_proof v)) e.
Proof. exact vc_verification_errors. Qed.
Print Assumptions C62_vc_verification_errors.
Theorem C62_vp_verification_errors : forall D pk s x e,
  verify_proof D (vp_proofable D) pk s x = Err e <->
  vp_parse_json_bytes D s = Err e \/
  exists v, vp_parse_json_bytes D s = Ok v /\
    first_failure (verification_checks D (vp_incomplete v)
      (match vp_proof v with Some o => message D (with_value o []) (vp_json (vp_with_proof v None)) | None => [] end) pk x (vp_proof v)) e.
Proof. exact vp_verification_errors. Qed.
Print Assumptions C62_vp_verification_errors.
Definition with_proof_text (o : proof) : bytes :=
  match vc_to_json demo (vc_set_proof demo_vc o) with Ok (JSONValue t) => t | Err _ => [] end.
Definition error_of {A} (r : result A proof_error) : bytes :=
  match r with Err (ProofGenerationError m) => B "gen " ++ m | Err (ProofVerificationError m) => B "ver " ++ m | _ => [] end.
Definition verify_error (s : bytes) : bytes :=
  error_of (verify_proof demo (vc_proofable demo) (ed_pub_key demo demo_key) s AssertionMethod).
Example C62_example :
  verify_error relay_text = B "ver missing document proof" /\
  verify_error (with_proof_text (with_value (with_purpose demo_proof KeyAgreement) (B "zzz"))) = B "ver mismatch proof purpose" /\
  verify_error (with_proof_text (with_value (proof_created demo_proof (B "yesterday")) (B "!"))) = B "ver Unknown base code" /\
  verify_error (with_proof_text (with_value (proof_created demo_proof (B "yesterday")) (B "zzz"))) = B "gen input contains invalid characters" /\
  verify_error (with_proof_text (with_value demo_proof (B "zzz"))) = B "ver bad signature".
Proof. repeat split; vm_compute; reflexivity. Qed.
