(** C75: from a DID URI to an accepted credential or presentation. *)
From Verif Require Import Base Codec Json JsonParse Deps Types Proof Vc Suite Did Doc Hashlink Identity JsonSpec Spec VcSpec SuiteSpec IdentitySpec FlowSpec
  CanonSpec ConnSpec ChainSpec ChainFacts Hash Demo DemoFacts FlowDemo PropsDid PropsIdentity PropsVc PropsSuite.

(** C75. A publisher puts the hashlink of its document in its DID URI. Whoever starts from that URI, checks the document it is
    offered against the hashlink, takes any EdDSA key of its assertion list and accepts bytes with that key: the document is the
    publisher's, the key is that of the pair the publisher generated, and what was accepted was signed with it, except for numbers
    with the same canonical text. Otherwise BLAKE3 or SHA-256 collides, or a signature was forged. *)
Theorem C75_vc : forall D (d : did D) i a (cs : list (icall D)) h uri, blake3_size D -> ed_hex_law D -> dh_hex_law D -> sha256_size D -> jcs_numbers D ->
  let dc := to_doc (irun i cs) in let text x := json_text (serde_number (f64_text D)) (doc_json x) in
  did_identity d = Ok i -> clean a -> generate_from_json D (doc_to_json D dc) = Ok h -> build_uri d (Some {| address := a; hl := Some h |}) = Ok uri ->
  forall history, Forall signing_wf history ->
  forall t v dc' pk s e r, resolved D uri t v dc' -> listed_key D (doc_assertion dc') pk ->
  verify_proof D (vc_proofable D) pk s e = Ok r -> verified r = true ->
  collision (blake3 D) (text dc') (text dc) \/
  v = id_value i /\ dc' = dc /\ exists ed dh w o sig, first_assertion cs = Some (ed, dh) /\ pk = ed_pub_key D ed /\ document r = Some w /\
    carried D (vc_proofable D) s o sig /\ p_purpose o = e /\
    ((exists c, In (SignVc c o) history /\ vc_renumbered (equal_canonical D) c w /\ (all_numbers (fun _ => False) (vc_subject c) -> w = c)) \/
     impersonated D (ed_pub_key D ed) history o (vc_json w) sig).
Proof. exact (fun D d i a cs h uri H1 H2 H3 H4 H5 H6 H7 H8 H9 => @vc_chain D H1 H2 H3 d i a cs h uri H6 H7 H8 H9 H4 H5). Qed.
Print Assumptions C75_vc.
(** The same for presentations and the authentication list. *)
Theorem C75_vp : forall D (d : did D) i a (cs : list (icall D)) h uri, blake3_size D -> ed_hex_law D -> dh_hex_law D -> sha256_size D -> jcs_numbers D ->
  let dc := to_doc (irun i cs) in let text x := json_text (serde_number (f64_text D)) (doc_json x) in
  did_identity d = Ok i -> clean a -> generate_from_json D (doc_to_json D dc) = Ok h -> build_uri d (Some {| address := a; hl := Some h |}) = Ok uri ->
  forall history, Forall signing_wf history ->
  forall t v dc' pk s e r, resolved D uri t v dc' -> listed_key D (doc_authentication dc') pk ->
  verify_proof D (vp_proofable D) pk s e = Ok r -> verified r = true ->
  collision (blake3 D) (text dc') (text dc) \/
  v = id_value i /\ dc' = dc /\ exists ed dh w o sig, first_auth cs = Some (ed, dh) /\ pk = ed_pub_key D ed /\ document r = Some w /\
    carried D (vp_proofable D) s o sig /\ p_purpose o = e /\
    ((exists c, In (SignVp c o) history /\ vp_renumbered (equal_canonical D) c w /\
        (Forall (fun x => all_numbers (fun _ => False) (vc_subject x)) (vp_credentials c) -> w = c)) \/
     impersonated D (ed_pub_key D ed) history o (vp_json w) sig).
Proof. exact (fun D d i a cs h uri H1 H2 H3 H4 H5 H6 H7 H8 H9 => @vp_chain D H1 H2 H3 d i a cs h uri H6 H7 H8 H9 H4 H5). Qed.
Print Assumptions C75_vp.
(** With the publisher's own document text all these steps succeed, and what the publisher signs is accepted. *)
Theorem C75_honest : forall D (d : did D) i a (cs : list (icall D)) h uri, blake3_size D -> ed_hex_law D -> dh_hex_law D -> ed_correct D ->
  let dc := to_doc (irun i cs) in
  did_identity d = Ok i -> clean a -> generate_from_json D (doc_to_json D dc) = Ok h -> build_uri d (Some {| address := a; hl := Some h |}) = Ok uri ->
  exists t, doc_to_json D dc = Ok (JSONValue t) /\ resolved D uri t (id_value i) dc /\
  (forall ed dh, first_assertion cs = Some (ed, dh) -> listed_key D (doc_assertion dc) (ed_pub_key D ed) /\
     forall c o c', vc_wf D c -> proof_wf o -> (depth (vc_subject c) <= 126)%nat -> vc_proof c = None -> p_value o = [] ->
       add_proof D (vc_proofable D) ed c o = Ok c' ->
       exists s, vc_to_json D c' = Ok (JSONValue s) /\
         verify_proof D (vc_proofable D) (ed_pub_key D ed) s (p_purpose o) = Ok {| verified := true; document := Some c |}) /\
  (forall ed dh, first_auth cs = Some (ed, dh) -> listed_key D (doc_authentication dc) (ed_pub_key D ed) /\
     forall c o c', vp_wf D c -> proof_wf o -> Forall (fun x => (depth (vc_subject x) <= 124)%nat) (vp_credentials c) -> vp_proof c = None -> p_value o = [] ->
       add_proof D (vp_proofable D) ed c o = Ok c' ->
       exists s, vp_to_json D c' = Ok (JSONValue s) /\
         verify_proof D (vp_proofable D) (ed_pub_key D ed) s (p_purpose o) = Ok {| verified := true; document := Some c |}).
Proof. exact (fun D d i a cs h uri H1 H2 H3 H4 H6 H7 H8 H9 => @chain_honest D H1 H2 H3 d i a cs h uri H6 H7 H8 H9 H4). Qed.
Print Assumptions C75_honest.
(** The whole way on the concrete instance: the honest document and credential are accepted, another document is not. *)
Definition demo_chain (other : bool) : option bool :=
  match did_identity demo_did with
  | Ok i =>
    let dc := to_doc (irun i demo_calls) in
    match generate_from_json demo (doc_to_json demo dc) with
    | Ok h =>
      match build_uri demo_did (Some {| address := Some (B "/ip4/1.2.3.4"); hl := Some h |}),
            doc_to_json demo (if other then to_doc (irun i (tl demo_calls)) else dc) with
      | Ok uri, Ok (JSONValue t) =>
        match parse_uri uri, doc_from_slice demo t with
        | Ret (Ok (_, {| hl := Some h' |})), Some dc' =>
          if is_ok (verify_from_json demo (doc_to_json demo dc') h') then
            match doc_assertion dc' with
            | Some (e :: _) =>
              match decode_pub_key demo e, add_proof demo (vc_proofable demo) (B "e1" : ed_pair demo) demo_vc demo_proof with
              | Ok (EdDSA _ pk), Ok v => match vc_to_json demo v with
                  | Ok (JSONValue s) => outcome_of (verify_proof demo (vc_proofable demo) pk s AssertionMethod) | _ => None end
              | _, _ => None end
            | _ => None end
          else None
        | _, _ => None end
      | _, _ => None end
    | _ => None end
  | _ => None end.
Example C75_example :
  blake3_size demo /\ ed_hex_law demo /\ dh_hex_law demo /\ sha256_size demo /\ jcs_numbers demo /\ ed_correct demo /\
  Forall signing_wf [SignVc demo_vc demo_proof; SignVp demo_vp demo_proof] /\ clean (Some (B "/ip4/1.2.3.4")) /\
  first_assertion demo_calls = Some (B "e1", B "d1") /\ demo_chain false = Some true /\ demo_chain true = None.
Proof.
  split; [exact demo_blake3_size|]. split; [exact demo_ed_hex|]. split; [exact demo_dh_hex|]. split; [exact demo_sha256_size|].
  split; [exact demo_jcs_numbers|]. split; [exact demo_ed_correct|]. split; [repeat constructor; vm_compute; auto|].
  split; [vm_compute; intuition discriminate|]. split; [reflexivity|]. split; vm_compute; reflexivity.
Qed.
