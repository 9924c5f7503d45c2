(** C69-C71: numbers in transported texts, canonical texts, and their member order. *)
From Coq Require Import Sorted Permutation.
From Verif Require Import Base Codec Json JsonParse Deps Types Proof Vc Suite JsonSpec Spec VcSpec SuiteSpec Grammar TextSpec FlowSpec CanonSpec
  JsonParseFacts ReadFacts CanonFacts OrderFacts Demo DemoFacts CanonDemo PropsVc PropsSuite.

(** C69. The JSON text of a document reads as the document with every number replaced by what its text means. *)
Theorem C69_vc_reads : forall D v w t, vc_shape (fun _ => True) v -> (depth (vc_subject v) <= 126)%nat -> vc_renumbered (json_reads D) v w ->
  vc_to_json D v = Ok (JSONValue t) -> vc_parse_json_bytes D t = Ok w.
Proof. exact vc_json_reads. Qed.
Print Assumptions C69_vc_reads.
Theorem C69_vp_reads : forall D v w t, vp_shape (fun _ => True) v -> Forall (fun c => (depth (vc_subject c) <= 124)%nat) (vp_credentials v) ->
  vp_renumbered (json_reads D) v w -> vp_to_json D v = Ok (JSONValue t) -> vp_parse_json_bytes D t = Ok w.
Proof. exact vp_json_reads. Qed.
Print Assumptions C69_vp_reads.
(** So it reads as the document itself exactly when every float in it is read back from its text. *)
Theorem C69_vc_lossless : forall D v t, floats_written D -> vc_shape in_range v -> (depth (vc_subject v) <= 126)%nat ->
  vc_to_json D v = Ok (JSONValue t) -> (vc_parse_json_bytes D t = Ok v <-> vc_rereads D v).
Proof. exact vc_rereads_iff. Qed.
Print Assumptions C69_vc_lossless.
Theorem C69_vp_lossless : forall D v t, floats_written D -> vp_shape in_range v -> Forall (fun c => (depth (vc_subject c) <= 124)%nat) (vp_credentials v) ->
  vp_to_json D v = Ok (JSONValue t) -> (vp_parse_json_bytes D t = Ok v <-> vp_rereads D v).
Proof. exact vp_rereads_iff. Qed.
Print Assumptions C69_vp_lossless.
(** A signed document verifies after transport when the numbers read have the canonical texts of those signed ... *)
Theorem C69_vc_same : forall D kp v o v' w t, ed_correct D -> jcs_order D -> jcs_numbers D ->
  vc_shape (fun _ => True) v -> (depth (vc_subject v) <= 126)%nat -> vc_proof v = None -> proof_wf o -> p_value o = [] ->
  add_proof D (vc_proofable D) kp v o = Ok v' -> vc_to_json D v' = Ok (JSONValue t) -> vc_renumbered (json_reads D) v w -> same_vc D v w ->
  verify_proof D (vc_proofable D) (ed_pub_key D kp) t (p_purpose o) = Ok {| verified := true; document := Some w |}.
Proof. exact vc_lossy_same. Qed.
Print Assumptions C69_vc_same.
Theorem C69_vp_same : forall D kp v o v' w t, ed_correct D -> jcs_order D -> jcs_numbers D ->
  vp_shape (fun _ => True) v -> Forall (fun c => (depth (vc_subject c) <= 124)%nat) (vp_credentials v) -> vp_proof v = None -> proof_wf o -> p_value o = [] ->
  add_proof D (vp_proofable D) kp v o = Ok v' -> vp_to_json D v' = Ok (JSONValue t) -> vp_renumbered (json_reads D) v w -> same_vp D v w ->
  verify_proof D (vp_proofable D) (ed_pub_key D kp) t (p_purpose o) = Ok {| verified := true; document := Some w |}.
Proof. exact vp_lossy_same. Qed.
Print Assumptions C69_vp_same.
(** ... and otherwise only by a forged signature or a hash collision. *)
Theorem C69_vc_other : forall D kp v o v' w t e r, sha256_size D -> jcs_numbers D ->
  vc_shape (fun _ => True) v -> (depth (vc_subject v) <= 126)%nat -> vc_proof v = None -> proof_wf o -> p_value o = [] ->
  add_proof D (vc_proofable D) kp v o = Ok v' -> vc_to_json D v' = Ok (JSONValue t) -> vc_renumbered (json_reads D) v w -> ~ same_vc D v w ->
  verify_proof D (vc_proofable D) (ed_pub_key D kp) t e = Ok r -> verified r = true ->
  impersonated D (ed_pub_key D kp) [SignVc v o] o (vc_json w) (ed_sign D kp (message D o (vc_json v))).
Proof. exact vc_lossy_other. Qed.
Print Assumptions C69_vc_other.
Theorem C69_vp_other : forall D kp v o v' w t e r, sha256_size D -> jcs_numbers D ->
  vp_shape (fun _ => True) v -> Forall (fun c => (depth (vc_subject c) <= 124)%nat) (vp_credentials v) -> vp_proof v = None -> proof_wf o -> p_value o = [] ->
  add_proof D (vp_proofable D) kp v o = Ok v' -> vp_to_json D v' = Ok (JSONValue t) -> vp_renumbered (json_reads D) v w -> ~ same_vp D v w ->
  verify_proof D (vp_proofable D) (ed_pub_key D kp) t e = Ok r -> verified r = true ->
  impersonated D (ed_pub_key D kp) [SignVp v o] o (vp_json w) (ed_sign D kp (message D o (vp_json v))).
Proof. exact vp_lossy_other. Qed.
Print Assumptions C69_vp_other.
(** "Every signed credential verifies after transport, whatever numbers it holds" is false: it needs floats that are read back. *)
Theorem C69_any_numbers_refuted : exists D kp v o v' t r,
  ed_correct D /\ sha256_size D /\ jcs_order D /\ jcs_numbers D /\ floats_written D /\
  vc_shape in_range v /\ (depth (vc_subject v) <= 126)%nat /\ vc_proof v = None /\ proof_wf o /\ p_value o = [] /\
  add_proof D (vc_proofable D) kp v o = Ok v' /\ vc_to_json D v' = Ok (JSONValue t) /\
  verify_proof D (vc_proofable D) (ed_pub_key D kp) t (p_purpose o) = Ok r /\ verified r = false.
Proof. exact lossy_transport. Qed.
Print Assumptions C69_any_numbers_refuted.
Definition signed_with (D : deps) (kp : ed_pair D) (v : vc) (write : vc -> bytes) : bytes :=
  match add_proof D (vc_proofable D) kp v demo_proof with Ok v' => write v' | Err _ => [] end.
Definition plain_write (D : deps) (v : vc) : bytes := match vc_to_json D v with Ok (JSONValue t) => t | Err _ => [] end.
Definition jcs_write (D : deps) (v : vc) : bytes := match vc_to_jcs D v with Ok t => t | Err _ => [] end.
Definition even_vc : vc := vc_set_credential demo_vc even_subject.
(** A parser that clears the lowest bit of a float: 7 is read as 6, 8 as 8. *)
Example C69_example :
  floats_written lossy /\ vc_shape in_range float_vc /\ vc_shape in_range even_vc /\
  vc_renumbered (json_reads lossy) float_vc (with_subject float_vc (JObj [(B "rate", JNum (Float 6)); (B "sum", JNum (PosInt 5))])) /\
  ~ same_vc lossy float_vc (with_subject float_vc (JObj [(B "rate", JNum (Float 6)); (B "sum", JNum (PosInt 5))])) /\
  vc_renumbered (json_reads lossy) even_vc even_vc /\ vc_rereads lossy even_vc /\ ~ vc_rereads lossy float_vc /\
  outcome_of (verify_proof lossy (vc_proofable lossy) (ed_pub_key lossy lossy_key) (signed_with lossy lossy_key even_vc (plain_write lossy)) AssertionMethod) = Some true.
Proof.
  split; [exact lossy_floats|]. split; [exact float_shape|]. split; [exact even_shape|]. split; [|split; [|split; [|split; [|split]]]].
  - exists (JObj [(B "rate", JNum (Float 6)); (B "sum", JNum (PosInt 5))]). split; [|reflexivity]. exact float_read.
  - exact float_changed.
  - exists (vc_subject even_vc). split; [exact even_read|reflexivity].
  - exact even_rereads.
  - exact float_lost.
  - vm_compute. reflexivity.
Qed.

(** C70. The canonical text reads as the document with canonical numbers, which has the same canonical text ... *)
Theorem C70_vc_reads : forall D v w t, vc_shape (fun _ => True) v -> (depth (vc_subject v) <= 126)%nat -> vc_renumbered (jcs_reads D) v w ->
  vc_to_jcs D v = Ok t -> vc_parse_json_bytes D t = Ok w.
Proof. exact vc_jcs_reads. Qed.
Print Assumptions C70_vc_reads.
Theorem C70_vp_reads : forall D v w t, vp_shape (fun _ => True) v -> Forall (fun c => (depth (vc_subject c) <= 124)%nat) (vp_credentials v) ->
  vp_renumbered (jcs_reads D) v w -> vp_to_jcs D v = Ok t -> vp_parse_json_bytes D t = Ok w.
Proof. exact vp_jcs_reads. Qed.
Print Assumptions C70_vp_reads.
Theorem C70_vc_fixed : forall D v t, jcs_stable D -> vc_shape in_range v -> (depth (vc_subject v) <= 126)%nat -> vc_to_jcs D v = Ok t ->
  exists w, vc_renumbered (jcs_reads D) v w /\ vc_parse_json_bytes D t = Ok w /\ vc_to_jcs D w = Ok t.
Proof. exact vc_canonical_fixed. Qed.
Print Assumptions C70_vc_fixed.
Theorem C70_vp_fixed : forall D v t, jcs_stable D -> vp_shape in_range v -> Forall (fun c => (depth (vc_subject c) <= 124)%nat) (vp_credentials v) ->
  vp_to_jcs D v = Ok t -> exists w, vp_renumbered (jcs_reads D) v w /\ vp_parse_json_bytes D t = Ok w /\ vp_to_jcs D w = Ok t.
Proof. exact vp_canonical_fixed. Qed.
Print Assumptions C70_vp_fixed.
(** ... so a signed document sent as canonical text always verifies, also when its floats are not read back. *)
Theorem C70_vc_transport : forall D kp v o v' t, ed_correct D -> jcs_stable D ->
  vc_shape in_range v -> (depth (vc_subject v) <= 126)%nat -> vc_proof v = None -> proof_wf o -> p_value o = [] ->
  add_proof D (vc_proofable D) kp v o = Ok v' -> vc_to_jcs D v' = Ok t ->
  exists w c, vc_renumbered (jcs_reads D) v w /\ vc_to_jcs D v = Ok c /\ vc_to_jcs D w = Ok c /\
    verify_proof D (vc_proofable D) (ed_pub_key D kp) t (p_purpose o) = Ok {| verified := true; document := Some w |}.
Proof. exact vc_canonical_transport. Qed.
Print Assumptions C70_vc_transport.
Theorem C70_vp_transport : forall D kp v o v' t, ed_correct D -> jcs_stable D ->
  vp_shape in_range v -> Forall (fun c => (depth (vc_subject c) <= 124)%nat) (vp_credentials v) -> vp_proof v = None -> proof_wf o -> p_value o = [] ->
  add_proof D (vp_proofable D) kp v o = Ok v' -> vp_to_jcs D v' = Ok t ->
  exists w c, vp_renumbered (jcs_reads D) v w /\ vp_to_jcs D v = Ok c /\ vp_to_jcs D w = Ok c /\
    verify_proof D (vp_proofable D) (ed_pub_key D kp) t (p_purpose o) = Ok {| verified := true; document := Some w |}.
Proof. exact vp_canonical_transport. Qed.
Print Assumptions C70_vp_transport.
(** Numbers as in RFC 8785: the float 7 is written 7 and read as the integer 7. *)
Example C70_example :
  ed_correct rfc /\ jcs_stable rfc /\ jcs_stable demo /\ vc_shape in_range float_vc /\
  vc_to_jcs rfc float_vc = Ok (B "{""@context"":[""c1""],""credentialSubject"":{""rate"":7,""sum"":5},""id"":""urn:1"",""issuer"":""did:prople:z1"",""type"":[""t1"",""t2""]}") /\
  let k : ed_pair rfc := B "key one" in
  outcome_of (verify_proof rfc (vc_proofable rfc) (ed_pub_key rfc k) (signed_with rfc k float_vc (jcs_write rfc)) AssertionMethod) = Some true.
Proof.
  split; [exact rfc_correct|]. split; [exact rfc_stable|]. split; [exact demo_stable|]. split; [exact float_shape|]. cbv zeta.
  split; vm_compute; reflexivity.
Qed.

(** C71. With RFC 8785's order of names (that of their UTF-16 code units), the canonical text of an object has its members in that order ... *)
Theorem C71_members : forall D, jcs_utf16 D -> forall m, Forall utf8 (map fst m) ->
  exists m', Permutation m m' /\ StronglySorted (fun a b => name_le (fst a) (fst b)) m' /\
    canonical D (JObj m) = B "{" ++ join (B ",") (map (fun kv => quote (fst kv) ++ B ":" ++ canonical D (snd kv)) m') ++ B "}".
Proof. exact members_in_order. Qed.
Print Assumptions C71_members.
(** ... and the canonical texts of proofs, credentials and presentations are these. *)
Theorem C71_proof : forall D, jcs_utf16 D -> forall p, proof_to_jcs D p = Ok (proof_canonical_text p).
Proof. exact proof_jcs_layout. Qed.
Print Assumptions C71_proof.
Theorem C71_vc : forall D, jcs_utf16 D -> forall v t, vc_to_jcs D v = Ok t <-> vc_complete v /\ t = vc_canonical_text D v.
Proof. exact vc_jcs_layout. Qed.
Print Assumptions C71_vc.
Theorem C71_vp : forall D, jcs_utf16 D -> forall v t, vp_to_jcs D v = Ok t <-> vp_complete v /\ t = vp_canonical_text D v.
Proof. exact vp_jcs_layout. Qed.
Print Assumptions C71_vp.
(** That order is a total order, and one that dependencies can have. *)
Theorem C71_order : forall D parse num, jcs_order (with_texts D parse num utf16_leb) /\ jcs_utf16 (with_texts D parse num utf16_leb).
Proof. exact utf16_order. Qed.
Print Assumptions C71_order.
(** U+10000 comes before U+E000, though its UTF-8 bytes come after. *)
Example C71_example :
  let a := [xf0; x90; x80; x80] in let b := [xee; x80; x80] in
  jcs_utf16 rfc /\ utf8 a /\ utf8 b /\ name_le a b /\ ~ name_le b a /\ jcs_leb demo a b = false /\
  canonical rfc (JObj [(b, JNull); (a, JBool true)]) = B "{""" ++ a ++ B """:true,""" ++ b ++ B """:null}" /\
  proof_to_jcs rfc demo_proof = Ok (proof_canonical_text demo_proof).
Proof.
  cbv zeta. split; [exact (proj2 rfc_order)|]. split; [reflexivity|]. split; [reflexivity|].
  split; [apply utf16_leb_names; reflexivity|]. split; [intros H; apply utf16_leb_names in H; [discriminate H|reflexivity..]|].
  repeat split; vm_compute; reflexivity.
Qed.
