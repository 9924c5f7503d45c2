(** C43-C44: which texts are documents, and what in a text does not matter. *)
From Coq Require Import Permutation.
From Verif Require Import Base BaseFacts Codec Json Deps Types Proof Vc Suite Grammar TextSpec JsonParseFacts TextFacts TextDemo Demo DemoFacts.

(** C43. Members with unknown names (at the top, in the proof, in embedded credentials), the order of members,
    blanks and escapes affect neither what is read nor the outcome of verification. *)
Theorem C43_vc_parse : forall D s s', same_text same_vc_tree s s' ->
  same_outcome (vc_parse_json_bytes D s) (vc_parse_json_bytes D s').
Proof. exact vc_same_parse. Qed.
Print Assumptions C43_vc_parse.
Theorem C43_vp_parse : forall D s s', same_text same_vp_tree s s' ->
  same_outcome (vp_parse_json_bytes D s) (vp_parse_json_bytes D s').
Proof. exact vp_same_parse. Qed.
Print Assumptions C43_vp_parse.
Theorem C43_vc_verify : forall D s s' pk p, same_text same_vc_tree s s' ->
  same_outcome (verify_proof D (vc_proofable D) pk s p) (verify_proof D (vc_proofable D) pk s' p).
Proof. exact vc_same_verify. Qed.
Print Assumptions C43_vc_verify.
Theorem C43_vp_verify : forall D s s' pk p, same_text same_vp_tree s s' ->
  same_outcome (verify_proof D (vp_proofable D) pk s p) (verify_proof D (vp_proofable D) pk s' p).
Proof. exact vp_same_verify. Qed.
Print Assumptions C43_vp_verify.
(** What "the same value" covers. *)
Theorem C43_reformatted : forall t t', reformatted t t' -> same_value t t'.
Proof. exact reformatted_same. Qed.
Print Assumptions C43_reformatted.
Example C43_example : same_text same_vc_tree demo_text demo_text' /\ demo_text <> demo_text' /\
  vc_parse_json_bytes demo demo_text = vc_parse_json_bytes demo demo_text' /\
  match vc_parse_json_bytes demo demo_text with Ok v => vc_issuer v = B "me" | Err _ => False end.
Proof. split; [exact demo_same_text|]. split; [vm_compute; discriminate|]. split; vm_compute; reflexivity. Qed.

(** C44. The accepted texts are exactly those of the grammar. *)
Theorem C44_vc : forall D s v, vc_parse_json_bytes D s = Ok v <-> text_of (is_vc (f64_parse D) 126 v) s.
Proof. exact vc_text_iff. Qed.
Print Assumptions C44_vc.
Theorem C44_vp : forall D s v, vp_parse_json_bytes D s = Ok v <-> text_of (is_vp (f64_parse D) 124 v) s.
Proof. exact vp_text_iff. Qed.
Print Assumptions C44_vp.
Theorem C44_vc_error : forall D s e, vc_parse_json_bytes D s = Err e -> exists m, e = ProofGenerationError m.
Proof. exact vc_text_error. Qed.
Print Assumptions C44_vc_error.
Theorem C44_vp_error : forall D s e, vp_parse_json_bytes D s = Err e -> exists m, e = ProofGenerationError m.
Proof. exact vp_text_error. Qed.
Print Assumptions C44_vp_error.
(** Bytes after a document. *)
Theorem C44_vc_trailing : forall D s v g, vc_parse_json_bytes D s = Ok v ->
  (blank g -> vc_parse_json_bytes D (s ++ g) = Ok v) /\
  (~ blank g -> exists m, vc_parse_json_bytes D (s ++ g) = Err (ProofGenerationError m)).
Proof. exact vc_text_more. Qed.
Print Assumptions C44_vc_trailing.
Theorem C44_vp_trailing : forall D s v g, vp_parse_json_bytes D s = Ok v ->
  (blank g -> vp_parse_json_bytes D (s ++ g) = Ok v) /\
  (~ blank g -> exists m, vp_parse_json_bytes D (s ++ g) = Err (ProofGenerationError m)).
Proof. exact vp_text_more. Qed.
Print Assumptions C44_vp_trailing.
(** An accepted object has each required member once and the optional ones at most once; there is no proof when
    that member is absent or null. *)
Theorem C44_vc_members : forall D w0 l w w' v, tree_ok (TObj w0 l) -> blank w -> blank w' ->
  vc_parse_json_bytes D (w ++ render (TObj w0 l) ++ w') = Ok v ->
  (forall n, In n [B "@context"; B "type"; B "credentialSubject"; B "id"; B "issuer"] -> exists m, filter (named n) l = [m]) /\
  (filter (named (B "proof")) l = [] \/ exists m, filter (named (B "proof")) l = [m]) /\
  (vc_proof v = None <-> forall m, In m l -> named (B "proof") m = true -> m_value m = TNull).
Proof. exact vc_members. Qed.
Print Assumptions C44_vc_members.
Theorem C44_vp_members : forall D w0 l w w' v, tree_ok (TObj w0 l) -> blank w -> blank w' ->
  vp_parse_json_bytes D (w ++ render (TObj w0 l) ++ w') = Ok v ->
  (forall n, In n [B "@context"; B "type"; B "verifiableCredential"] -> exists m, filter (named n) l = [m]) /\
  (forall n, In n [B "proof"; B "holder"] -> filter (named n) l = [] \/ exists m, filter (named n) l = [m]) /\
  (vp_proof v = None <-> forall m, In m l -> named (B "proof") m = true -> m_value m = TNull).
Proof. exact vp_members. Qed.
Print Assumptions C44_vp_members.
(** Inside the subject, where a name may repeat, the last member counts; members are kept in the order of names. *)
Theorem C44_subject_last : forall kvs k v, In (k, v) (object_of kvs) <-> exists a b, kvs = a ++ (k, v) :: b /\ ~ In k (map fst b).
Proof. exact object_of_in. Qed.
Print Assumptions C44_subject_last.
Theorem C44_subject_sorted : forall kvs, increasing (map fst (object_of kvs)).
Proof. exact object_of_sorted. Qed.
Print Assumptions C44_subject_sorted.
Example C44_example :
  let ok s := match vc_parse_json_bytes demo s with Ok _ => true | Err _ => false end in
  (exists v, vc_parse_json_bytes demo demo_text = Ok v /\ vc_proof v = None) /\
  tree_ok demo_tree /\ render demo_tree = demo_text /\
  ok (demo_text ++ [x0a; x20]) = true /\ ok (demo_text ++ B "]") = false /\ ok (demo_text ++ demo_text) = false /\
  ok (B "{""@context"":[],""type"":[],""credentialSubject"":0,""proof"":null,""id"":""i"",""issuer"":""me""}") = true /\
  ok (B "{""@context"":[],""type"":[],""credentialSubject"":0,""proof"":0,""id"":""i"",""issuer"":""me""}") = false /\
  ok (B "{""@context"":[],""type"":[],""credentialSubject"":0,""id"":""i"",""id"":""i"",""issuer"":""me""}") = false /\
  ok (B "{""@context"":[],""type"":[],""credentialSubject"":0,""issuer"":""me""}") = false /\
  ok (B "{""@context"":[0],""type"":[],""credentialSubject"":0,""id"":""i"",""issuer"":""me""}") = false /\
  (* the fields in an array *)
  ok (B "[[],[],0,null,""i"",""me""]") = true /\ ok (B "[[],[],0,null,""i""]") = false /\
  match vc_parse_json_bytes demo (B "[[],[],{""a"":1,""a"":2},null,""i"",""me""]") with
  | Ok v => vc_subject v = JObj [(B "a", JNum (PosInt 2))] | Err _ => False end.
Proof.
  cbv zeta. split; [eexists; split; [vm_compute; reflexivity|reflexivity]|]. split; [exact demo_tree_ok|]. split; [exact demo_render|].
  repeat split; vm_compute; reflexivity.
Qed.
