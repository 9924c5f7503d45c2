(** C86: documents whose numbers serde_json reads without its feature [float_roundtrip]. *)
From Verif Require Import Base Codec Json JsonParse Deps Types Proof Vc Suite JsonSpec Spec VcSpec SuiteSpec FlowSpec MiscSpec Grammar CanonSpec ReadFacts ConnSpec WorldSpec Float FloatSpec Fast FastSpec FastFacts FloatFacts
  Demo DemoFacts CanonDemo PropsVc FloatDemo FastDemo.
Local Open Scope N_scope.

(** C86. Decimals with digits up to 2^53 and powers of ten from -22 to 22 are still read as the nearest float. *)
Theorem C86_plain_read : forall D neg i f e b, fast D -> plain_decimal i f e ->
  (f64_parse D (number_text neg i f e) = Some b <->
   finite b = true /\ negative b = neg /\ is_nearest (numerator i f e) (denominator f e) (magnitude b)).
Proof. exact fast_plain_read. Qed.
Print Assumptions C86_plain_read.
(** What every number's text is read as: of its digits at most 64 bits are kept, all if they fit, and at most three roundings take
    place; nothing is read where the result is beyond the greatest float. *)
Theorem C86_read : forall D neg i f e, fast D -> int_ok i -> frac_ok f -> exp_ok e ->
  exists s k, shortened (dec_value (i ++ tl f)) s k /\
    forall b, f64_parse D (number_text neg i f e) = Some b <->
      finite b = true /\ negative b = neg /\ exists v, is_nearest s 1 v /\ scaled v (power f e + Z.of_N k) (magnitude b).
Proof. exact fast_read. Qed.
Print Assumptions C86_read.
(** Signed documents with integers and floats of such texts verify after transport. *)
Theorem C86_vc_transport : forall D, fast D -> forall kp v o v', ed_correct D -> vc_shape plain v -> proof_wf o -> (depth (vc_subject v) <= 126)%nat ->
  vc_proof v = None -> p_value o = [] -> add_proof D (vc_proofable D) kp v o = Ok v' ->
  exists t, vc_to_json D v' = Ok (JSONValue t) /\
    verify_proof D (vc_proofable D) (ed_pub_key D kp) t (p_purpose o) = Ok {| verified := true; document := Some v |}.
Proof. exact vc_sent_plain. Qed.
Print Assumptions C86_vc_transport.
Theorem C86_vp_transport : forall D, fast D -> forall kp v o v', ed_correct D -> vp_shape plain v -> proof_wf o ->
  Forall (fun c => (depth (vc_subject c) <= 124)%nat) (vp_credentials v) ->
  vp_proof v = None -> p_value o = [] -> add_proof D (vp_proofable D) kp v o = Ok v' ->
  exists t, vp_to_json D v' = Ok (JSONValue t) /\
    verify_proof D (vp_proofable D) (ed_pub_key D kp) t (p_purpose o) = Ok {| verified := true; document := Some v |}.
Proof. exact vp_sent_plain. Qed.
Print Assumptions C86_vp_transport.
(** What is accepted was signed, with numbers of the same nearest floats, as in C85. *)
Theorem C86_vc_accepted : forall D, fast D -> forall run, Forall (@real_event D) run -> forall past pk s e future r, sha256_size D ->
  run = past ++ VerifiesVc D pk s e :: future ->
  verify_proof D (vc_proofable D) pk s e = Ok r -> verified r = true ->
  exists w o sig, document r = Some w /\ carried D (vc_proofable D) s o sig /\ p_purpose o = e /\
    ((exists kp v, In (Signs D kp (SignVc v o)) past /\ ed_pub_bytes D (ed_pub_key D kp) = ed_pub_bytes D pk /\
        signs_ok D kp (SignVc v o) = true /\ vc_renumbered same_float v w) \/
     attack D pk past o (vc_json w) sig).
Proof. exact fast_accepted_vc. Qed.
Print Assumptions C86_vc_accepted.
Theorem C86_vp_accepted : forall D, fast D -> forall run, Forall (@real_event D) run -> forall past pk s e future r, sha256_size D ->
  run = past ++ VerifiesVp D pk s e :: future ->
  verify_proof D (vp_proofable D) pk s e = Ok r -> verified r = true ->
  exists w o sig, document r = Some w /\ carried D (vp_proofable D) s o sig /\ p_purpose o = e /\
    ((exists kp v, In (Signs D kp (SignVp v o)) past /\ ed_pub_bytes D (ed_pub_key D kp) = ed_pub_bytes D pk /\
        signs_ok D kp (SignVp v o) = true /\ vp_renumbered same_float v w) \/
     attack D pk past o (vp_json w) sig).
Proof. exact fast_accepted_vp. Qed.
Print Assumptions C86_vp_accepted.
(** Other floats need not be read back: 9.301078817733611 becomes the next float, from both of its texts, and that one has
    another canonical text. *)
Theorem C86_read_back_refuted : forall D, fast D ->
  real (Float drift) /\ json_reads D (Float drift) (Float (drift + 1)) /\ jcs_reads D (Float drift) (Float (drift + 1)) /\
  ~ equal_canonical D (Float drift) (Float (drift + 1)).
Proof. exact drift_read. Qed.
Print Assumptions C86_read_back_refuted.
(** So a signed credential with that number, sent as it is, is accepted only if signatures can be forged or SHA-256 texts
    collide; ... *)
Theorem C86_vc_lost : forall D, fast D -> forall kp v o v' t e r x, sha256_size D -> vc_shape real v ->
  vc_subject v = JObj [(x, JNum (Float drift))] -> vc_proof v = None -> proof_wf o -> p_value o = [] ->
  add_proof D (vc_proofable D) kp v o = Ok v' -> vc_to_json D v' = Ok (JSONValue t) ->
  verify_proof D (vc_proofable D) (ed_pub_key D kp) t e = Ok r -> verified r = true ->
  let w := with_subject v (JObj [(x, JNum (Float (drift + 1)))]) in
  impersonated D (ed_pub_key D kp) [SignVc v o] o (vc_json w) (ed_sign D kp (message D o (vc_json v))).
Proof. exact drift_lost. Qed.
Print Assumptions C86_vc_lost.
(** ... "every signed credential with finite numbers verifies after transport" (C84) is false here. *)
Theorem C86_transport_refuted : exists D kp v o v' t c, fast D /\ ed_correct D /\ sha256_size D /\ vc_shape real v /\ proof_wf o /\
  vc_proof v = None /\ p_value o = [] /\ vc_subject v = JObj [(B "amount", JNum (Float drift))] /\
  add_proof D (vc_proofable D) kp v o = Ok v' /\ vc_to_json D v' = Ok (JSONValue t) /\ vc_to_jcs D v' = Ok c /\
  verify_proof D (vc_proofable D) (ed_pub_key D kp) t (p_purpose o) = Ok {| verified := false; document := None |} /\
  verify_proof D (vc_proofable D) (ed_pub_key D kp) c (p_purpose o) = Ok {| verified := false; document := None |}.
Proof. exact drift_transport. Qed.
Print Assumptions C86_transport_refuted.
(** 19.99, -0.0, 1e22 and 7 in a signed credential, which is accepted. *)
Example C86_example :
  fast fast_ints /\ ed_correct fast_ints /\ sha256_size fast_ints /\ vc_shape plain price_vc /\ vc_proof price_vc = None /\
  proof_wf demo_proof /\ p_value demo_proof = [] /\ is_ok price_signed = true /\
  firstn 94 (sent price_signed) = B "{""@context"":[""c1""],""type"":[""t1"",""t2""],""credentialSubject"":{""price"":19.99,""rest"":[-0.0,1e22,7]}" /\
  accepts fast_ints (ed_pub_key fast_ints fast_key) (sent price_signed) AssertionMethod = Some price_vc /\
  ryu_text drift = B "9.301078817733611" /\ es_text (drift + 1) = B "9.301078817733613".
Proof.
  split; [exact ints_fast|]. split; [exact fast_correct|]. split; [exact fast_sha256|]. split; [exact price_shape|]. split; [reflexivity|].
  split; [repeat split; vm_compute; auto|]. split; [reflexivity|]. split; [vm_compute; reflexivity|]. split; [vm_compute; reflexivity|]. split; [vm_compute; reflexivity|].
  destruct drift_texts as (T & _ & T' & _). split; [exact T|exact T'].
Qed.
(** A number of 22 digits, where a digit after the point is taken in place of one before it, and one that two divisions make zero. *)
Example C86_example_digits :
  fast fast_ints /\ int_ok (B "18446744073709551619") /\ frac_ok (B ".54") /\ exp_ok [] /\
  shortened (dec_value (B "1844674407370955161954")) 18446744073709551615 2 /\
  read_fast (B "18446744073709551619.54") = read_fast (B "18446744073709551615") /\ read_fast (B "18446744073709551619.54") = Some 4895412794951729152 /\
  read_fast (B "5e-324") = Some 1 /\ read_fast (B "5e-617") = Some 0 /\ read_fast (B "0e999") = Some 0 /\ read_fast (B "1e309") = None.
Proof.
  split; [exact ints_fast|]. split; [exact (dec_int 18446744073709551619)|]. split; [right; exists (B "54"); split; [reflexivity|exact (proj1 (dec_int 54))]|]. split; [left; reflexivity|].
  split; [unfold shortened; vm_compute; repeat split; try discriminate; reflexivity|]. vm_compute. auto 10.
Qed.
