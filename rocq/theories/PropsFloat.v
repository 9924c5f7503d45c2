(** C84 and C85: documents with IEEE 754 numbers. *)
From Verif Require Import Base Codec Json JsonParse Deps Types Proof Vc Suite JsonSpec Spec VcSpec SuiteSpec FlowSpec MiscSpec Grammar CanonSpec ReadFacts ConnSpec WorldSpec Float FloatSpec FloatLaws FloatWorld
  Demo DemoFacts CanonDemo PropsVc FloatDemo.
Local Open Scope N_scope.

(** C84. With IEEE 754 numbers a number in a text is read as the nearest float, the even one of two; a text is refused exactly
    if its value is beyond the greatest float (from half way to 2^1024 on). *)
Theorem C84_nearest : forall D neg i f e b, ieee D -> int_ok i -> frac_ok f -> exp_ok e ->
  (f64_parse D (number_text neg i f e) = Some b <->
   finite b = true /\ negative b = neg /\ is_nearest (numerator i f e) (denominator f e) (magnitude b)).
Proof. exact ieee_nearest. Qed.
Print Assumptions C84_nearest.
Theorem C84_refused : forall D neg i f e, ieee D -> int_ok i -> frac_ok f -> exp_ok e ->
  (f64_parse D (number_text neg i f e) = None <->
   (units (infinity - 1) + units infinity) * denominator f e <= 2 * (numerator i f e * 2 ^ 1074)).
Proof. exact ieee_refused. Qed.
Print Assumptions C84_refused.
(** The number texts of JSON and of canonical JSON meet what other properties ask of them. *)
Theorem C84_laws : forall D, ieee D -> jcs_numbers D /\ jcs_stable D /\ floats_written D.
Proof. exact ieee_laws. Qed.
Print Assumptions C84_laws.
(** Every number is read back from its JSON text; from its canonical text, up to the nearest float. *)
Theorem C84_read_back : forall D n, ieee D -> real n ->
  json_reads D n n /\ exists n', jcs_reads D n n' /\ real n' /\ same_float n n' /\ jcs_number D n' = jcs_number D n.
Proof. exact ieee_read_back. Qed.
Print Assumptions C84_read_back.
(** So every signed document verifies after transport, also one with floats, ... *)
Theorem C84_vc_transport : forall D, ieee D -> forall kp v o v', ed_correct D -> vc_shape real v -> proof_wf o -> (depth (vc_subject v) <= 126)%nat ->
  vc_proof v = None -> p_value o = [] -> add_proof D (vc_proofable D) kp v o = Ok v' ->
  exists t, vc_to_json D v' = Ok (JSONValue t) /\
    verify_proof D (vc_proofable D) (ed_pub_key D kp) t (p_purpose o) = Ok {| verified := true; document := Some v |}.
Proof. exact vc_sent. Qed.
Print Assumptions C84_vc_transport.
Theorem C84_vp_transport : forall D, ieee D -> forall kp v o v', ed_correct D -> vp_shape real v -> proof_wf o ->
  Forall (fun c => (depth (vc_subject c) <= 124)%nat) (vp_credentials v) ->
  vp_proof v = None -> p_value o = [] -> add_proof D (vp_proofable D) kp v o = Ok v' ->
  exists t, vp_to_json D v' = Ok (JSONValue t) /\
    verify_proof D (vp_proofable D) (ed_pub_key D kp) t (p_purpose o) = Ok {| verified := true; document := Some v |}.
Proof. exact vp_sent. Qed.
Print Assumptions C84_vp_transport.
(** ... sent as canonical text too, with the same floats, ... *)
Theorem C84_vc_canonical : forall D, ieee D -> forall kp v o v' t, ed_correct D -> vc_shape real v -> (depth (vc_subject v) <= 126)%nat ->
  vc_proof v = None -> proof_wf o -> p_value o = [] -> add_proof D (vc_proofable D) kp v o = Ok v' -> vc_to_jcs D v' = Ok t ->
  exists w, vc_renumbered same_float v w /\
    verify_proof D (vc_proofable D) (ed_pub_key D kp) t (p_purpose o) = Ok {| verified := true; document := Some w |}.
Proof. exact vc_sent_canonical. Qed.
Print Assumptions C84_vc_canonical.
Theorem C84_vp_canonical : forall D, ieee D -> forall kp v o v' t, ed_correct D -> vp_shape real v ->
  Forall (fun c => (depth (vc_subject c) <= 124)%nat) (vp_credentials v) -> vp_proof v = None -> proof_wf o -> p_value o = [] ->
  add_proof D (vp_proofable D) kp v o = Ok v' -> vp_to_jcs D v' = Ok t ->
  exists w, vp_renumbered same_float v w /\
    verify_proof D (vp_proofable D) (ed_pub_key D kp) t (p_purpose o) = Ok {| verified := true; document := Some w |}.
Proof. exact vp_sent_canonical. Qed.
Print Assumptions C84_vp_canonical.
(** ... and every document that was read is written as a text with the same verification outcomes. *)
Theorem C84_vc_relay : forall D, ieee D -> forall s v, vc_parse_json_bytes D s = Ok v -> vc_complete v -> vc_shape real v /\
  exists t, vc_to_json D v = Ok (JSONValue t) /\ vc_parse_json_bytes D t = Ok v /\
    forall pk e, verify_proof D (vc_proofable D) pk t e = verify_proof D (vc_proofable D) pk s e.
Proof. exact vc_relay. Qed.
Print Assumptions C84_vc_relay.
Theorem C84_vp_relay : forall D, ieee D -> forall s v, vp_parse_json_bytes D s = Ok v -> vp_complete v -> vp_shape real v /\
  exists t, vp_to_json D v = Ok (JSONValue t) /\ vp_parse_json_bytes D t = Ok v /\
    forall pk e, verify_proof D (vp_proofable D) pk t e = verify_proof D (vp_proofable D) pk s e.
Proof. exact vp_relay. Qed.
Print Assumptions C84_vp_relay.
(** 0.1, 5e-324 and -0.0 in a signed credential; and what a text between two floats, and one half way, are read as. *)
Example C84_example :
  ieee ieee_ints /\ ieee ieee_floats_only /\ ed_correct ieee_ints /\ vc_shape real decimal_vc /\ vc_proof decimal_vc = None /\
  proof_wf demo_proof /\ p_value demo_proof = [] /\ is_ok decimal_signed = true /\
  firstn 91 decimal_text = B "{""@context"":[""c1""],""type"":[""t1"",""t2""],""credentialSubject"":{""rate"":0.1,""tiny"":[5e-324,-0.0]}" /\
  accepts ieee_ints (ed_pub_key ieee_ints ints_key) decimal_text AssertionMethod = Some decimal_vc /\
  map (jcs_number ieee_ints) [Float tenth; Float 1; Float minus_zero] = [B "0.1"; B "5e-324"; B "0"] /\
  map (f64_parse ieee_ints) [B "0.10000000000000000001"; B "9007199254740993"; B "1e400"] = [Some tenth; Some 4845873199050653696; None].
Proof.
  split; [exact ints_ieee|]. split; [exact floats_ieee|]. split; [exact ints_correct|]. split; [exact decimal_shape|]. split; [reflexivity|].
  split; [repeat split; vm_compute; auto|]. split; [reflexivity|]. split; [vm_compute; reflexivity|]. split; [vm_compute; reflexivity|]. split; [vm_compute; reflexivity|]. split; vm_compute; reflexivity.
Qed.

(** C85. Numbers with the same canonical text have the same nearest float, ... *)
Theorem C85_numbers : forall D, ieee D -> forall n n', real n -> real n' -> equal_canonical D n n' -> same_float n n'.
Proof. exact equal_same. Qed.
Print Assumptions C85_numbers.
(** ... so in every execution the numbers of an accepted document have the same nearest floats as those that were signed. *)
Theorem C85_vc : forall D, ieee D -> forall run, Forall (@real_event D) run -> forall past pk s e future r, sha256_size D ->
  run = past ++ VerifiesVc D pk s e :: future ->
  verify_proof D (vc_proofable D) pk s e = Ok r -> verified r = true ->
  exists w o sig, document r = Some w /\ carried D (vc_proofable D) s o sig /\ p_purpose o = e /\
    ((exists kp v, In (Signs D kp (SignVc v o)) past /\ ed_pub_bytes D (ed_pub_key D kp) = ed_pub_bytes D pk /\
        signs_ok D kp (SignVc v o) = true /\ vc_renumbered same_float v w) \/
     attack D pk past o (vc_json w) sig).
Proof. exact accepted_vc. Qed.
Print Assumptions C85_vc.
Theorem C85_vp : forall D, ieee D -> forall run, Forall (@real_event D) run -> forall past pk s e future r, sha256_size D ->
  run = past ++ VerifiesVp D pk s e :: future ->
  verify_proof D (vp_proofable D) pk s e = Ok r -> verified r = true ->
  exists w o sig, document r = Some w /\ carried D (vp_proofable D) s o sig /\ p_purpose o = e /\
    ((exists kp v, In (Signs D kp (SignVp v o)) past /\ ed_pub_bytes D (ed_pub_key D kp) = ed_pub_bytes D pk /\
        signs_ok D kp (SignVp v o) = true /\ vp_renumbered same_float v w) \/
     attack D pk past o (vp_json w) sig).
Proof. exact accepted_vp. Qed.
Print Assumptions C85_vp.
(** That they are the same numbers is false: the float 2^63 = 9223372036854775808 and the integer 9223372036854776000 have one
    canonical text, whichever way canonical integers are written, ... *)
Theorem C85_equal_numbers_refuted : forall D, ieee D ->
  real (Float two_63) /\ real (PosInt 9223372036854776000) /\ units (magnitude two_63) = 9223372036854775808 * 2 ^ 1074 /\
  equal_canonical D (Float two_63) (PosInt 9223372036854776000).
Proof. exact two_63_differ. Qed.
Print Assumptions C85_equal_numbers_refuted.
(** ... and a credential signed with one of them is accepted with the other. *)
Theorem C85_accepted_is_signed_refuted : exists D kp v o v' w t, ieee D /\ ed_correct D /\ vc_shape real v /\ vc_proof v = None /\ p_value o = [] /\
  add_proof D (vc_proofable D) kp v o = Ok v' /\ vc_to_json D (with_subject v' (vc_subject w)) = Ok (JSONValue t) /\
  verify_proof D (vc_proofable D) (ed_pub_key D kp) t (p_purpose o) = Ok {| verified := true; document := Some w |} /\
  vc_subject v = JObj [(B "amount", JNum (Float two_63))] /\ vc_subject w = JObj [(B "amount", JNum (PosInt 9223372036854776000))].
Proof. exact swapped_accepted. Qed.
Print Assumptions C85_accepted_is_signed_refuted.
(** An execution: the credential is signed, its text changed and accepted; the other way of writing canonical integers, too. *)
Example C85_example :
  let run := [Signs ieee_ints ints_key (SignVc (amount_vc (Float two_63)) demo_proof);
              VerifiesVc ieee_ints (ed_pub_key ieee_ints ints_key) (swapped_text ieee_ints ints_key) AssertionMethod] in
  ieee ieee_ints /\ sha256_size ieee_ints /\ Forall (@real_event ieee_ints) run /\
  signs_ok ieee_ints ints_key (SignVc (amount_vc (Float two_63)) demo_proof) = true /\
  accepts ieee_ints (ed_pub_key ieee_ints ints_key) (swapped_text ieee_ints ints_key) AssertionMethod = Some (amount_vc (PosInt 9223372036854776000)) /\
  accepts ieee_floats_only (ed_pub_key ieee_floats_only (B "key one")) (swapped_text ieee_floats_only (B "key one")) AssertionMethod =
    Some (amount_vc (PosInt 9223372036854776000)).
Proof.
  split; [exact ints_ieee|]. split; [exact ints_sha256|]. split; [constructor; [exact (@amount_shape (Float two_63) (conj I eq_refl))|constructor; [exact I|constructor]]|].
  split; [vm_compute; reflexivity|]. split; [exact swapped_answer|exact swapped_answer_floats].
Qed.
