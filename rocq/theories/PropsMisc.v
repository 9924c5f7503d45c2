(** C39-C42: hashlinks, JSONValue, user connection credentials. *)
From Verif Require Import Base Codec Json Deps Types Hashlink UserConnection Spec JsonSpec MiscSpec MiscFacts Demo DemoFacts.

(** C39. Verification accepts exactly what generation returns. *)
Theorem C39_exact : forall D, blake3_size D -> forall data t,
  verify_from_json D data t = Ok tt <-> generate_from_json D data = Ok t.
Proof. exact hl_exact. Qed.
Print Assumptions C39_exact.
Theorem C39_rejected : forall D, blake3_size D -> forall s t, generate_from_json D (Ok (JSONValue s)) <> Ok t ->
  exists m, verify_from_json D (Ok (JSONValue s)) t = Err (HashLinkError m).
Proof. exact hl_rejected. Qed.
Print Assumptions C39_rejected.
Theorem C39_to_json_error : forall D e t, generate_from_json D (Err e) = Err e /\ verify_from_json D (Err e) t = Err e.
Proof. exact hl_error. Qed.
Print Assumptions C39_to_json_error.
Example C39_example :
  let link := match generate_from_json demo (Ok (JSONValue (B "{}"))) with Ok t => t | Err _ => [] end in
  blake3_size demo /\ link <> [] /\
  verify_from_json demo (Ok (JSONValue (B "{}"))) link = Ok tt /\
  verify_from_json demo (Ok (JSONValue (B "{} "))) link = Err (HashLinkError (B "invalid hashlink")) /\
  verify_from_json demo (Ok (JSONValue (B "{}"))) (mb_encode16 (x1e :: x20 :: blake3 demo (B "{}"))) =
    Err (HashLinkError (B "unknown base encoded type")).
Proof. split; [exact demo_blake3_size|]. split; [vm_compute; discriminate|]. repeat split; vm_compute; reflexivity. Qed.

(** C40. Layout, and one link for two texts is a BLAKE3 collision. *)
Theorem C40_layout : forall D, blake3_size D -> forall s,
  generate_from_json D (Ok (JSONValue s)) = Ok (B "z" ++ base58_encode (x1e :: x20 :: blake3 D s)).
Proof. exact hl_layout. Qed.
Print Assumptions C40_layout.
Theorem C40_binds : forall D, blake3_size D -> forall s1 s2 t,
  verify_from_json D (Ok (JSONValue s1)) t = Ok tt -> verify_from_json D (Ok (JSONValue s2)) t = Ok tt ->
  s1 = s2 \/ collision (blake3 D) s1 s2.
Proof. exact hl_binds. Qed.
Print Assumptions C40_binds.
Example C40_example : blake3_size demo /\
  match generate_from_json demo (Ok (JSONValue (B "{}"))) with
  | Ok t => verify_from_json demo (Ok (JSONValue (B "{}"))) t = Ok tt /\ firstn 1 t = B "z"
  | Err _ => False end.
Proof. split; [exact demo_blake3_size|]. vm_compute. split; reflexivity. Qed.

(** C41. Bytes become a JSONValue exactly when they are the UTF-8 form of some characters, and are kept. *)
Theorem C41_try_from : forall D s v, jv_try_from D s = Ok v <-> is_text s /\ jv_to_bytes v = s /\ jv_to_string v = s.
Proof. exact jv_try_iff. Qed.
Print Assumptions C41_try_from.
Theorem C41_error : forall D s e, jv_try_from D s = Err e -> ~ is_text s /\ exists m, e = InvalidJSONBytes m.
Proof. exact jv_try_error. Qed.
Print Assumptions C41_error.
Theorem C41_round_trip : forall D v, is_text (jv_to_bytes v) -> jv_try_from D (jv_to_bytes v) = Ok v.
Proof. exact jv_round. Qed.
Print Assumptions C41_round_trip.
Theorem C41_mime : forall v, jv_mime_type v = B "application/json".
Proof. exact jv_mime. Qed.
Print Assumptions C41_mime.
(** The predicate [utf8] used in the other statements is the same notion. *)
Theorem C41_utf8 : forall s, utf8 s <-> is_text s.
Proof. exact utf8_valid_iff. Qed.
Print Assumptions C41_utf8.
Example C41_example :
  (* "aé€" and U+1F600; an overlong form; a surrogate; beyond U+10FFFF; cut short *)
  jv_try_from demo [x61; xc3; xa9; xe2; x82; xac; xf0; x9f; x98; x80] = Ok (JSONValue [x61; xc3; xa9; xe2; x82; xac; xf0; x9f; x98; x80]) /\
  is_text [x61; xc3; xa9; xe2; x82; xac; xf0; x9f; x98; x80] /\
  Forall (fun s => is_ok (jv_try_from demo s) = false) [[xc0; x80]; [xed; xa0; x80]; [xf4; x90; x80; x80]; [xe2; x82]].
Proof.
  split; [reflexivity|]. split; [|repeat (apply Forall_cons || apply Forall_nil); reflexivity].
  exists [97; 233; 8364; 128512]%N. split; [|reflexivity].
  repeat (apply Forall_cons || apply Forall_nil); [left | left | left | right; split; [intro H; discriminate H|]]; reflexivity.
Qed.

(** C42. *)
Theorem C42_text : forall D c,
  uc_to_json D c = Ok (JSONValue (json_text (serde_number (f64_text D))
    (uc_json (user_agent_address (uc_ctx (user_connection_credential c))) (user_did (uc_ctx (user_connection_credential c)))))).
Proof. exact uc_text. Qed.
Print Assumptions C42_text.
Theorem C42_round_trip : forall D c,
  utf8 (user_agent_address (uc_ctx (user_connection_credential c))) -> utf8 (user_did (uc_ctx (user_connection_credential c))) ->
  exists t, uc_to_json D c = Ok (JSONValue t) /\ uc_from_slice D t = Some c.
Proof. exact uc_round. Qed.
Print Assumptions C42_round_trip.
(** Only UTF-8 strings can be read. *)
Theorem C42_read : forall D s c, uc_from_slice D s = Some c ->
  utf8 (user_agent_address (uc_ctx (user_connection_credential c))) /\ utf8 (user_did (uc_ctx (user_connection_credential c))).
Proof. exact uc_read. Qed.
Print Assumptions C42_read.
Example C42_example :
  let c := {| user_connection_credential := {| uc_ctx := uc_properties_default |} |} in
  uc_to_json demo c = Ok (JSONValue (B "{""UserConnectionCredential"":{""@context"":{""userAgentAddress"":""https://schema.org/identifier"",""userDid"":""https://www.w3.org/2018/credentials/#VerifiableCredential""}}}")) /\
  match uc_to_json demo c with Ok (JSONValue t) => uc_from_slice demo t = Some c | Err _ => False end.
Proof. split; vm_compute; reflexivity. Qed.
