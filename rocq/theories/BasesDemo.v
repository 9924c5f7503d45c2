(** Proof values and public keys in any base, and concrete dependencies with all bases. *)
From Verif Require Import Base BaseFacts Codec CodecFacts Json JsonParse Deps Types Proof Vc Suite Keys Doc JsonSpec Spec VcSpec SuiteSpec SuiteFacts DocFacts MiscSpec ExactSpec Demo DemoFacts PropsVc Bases BasesSpec BasesFacts.
Set Implicit Arguments.

Section Any.
  Variable D : deps.
  Hypothesis M : multibase09 D.
  Theorem vc_any_base pk s e d v p b sig : verify_proof D (vc_proofable D) pk s e = Ok {| verified := true; document := d |} ->
    vc_parse_json_bytes D s = Ok v -> vc_wf D v -> vc_proof v = Some p -> mb_decode (mb_other D) (p_value p) = Some (b, sig) ->
    (forall c u, text_in c u sig -> exists t, vc_to_json D (vc_with_proof v (Some (with_value p u))) = Ok (JSONValue t) /\
       verify_proof D (vc_proofable D) pk t e = Ok {| verified := true; document := d |}) /\
    Forall (fun c => exists u, text_in c u sig) (B "079bBcCvVtThkKZmMuU").
  Proof.
    intros H1 H2 H3 H4 H5. split.
    - intros c u T. exact (doc_reencoded (vc_doc_laws D) H1 H2 H3 H4 H5 (text_utf8 T) (text_decodes M T)).
    - change (B "079bBcCvVtThkKZmMuU") with (map fst table). apply Forall_map, Forall_forall. intros [c R] I. exact (text_exists sig I).
  Qed.
  Theorem vp_any_base pk s e d v p b sig : verify_proof D (vp_proofable D) pk s e = Ok {| verified := true; document := d |} ->
    vp_parse_json_bytes D s = Ok v -> vp_wf D v -> vp_proof v = Some p -> mb_decode (mb_other D) (p_value p) = Some (b, sig) ->
    (forall c u, text_in c u sig -> exists t, vp_to_json D (vp_with_proof v (Some (with_value p u))) = Ok (JSONValue t) /\
       verify_proof D (vp_proofable D) pk t e = Ok {| verified := true; document := d |}) /\
    Forall (fun c => exists u, text_in c u sig) (B "079bBcCvVtThkKZmMuU").
  Proof.
    intros H1 H2 H3 H4 H5. split.
    - intros c u T. exact (doc_reencoded (vp_doc_laws D) H1 H2 H3 H4 H5 (text_utf8 T) (text_decodes M T)).
    - change (B "079bBcCvVtThkKZmMuU") with (map fst table). apply Forall_map, Forall_forall. intros [c R] I. exact (text_exists sig I).
  Qed.
  Theorem key_any_base c t h i o : text_in c t h ->
    (forall k, decode_pub_key D {| pr_id := i; pr_controller := o; pr_type := B "Ed25519VerificationKey2020"; pr_multibase := t |} = Ok (EdDSA D k) <-> utf8 h /\ ed_pub_from_hex D h = Some k) /\
    (forall k, decode_pub_key D {| pr_id := i; pr_controller := o; pr_type := B "X25519KeyAgreementKey2020"; pr_multibase := t |} = Ok (ECDH D k) <-> utf8 h /\ dh_pub_from_hex D h = Some k).
  Proof.
    intros T. pose proof (text_decodes M T) as E. split; intros k; [rewrite decode_eddsa_iff|rewrite decode_ecdh_iff]; cbn [pr_type pr_multibase]; (split;
      [intros (_ & b & h' & H & U & K); rewrite E in H; injection H as <- <-; auto|intros (U & K); split; [reflexivity|]; eauto]).
  Qed.
End Any.
Theorem decode_one D c c' t s s' : multibase09 D -> text_in c t s -> text_in c' t s' -> c = c' /\ s = s'.
Proof.
  intros M T T'. pose proof (text_decodes M T) as E. rewrite (text_decodes M T') in E. injection E as E ->. split; [|reflexivity]. apply to_N_inj. congruence.
Qed.

(** [demo] with all bases. *)
Definition with_bases (D : deps) (f : bytes -> option (N * bytes)) : deps := {|
  sha256 := sha256 D; sha384 := sha384 D; blake3 := blake3 D;
  ed_pair := ed_pair D; ed_pub := ed_pub D; ed_priv := ed_priv D; ed_pub_key := ed_pub_key D; ed_priv_key := ed_priv_key D;
  ed_sign := ed_sign D; ed_verify := ed_verify D; ed_pub_bytes := ed_pub_bytes D; ed_pub_to_hex := ed_pub_to_hex D;
  ed_pub_from_hex := ed_pub_from_hex D; ed_to_pem := ed_to_pem D; ed_from_pem := ed_from_pem D;
  dh_pair := dh_pair D; dh_pub := dh_pub D; dh_pub_key := dh_pub_key D; dh_pub_to_hex := dh_pub_to_hex D;
  dh_pub_from_hex := dh_pub_from_hex D; dh_to_hex := dh_to_hex D;
  kdf := kdf D; aead_decrypt := aead_decrypt D; ks_rand := ks_rand D; ed_seal := ed_seal D; dh_seal := dh_seal D; ks_decrypt := ks_decrypt D;
  f64_text := f64_text D; f64_parse := f64_parse D; jcs_number := jcs_number D; jcs_leb := jcs_leb D; mb_other := f;
  datetime := datetime D; maddr := maddr D; multiaddr := multiaddr D; mb_error := mb_error D; mh_error := mh_error D;
  hex_error := hex_error D; utf8_error := utf8_error D; json_error := json_error D |}.
Definition based : deps := with_bases demo other_bases.
Theorem based_multibase : multibase09 based. Proof. intros t _. reflexivity. Qed.
(** [demo_vc], signed, its proof value written with the base [c], [x] and verified. *)
Definition verified_in (c : byte) (x : kind) : option bool :=
  match add_proof based (vc_proofable based) (B "e1" : ed_pair based) demo_vc demo_proof with
  | Ok v => match vc_proof v with
    | Some p => match mb_decode other_bases (p_value p) with
      | Some (_, sig) => match vc_to_json based (vc_with_proof v (Some (with_value p (encode_in c x sig)))) with
        | Ok (JSONValue t) => match verify_proof based (vc_proofable based) (ed_pub_key based (B "e1" : ed_pair based)) t AssertionMethod with Ok r => Some (verified r) | Err _ => None end
        | Err _ => None end
      | None => None end
    | None => None end
  | Err _ => None end.
(** Two base64 texts of "AA". *)
Theorem two_texts : text_in "M"%byte (B "MQUE=") (B "AA") /\ text_in "M"%byte (B "MQQ==QQ==") (B "AA") /\ B "MQUE=" <> B "MQQ==QQ==".
Proof.
  assert (X : forall t s, other_bases ("M"%byte :: t) = Some (Byte.to_N "M"%byte, s) -> text_in "M"%byte ("M"%byte :: t) s).
  { intros t s H. apply other_iff in H as (c & E & H). apply to_N_inj in E. subst c. exact H. }
  split; [apply X; vm_compute; reflexivity|]. split; [apply X; vm_compute; reflexivity|discriminate].
Qed.
