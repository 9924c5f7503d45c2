(** C88: proof values and public keys in every multibase base. *)
From Verif Require Import Base Codec Deps Types Proof Vc Suite Keys Doc JsonSpec Spec VcSpec SuiteSpec MiscSpec ExactSpec Demo Bases BasesSpec BasesFacts BasesDemo.

(** C88. Beside base58btc, base16 and identity (C77), a text decodes exactly if it is a text of the multibase table. *)
Theorem C88_decoded_texts : forall D, multibase09 D -> forall t s, (forall r, t <> rocket ++ r) -> forall n,
  mb_decode (mb_other D) t = Some (OtherBase n, s) <-> exists c, n = Byte.to_N c /\ text_in c t s.
Proof. exact decode_other. Qed.
Print Assumptions C88_decoded_texts.
(** It has one meaning, ... *)
Theorem C88_one_meaning : forall D c c' t s s', multibase09 D -> text_in c t s -> text_in c' t s' -> c = c' /\ s = s'.
Proof. exact decode_one. Qed.
Print Assumptions C88_one_meaning.
(** ... and bytes have one text in each base without padding and of one case, ... *)
Theorem C88_one_text : forall c t t' s, In c (B "079bBvVhZmu") -> text_in c t s -> text_in c t' s -> t = t'.
Proof. exact one_text. Qed.
Print Assumptions C88_one_text.
(** ... but not in every base: equals signs may end any block. *)
Theorem C88_one_text_refuted : text_in "M"%byte (B "MQUE=") (B "AA") /\ text_in "M"%byte (B "MQQ==QQ==") (B "AA") /\ B "MQUE=" <> B "MQQ==QQ==".
Proof. exact two_texts. Qed.
Print Assumptions C88_one_text_refuted.
(** A verifying document verifies with the same result when its signature is written in any of the bases instead, and there
    is a text in each of them. *)
Theorem C88_vc_any_base : forall D, multibase09 D -> forall pk s e d v p b sig,
  verify_proof D (vc_proofable D) pk s e = Ok {| verified := true; document := d |} ->
  vc_parse_json_bytes D s = Ok v -> vc_wf D v -> vc_proof v = Some p -> mb_decode (mb_other D) (p_value p) = Some (b, sig) ->
  (forall c u, text_in c u sig -> exists t, vc_to_json D (vc_with_proof v (Some (with_value p u))) = Ok (JSONValue t) /\
     verify_proof D (vc_proofable D) pk t e = Ok {| verified := true; document := d |}) /\
  Forall (fun c => exists u, text_in c u sig) (B "079bBcCvVtThkKZmMuU").
Proof. exact vc_any_base. Qed.
Print Assumptions C88_vc_any_base.
Theorem C88_vp_any_base : forall D, multibase09 D -> forall pk s e d v p b sig,
  verify_proof D (vp_proofable D) pk s e = Ok {| verified := true; document := d |} ->
  vp_parse_json_bytes D s = Ok v -> vp_wf D v -> vp_proof v = Some p -> mb_decode (mb_other D) (p_value p) = Some (b, sig) ->
  (forall c u, text_in c u sig -> exists t, vp_to_json D (vp_with_proof v (Some (with_value p u))) = Ok (JSONValue t) /\
     verify_proof D (vp_proofable D) pk t e = Ok {| verified := true; document := d |}) /\
  Forall (fun c => exists u, text_in c u sig) (B "079bBcCvVtThkKZmMuU").
Proof. exact vp_any_base. Qed.
Print Assumptions C88_vp_any_base.
(** A public key of a DID document is read from any of the bases as well. *)
Theorem C88_key_any_base : forall D, multibase09 D -> forall c t h i o, text_in c t h ->
  (forall k, decode_pub_key D {| pr_id := i; pr_controller := o; pr_type := B "Ed25519VerificationKey2020"; pr_multibase := t |} = Ok (EdDSA D k) <->
     utf8 h /\ ed_pub_from_hex D h = Some k) /\
  (forall k, decode_pub_key D {| pr_id := i; pr_controller := o; pr_type := B "X25519KeyAgreementKey2020"; pr_multibase := t |} = Ok (ECDH D k) <->
     utf8 h /\ dh_pub_from_hex D h = Some k).
Proof. exact key_any_base. Qed.
Print Assumptions C88_key_any_base.
(** The multibase specification's test vector, and a signed credential with its proof value in two bases. *)
Example C88_example :
  multibase09 based /\
  map (fun p => encode_in (fst p) (snd p) (B "yes mani !")) kinds =
    [B "001111001011001010111001100100000011011010110000101101110011010010010000000100001"; B "7362625631006654133464440102"; B "9573277761329450583662625";
     B "bpfsxgidnmfxgsibb"; B "BPFSXGIDNMFXGSIBB"; B "cpfsxgidnmfxgsibb"; B "CPFSXGIDNMFXGSIBB"; B "vf5in683dc5n6i811"; B "VF5IN683DC5N6I811";
     B "tf5in683dc5n6i811"; B "TF5IN683DC5N6I811"; B "hxf1zgedpcfzg1ebb"; B "k2lcpzo5yikidynfl"; B "K2LCPZO5YIKIDYNFL"; B "Z7Pznk19XTTzBtx";
     B "meWVzIG1hbmkgIQ"; B "MeWVzIG1hbmkgIQ=="; B "ueWVzIG1hbmkgIQ"; B "UeWVzIG1hbmkgIQ=="] /\
  map (fun p => other_bases (encode_in (fst p) (snd p) (B "yes mani !"))) kinds = map (fun p => Some (Byte.to_N (fst p), B "yes mani !")) kinds /\
  other_bases (B "MQR==") = None /\ other_bases (B "K2LcPzO5YIKIDYNfl") = Some (75%N, B "yes mani !") /\
  map (fun p => verified_in (fst p) (snd p)) (filter (fun p => mem (fst p) (B "kM")) kinds) = [Some true; Some true].
Proof. split; [exact based_multibase|]. repeat (split; [vm_compute; reflexivity|]). vm_compute. reflexivity. Qed.
Print Assumptions C88_example.
