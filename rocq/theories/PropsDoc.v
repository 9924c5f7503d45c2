(** C17-C20: DID documents. *)
From Verif Require Import Base Codec Json Deps Types Doc Identity Spec JsonSpec IdentitySpec DocFacts Demo DemoFacts.

(** C17. After any sequence of builder calls each list has exactly the values added to it, in call order. *)
Theorem C17_doc_builder : forall did cs,
  doc_run (doc_generate did) cs =
  {| doc_context := B "https://www.w3.org/ns/did/v1" :: added as_context cs; doc_id := did;
     doc_authentication := some_if_any (added as_authentication cs);
     doc_cap_invoke := some_if_any (added as_cap_invoke cs);
     doc_cap_delegate := some_if_any (added as_cap_delegate cs);
     doc_assertion := some_if_any (added as_assertion cs) |}.
Proof. exact doc_builder. Qed.
Print Assumptions C17_doc_builder.
(** The same from any document (for example a parsed one): present lists are extended at their end. *)
Theorem C17_doc_builder_from : forall d cs,
  let grow o l := match o with Some l0 => Some (l0 ++ l) | None => some_if_any l end in
  doc_run d cs =
  {| doc_context := doc_context d ++ added as_context cs; doc_id := doc_id d;
     doc_authentication := grow (doc_authentication d) (added as_authentication cs);
     doc_cap_invoke := grow (doc_cap_invoke d) (added as_cap_invoke cs);
     doc_cap_delegate := grow (doc_cap_delegate d) (added as_cap_delegate cs);
     doc_assertion := grow (doc_assertion d) (added as_assertion cs) |}.
Proof. exact doc_builder_from. Qed.
Print Assumptions C17_doc_builder_from.
Definition entry (name : string) : primary :=
  {| pr_id := B name; pr_controller := B "did:x"; pr_type := B "T"; pr_multibase := B "z1" |}.
Example C17_example :
  let d := doc_run (doc_generate (B "did:x")) [AddCapInvoke (entry "1"); AddContext (B "c"); AddAssertion (entry "2"); AddCapInvoke (entry "3")] in
  doc_context d = [B "https://www.w3.org/ns/did/v1"; B "c"] /\ doc_cap_invoke d = Some [entry "1"; entry "3"] /\
  doc_assertion d = Some [entry "2"] /\ doc_authentication d = None.
Proof. repeat split. Qed.

(** C18. Validation. *)
Theorem C18_doc_valid_iff : forall d, doc_validate d = Ok tt <-> doc_id d <> [] /\ doc_context d <> [].
Proof. exact doc_valid_iff. Qed.
Print Assumptions C18_doc_valid_iff.
Theorem C18_doc_invalid_iff : forall d e, doc_validate d = Err e <->
  (doc_id d = [] /\ e = ValidateError (B "[doc]: missing id")) \/
  (doc_id d <> [] /\ doc_context d = [] /\ e = ValidateError (B "[doc]: at least one context must be filled")).
Proof. exact doc_invalid. Qed.
Print Assumptions C18_doc_invalid_iff.
Theorem C18_identity_doc_valid : forall D v (cs : list (icall D)),
  doc_validate (to_doc (irun (identity_new D v) cs)) = Ok tt <-> v <> [].
Proof. exact identity_doc_valid. Qed.
Print Assumptions C18_identity_doc_valid.
Example C18_example :
  doc_validate (doc_generate (B "did:x")) = Ok tt /\
  doc_validate {| doc_context := []; doc_id := []; doc_authentication := None; doc_cap_invoke := None;
                  doc_cap_delegate := None; doc_assertion := None |} = Err (ValidateError (B "[doc]: missing id")).
Proof. split; reflexivity. Qed.

(** C19. The JSON text of a document is that of [doc_json] (absent lists are omitted) ... *)
Theorem C19_doc_json_text : forall D d,
  doc_to_json D d = Ok (JSONValue (json_text (serde_number (f64_text D)) (doc_json d))).
Proof. exact doc_json_text. Qed.
Print Assumptions C19_doc_json_text.
(** ... deserializes to the same document, for all UTF-8 strings and list lengths ... *)
Theorem C19_doc_round_trip : forall D d, doc_wf d ->
  exists t, doc_to_json D d = Ok (JSONValue t) /\ doc_from_slice D t = Some d.
Proof. exact doc_round_trip. Qed.
Print Assumptions C19_doc_round_trip.
(** ... and determines it. *)
Theorem C19_doc_text_inj : forall D d1 d2, doc_wf d1 -> doc_wf d2 -> doc_to_json D d1 = doc_to_json D d2 -> d1 = d2.
Proof. exact doc_text_inj. Qed.
Print Assumptions C19_doc_text_inj.
(** Published documents meet the hypothesis. *)
Theorem C19_identity_doc_wf : forall D v (cs : list (icall D)), utf8 v -> doc_wf (to_doc (irun (identity_new D v) cs)).
Proof. exact identity_doc_wf. Qed.
Print Assumptions C19_identity_doc_wf.
Example C19_example :
  doc_to_json demo (doc_run (doc_generate (B "did:""x")) [AddCapInvoke (entry "1")]) =
  Ok (JSONValue (B "{""@context"":[""https://www.w3.org/ns/did/v1""],""id"":""did:\""x"",""capabilityInvocation"":[{""id"":""1"",""controller"":""did:x"",""type"":""T"",""publicKeyMultibase"":""z1""}]}")).
Proof. vm_compute. reflexivity. Qed.
(** The document printed in core/README.md:38-74 parses; its ids are those of C13. *)
Definition readme_did := B "did:prople:z27EjbBVuun5D3vL1JYWaGa2q5E6twLdVG7xqvJBKhsCyJmbuGgA822La1pDUiHbi8qz4CpBUss3R7Tpg2i4rXvdx".
Definition readme_text := B "{
  ""@context"": [
    ""https://www.w3.org/ns/did/v1"",
    ""https://w3id.org/security/suites/ed25519-2020/v1"",
    ""https://w3id.org/security/suites/x25519-2020/v1""
  ],
  ""id"": ""did:prople:z27EjbBVuun5D3vL1JYWaGa2q5E6twLdVG7xqvJBKhsCyJmbuGgA822La1pDUiHbi8qz4CpBUss3R7Tpg2i4rXvdx"",
  ""authentication"": [
    {
      ""id"": ""did:prople:z27EjbBVuun5D3vL1JYWaGa2q5E6twLdVG7xqvJBKhsCyJmbuGgA822La1pDUiHbi8qz4CpBUss3R7Tpg2i4rXvdx#key-auth-verification"",
      ""controller"": ""did:prople:z27EjbBVuun5D3vL1JYWaGa2q5E6twLdVG7xqvJBKhsCyJmbuGgA822La1pDUiHbi8qz4CpBUss3R7Tpg2i4rXvdx"",
      ""type"": ""Ed25519VerificationKey2020"",
      ""publicKeyMultibase"": ""z24i8PX1tyYgmQbtfhxjxd5pz1HXu71zPexgZ8B69fBeX9foF286HUBZeZsYStZB9ze4chmaRk9GAWQQLkKKgMvqD""
    },
    {
      ""id"": ""did:prople:z27EjbBVuun5D3vL1JYWaGa2q5E6twLdVG7xqvJBKhsCyJmbuGgA822La1pDUiHbi8qz4CpBUss3R7Tpg2i4rXvdx#key-auth-aggrement"",
      ""controller"": ""did:prople:z27EjbBVuun5D3vL1JYWaGa2q5E6twLdVG7xqvJBKhsCyJmbuGgA822La1pDUiHbi8qz4CpBUss3R7Tpg2i4rXvdx"",
      ""type"": ""X25519KeyAgreementKey2020"",
      ""publicKeyMultibase"": ""5378a8ae40b6d651fbb584870d9e1c0bc9de644cc416d827b31d93d701d2cd1b""
    }
  ],
  ""assertionMethod"": [
    {
      ""id"": ""did:prople:z27EjbBVuun5D3vL1JYWaGa2q5E6twLdVG7xqvJBKhsCyJmbuGgA822La1pDUiHbi8qz4CpBUss3R7Tpg2i4rXvdx#key-assertion-verification"",
      ""controller"": ""did:prople:z27EjbBVuun5D3vL1JYWaGa2q5E6twLdVG7xqvJBKhsCyJmbuGgA822La1pDUiHbi8qz4CpBUss3R7Tpg2i4rXvdx"",
      ""type"": ""Ed25519VerificationKey2020"",
      ""publicKeyMultibase"": ""z25sf5SoAavJnpeNucvj4mxKBzYpXpM2SHd9SM14T49omXn8sh72Jyv5yq8MVxHWPY4uz1VQFBAMK445RGL6NvkrP""
    },
    {
      ""id"": ""did:prople:z27EjbBVuun5D3vL1JYWaGa2q5E6twLdVG7xqvJBKhsCyJmbuGgA822La1pDUiHbi8qz4CpBUss3R7Tpg2i4rXvdx#key-assertion-aggrement"",
      ""controller"": ""did:prople:z27EjbBVuun5D3vL1JYWaGa2q5E6twLdVG7xqvJBKhsCyJmbuGgA822La1pDUiHbi8qz4CpBUss3R7Tpg2i4rXvdx"",
      ""type"": ""X25519KeyAgreementKey2020"",
      ""publicKeyMultibase"": ""513de55519a46dff69c76dd60a009975c999e02c0531ecca853f2e1a6724c848""
    }
  ]
}".
Example C19_readme :
  match doc_from_slice demo readme_text with
  | Some d => doc_id d = readme_did /\ doc_validate d = Ok tt /\ doc_wf d /\
              doc_context d = [B "https://www.w3.org/ns/did/v1"; B "https://w3id.org/security/suites/ed25519-2020/v1";
                               B "https://w3id.org/security/suites/x25519-2020/v1"] /\
              map pr_id (all_entries d) =
              map (app readme_did) [B "#key-auth-verification"; B "#key-auth-aggrement";
                                    B "#key-assertion-verification"; B "#key-assertion-aggrement"] /\
              map pr_type (all_entries d) =
              [B "Ed25519VerificationKey2020"; B "X25519KeyAgreementKey2020";
               B "Ed25519VerificationKey2020"; B "X25519KeyAgreementKey2020"]
  | None => False
  end.
Proof. vm_compute. repeat (split || constructor). Qed.

(** C20. Key decoding is directed by the declared type. *)
Theorem C20_decode_eddsa_iff : forall D p k, decode_pub_key D p = Ok (EdDSA D k) <->
  pr_type p = B "Ed25519VerificationKey2020" /\
  exists b h, mb_decode (mb_other D) (pr_multibase p) = Some (b, h) /\ utf8_valid h = true /\ ed_pub_from_hex D h = Some k.
Proof. exact decode_eddsa_iff. Qed.
Print Assumptions C20_decode_eddsa_iff.
Theorem C20_decode_ecdh_iff : forall D p k, decode_pub_key D p = Ok (ECDH D k) <->
  pr_type p = B "X25519KeyAgreementKey2020" /\
  exists b h, mb_decode (mb_other D) (pr_multibase p) = Some (b, h) /\ utf8_valid h = true /\ dh_pub_from_hex D h = Some k.
Proof. exact decode_ecdh_iff. Qed.
Print Assumptions C20_decode_ecdh_iff.
Theorem C20_decode_error : forall D p e, decode_pub_key D p = Err e -> exists m, e = DecodePubKeyError m.
Proof. exact decode_error. Qed.
Print Assumptions C20_decode_error.
Definition typed (t m : string) : primary :=
  {| pr_id := B "i"; pr_controller := B "c"; pr_type := B t; pr_multibase := B m |}.
Example C20_example :
  decode_pub_key demo (typed "Ed25519VerificationKey2020" "f6b31") = Err (DecodePubKeyError (B "unable to restore public key")) /\
  decode_pub_key demo (typed "Ed25519VerificationKey2020" "f36623331") = Ok (EdDSA demo (B "k1")) /\
  decode_pub_key demo (typed "X25519KeyAgreementKey2020" "f36623331") = Ok (ECDH demo (B "k1")) /\
  decode_pub_key demo (typed "Multikey" "f36623331") = Err (DecodePubKeyError (B "unknown verification type")).
Proof. repeat split. Qed.
