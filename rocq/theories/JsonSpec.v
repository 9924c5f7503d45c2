(** Specification of the JSON objects the crate writes, and of the values that exist in memory. *)
From Verif Require Import Base Codec Json JsonParse Deps Types Did Doc UserConnection Proof Vc JsonFacts JsonParseFacts.
Set Implicit Arguments.

(** A member that is omitted when absent. *)
Definition opt_member (name : string) (o : option json) : list (bytes * json) :=
  match o with Some j => [(B name, j)] | None => [] end.
Definition strings (l : list bytes) : json := JArr (map JStr l).

(** ** The documented objects *)
Definition primary_json (p : primary) : json :=
  JObj [(B "id", JStr (pr_id p)); (B "controller", JStr (pr_controller p));
        (B "type", JStr (pr_type p)); (B "publicKeyMultibase", JStr (pr_multibase p))].
Definition primaries (l : list primary) : json := JArr (map primary_json l).
Definition doc_json (d : doc) : json :=
  JObj ([(B "@context", strings (doc_context d)); (B "id", JStr (doc_id d))]
        ++ opt_member "authentication" (option_map primaries (doc_authentication d))
        ++ opt_member "capabilityInvocation" (option_map primaries (doc_cap_invoke d))
        ++ opt_member "capabilityDelegation" (option_map primaries (doc_cap_delegate d))
        ++ opt_member "assertionMethod" (option_map primaries (doc_assertion d))).
Definition purpose_name (p : purpose) : bytes :=
  match p with
  | AssertionMethod => B "assertionMethod" | Authentication => B "authentication"
  | KeyAgreement => B "keyAgreement" | CapabilityDelegation => B "capabilityDelegation"
  | CapabilityInvocation => B "capabilityInvocation" | Unknown => B "unknown"
  end.
Definition proof_json (p : proof) : json :=
  JObj ([(B "id", JStr (p_id p)); (B "type", JStr (p_typ p)); (B "proofPurpose", JStr (purpose_name (p_purpose p)));
         (B "proofValue", JStr (p_value p)); (B "verificationMethod", JStr (p_method p))]
        ++ opt_member "created" (option_map JStr (p_created p))
        ++ opt_member "expires" (option_map JStr (p_expires p))
        ++ opt_member "cryptosuite" (option_map JStr (p_cryptosuite p))).
Definition vc_json (v : vc) : json :=
  JObj ([(B "@context", strings (vc_contexts v)); (B "type", strings (vc_types v)); (B "credentialSubject", vc_subject v)]
        ++ opt_member "proof" (option_map proof_json (vc_proof v))
        ++ [(B "id", JStr (vc_id v)); (B "issuer", JStr (vc_issuer v))]).
Definition vp_json (v : vp) : json :=
  JObj ([(B "@context", strings (vp_contexts v)); (B "type", strings (vp_types v));
         (B "verifiableCredential", JArr (map vc_json (vp_credentials v)))]
        ++ opt_member "proof" (option_map proof_json (vp_proof v))
        ++ opt_member "holder" (option_map JStr (vp_holder v))).
Definition uc_json (address did : bytes) : json :=
  JObj [(B "UserConnectionCredential",
         JObj [(B "@context", JObj [(B "userAgentAddress", JStr address); (B "userDid", JStr did)])])].
Definition or_null (o : option bytes) : json := match o with Some s => JStr s | None => JNull end.
Definition params_json (p : params) : json :=
  JObj [(B "address", or_null (address p)); (B "hl", or_null (hl p))].

(** ** Values that exist in memory: every Rust String is UTF-8, every [Value] is well formed *)
Definition utf8 (s : bytes) : Prop := utf8_valid s = true.
Definition all_utf8 (l : list bytes) : Prop := Forall utf8 l.
Definition opt_all {A} (P : A -> Prop) (o : option A) : Prop := match o with Some x => P x | None => True end.
Definition primary_wf (p : primary) : Prop :=
  utf8 (pr_id p) /\ utf8 (pr_controller p) /\ utf8 (pr_type p) /\ utf8 (pr_multibase p).
Definition doc_wf (d : doc) : Prop :=
  all_utf8 (doc_context d) /\ utf8 (doc_id d) /\
  opt_all (Forall primary_wf) (doc_authentication d) /\ opt_all (Forall primary_wf) (doc_cap_invoke d) /\
  opt_all (Forall primary_wf) (doc_cap_delegate d) /\ opt_all (Forall primary_wf) (doc_assertion d).
Definition proof_wf (p : proof) : Prop :=
  utf8 (p_id p) /\ utf8 (p_typ p) /\ utf8 (p_value p) /\ utf8 (p_method p) /\
  opt_all utf8 (p_created p) /\ opt_all utf8 (p_expires p) /\ opt_all utf8 (p_cryptosuite p).
(** [value_ok] ([JsonParseFacts]): strings are UTF-8, integers in range, object keys strictly sorted,
    floats re-read exactly. *)
Definition subject_wf (D : deps) (j : json) : Prop := value_ok (f64_text D) (f64_parse D) j.
Definition vc_wf (D : deps) (v : vc) : Prop :=
  all_utf8 (vc_contexts v) /\ all_utf8 (vc_types v) /\ subject_wf D (vc_subject v) /\
  opt_all proof_wf (vc_proof v) /\ utf8 (vc_id v) /\ utf8 (vc_issuer v).
Definition vp_wf (D : deps) (v : vp) : Prop :=
  all_utf8 (vp_contexts v) /\ all_utf8 (vp_types v) /\ Forall (vc_wf D) (vp_credentials v) /\
  opt_all proof_wf (vp_proof v) /\ opt_all utf8 (vp_holder v).
Definition params_wf (p : params) : Prop := opt_all utf8 (address p) /\ opt_all utf8 (hl p).

(** ** Histories of builder calls (C17, C25) *)
Inductive doc_call :=
| AddContext (c : bytes) | AddAssertion (p : primary) | AddAuthentication (p : primary)
| AddCapDelegate (p : primary) | AddCapInvoke (p : primary).
Definition doc_step (d : doc) (c : doc_call) : doc :=
  match c with
  | AddContext c => doc_add_context d c
  | AddAssertion p => doc_add_assertion d p
  | AddAuthentication p => doc_add_authentication d p
  | AddCapDelegate p => doc_add_cap_delegate d p
  | AddCapInvoke p => doc_add_cap_invoke d p
  end.
Definition doc_run (d : doc) (cs : list doc_call) : doc := fold_left doc_step cs d.
(** The values added to each list, in call order. *)
Definition added {C A} (pick : C -> option A) (cs : list C) : list A :=
  flat_map (fun c => match pick c with Some x => [x] | None => [] end) cs.
(** Absent when nothing was added. *)
Definition some_if_any {A} (l : list A) : option (list A) := match l with [] => None | _ => Some l end.
(** The last value set, or the initial one. *)
Fixpoint last_set {C A} (pick : C -> option A) (init : A) (cs : list C) : A :=
  match cs with [] => init | c :: r => last_set pick (match pick c with Some x => x | None => init end) r end.

Definition as_context (c : doc_call) := match c with AddContext x => Some x | _ => None end.
Definition as_assertion (c : doc_call) := match c with AddAssertion x => Some x | _ => None end.
Definition as_authentication (c : doc_call) := match c with AddAuthentication x => Some x | _ => None end.
Definition as_cap_delegate (c : doc_call) := match c with AddCapDelegate x => Some x | _ => None end.
Definition as_cap_invoke (c : doc_call) := match c with AddCapInvoke x => Some x | _ => None end.

Inductive vc_call :=
| VcAddContext (c : bytes) | VcAddType (t : bytes) | VcSetCredential (j : json) | VcSetProof (p : proof) | VcRemoveProof.
Definition vc_step (v : vc) (c : vc_call) : vc :=
  match c with
  | VcAddContext c => vc_add_context v c
  | VcAddType t => vc_add_type v t
  | VcSetCredential j => vc_set_credential v j
  | VcSetProof p => vc_set_proof v p
  | VcRemoveProof => vc_remove_proof v
  end.
Definition vc_run (v : vc) (cs : list vc_call) : vc := fold_left vc_step cs v.
Definition vc_ctx c := match c with VcAddContext x => Some x | _ => None end.
Definition vc_typ c := match c with VcAddType x => Some x | _ => None end.
Definition vc_sub c := match c with VcSetCredential j => Some j | _ => None end.
Definition vc_prf c := match c with VcSetProof p => Some (Some p) | VcRemoveProof => Some None | _ => None end.

Inductive vp_call :=
| VpAddContext (c : bytes) | VpAddType (t : bytes) | VpAddCredential (v : vc) | VpAddProof (p : proof)
| VpSetHolder (h : bytes) | VpRemoveProof.
Definition vp_step (v : vp) (c : vp_call) : vp :=
  match c with
  | VpAddContext c => vp_add_context v c
  | VpAddType t => vp_add_type v t
  | VpAddCredential x => vp_add_credential v x
  | VpAddProof p => vp_add_proof v p
  | VpSetHolder h => vp_set_holder v h
  | VpRemoveProof => vp_remove_proof v
  end.
Definition vp_run (v : vp) (cs : list vp_call) : vp := fold_left vp_step cs v.
Definition vp_ctx c := match c with VpAddContext x => Some x | _ => None end.
Definition vp_typ c := match c with VpAddType x => Some x | _ => None end.
Definition vp_crd c := match c with VpAddCredential x => Some x | _ => None end.
Definition vp_prf c := match c with VpAddProof p => Some (Some p) | VpRemoveProof => Some None | _ => None end.
Definition vp_hld c := match c with VpSetHolder h => Some (Some h) | _ => None end.

Inductive proof_call :=
| PfTyp (t : bytes) | PfSignature (s : bytes) | PfPurpose (s : bytes) | PfMethod (m : bytes)
| PfCryptosuite (s : bytes) | PfCreated (c : bytes) | PfExpires (e : bytes) | PfRemoveValue.
Definition proof_step (p : proof) (c : proof_call) : proof :=
  match c with
  | PfTyp t => proof_typ p t
  | PfSignature s => set_signature_as_string p s
  | PfPurpose s => proof_purpose p s
  | PfMethod m => proof_method p m
  | PfCryptosuite s => proof_cryptosuite p s
  | PfCreated c => proof_created p c
  | PfExpires e => proof_expires p e
  | PfRemoveValue => remove_proof_value p
  end.
Definition proof_run (p : proof) (cs : list proof_call) : proof := fold_left proof_step cs p.
Definition pf_typ c := match c with PfTyp x => Some x | _ => None end.
Definition pf_val c := match c with PfSignature x => Some x | PfRemoveValue => Some [] | _ => None end.
(** A purpose is set from its text; other texts mean [Unknown]. *)
Definition named_purpose (s : bytes) (p : purpose) : Prop :=
  (purpose_name p = s) \/ (p = Unknown /\ forall q, q <> Unknown -> purpose_name q <> s).
Definition pf_pur c := match c with PfPurpose x => Some (purpose_from x) | _ => None end.
Definition pf_met c := match c with PfMethod x => Some x | _ => None end.
Definition pf_sui c := match c with PfCryptosuite x => Some (Some x) | _ => None end.
Definition pf_cre c := match c with PfCreated x => Some (Some x) | _ => None end.
Definition pf_exp c := match c with PfExpires x => Some (Some x) | _ => None end.
