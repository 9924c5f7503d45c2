(** Specification of signing and verification (C29-C38). *)
From Verif Require Import Base Codec Json Deps Types Proof Vc JsonSpec VcSpec Spec.
Set Implicit Arguments.

(** A proof with another value. *)
Definition with_value (p : proof) (s : bytes) : proof :=
  {| p_id := p_id p; p_typ := p_typ p; p_purpose := p_purpose p; p_value := s; p_method := p_method p;
     p_created := p_created p; p_expires := p_expires p; p_cryptosuite := p_cryptosuite p |}.
Definition with_purpose (p : proof) (u : purpose) : proof :=
  {| p_id := p_id p; p_typ := p_typ p; p_purpose := u; p_value := p_value p; p_method := p_method p;
     p_created := p_created p; p_expires := p_expires p; p_cryptosuite := p_cryptosuite p |}.
Definition with_expiry (p : proof) (e : option bytes) : proof :=
  {| p_id := p_id p; p_typ := p_typ p; p_purpose := p_purpose p; p_value := p_value p; p_method := p_method p;
     p_created := p_created p; p_expires := e; p_cryptosuite := p_cryptosuite p |}.
(** A document with another proof. *)
Definition vc_with_proof (v : vc) (p : option proof) : vc :=
  {| vc_contexts := vc_contexts v; vc_types := vc_types v; vc_subject := vc_subject v; vc_proof := p;
     vc_id := vc_id v; vc_issuer := vc_issuer v |}.
Definition vp_with_proof (v : vp) (p : option proof) : vp :=
  {| vp_contexts := vp_contexts v; vp_types := vp_types v; vp_credentials := vp_credentials v; vp_proof := p;
     vp_holder := vp_holder v |}.

Section SuiteSpec.
  Variable D : deps.
  (** Options the suite accepts. *)
  Definition options_ok (o : proof) : Prop :=
    p_typ o = B "DataIntegrityProof" /\ p_cryptosuite o = Some (B "eddsa-jcs-2022") /\
    exists c z, p_created o = Some c /\ datetime D c = Ok z.
  (** The message that is signed: hash of the canonical options, then hash of the canonical document. *)
  Definition canonical (j : json) : bytes := jcs_text (jcs_leb D) (jcs_number D) j.
  Definition message (o : proof) (j : json) : bytes := sha256 D (canonical (proof_json o)) ++ sha256 D (canonical j).

  (** What a key holder signed: a credential or a presentation, with options. *)
  Inductive signing := SignVc (v : vc) (o : proof) | SignVp (v : vp) (o : proof).
  Definition signing_options (s : signing) : proof := match s with SignVc _ o => o | SignVp _ o => o end.
  Definition signing_json (s : signing) : json := match s with SignVc v _ => vc_json v | SignVp v _ => vp_json v end.
  Definition signing_message (s : signing) : bytes := message (signing_options s) (signing_json s).
  (** A signature accepted on a message that none of the signings has. *)
  Definition forgery (pk : ed_pub D) (history : list signing) (m sig : bytes) : Prop :=
    ed_verify D pk m (hex_encode sig) = Ok true /\ ~ In m (map signing_message history).
  (** A SHA-256 collision between the texts of a signing and the accepted texts. *)
  Definition text_collision (history : list signing) (o : proof) (j : json) : Prop :=
    exists s, In s history /\
      (collision (sha256 D) (canonical (proof_json (signing_options s))) (canonical (proof_json o)) \/
       collision (sha256 D) (canonical (signing_json s)) (canonical j)).
  (** The options and the signature that come with accepted bytes, which determine them. *)
  Definition carried {T} (P : proofable T) (s : bytes) (o : proof) (sig : bytes) : Prop := exists v p b,
    pf_parse_json_bytes P s = Ok v /\ pf_get_proof P v = Some p /\ mb_decode (mb_other D) (p_value p) = Some (b, sig) /\ o = with_value p [].
  (** Exactly this signature was forged for exactly this data, or this data collides with some that was signed. *)
  Definition impersonated (pk : ed_pub D) (history : list signing) (o : proof) (j : json) (sig : bytes) : Prop :=
    forgery pk history (message o j) sig \/ text_collision history o j.
End SuiteSpec.
