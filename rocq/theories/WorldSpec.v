(** Executions with several signers and a verifier (C82). *)
From Verif Require Import Base Codec Json Deps Types Proof Vc Suite JsonSpec Spec VcSpec SuiteSpec ReadFacts ConnSpec.

Section World.
  Variable D : deps.
  (** What happens, in order: somebody signs a document, or some bytes, from wherever, are verified. *)
  Inductive event :=
  | Signs (kp : ed_pair D) (x : signing)
  | VerifiesVc (pk : ed_pub D) (s : bytes) (e : purpose)
  | VerifiesVp (pk : ed_pub D) (s : bytes) (e : purpose).
  (** The signing gave a signed document. *)
  Definition signs_ok (kp : ed_pair D) (x : signing) : bool :=
    match x with SignVc v o => is_ok (add_proof D (vc_proofable D) kp v o) | SignVp v o => is_ok (add_proof D (vp_proofable D) kp v o) end.
  Definition same_key (pk pk' : ed_pub D) : bool := bytes_eqb (ed_pub_bytes D pk) (ed_pub_bytes D pk').
  (** What the holder of [pk] has signed successfully so far. *)
  Fixpoint signed_by (pk : ed_pub D) (past : list event) : list signing :=
    match past with
    | [] => []
    | Signs kp x :: l => if same_key (ed_pub_key D kp) pk && signs_ok kp x then x :: signed_by pk l else signed_by pk l
    | _ :: l => signed_by pk l
    end.
  (** Documents are made of Rust strings and serde_json values. *)
  Definition event_wf (ev : event) : Prop := match ev with Signs _ x => signing_wf x | _ => True end.
  (** The key's holder is impersonated: this signature is accepted for this data without having been made, or the data collides. *)
  Definition attack (pk : ed_pub D) (past : list event) (o : proof) (j : json) (sig : bytes) : Prop :=
    impersonated D pk (signed_by pk past) o j sig.
End World.
