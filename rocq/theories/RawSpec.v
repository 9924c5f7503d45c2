(** Executions in which accounts also sign messages that are not documents (C104). *)
From Verif Require Import Base Codec Json Deps Types Proof Vc Keys Suite JsonSpec Spec VcSpec SuiteSpec ConnSpec WorldSpec.

Section Raw.
  Variable D : deps.
  (** What happens: the events of C82, or an account signs some bytes, whoever gave them to it ([Account::signature]). *)
  Inductive act := Event (ev : event D) | SignsRaw (a : account D) (m : bytes).
  Definition act_wf (x : act) : Prop := match x with Event ev => event_wf D ev | SignsRaw _ _ => True end.
  (** The events of C82 among them. *)
  Fixpoint events (past : list act) : list (event D) :=
    match past with [] => [] | Event ev :: l => ev :: events l | SignsRaw _ _ :: l => events l end.
  (** Bytes that an account with key [pk] signed. *)
  Definition signed_raw (pk : ed_pub D) (past : list act) (m : bytes) : Prop :=
    exists a, In (SignsRaw a m) past /\ ed_pub_bytes D (account_pubkey a) = ed_pub_bytes D pk.
  (** This signature is accepted though neither a document nor bytes with this message were signed, or the data collides. *)
  Definition raw_attack (pk : ed_pub D) (past : list act) (o : proof) (j : json) (sig : bytes) : Prop :=
    (forgery D pk (signed_by D pk (events past)) (message D o j) sig /\ ~ signed_raw pk past (message D o j)) \/
    text_collision D (signed_by D pk (events past)) o j.
  (** The bytes are two hashes: of the canonical options and of the canonical document. *)
  Definition two_hashes (o : proof) (j : json) (m : bytes) : Prop :=
    length m = 64%nat /\ firstn 32 m = sha256 D (canonical D (proof_json o)) /\ skipn 32 m = sha256 D (canonical D j).
End Raw.
