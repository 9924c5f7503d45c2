(** Specification vocabulary of C99: what a text says besides what is signed. *)
From Verif Require Import Base Codec JsonSpec Spec Grammar TextSpec.

(** Names and values. *)
Definition claims : Type := list (bytes * bytes).
(** Among the members exactly one has the name, and its value is this string. *)
Definition member_says (l : list (member tree)) (c : bytes * bytes) : Prop :=
  exists m, filter (named (fst c)) l = [m] /\ is_string (snd c) (m_value m).
(** The document says [top], and its one proof says [inner]. *)
Definition says (top inner : claims) (t : tree) : Prop :=
  exists w l m w' l', t = TObj w l /\ Forall (member_says l) top /\
    filter (named (B "proof")) l = [m] /\ m_value m = TObj w' l' /\ Forall (member_says l') inner.
(** Texts under different names, all of them new. *)
Definition new (names : list bytes) (cs : claims) : Prop :=
  NoDup (map fst cs) /\ Forall (fun c => utf8 (fst c) /\ utf8 (snd c) /\ ~ In (fst c) names) cs.
Definition proof_names : list bytes :=
  [B "id"; B "type"; B "proofPurpose"; B "proofValue"; B "verificationMethod"; B "created"; B "expires"; B "cryptosuite"].
Definition vc_names : list bytes := [B "@context"; B "type"; B "credentialSubject"; B "proof"; B "id"; B "issuer"].
Definition vp_names : list bytes := [B "@context"; B "type"; B "verifiableCredential"; B "proof"; B "holder"].
