(** Specification of the texts of proofs, credentials and presentations, and of irrelevant changes to a text
    (C43, C44). Built on the trees of [Grammar]; nothing here mentions the parser or the schemas. *)
From Coq Require Import Permutation.
From Verif Require Import Base Codec Json Deps Types Proof Vc Grammar.
Set Implicit Arguments.
Local Open Scope nat_scope.

(** ** Trees of values *)
Definition is_string (s : bytes) (t : tree) : Prop := exists cs, t = TStr cs /\ string_of cs = Some s.
Definition is_list {A} (P : A -> tree -> Prop) (xs : list A) (t : tree) : Prop :=
  exists w l, t = TArr w l /\ Forall2 (fun x i => P x (i_value i)) xs l.
Definition is_maybe {A} (P : A -> tree -> Prop) (o : option A) (t : tree) : Prop :=
  match o with None => t = TNull | Some x => P x t end.
(** A member: its name, when it may be absent, and what it must be when present. *)
Definition member_spec := (bytes * Prop * (tree -> Prop))%type.
Definition required (n : bytes) (P : tree -> Prop) : member_spec := (n, False, P).
Definition optional {A} (n : bytes) (P : A -> tree -> Prop) (o : option A) : member_spec := (n, o = None, is_maybe P o).
Definition has_member (l : list (member tree)) (f : member_spec) : Prop :=
  let '(n, absent, P) := f in
  (filter (named n) l = [] /\ absent) \/ exists m, filter (named n) l = [m] /\ P (m_value m).
(** An object with these members, none of them twice, and any others; or the array of the values. *)
Definition is_object (fs : list member_spec) (t : tree) : Prop :=
  (exists w l, t = TObj w l /\ (forall m, In m l -> exists k, string_of (m_key m) = Some k) /\ Forall (has_member l) fs) \/
  (exists w l, t = TArr w l /\ Forall2 (fun f i => snd f (i_value i)) fs l).

Definition purpose_names : list (purpose * bytes) :=
  [(AssertionMethod, B "assertionMethod"); (Authentication, B "authentication"); (KeyAgreement, B "keyAgreement");
   (CapabilityDelegation, B "capabilityDelegation"); (CapabilityInvocation, B "capabilityInvocation"); (Unknown, B "unknown")].
(** The name as a string, or [{"name": null}]. *)
Definition is_purpose (p : purpose) (t : tree) : Prop :=
  exists cs n, string_of cs = Some n /\ In (p, n) purpose_names /\
    (t = TStr cs \/ exists w b m1 m2 a, t = TObj w [Member b cs m1 m2 TNull a]).

Section Texts.
  Variable f64 : bytes -> option N.
  (** Any JSON value with at most [d] nested brackets. *)
  Definition is_value (d : nat) (j : json) (t : tree) : Prop := value_of f64 t = Some j /\ tree_depth t <= d.
  Definition is_proof (p : proof) : tree -> Prop :=
    is_object [required (B "id") (is_string (p_id p)); required (B "type") (is_string (p_typ p));
               required (B "proofPurpose") (is_purpose (p_purpose p)); required (B "proofValue") (is_string (p_value p));
               required (B "verificationMethod") (is_string (p_method p));
               optional (B "created") is_string (p_created p); optional (B "expires") is_string (p_expires p);
               optional (B "cryptosuite") is_string (p_cryptosuite p)].
  Definition is_vc (d : nat) (v : vc) : tree -> Prop :=
    is_object [required (B "@context") (is_list is_string (vc_contexts v)); required (B "type") (is_list is_string (vc_types v));
               required (B "credentialSubject") (is_value d (vc_subject v)); optional (B "proof") is_proof (vc_proof v);
               required (B "id") (is_string (vc_id v)); required (B "issuer") (is_string (vc_issuer v))].
  Definition is_vp (d : nat) (v : vp) : tree -> Prop :=
    is_object [required (B "@context") (is_list is_string (vp_contexts v)); required (B "type") (is_list is_string (vp_types v));
               required (B "verifiableCredential") (is_list (is_vc d) (vp_credentials v));
               optional (B "proof") is_proof (vp_proof v); optional (B "holder") is_string (vp_holder v)].
  (** The text of a tree between blanks. *)
  Definition text_of (P : tree -> Prop) (s : bytes) : Prop :=
    exists w t w', blank w /\ tree_ok t /\ blank w' /\ s = w ++ render t ++ w' /\ P t.
End Texts.

(** ** Irrelevant changes *)
(** A relation between the trees before and after a change. *)
Definition change := tree -> tree -> Prop.
(** The same JSON value: blanks, escapes and the order of distinct members may differ. *)
Definition same_value : change := fun t t' => tree_depth t = tree_depth t' /\ forall f64, value_of f64 t = value_of f64 t'.
(** Changes that keep the value: blanks, the way characters are written, the order of distinct members. *)
Inductive reformatted : tree -> tree -> Prop :=
| FNull : reformatted TNull TNull
| FBool b : reformatted (TBool b) (TBool b)
| FNum neg i f e : reformatted (TNum neg i f e) (TNum neg i f e)
| FStr cs cs' : string_of cs = string_of cs' -> reformatted (TStr cs) (TStr cs')
| FArr w w' l l' : Forall2 (fun x x' => reformatted (i_value x) (i_value x')) l l' -> reformatted (TArr w l) (TArr w' l')
| FObj w w' l l0 l' :
    Forall2 (fun m m' => string_of (m_key m) = string_of (m_key m') /\ reformatted (m_value m) (m_value m')) l l0 ->
    Permutation l0 l' -> NoDup (map (fun m => string_of (m_key m)) l0) -> reformatted (TObj w l) (TObj w' l').
Definition same_name : change := fun t t' =>
  t = t' \/ exists cs cs', t = TStr cs /\ t' = TStr cs' /\ string_of cs = string_of cs'.
Definition same_list (k : change) : change := fun t t' =>
  t = t' \/ exists w w' l l', t = TArr w l /\ t' = TArr w' l' /\ Forall2 (fun i i' => k (i_value i) (i_value i')) l l'.
(** In an object with known members [fs]: members may be reordered and members with unknown names, of any value,
    added, dropped or changed; a known member may change as its entry allows. *)
Definition unknown (fs : list (bytes * change)) (m : member tree) : Prop :=
  exists n, string_of (m_key m) = Some n /\ ~ In n (map fst fs).
Definition same_members (fs : list (bytes * change)) (l l' : list (member tree)) : Prop :=
  exists known known' extra extra',
    Permutation (known ++ extra) l /\ Permutation (known' ++ extra') l' /\
    Forall2 (fun m m' => exists n k, In (n, k) fs /\ string_of (m_key m) = Some n /\ string_of (m_key m') = Some n /\
                                     k (m_value m) (m_value m')) known known' /\
    Forall (unknown fs) extra /\ Forall (unknown fs) extra'.
Definition same_object (fs : list (bytes * change)) : change := fun t t' =>
  t = t' \/ exists w w' l l', t = TObj w l /\ t' = TObj w' l' /\ same_members fs l l'.

Definition same_proof : change :=
  same_object [(B "id", same_value); (B "type", same_value); (B "proofPurpose", same_name); (B "proofValue", same_value);
               (B "verificationMethod", same_value); (B "created", same_value); (B "expires", same_value);
               (B "cryptosuite", same_value)].
Definition same_vc_tree : change :=
  same_object [(B "@context", same_value); (B "type", same_value); (B "credentialSubject", same_value);
               (B "proof", same_proof); (B "id", same_value); (B "issuer", same_value)].
Definition same_vp_tree : change :=
  same_object [(B "@context", same_value); (B "type", same_value); (B "verifiableCredential", same_list same_vc_tree);
               (B "proof", same_proof); (B "holder", same_value)].
(** Texts of two trees so related, with any blanks around them. *)
Definition same_text (k : change) (s s' : bytes) : Prop :=
  exists w t w' u t' u', blank w /\ blank w' /\ blank u /\ blank u' /\ tree_ok t /\ tree_ok t' /\
    s = w ++ render t ++ w' /\ s' = u ++ render t' ++ u' /\ k t t'.

(** The same result, or a refusal of both texts (the message may quote the text). *)
Definition same_outcome {A} (a b : result A proof_error) : Prop :=
  a = b \/ exists m m', a = Err (ProofGenerationError m) /\ b = Err (ProofGenerationError m').
