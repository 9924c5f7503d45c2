(** Specification of "the same data" for credentials, presentations and proofs (C26, C27, C33). *)
From Coq Require Import Permutation.
From Verif Require Import Base Codec Json Deps Types Proof Vc JsonFacts.
Set Implicit Arguments.

Section Same.
  Variable D : deps.
  (** Equality of JSON data, [same] of [JsonFacts]: same structure, objects as sets of members, numbers
      equal when their canonical texts are. *)
  Definition same_json : json -> json -> Prop := same (jcs_number D).
  Definition same_vc (a b : vc) : Prop :=
    vc_contexts a = vc_contexts b /\ vc_types a = vc_types b /\ same_json (vc_subject a) (vc_subject b) /\
    vc_proof a = vc_proof b /\ vc_id a = vc_id b /\ vc_issuer a = vc_issuer b.
  Definition same_vp (a b : vp) : Prop :=
    vp_contexts a = vp_contexts b /\ vp_types a = vp_types b /\ Forall2 same_vc (vp_credentials a) (vp_credentials b) /\
    vp_proof a = vp_proof b /\ vp_holder a = vp_holder b.
End Same.

(** The same JSON value with the members of its objects, at any depth, listed in another order. *)
Inductive reordered : json -> json -> Prop :=
| ReNull : reordered JNull JNull
| ReBool b : reordered (JBool b) (JBool b)
| ReNum n : reordered (JNum n) (JNum n)
| ReStr s : reordered (JStr s) (JStr s)
| ReArr l1 l2 : Forall2 reordered l1 l2 -> reordered (JArr l1) (JArr l2)
| ReObj m1 m m2 : Forall2 (fun a b => fst a = fst b /\ reordered (snd a) (snd b)) m1 m ->
                  Permutation m m2 -> reordered (JObj m1) (JObj m2).
(** No object has two members with the same name (true of every [Value]). *)
Definition unique_names : json -> Prop := nodup_keys.
Definition vc_unique (v : vc) : Prop := unique_names (vc_subject v).
Definition vp_unique (v : vp) : Prop := Forall vc_unique (vp_credentials v).

(** ** Validity (C22, C23) *)
Definition vc_complete (v : vc) : Prop := vc_contexts v <> [] /\ vc_types v <> [] /\ vc_subject v <> JNull.
(** The error of the first missing item. *)
Definition vc_missing (v : vc) (e : did_error) : Prop :=
  (vc_contexts v = [] /\ e = GenerateVCError (B "vc_error: empty context")) \/
  (vc_contexts v <> [] /\ vc_types v = [] /\ e = GenerateVCError (B "vc_error: empty types")) \/
  (vc_contexts v <> [] /\ vc_types v <> [] /\ vc_subject v = JNull /\
   e = GenerateVCError (B "vc_error: credential should not be null")).
Definition vp_complete (v : vp) : Prop := vp_contexts v <> [] /\ vp_types v <> [] /\ vp_credentials v <> [].
Definition vp_missing (v : vp) (e : did_error) : Prop :=
  (vp_contexts v = [] /\ e = GenerateJSONError (B "vp: empty context")) \/
  (vp_contexts v <> [] /\ vp_types v = [] /\ e = GenerateJSONError (B "vp: empty types")) \/
  (vp_contexts v <> [] /\ vp_types v <> [] /\ vp_credentials v = [] /\ e = GenerateJSONError (B "vp: empty credentials")).
