(** Specification of texts without waste (C83). *)
From Verif Require Import Base Codec Json Deps Types Proof Vc Grammar TextSpec FlowSpec.
Set Implicit Arguments.
Local Open Scope nat_scope.

(** No numeral for the number is shorter than the way it is written. *)
Definition short_number (f64 : bytes -> option N) (num : number -> bytes) (n : number) : Prop :=
  forall neg i f e, int_ok i -> frac_ok f -> exp_ok e -> number_of f64 neg i f e = Some n ->
    length (num n) <= length (number_text neg i f e).
(** An escape without capital hexadecimal digits. *)
Definition lower_case (x : schar) : Prop :=
  match x with Uni a b c d => Forall (fun h => ~ In h (B "ABCDEF")) [a; b; c; d] | _ => True end.

(** Structs given by their members' names (and not as arrays of the values). *)
Definition not_array (t : tree) : Prop := match t with TArr _ _ => False | _ => True end.
Definition vc_by_name (t : tree) : Prop :=
  exists w l, t = TObj w l /\ forall m, In m l -> named (B "proof") m = true -> not_array (m_value m).
Definition vp_by_name (t : tree) : Prop :=
  exists w l, t = TObj w l /\ (forall m, In m l -> named (B "proof") m = true -> not_array (m_value m)) /\
    forall m w' l', In m l -> named (B "verifiableCredential") m = true -> m_value m = TArr w' l' ->
      Forall (fun x => vc_by_name (i_value x)) l'.
