(** Unsigned varints and multihash bytes (C79). *)
From Verif Require Import Base.
Local Open Scope N_scope.

(** The number written by groups of seven bits, least significant first. *)
Fixpoint groups (bs : bytes) : N := match bs with [] => 0 | b :: r => Byte.to_N b mod 128 + 128 * groups r end.
(** All bytes but the last have their highest bit set; the last is not a superfluous zero. *)
Definition varint_form (bs : bytes) : Prop :=
  exists init last, bs = init ++ [last] /\ Forall (fun b => 128 <= Byte.to_N b) init /\ Byte.to_N last < 128 /\ (init = [] \/ last <> x00).
