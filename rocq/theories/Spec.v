(** Vocabulary of the property statements, independent of the model's functions. *)
From Verif Require Import Base Codec.
Set Implicit Arguments.

(** [a] is the text of [s] before its first [c] (all of [s] if there is none). *)
Definition before (c : byte) (s a : bytes) : Prop :=
  ~ In c a /\ (s = a \/ exists r, s = a ++ c :: r).

(** ** Query of a DID URI (C01-C05) *)

(** [q] is the text between the first and the second '?' of [uri]. *)
Definition query_of (uri q : bytes) : Prop :=
  exists a r, uri = a ++ "?"%byte :: r /\ ~ In "?"%byte a /\ before "?"%byte r q.
(** [items] are the '&'-separated items of [q]. *)
Definition items_of (q : bytes) (items : list bytes) : Prop :=
  items <> [] /\ q = join (B "&") items /\ Forall (fun i => ~ In "&"%byte i) items.
(** The item reads [name=v] or [name=v=...]. *)
Definition binds (item name v : bytes) : Prop :=
  exists r, item = name ++ "="%byte :: r /\ before "="%byte r v.
(** The value of parameter [name]: that of the last item binding it. *)
Definition param_of (uri name : bytes) (o : option bytes) : Prop :=
  match o with
  | Some v => exists q pre item post, query_of uri q /\ items_of q (pre ++ item :: post) /\
      binds item name v /\ (forall x w, In x post -> ~ binds x name w)
  | None => forall q items x w, query_of uri q -> items_of q items -> In x items -> ~ binds x name w
  end.

(** A value free of the three characters with a meaning in a query. *)
Definition clean (o : option bytes) : Prop :=
  match o with Some v => ~ In "?"%byte v /\ ~ In "&"%byte v /\ ~ In "="%byte v | None => True end.

(** The query text of two optional parameters. *)
Definition query_text (a h : option bytes) : option bytes :=
  match a, h with
  | None, None => None
  | Some a, None => Some (B "address=" ++ a)
  | None, Some h => Some (B "hl=" ++ h)
  | Some a, Some h => Some (B "address=" ++ a ++ B "&hl=" ++ h)
  end.

(** ** Collisions *)
Definition collision (h : bytes -> bytes) (a b : bytes) : Prop := a <> b /\ h a = h b.

(** ** Base58 texts *)
Definition base58_text (t : bytes) : Prop :=
  Forall (fun c => In c (B "123456789ABCDEFGHJKLMNPQRSTUVWXYZabcdefghijkmnopqrstuvwxyz")) t.

(** Number of occurrences of a byte. *)
Definition occurrences (c : byte) (s : bytes) : nat := length (filter (beq c) s).

(** ** Call histories on an identity (C12-C16) *)

(** A call that generates keys, with the key pairs it generated. *)
Inductive identity_call (ED DH : Type) :=
| CallAuth (ed : ED) (dh : DH)        (* build_auth_method *)
| CallAssertion (ed : ED) (dh : DH).  (* build_assertion_method *)
Arguments CallAuth {ED DH}.
Arguments CallAssertion {ED DH}.

(** The key pairs generated by the first [build_auth_method] ([build_assertion_method]) call. *)
Fixpoint first_auth {ED DH} (calls : list (identity_call ED DH)) : option (ED * DH) :=
  match calls with
  | [] => None
  | CallAuth ed dh :: _ => Some (ed, dh)
  | _ :: r => first_auth r
  end.
Fixpoint first_assertion {ED DH} (calls : list (identity_call ED DH)) : option (ED * DH) :=
  match calls with
  | [] => None
  | CallAssertion ed dh :: _ => Some (ed, dh)
  | _ :: r => first_assertion r
  end.
