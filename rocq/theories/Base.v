(** Byte strings, results and the handful of Rust std operations used by the crate. *)
From Coq Require Export Strings.Byte.
From Coq Require Export Strings.String.
From Coq Require Export Bool NArith ZArith Lia List.
Export ListNotations.
Open Scope list_scope.
Set Implicit Arguments.

(** A Rust [Vec<u8>] / [&[u8]] / the bytes of a [String]. *)
Definition bytes := list byte.

(** String literals of the Rust text (all ASCII). *)
Definition B (s : string) : bytes := list_byte_of_string s.
Arguments B s%string.

Definition beq (a b : byte) : bool := Byte.eqb a b.

(** [==] on [String]/[Vec<u8>]. *)
Fixpoint bytes_eqb (a b : bytes) : bool :=
  match a, b with
  | [], [] => true
  | x :: a', y :: b' => beq x y && bytes_eqb a' b'
  | _, _ => false
  end.

(** Rust [Result<A, E>]. *)
Inductive result (A E : Type) : Type :=
| Ok (a : A)
| Err (e : E).
Arguments Ok {A E} _.
Arguments Err {A E} _.

(** The Rust [?] operator. *)
Definition bind {A B E} (r : result A E) (f : A -> result B E) : result B E :=
  match r with Ok a => f a | Err e => Err e end.
Notation "'let?' x ':=' r 'in' k" := (bind r (fun x => k))
  (at level 200, x pattern, r at level 100, k at level 200, right associativity).

(** [Result::map_err]. *)
Definition map_err {A E E'} (f : E -> E') (r : result A E) : result A E' :=
  match r with Ok a => Ok a | Err e => Err (f e) end.

(** [Result::map]. *)
Definition map_ok {A A' E} (f : A -> A') (r : result A E) : result A' E :=
  match r with Ok a => Ok (f a) | Err e => Err e end.

(** [Option::ok_or]. *)
Definition ok_or {A E} (e : E) (o : option A) : result A E :=
  match o with Some a => Ok a | None => Err e end.

Definition is_ok {A E} (r : result A E) : bool :=
  match r with Ok _ => true | Err _ => false end.

(** A computation that may panic (only vector indexing can, in this crate). *)
Inductive outcome (A : Type) : Type :=
| Ret (a : A)
| Panic.
Arguments Ret {A} _.
Arguments Panic {A}.

Definition obind {A B} (o : outcome A) (f : A -> outcome B) : outcome B :=
  match o with Ret a => f a | Panic => Panic end.
Notation "'let!' x ':=' r 'in' k" := (obind r (fun x => k))
  (at level 200, x pattern, r at level 100, k at level 200, right associativity).

(** [v[i]] on a vector: panics when out of range. *)
Definition index {A} (v : list A) (i : nat) : outcome A :=
  match nth_error v i with Some a => Ret a | None => Panic end.

(** [str::split(c)] for an ASCII separator: a text with n separators has n+1 pieces. Splitting the
    UTF-8 bytes at an ASCII byte is splitting the chars, since ASCII bytes occur in UTF-8 only as
    themselves. *)
Fixpoint split (c : byte) (s : bytes) : list bytes :=
  match s with
  | [] => [[]]
  | x :: s' =>
    if beq x c then [] :: split c s'
    else match split c s' with
         | [] => [[x]]
         | p :: ps => (x :: p) :: ps
         end
  end.

(** [Vec<String>::join(sep)]. *)
Fixpoint join (sep : bytes) (ps : list bytes) : bytes :=
  match ps with
  | [] => []
  | [p] => p
  | p :: ps' => p ++ sep ++ join sep ps'
  end.

(** [Iterator::last]. *)
Fixpoint last_opt {A} (l : list A) : option A :=
  match l with
  | [] => None
  | [x] => Some x
  | _ :: l' => last_opt l'
  end.

(** [is_empty]. *)
Definition is_empty {A} (l : list A) : bool := match l with [] => true | _ => false end.
Definition is_none {A} (o : option A) : bool := match o with None => true | _ => false end.

(** The byte occurs in the text. *)
Definition mem (c : byte) (s : bytes) : bool := existsb (beq c) s.

(** Byte of a number below 256 (used only there). *)
Definition byte_of_N (n : N) : byte := match Byte.of_N n with Some b => b | None => x00 end.
