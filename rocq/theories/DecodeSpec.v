(** Decoding of hex and multibase texts (C77). *)
From Verif Require Import Base Codec.

(** A hex digit of either case, and the same digit in lower case. *)
Definition same_digit (a b : byte) : Prop := a = b \/ In (a, b) (combine (B "ABCDEF") (B "abcdef")).
(** An upper case hex digit and the same in lower case. *)
Definition upper_digit (a b : byte) : Prop := In (a, b) (combine (B "0123456789ABCDEF") (B "0123456789abcdef")).
(** [t] is a multibase text of [s] in base [b]: the base's letter and the text of [s]. *)
Definition multibase_text (other : bytes -> option (N * bytes)) (t : bytes) (b : mbase) (s : bytes) : Prop :=
  match b with
  | Base58Btc => t = B "z" ++ base58_encode s
  | Base16Lower => t = B "f" ++ hex_encode s
  | Base16Upper => exists u, t = B "F" ++ u /\ Forall2 upper_digit u (hex_encode s)
  | IdentityBase => t = x00 :: s
  | OtherBase n => (forall c r, t = c :: r -> ~ In c (x00 :: B "zfF")) /\ t <> [] /\ other t = Some (n, s)
  end.
