(** Vocabulary of C39-C42. *)
From Verif Require Import Base Codec Json JsonParse Deps Types UserConnection Spec.
Set Implicit Arguments.

(** Unicode scalar values and their UTF-8 bytes (RFC 3629, section 3). *)
Definition scalar (n : N) : Prop := (n < 55296 \/ 57344 <= n < 1114112)%N.
Definition char_bytes (n : N) : list N :=
  (if n <? 128 then [n]
   else if n <? 2048 then [192 + n / 64; 128 + n mod 64]
   else if n <? 65536 then [224 + n / 4096; 128 + n / 64 mod 64; 128 + n mod 64]
   else [240 + n / 262144; 128 + n / 4096 mod 64; 128 + n / 64 mod 64; 128 + n mod 64])%N.
(** [s] is the UTF-8 form of a sequence of characters. *)
Definition is_text (s : bytes) : Prop :=
  exists ns, Forall scalar ns /\ map Byte.to_N s = flat_map char_bytes ns.
