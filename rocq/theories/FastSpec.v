(** Specification vocabulary of C86: serde_json without [float_roundtrip], and decimals it reads exactly. *)
From Verif Require Import Base Codec Json JsonParse Deps Grammar CanonSpec Float FloatSpec Fast.
Set Implicit Arguments.
Local Open Scope N_scope.

(** Numbers are written as in C84 but read the fast way. *)
Definition fast (D : deps) : Prop := ieee_written D /\ forall t, f64_parse D t = read_fast t.
(** A decimal with digits up to 2^53 = 9007199254740992 and a power of ten from -22 to 22. *)
Definition plain_decimal (i f e : bytes) : Prop :=
  int_ok i /\ frac_ok f /\ exp_ok e /\ dec_value (i ++ tl f) <= 2 ^ 53 /\ (-22 <= power f e <= 22)%Z.
(** An integer, or a float whose JSON text is such a decimal. *)
Definition plain (n : number) : Prop :=
  real n /\ match n with Float b => exists neg i f e, plain_decimal i f e /\ ryu_text b = number_text neg i f e | _ => True end.

(** Of the digits [n] the first ones [s] are kept, fewer than 2^64, and [k] are left: none if all fit. Where the first digit left
    is one before the point and the first one after the point fits, that one is taken in its place. *)
Definition shortened (n s k : N) : Prop :=
  s < 2 ^ 64 /\ s * 10 ^ k <= n /\ n < (s + 10) * 10 ^ k /\ (k = 0 -> s = n) /\ (0 < k -> 2 ^ 64 <= 10 * s + 9).
(** The float [m] is what the float [v] times 10^x becomes: one rounding for the power of ten and one for the product or the
    quotient, after divisions by 1e308. *)
Inductive scaled : N -> Z -> N -> Prop :=
| Multiplied v x p m : (0 <= x <= 308)%Z -> is_nearest (10 ^ Z.to_N x) 1 p -> is_nearest (units v * units p) (2 ^ 2148) m -> scaled v x m
| Divided v x p m : (-308 <= x < 0)%Z -> is_nearest (10 ^ Z.to_N (- x)) 1 p -> is_nearest (units v) (units p) m -> scaled v x m
| Again v x p v' m : (x < -308)%Z -> 0 < v -> is_nearest (10 ^ 308) 1 p -> is_nearest (units v) (units p) v' -> scaled v' (x + 308) m -> scaled v x m
| Nothing x : (308 < Z.abs x)%Z -> scaled 0 x 0.
