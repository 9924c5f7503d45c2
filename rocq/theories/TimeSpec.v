(** Specification vocabulary of C87: dates, and texts of timestamps. *)
From Verif Require Import Base Codec JsonParse Deps MiscSpec Grammar Time.
Local Open Scope Z_scope.

(** ** The Gregorian calendar *)
Definition leap_year (y : Z) : Prop := (4 | y) /\ (~ (100 | y) \/ (400 | y)).
Definition real_date (y m d : Z) : Prop :=
  1 <= d /\ (In m [1; 3; 5; 7; 8; 10; 12] /\ d <= 31 \/ In m [4; 6; 9; 11] /\ d <= 30 \/ m = 2 /\ (d <= 28 \/ d = 29 /\ leap_year y)).
(** The date after another one. *)
Definition next_day (y m d y' m' d' : Z) : Prop :=
  real_date y m d /\ real_date y' m' d' /\
  (y' = y /\ m' = m /\ d' = d + 1 \/
   ~ real_date y m (d + 1) /\ d' = 1 /\ (m < 12 /\ y' = y /\ m' = m + 1 \/ m = 12 /\ y' = y + 1 /\ m' = 1)).

(** ** Texts chrono takes for a timestamp *)
(** Unicode's white space. *)
Definition white (c : N) : Prop :=
  (9 <= c <= 13 \/ 8192 <= c <= 8202 \/ In c [32; 133; 160; 5760; 8232; 8233; 8239; 8287; 12288])%N.
Definition spaces (w : bytes) : Prop := exists cs, Forall white cs /\ w = flat_map code_point cs.
Definition colons (w : bytes) : Prop := exists cs, Forall (fun c => c = 58%N \/ white c) cs /\ w = flat_map code_point cs.
Definition value (ds : bytes) : Z := Z.of_N (dec_value ds).
(** At most [k] digits. *)
Definition short_number (k : nat) (n : Z) (ds : bytes) : Prop := digits1 ds /\ (length ds <= k)%nat /\ n = value ds.
Definition year_text (y : Z) (u : bytes) : Prop :=
  short_number 4 y u \/ exists ds, digits1 ds /\ (u = B "+" ++ ds /\ y = value ds \/ u = B "-" ++ ds /\ y = - value ds).
(** Nanoseconds: nine digits of the fraction count. *)
Definition fraction_text (ns : Z) (u : bytes) : Prop :=
  u = [] /\ ns = 0 \/
  exists ds, digits1 ds /\ u = B "." ++ ds /\ ns = value (firstn 9 ds) * 10 ^ (9 - Z.of_nat (length (firstn 9 ds))).
(** Z, UTC, or a sign, two digits for hours, perhaps colons and white space, and two for minutes. *)
Definition offset_text (off : Z) (u : bytes) : Prop :=
  off = 0 /\ (exists z, u = [z] /\ In z (B "Zz")) \/
  off = 0 /\ (exists a b c, u = [a; b; c] /\ In a (B "Uu") /\ In b (B "Tt") /\ In c (B "Cc")) \/
  exists sign sg hh sep mm, In (sign, sg) [(B "+", 1); (B "-", -1); (code_point 8722, -1)] /\
    u = sign ++ hh ++ sep ++ mm /\ Forall digit (hh ++ mm) /\ length hh = 2%nat /\ length mm = 2%nat /\ value mm < 60 /\ colons sep /\
    off = sg * (value hh * 3600 + value mm * 60).
Definition time_text (t : bytes) (y mo d h mi s ns off : Z) : Prop :=
  exists w1 yt w2 w3 mot w4 w5 dt sep w6 ht w7 w8 mit w9 w10 st ft w11 ot w12,
    t = w1 ++ yt ++ w2 ++ B "-" ++ w3 ++ mot ++ w4 ++ B "-" ++ w5 ++ dt ++ [sep] ++
        w6 ++ ht ++ w7 ++ B ":" ++ w8 ++ mit ++ w9 ++ B ":" ++ w10 ++ st ++ ft ++ w11 ++ ot ++ w12 /\
    Forall spaces [w1; w2; w3; w4; w5; w6; w7; w8; w9; w10; w11; w12] /\
    year_text y yt /\ short_number 2 mo mot /\ short_number 2 d dt /\ In sep (B "Tt ") /\
    short_number 2 h ht /\ short_number 2 mi mit /\ short_number 2 s st /\ fraction_text ns ft /\ offset_text off ot.
(** The fields of an existing instant (a leap second has the number 60) in the years from [lo] to [hi], and its nanoseconds
    since 1970-01-01T00:00:00Z. *)
Definition instant (y mo d h mi s ns off : Z) : Z :=
  (day_number y mo d * 86400 + h * 3600 + mi * 60 + s - off) * 1000000000 + ns.
Definition real_time (lo hi y mo d h mi s off : Z) : Prop :=
  real_date y mo d /\ lo <= y <= hi /\ 0 <= h <= 23 /\ 0 <= mi <= 59 /\ 0 <= s <= 60 /\ -86400 < off < 86400 /\
  day_number lo 1 1 <= (day_number y mo d * 86400 + h * 3600 + mi * 60 + Z.min s 59 - off) / 86400 <= day_number hi 12 31.
Definition is_time (lo hi : Z) (t : bytes) (z : Z) : Prop :=
  exists y mo d h mi s ns off, time_text t y mo d h mi s ns off /\ real_time lo hi y mo d h mi s off /\ z = instant y mo d h mi s ns off.

(** ** RFC 3339 *)
Definition ten (n : Z) : byte := byte_of_N (48 + Z.to_N n).
Definition two (n : Z) : bytes := [ten (n / 10); ten (n mod 10)].
Definition four (n : Z) : bytes := two (n / 100) ++ two (n mod 100).
(** The offset's text: Z or hours and minutes with a sign. *)
Definition rfc_offset (off : Z) (u : bytes) : Prop :=
  off = 0 /\ In u [B "Z"; B "z"] \/
  exists hh mm, 0 <= hh <= 23 /\ 0 <= mm <= 59 /\
    (u = B "+" ++ two hh ++ B ":" ++ two mm /\ off = hh * 3600 + mm * 60 \/
     u = B "-" ++ two hh ++ B ":" ++ two mm /\ off = - (hh * 3600 + mm * 60)).
(** date-time of RFC 3339, section 5.6 (with the space it mentions). *)
Definition rfc3339 (t : bytes) (y mo d h mi s ns off : Z) : Prop :=
  exists sep ft ot, In sep (B "Tt ") /\ fraction_text ns ft /\ rfc_offset off ot /\ 0 <= y <= 9999 /\
    real_date y mo d /\ 0 <= h <= 23 /\ 0 <= mi <= 59 /\ 0 <= s <= 60 /\
    t = four y ++ B "-" ++ two mo ++ B "-" ++ two d ++ [sep] ++ two h ++ B ":" ++ two mi ++ B ":" ++ two s ++ ft ++ ot.

(** The dependency chrono, with these first and last years. *)
Definition chrono (lo hi : Z) (D : deps) : Prop :=
  forall t, match datetime D t with Ok z => read_time lo hi t = Some z | Err _ => read_time lo hi t = None end.
