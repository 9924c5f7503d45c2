(** C87: which timestamps of proofs are accepted. *)
From Verif Require Import Base Codec JsonParse Deps Types Proof Vc Suite SuiteSpec MiscSpec Grammar Demo PropsVc Time TimeSpec TimeFacts TimeDemo.
Local Open Scope Z_scope.

(** C87. The texts chrono takes for a timestamp are these, with this instant, ... *)
Theorem C87_accepted_texts : forall lo hi D t z, chrono lo hi D -> (datetime D t = Ok z <-> is_time lo hi t z).
Proof. intros lo hi D t z C. exact (datetime_iff C t z). Qed.
Print Assumptions C87_accepted_texts.
(** ... counted in days of the Gregorian calendar since 1970-01-01. *)
Theorem C87_calendar : day_number 1970 1 1 = 0 /\
  forall y m d y' m' d', next_day y m d y' m' d' -> day_number y' m' d' = day_number y m d + 1.
Proof. exact (conj day_zero next_number). Qed.
Print Assumptions C87_calendar.
(** Every timestamp of RFC 3339 is among them and means what it says. *)
Theorem C87_rfc3339 : forall lo hi D, chrono lo hi D -> forall t y mo d h mi s ns off, lo < 0 -> 9999 < hi ->
  rfc3339 t y mo d h mi s ns off -> datetime D t = Ok (instant y mo d h mi s ns off).
Proof. exact rfc3339_read. Qed.
Print Assumptions C87_rfc3339.
(** A proof's [created] passes validation exactly if it is such a text, ... *)
Theorem C87_validated : forall lo hi D, chrono lo hi D -> forall o,
  validate_created D o = Ok tt <-> exists c z, p_created o = Some c /\ is_time lo hi c z.
Proof. exact created_iff. Qed.
Print Assumptions C87_validated.
(** ... so credentials and presentations (and any other document) are signed ... *)
Theorem C87_signed : forall lo hi D, chrono lo hi D -> forall T (P : proofable T) kp v o v', add_proof D P kp v o = Ok v' ->
  exists c z, p_created o = Some c /\ is_time lo hi c z.
Proof. exact signed_time. Qed.
Print Assumptions C87_signed.
(** ... and answered for by the verifier only with such a timestamp. *)
Theorem C87_verified : forall lo hi D, chrono lo hi D -> forall T (P : proofable T) pk s e r, verify_proof D P pk s e = Ok r ->
  exists v p c z, pf_parse_json_bytes P s = Ok v /\ pf_get_proof P v = Some p /\ p_created p = Some c /\ is_time lo hi c z.
Proof. exact verified_time. Qed.
Print Assumptions C87_verified.
(** Not only timestamps of RFC 3339 are accepted. *)
Theorem C87_only_rfc3339_refuted : forall lo hi D, chrono lo hi D -> lo < 0 -> 9999 < hi ->
  datetime D loose_text = Ok 1672531260000000000 /\ forall y mo d h mi s ns off, ~ rfc3339 loose_text y mo d h mi s ns off.
Proof. exact loose_accepted. Qed.
Print Assumptions C87_only_rfc3339_refuted.

Example C87_example :
  chrono (-262143) 262142 timely /\
  map signs_dated [B "2024-01-02T03:04:05Z"; B "2024-02-29t23:59:60.5+05:30"; B "2023-02-29T00:00:00Z"; B "2024-01-02T24:00:00Z"; B "2024-01-02"; loose_text; B "-1-1-1 0:0:0 -23 : 59"]
    = [true; true; false; false; false; true; true] /\
  rfc3339 (B "2024-02-29t23:59:60.5+05:30") 2024 2 29 23 59 60 500000000 19800 /\
  instant 2024 2 29 23 59 60 500000000 19800 = 1709231400500000000 /\
  next_day 2024 2 28 2024 2 29 /\ next_day 2023 2 28 2023 3 1 /\ next_day (-1) 12 31 0 1 1.
Proof.
  split; [exact timely_chrono|]. split; [vm_compute; reflexivity|]. split.
  { exists "t"%byte, (B ".5"), (B "+05:30"). split; [right; left; reflexivity|]. split.
    { right. exists (B "5"). split; [split; [discriminate|constructor; [split; vm_compute; discriminate|constructor]]|split; reflexivity]. }
    split; [right; exists 5, 30; repeat split; try lia; left; split; reflexivity|]. split; [lia|]. split; [apply real_date_iff; vm_compute; repeat split; discriminate|]. repeat split; try lia. }
  split; [vm_compute; reflexivity|].
  assert (X : forall y m d, 1 <=? m = true -> m <=? 12 = true -> 1 <=? d = true -> d <=? month_days y m = true -> real_date y m d) by (intros; apply real_date_iff; lia).
  split; [|split]; (split; [apply X; reflexivity|split; [apply X; reflexivity|]]).
  - left. auto.
  - right. split; [|split; [reflexivity|left; repeat split; lia]]. intros R. apply real_date_iff in R. vm_compute in R. destruct R as (_ & _ & R). exact (R eq_refl).
  - right. split; [|split; [reflexivity|right; repeat split; lia]]. intros R. apply real_date_iff in R. vm_compute in R. destruct R as (_ & _ & R). exact (R eq_refl).
Qed.
Print Assumptions C87_example.
