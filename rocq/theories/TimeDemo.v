(** Timestamps of proofs, and concrete dependencies that read them as chrono does. *)
From Verif Require Import Base BaseFacts Codec Json JsonParse Deps Types Proof Vc Suite JsonSpec VcSpec SuiteSpec SuiteFacts MiscSpec Grammar Demo DemoFacts PropsVc Time TimeSpec TimeFacts.
Set Implicit Arguments.
Local Open Scope Z_scope.

Section Documents.
  Variables lo hi : Z.
  Variable D : deps.
  Hypothesis C : chrono lo hi D.
  Theorem datetime_iff t z : datetime D t = Ok z <-> is_time lo hi t z.
  Proof. rewrite <- read_time_iff. specialize (C t). destruct (datetime D t) as [x|x]; rewrite C; split; intros H; try discriminate; injection H as ->; reflexivity. Qed.
  Theorem created_iff o : validate_created D o = Ok tt <-> exists c z, p_created o = Some c /\ is_time lo hi c z.
  Proof. rewrite created_ok. split; intros (c & z & E & H); exists c, z; (split; [exact E|]); apply datetime_iff; exact H. Qed.
  Theorem signed_time T (P : proofable T) kp v o v' : add_proof D P kp v o = Ok v' -> exists c z, p_created o = Some c /\ is_time lo hi c z.
  Proof. intros H. apply add_proof_iff in H as ((_ & _ & c & z & E & H) & _). exists c, z. split; [exact E|apply datetime_iff; exact H]. Qed.
  Theorem verified_time T (P : proofable T) pk s e r : verify_proof D P pk s e = Ok r ->
    exists v p c z, pf_parse_json_bytes P s = Ok v /\ pf_get_proof P v = Some p /\ p_created p = Some c /\ is_time lo hi c z.
  Proof. intros H. apply verify_ok_iff in H as (v & x & (p & b & sig & t & H1 & H2 & (_ & _ & c & z & E & H) & _) & _). exists v, p, c, z. repeat (split; [assumption|]). apply datetime_iff. exact H. Qed.
  Theorem rfc3339_read t y mo d h mi s ns off : lo < 0 -> 9999 < hi -> rfc3339 t y mo d h mi s ns off -> datetime D t = Ok (instant y mo d h mi s ns off).
  Proof. intros L H R. apply datetime_iff. exact (rfc3339_time L H R). Qed.
End Documents.
Theorem day_zero : day_number 1970 1 1 = 0. Proof. reflexivity. Qed.

(** A text that is no RFC 3339 timestamp. *)
Definition loose_text : bytes := B " 2023-1-1 0:0:60 Utc".
Lemma loose_read lo hi : lo <= 2022 -> 2024 <= hi -> is_time lo hi loose_text 1672531260000000000.
Proof.
  intros L H. pose proof (@year_mono lo 2022 L) as M1. pose proof (@year_mono 2024 hi H) as M2.
  assert (E : day_number hi 12 31 = day_number hi 1 1 + 364 + (if leap hi then 1 else 0)). { unfold day_number. change (before_month hi 1) with 0. change (before_month hi 12) with (334 + (if leap hi then 1 else 0)). lia. }
  exists 2023, 1, 1, 0, 0, 60, 0, 0. split; [|split; [|vm_compute; reflexivity]].
  - assert (N : forall n, (n < 10)%N -> short_number 2 (Z.of_N n) [byte_of_N (48 + n)]).
    { intros n Hn. assert (X : n = 0%N \/ n = 1%N \/ n = 2%N \/ n = 3%N \/ n = 4%N \/ n = 5%N \/ n = 6%N \/ n = 7%N \/ n = 8%N \/ n = 9%N) by lia.
      repeat destruct X as [->|X]; try subst n; (split; [split; [discriminate|constructor; [split; vm_compute; discriminate|constructor]]|split; [cbn; lia|reflexivity]]). }
    exists (B " "), (B "2023"), [], [], (B "1"), [], [], (B "1"), " "%byte, [], (B "0"), [], [], (B "0"), [], [], (B "60"), [], (B " "), (B "Utc"), [].
    split; [reflexivity|]. assert (S1 : spaces (B " ")) by (exists [32%N]; split; [constructor; [unfold white; cbn [In]; auto 10|constructor]|reflexivity]). assert (S0 := no_spaces).
    split; [repeat (constructor; [assumption|]); constructor|]. split; [left; exact (@four_short 2023 ltac:(lia))|]. split; [exact (N 1%N eq_refl)|]. split; [exact (N 1%N eq_refl)|]. split; [right; right; left; reflexivity|].
    split; [exact (N 0%N eq_refl)|]. split; [exact (N 0%N eq_refl)|]. split; [exact (@two_short 60 ltac:(lia))|]. split; [left; auto|].
    right. left. split; [reflexivity|]. exists "U"%byte, "t"%byte, "c"%byte. split; [reflexivity|]. split; [left; reflexivity|]. split; [right; left; reflexivity|right; left; reflexivity].
  - split; [apply real_date_iff; vm_compute; repeat split; discriminate|]. repeat (split; [lia|]). change (Z.min 60 59) with 59. change (day_number 2023 1 1) with 19358.
    change (day_number 2022 1 1) with 18993 in M1. change (day_number 2024 1 1) with 19723 in M2. change ((19358 * 86400 + 0 * 3600 + 0 * 60 + 59 - 0) / 86400) with 19358. rewrite E. destruct (leap hi); lia.
Qed.
Theorem loose_accepted lo hi D : chrono lo hi D -> lo < 0 -> 9999 < hi ->
  datetime D loose_text = Ok 1672531260000000000 /\ forall y mo d h mi s ns off, ~ rfc3339 loose_text y mo d h mi s ns off.
Proof.
  intros C L H. split; [apply (datetime_iff C); apply loose_read; lia|]. intros y mo d h mi s ns off (sep & ft & ot & _ & _ & _ & Ry & _ & _ & _ & _ & E).
  apply (f_equal (@hd byte "0"%byte)) in E. change (" "%byte = ten (y / 100 / 10)) in E. assert (R : 0 <= y / 100 / 10 <= 9) by (Z.to_euclidean_division_equations; lia).
  pose proof (ten_digit R) as X. rewrite <- E in X. destruct X as [X _]. vm_compute in X. exact (X eq_refl).
Qed.

(** [demo] with chrono's timestamps. *)
Definition with_datetime (D : deps) (f : bytes -> result Z bytes) : deps := {|
  sha256 := sha256 D; sha384 := sha384 D; blake3 := blake3 D;
  ed_pair := ed_pair D; ed_pub := ed_pub D; ed_priv := ed_priv D; ed_pub_key := ed_pub_key D; ed_priv_key := ed_priv_key D;
  ed_sign := ed_sign D; ed_verify := ed_verify D; ed_pub_bytes := ed_pub_bytes D; ed_pub_to_hex := ed_pub_to_hex D;
  ed_pub_from_hex := ed_pub_from_hex D; ed_to_pem := ed_to_pem D; ed_from_pem := ed_from_pem D;
  dh_pair := dh_pair D; dh_pub := dh_pub D; dh_pub_key := dh_pub_key D; dh_pub_to_hex := dh_pub_to_hex D;
  dh_pub_from_hex := dh_pub_from_hex D; dh_to_hex := dh_to_hex D;
  kdf := kdf D; aead_decrypt := aead_decrypt D; ks_rand := ks_rand D; ed_seal := ed_seal D; dh_seal := dh_seal D; ks_decrypt := ks_decrypt D;
  f64_text := f64_text D; f64_parse := f64_parse D; jcs_number := jcs_number D; jcs_leb := jcs_leb D; mb_other := mb_other D;
  datetime := f; maddr := maddr D; multiaddr := multiaddr D; mb_error := mb_error D; mh_error := mh_error D;
  hex_error := hex_error D; utf8_error := utf8_error D; json_error := json_error D |}.
Definition timely : deps :=
  with_datetime demo (fun t => match read_time (-262143) 262142 t with Some z => Ok z | None => Err (B "input contains invalid characters") end).
Theorem timely_chrono : chrono (-262143) 262142 timely.
Proof. intros t. cbn [timely with_datetime datetime]. destruct (read_time (-262143) 262142 t); reflexivity. Qed.
(** A proof created at [t], and whether [demo_vc] is signed with it. *)
Definition dated (t : bytes) : proof :=
  proof_run (proof_new (B "id1")) [PfPurpose (B "assertionMethod"); PfCreated t; PfMethod (B "did:x#k")].
Definition signs_dated (t : bytes) : bool :=
  match add_proof timely (vc_proofable timely) (B "e1" : ed_pair timely) demo_vc (dated t) with Ok _ => true | Err _ => false end.
