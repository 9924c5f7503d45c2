(** Consequences of [rfc8032] for documents, and concrete dependencies that sign with Ed25519. *)
From Coq Require Import ZArith Lia Eqdep_dec.
From Verif Require Import Base BaseFacts Codec CodecFacts Json JsonParse Deps Types Proof Vc Suite JsonSpec Spec VcSpec SuiteSpec SuiteFacts MiscSpec Demo DemoFacts
  Hash HashFacts DigestFacts Primes Fp Edwards Ed25519 Ed25519Spec CurveFacts Ed25519Facts Ed25519Points.
Set Implicit Arguments.
Local Open Scope Z_scope.

Lemma modp_spec x : modp x = x mod fieldp. Proof. reflexivity. Qed.
Opaque fieldp groupq gen Edwards.plus Edwards.O Edwards.times enc modp.
Theorem verify_accepted pk m s : ed25519_verify modp pk m s = true <-> accepted pk m s.
Proof. apply accepted_iff, modp_spec. Qed.
Theorem signed_accepted secret m : accepted (secret_to_public modp secret) m (ed25519_sign modp secret m).
Proof. apply verify_accepted, sign_verify, modp_spec. Qed.
Lemma readable_iff b : readable b <-> exists A, oncurve A /\ b = enc A.
Proof.
  split.
  - intros (A & HA & W). apply on_curve_iff in HA as [SA OA]. apply written_iff in W; [|exact SA]. eauto.
  - intros (A & OA & ->). exists (coords A). split; [apply on_curve_iff; rewrite pt_coords; split; [apply coords_small|exact OA]|].
    apply written_iff; [apply coords_small|now rewrite pt_coords].
Qed.
Theorem public_readable secret : readable (secret_to_public modp secret).
Proof.
  pose proof (sign_verify modp modp_spec secret []) as H. apply (verify_iff modp modp_spec) in H as (A & _ & _ & OA & _ & E & _).
  apply readable_iff. eauto.
Qed.
Theorem accepted_readable pk m s : accepted pk m s -> readable pk.
Proof. intros (G & A & R & r & x & S & SG & hA & _ & HA & W & _). exists A. auto. Qed.
Theorem accepted_size pk m s : accepted pk m s -> length pk = 32%nat /\ length s = 64%nat.
Proof.
  intros H. apply verify_accepted in H. apply (verify_iff modp modp_spec) in H as (A & R & x & _ & _ & -> & -> & L & _).
  rewrite app_length, !enc_length, L. auto.
Qed.
Theorem accepted_unique pk m r s s' : length r = 32%nat -> accepted pk m (r ++ s) -> accepted pk m (r ++ s') -> s = s'.
Proof.
  intros Lr H H'. apply verify_accepted in H, H'.
  apply (verify_iff modp modp_spec) in H as (A & R & x & OA & OR & E1 & E2 & L & B & E).
  apply (verify_iff modp modp_spec) in H' as (A' & R' & x' & OA' & OR' & E1' & E2' & L' & B' & E').
  apply app_eq_length in E2 as [E2 ->]; [|now rewrite enc_length]. apply app_eq_length in E2' as [E2' ->]; [|now rewrite enc_length].
  rewrite E1 in E1'. apply (enc_point modp modp_spec) in E1'; [|assumption..]. subst A'.
  rewrite E2 in E2'. apply (enc_point modp modp_spec) in E2'; [|assumption..]. subst R'.
  rewrite <- E' in E. apply times_inj in E; [|lia..]. apply le_word_eq; [congruence|]. lia.
Qed.

(** What the secret's holder signs *)
Lemma sha512_size m : length (real_sha512 m) = 64%nat.
Proof.
  unfold real_sha512. rewrite (@flat_map_length _ _ _ 8%nat) by apply be_bytes_length. rewrite sha_state_length. reflexivity.
Qed.
Lemma clamp_mask_bits i : 0 <= i -> Z.testbit (2 ^ 254 - 8) i = (3 <=? i) && (i <? 254).
Proof.
  intros H. change (2 ^ 254 - 8) with (Z.shiftl (Z.ones 251) 3). rewrite Z.shiftl_spec by exact H.
  destruct (Z.leb_spec 3 i) as [L|L]; [|apply Z.testbit_neg_r; lia]. cbn [andb]. rewrite Z.testbit_ones by lia.
  destruct (Z.ltb_spec i 254); [rewrite !(proj2 (Z.leb_le _ _)), !(proj2 (Z.ltb_lt _ _)) by lia; reflexivity|].
  rewrite (proj2 (Z.ltb_ge (i - 3) 251)) by lia. apply Bool.andb_false_r.
Qed.
Lemma expanded_iff secret a prefix : expanded secret a prefix <-> (a, prefix) = secret_expand secret.
Proof.
  pose proof (sha512_size secret) as L. unfold expanded, secret_expand. cbv zeta. generalize dependent (real_sha512 secret). intros b L.
  assert (T : forall h i, 0 <= i -> Z.testbit (Z.lor (Z.land h (2 ^ 254 - 8)) (2 ^ 254)) i = (3 <=? i) && (i <? 254) && Z.testbit h i || (i =? 254)).
  { intros h i H. rewrite Z.lor_spec, Z.land_spec, clamp_mask_bits by exact H. rewrite Z.pow2_bits_eqb by lia. rewrite (Z.eqb_sym 254 i).
    now rewrite (Bool.andb_comm (Z.testbit h i)). }
  split.
  - intros (h & -> & Lh & E). rewrite firstn_app, Lh, Nat.sub_diag, firstn_O, app_nil_r, skipn_app, Lh, Nat.sub_diag, skipn_O, skipn_all2 by lia. cbn [app].
    rewrite firstn_all2 by lia. f_equal. apply Z.bits_inj'. intros i H. rewrite T by exact H. now apply E.
  - intros E. injection E as -> ->. exists (firstn 32 b). split; [symmetry; apply firstn_skipn|]. split; [rewrite firstn_length, L; reflexivity|].
    intros i H. now apply T.
Qed.
Lemma hash_number_eq t : Z.of_N (hash_number t) = sha512_modq t /\ N.to_nat (hash_number t) = Z.to_nat (sha512_modq t).
Proof. pose proof (hash_mod t) as H. fold (hash_number t) in H. pose proof (modq_range t). lia. Qed.
Lemma sign_number r h a : Z.of_N (le_word (le_bytes 32 (Z.to_N ((r + h * a) mod groupq)))) = (r + h * a) mod groupq.
Proof.
  pose proof (Z.mod_pos_bound (r + h * a) groupq groupq_pos) as B. set (S := (r + h * a) mod groupq) in *. clearbody S.
  pose proof groupq_256. pose proof two256. rewrite le_word_bytes; [lia|]. set (w := (256 ^ N.of_nat 32)%N) in *. clearbody w. set (v := 2 ^ 255) in *. clearbody v. lia.
Qed.
Theorem signed_iff secret pk m s : signed secret pk m s <-> pk = secret_to_public modp secret /\ s = ed25519_sign modp secret m.
Proof.
  unfold secret_to_public, ed25519_sign. pose proof (expand_pos secret) as Ha. destruct (secret_expand secret) as [a prefix] eqn:X. cbn [fst] in *.
  rewrite (compress_rep modp modp_spec _ _ (gen_mul_rep modp modp_spec a Ha)).
  pose proof (modq_range (prefix ++ m)) as Hr. rewrite (compress_rep modp modp_spec _ _ (gen_mul_rep modp modp_spec _ (proj1 Hr))).
  set (A := times (Z.to_nat a) gen). set (R := times (Z.to_nat (sha512_modq (prefix ++ m))) gen).
  split.
  - intros (G & a' & prefix' & PA & PR & r & x & HG & HX & MA & WA & MR & WR & -> & L & E).
    apply expanded_iff in HX. rewrite X in HX. injection HX as -> ->. apply base_iff in HG as [SG EG].
    apply multiple_iff in MA; [|rewrite EG; exact gen_on]. destruct MA as [SA EA]. apply multiple_iff in MR; [|rewrite EG; exact gen_on]. destruct MR as [SR ER].
    rewrite EG in EA, ER. rewrite (proj2 (hash_number_eq _)) in ER. fold R in ER. rewrite Z_N_nat in EA. fold A in EA.
    apply written_iff in WA; [|exact SA]. apply written_iff in WR; [|exact SR]. rewrite EA in WA. rewrite ER in WR. subst pk r.
    split; [reflexivity|]. f_equal. apply le_word_eq; [rewrite L, le_bytes_length; reflexivity|]. apply N2Z.inj. rewrite sign_number, E.
    rewrite !(proj1 (hash_number_eq _)), order_L_eq. reflexivity.
  - intros [-> ->]. assert (PG : pt (g_x, g_y) = gen) by (symmetry; exact gen_xy).
    exists (g_x, g_y), a, prefix, (coords A), (coords R), (enc R), (le_bytes 32 (Z.to_N ((sha512_modq (prefix ++ m) + sha512_modq (enc R ++ enc A ++ m) * a) mod groupq))).
    split; [apply base_iff; split; [exact g_small|exact PG]|]. split; [apply expanded_iff; symmetry; exact X|].
    split; [apply multiple_iff; rewrite PG; [exact gen_on|]; split; [apply coords_small|rewrite pt_coords, Z_N_nat; reflexivity]|].
    split; [apply written_iff; [apply coords_small|now rewrite pt_coords]|].
    split; [apply multiple_iff; rewrite PG; [exact gen_on|]; split; [apply coords_small|rewrite pt_coords, (proj2 (hash_number_eq _)); reflexivity]|].
    split; [apply written_iff; [apply coords_small|now rewrite pt_coords]|]. split; [reflexivity|]. split; [apply le_bytes_length|].
    rewrite sign_number, !(proj1 (hash_number_eq _)), order_L_eq. reflexivity.
Qed.

(** A public key of order one, and a signature that it accepts on every message. *)
Definition weak_key : bytes := x01 :: repeat x00 31.
Definition weak_signature : bytes := x01 :: repeat x00 63.
Lemma weak_point : on_curve (0, 1).
Proof. split; [split; [lia|reflexivity]|]. split; [split; [lia|reflexivity]|]. exists 0. lia. Qed.
Lemma weak_written : written (0, 1) weak_key.
Proof. split; reflexivity. Qed.
Theorem weak_readable : readable weak_key.
Proof. exists (0, 1). split; [exact weak_point|exact weak_written]. Qed.
Theorem weak_accepted m : accepted weak_key m weak_signature.
Proof.
  exists (g_x, g_y), (0, 1), (0, 1), weak_key, (repeat x00 32), 0%N, (0, 1), (0, 1).
  split; [apply base_iff; split; [exact g_small|reflexivity]|]. split; [exact weak_point|]. split; [exact weak_written|].
  split; [reflexivity|]. split; [exact weak_point|]. split; [exact weak_written|]. split; [reflexivity|]. split; [reflexivity|]. split; [reflexivity|].
  split; [constructor|]. split; [|split; [split; [lia|reflexivity]|]; split; [split; [lia|reflexivity]|]; split; exists 0; lia].
  assert (OC : oncurve (pt (0, 1))) by (apply on_curve_iff; exact weak_point).
  apply multiple_iff; [exact OC|]. split; [exact zero_small|]. rewrite zero_pt. symmetry. apply times_zero.
Qed.

Section World.
  Variable D : deps.
  Hypothesis R : rfc8032 D.
  Theorem rfc_ed_correct : ed_correct D.
  Proof.
    destruct R as (secret & E1 & E2 & E3). intros kp m. apply E3; rewrite E1; [apply public_readable|].
    rewrite E2. apply sign_verify, modp_spec.
  Qed.
  Theorem rfc_verify pk m s : readable (ed_pub_bytes D pk) -> (ed_verify D pk m (hex_encode s) = Ok true <-> accepted (ed_pub_bytes D pk) m s).
  Proof. destruct R as (secret & E1 & E2 & E3). intros H. rewrite E3 by exact H. apply verify_accepted. Qed.
  Section Doc.
    Context {T : Type} {P : proofable T} {J : T -> json} {W : T -> option proof -> T} {complete wf fits unique : T -> Prop}.
    Hypothesis L : doc_laws D P J W complete wf fits unique.
    Theorem doc_signature_accepted pk s e d : readable (ed_pub_bytes D pk) ->
      verify_proof D P pk s e = Ok {| verified := true; document := d |} <->
      exists v p b sig, pf_parse_json_bytes P s = Ok v /\ pf_get_proof P v = Some p /\ options_ok D p /\ p_purpose p = e /\ e <> Unknown /\ complete v /\
        mb_decode (mb_other D) (p_value p) = Some (b, sig) /\ accepted (ed_pub_bytes D pk) (message D (with_value p []) (J (W v None))) sig /\ d = Some (W v None).
    Proof.
      intros K. rewrite (doc_verify L). split.
      - intros (v & p & b & sig & x & H1 & H2 & H3 & H4 & H5 & H6 & H7 & H8 & E). injection E as <- ->. exists v, p, b, sig. apply rfc_verify in H8; [auto 12|exact K].
      - intros (v & p & b & sig & H1 & H2 & H3 & H4 & H5 & H6 & H7 & H8 & ->). exists v, p, b, sig, true. apply rfc_verify in H8; [auto 12|exact K].
    Qed.
    Theorem doc_weak pk v o : ed_pub_bytes D pk = weak_key -> wf v -> proof_wf o -> fits v -> complete v -> pf_get_proof P v = None ->
      options_ok D o -> p_purpose o <> Unknown ->
      exists t, pf_to_json P (W v (Some (with_value o (mb_encode58 weak_signature)))) = Ok (JSONValue t) /\
        verify_proof D P pk t (p_purpose o) = Ok {| verified := true; document := Some v |}.
    Proof.
      intros K Hwf Ho Hfit Hc Hnone H1 H2. set (p := with_value o (mb_encode58 weak_signature)).
      exists (json_text (serde_number (f64_text D)) (J (W v (Some p)))). split; [apply (l_json L); split; [apply (l_complete L); exact Hc|reflexivity]|].
      apply doc_signature_accepted; [rewrite K; exact weak_readable|]. exists (W v (Some p)), p, Base58Btc, weak_signature.
      rewrite (l_get L), (l_twice L), (none_self L Hnone).
      split. { apply (l_read L); [apply (signed_wf L); [exact Hwf|apply value_wf; [exact Ho|apply utf8_mb58]]|apply (l_fits L); exact Hfit]. }
      split; [reflexivity|]. split; [exact H1|]. split; [reflexivity|]. split; [exact H2|]. split; [apply (l_complete L); exact Hc|].
      split; [apply mb58_reads|]. split; [rewrite K; apply weak_accepted|reflexivity].
    Qed.
  End Doc.
  Theorem vc_signature_accepted : forall pk s e d, readable (ed_pub_bytes D pk) ->
    verify_proof D (vc_proofable D) pk s e = Ok {| verified := true; document := d |} <->
    exists v p b sig, vc_parse_json_bytes D s = Ok v /\ vc_proof v = Some p /\ options_ok D p /\ p_purpose p = e /\ e <> Unknown /\ vc_complete v /\
      mb_decode (mb_other D) (p_value p) = Some (b, sig) /\
      accepted (ed_pub_bytes D pk) (message D (with_value p []) (vc_json (vc_with_proof v None))) sig /\ d = Some (vc_with_proof v None).
  Proof. exact (doc_signature_accepted (vc_doc_laws D)). Qed.
  Theorem vp_signature_accepted : forall pk s e d, readable (ed_pub_bytes D pk) ->
    verify_proof D (vp_proofable D) pk s e = Ok {| verified := true; document := d |} <->
    exists v p b sig, vp_parse_json_bytes D s = Ok v /\ vp_proof v = Some p /\ options_ok D p /\ p_purpose p = e /\ e <> Unknown /\ vp_complete v /\
      mb_decode (mb_other D) (p_value p) = Some (b, sig) /\
      accepted (ed_pub_bytes D pk) (message D (with_value p []) (vp_json (vp_with_proof v None))) sig /\ d = Some (vp_with_proof v None).
  Proof. exact (doc_signature_accepted (vp_doc_laws D)). Qed.
  Theorem vc_weak : forall pk v o, ed_pub_bytes D pk = weak_key -> vc_wf D v -> proof_wf o -> (depth (vc_subject v) <= 126)%nat -> vc_complete v -> vc_proof v = None ->
    options_ok D o -> p_purpose o <> Unknown ->
    exists t, vc_to_json D (vc_with_proof v (Some (with_value o (mb_encode58 weak_signature)))) = Ok (JSONValue t) /\
      verify_proof D (vc_proofable D) pk t (p_purpose o) = Ok {| verified := true; document := Some v |}.
  Proof. exact (doc_weak (vc_doc_laws D)). Qed.
  Theorem vp_weak : forall pk v o, ed_pub_bytes D pk = weak_key -> vp_wf D v -> proof_wf o ->
    Forall (fun c => (depth (vc_subject c) <= 124)%nat) (vp_credentials v) -> vp_complete v -> vp_proof v = None ->
    options_ok D o -> p_purpose o <> Unknown ->
    exists t, vp_to_json D (vp_with_proof v (Some (with_value o (mb_encode58 weak_signature)))) = Ok (JSONValue t) /\
      verify_proof D (vp_proofable D) pk t (p_purpose o) = Ok {| verified := true; document := Some v |}.
  Proof. exact (doc_weak (vp_doc_laws D)). Qed.
End World.

(** [demo] with Ed25519: key pairs are secrets of 32 bytes, public keys the texts of points. *)
Definition seed : Type := {s : bytes | Nat.eqb (length s) 32 = true}.
Definition on_point (b : bytes) : bool := match point_decompress modp b with Some _ => true | None => false end.
Definition point_key : Type := {b : bytes | on_point b = true}.
Lemma on_point_iff b : on_point b = true <-> readable b.
Proof.
  unfold on_point. rewrite readable_iff. destruct (point_decompress modp b) as [P|] eqn:E; split; intros H; try discriminate; try reflexivity.
  - apply (decompress_sound modp modp_spec) in E as (A & OA & _ & E). eauto.
  - destruct H as (A & OA & ->). destruct (decompress_enc modp modp_spec A OA) as (P & E' & _). rewrite E in E'. discriminate E'.
Qed.
Definition to_point_key (b : bytes) : option point_key := match Bool.bool_dec (on_point b) true with left H => Some (exist _ b H) | right _ => None end.
Definition to_seed (b : bytes) : option seed := match Bool.bool_dec (Nat.eqb (length b) 32) true with left H => Some (exist _ b H) | right _ => None end.
Definition seed_public (k : seed) : point_key := exist _ (secret_to_public modp (proj1_sig k)) (proj2 (on_point_iff _) (public_readable _)).
Definition with_ed25519 (D : deps) (toks : bytes -> bytes) (read : bytes -> option bytes) : deps := {|
  sha256 := sha256 D; sha384 := sha384 D; blake3 := blake3 D;
  ed_pair := seed; ed_pub := point_key; ed_priv := seed; ed_pub_key := seed_public; ed_priv_key := fun k => k;
  ed_sign := fun k m => ed25519_sign modp (proj1_sig k) m;
  ed_verify := fun pk m h =>
    match hex_decode h with
    | Some s => if Nat.eqb (length s) 64 then Ok (ed25519_verify modp (proj1_sig pk) m s) else Err (B "bad signature")
    | None => Err (B "bad hex")
    end;
  ed_pub_bytes := fun k => proj1_sig k; ed_pub_to_hex := fun k => hex_encode (proj1_sig k);
  ed_pub_from_hex := fun h => match hex_decode h with Some b => to_point_key b | None => None end;
  ed_to_pem := fun k => Ok (toks (proj1_sig k));
  ed_from_pem := fun t => match read t with Some b => match to_seed b with Some k => Ok k | None => Err (B "bad seed") end | None => Err (B "bad PEM") end;
  dh_pair := dh_pair D; dh_pub := dh_pub D; dh_pub_key := dh_pub_key D; dh_pub_to_hex := dh_pub_to_hex D;
  dh_pub_from_hex := dh_pub_from_hex D; dh_to_hex := dh_to_hex D;
  kdf := kdf D; aead_decrypt := aead_decrypt D; ks_rand := bytes * bytes; ed_seal := fun rnd k pw => demo_seal rnd (toks (proj1_sig k)) pw;
  dh_seal := fun rnd k pw => demo_seal rnd (dh_to_hex D k) pw; ks_decrypt := demo_open;
  f64_text := f64_text D; f64_parse := f64_parse D; jcs_number := jcs_number D; jcs_leb := jcs_leb D; mb_other := mb_other D;
  datetime := datetime D; maddr := maddr D; multiaddr := multiaddr D; mb_error := mb_error D; mh_error := mh_error D;
  hex_error := hex_error D; utf8_error := utf8_error D; json_error := json_error D
|}.
Definition ed25519 : deps := with_ed25519 demo demo_pem (fun t => match demo_read_pem t with Ok b => Some b | Err _ => None end).
Lemma sub_eq {A} (f : A -> bool) (x y : {a : A | f a = true}) : proj1_sig x = proj1_sig y -> x = y.
Proof. destruct x as [x p], y as [y q]. cbn. intros ->. f_equal. apply UIP_dec, Bool.bool_dec. Qed.
Lemma to_point_key_eq k : to_point_key (proj1_sig k) = Some k.
Proof. unfold to_point_key. destruct (Bool.bool_dec _ _) as [H|H]; [f_equal; now apply sub_eq|]. destruct k as [b p]. now destruct H. Qed.
Lemma to_seed_eq k : to_seed (proj1_sig k) = Some k.
Proof. unfold to_seed. destruct (Bool.bool_dec _ _) as [H|H]; [f_equal; now apply sub_eq|]. destruct k as [b p]. now destruct H. Qed.
Section Instance.
  Variables (D0 : deps) (toks : bytes -> bytes) (read : bytes -> option bytes).
  Let D := with_ed25519 D0 toks read.
  Theorem with_rfc8032 : rfc8032 D.
  Proof.
    exists (fun k : ed_pair D => proj1_sig (k : seed)). split; [reflexivity|]. split; [reflexivity|].
    intros pk m s _. cbn [ed_verify ed_pub_bytes D with_ed25519]. unfold D. cbn [ed_verify ed_pub_bytes with_ed25519]. rewrite hex_decode_encode.
    destruct (Nat.eqb (length s) 64) eqn:E.
    - split; [intros [= H]; exact H|intros ->; reflexivity].
    - split; [discriminate|]. intros H. apply verify_accepted, accepted_size in H as [_ H]. rewrite H in E. discriminate E.
  Qed.
  Theorem with_hex_law : ed_hex_law D.
  Proof.
    intros k. unfold D. cbn [ed_pub_to_hex ed_pub_from_hex with_ed25519]. split; [apply utf8_hex|]. rewrite hex_decode_encode. apply to_point_key_eq.
  Qed.
  Theorem with_bytes_inj : ed_bytes_inj D.
  Proof. intros k k'. apply sub_eq. Qed.
  Hypothesis T : forall s, length s = 32%nat -> utf8_valid (toks s) = true /\ read (toks s) = Some s.
  Theorem with_pem_law : pem_law D.
  Proof.
    intros kp pem. unfold D. cbn [ed_to_pem ed_priv_key ed_from_pem with_ed25519]. intros [= <-].
    assert (L : length (proj1_sig kp) = 32%nat) by (destruct kp as [s p]; cbn; now apply Nat.eqb_eq).
    destruct (T _ L) as [T1 T2]. split; [exact T1|]. rewrite T2, to_seed_eq. reflexivity.
  Qed.
  Theorem with_ed_seal_law : ed_seal_law D.
  Proof. intros rnd sk pw ks H. eexists. split; [reflexivity|]. exact (demo_open_seal _ _ _ _ H). Qed.
  Theorem with_dh_seal_law : dh_seal_law D.
  Proof. intros rnd sk pw ks H. exact (demo_open_seal _ _ _ _ H). Qed.
End Instance.
Theorem ed25519_rfc : rfc8032 ed25519. Proof. apply with_rfc8032. Qed.
Theorem ed25519_pem : pem_law ed25519.
Proof.
  apply with_pem_law. intros s _. split; [apply (proj1 (@demo_pem_law s (demo_pem s) eq_refl))|]. unfold demo_read_pem, demo_pem. now rewrite strip_app, hex_decode_encode.
Qed.
Definition weak_public : ed_pub ed25519 := (exist _ weak_key (proj2 (on_point_iff _) weak_readable) : point_key).
