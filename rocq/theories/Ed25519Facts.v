(** Ed25519 as computed does what RFC 8032 asks for. *)
From Coq Require Import ZArith Znumtheory Lia Bool Field ZifyBool ZifyNat ZifyN.
From Verif Require Import Base BaseFacts Codec CodecFacts Hash HashFacts DigestFacts Primes Primes25519 Fp Edwards Ed25519 CurveFacts.
Local Open Scope Z_scope.

Add Field Kf : K_field.

(** * Little-endian numbers *)
Lemma le_word_bytes n : forall x, (x < 256 ^ N.of_nat n)%N -> le_word (le_bytes n x) = x.
Proof.
  induction n as [|n IH]; intros x H.
  - cbn in H. cbn [le_bytes le_word fold_right]. lia.
  - cbn [le_bytes]. unfold le_word. cbn [fold_right]. fold (le_word (le_bytes n (x / 256))).
    rewrite Nat2N.inj_succ, N.pow_succ_r' in H.
    rewrite IH by (apply N.div_lt_upper_bound; lia).
    rewrite to_N_byte_of_N by (apply N.mod_lt; lia). pose proof (N.div_mod' x 256). lia.
Qed.
Lemma le_word_bound s : (le_word s < 256 ^ N.of_nat (length s))%N.
Proof.
  induction s as [|c s IH]; [cbn; lia|]. unfold le_word. cbn [fold_right length]. fold (le_word s).
  rewrite Nat2N.inj_succ, N.pow_succ_r'. pose proof (Byte.to_N_bounded c). lia.
Qed.

(** * Square roots *)
Lemma fp_odd : Z.odd fieldp = true. Proof. reflexivity. Qed.
Lemma root_exponent : (fieldp + 3) / 8 * 4 = 2 + (fieldp - 1) / 2. Proof. reflexivity. Qed.
Lemma half_exponent : 2 * ((fieldp - 1) / 2) = fieldp - 1. Proof. reflexivity. Qed.
Lemma half_pos : 0 <= (fieldp - 1) / 2. Proof. discriminate. Qed.
Lemma root_pos : 0 < (fieldp + 3) / 8. Proof. reflexivity. Qed.
Lemma inv_pos : 0 < fieldp - 2. Proof. reflexivity. Qed.
Lemma fp_pos : 0 < fieldp. Proof. reflexivity. Qed.
Opaque fieldp curved sqrt_m1 inF fadd fmul fsub fopp finv fdiv f0 f1.

Notation kpow := (fpow fieldp).
Lemma val_k a : kval (k a) = a mod fieldp.
Proof. Transparent inF. reflexivity. Opaque inF. Qed.
Lemma k_val x : k (kval x) = x.
Proof. apply inF_val. Qed.
Lemma val_range x : 0 <= kval x < fieldp.
Proof. apply fval_range, fieldp_prime. Qed.
Lemma k_small_inj a b : 0 <= a < fieldp -> 0 <= b < fieldp -> k a = k b -> a = b.
Proof. intros Ha Hb E. apply inF_iff in E. now rewrite !Z.mod_small in E. Qed.
Lemma val_opp x : x <> k0 -> kval (kopp x) = fieldp - kval x.
Proof.
  intros N. assert (V : kval x <> 0).
  { intros E. apply N. rewrite <- (k_val x), E. apply k_zero_eq. }
  pose proof (val_range x). rewrite <- (k_val x) at 1. rewrite <- inF_opp, val_k. symmetry.
  apply (Z.mod_unique _ _ (-1)); lia.
Qed.
Lemma kpow_half_square x : x <> k0 -> kpow (kmul x x) ((fieldp - 1) / 2) = k1.
Proof.
  intros N. rewrite <- (fpow_2 fieldp), <- fpow_mul, half_exponent by (lia || apply half_pos).
  apply (fermat_F _ fieldp_prime), N.
Qed.
Lemma root_candidate x c : x <> k0 -> c = kpow (kmul x x) ((fieldp + 3) / 8) ->
  kmul c c = kmul x x \/ kmul c c = kopp (kmul x x).
Proof.
  intros N E. set (t := kmul x x) in *.
  assert (Q : kmul (kmul c c) (kmul c c) = kmul t t).
  { rewrite E. pose proof root_pos. rewrite <- !fpow_add by lia.
    replace ((fieldp + 3) / 8 + (fieldp + 3) / 8 + ((fieldp + 3) / 8 + (fieldp + 3) / 8)) with (2 + (fieldp - 1) / 2) by (rewrite <- root_exponent; ring).
    pose proof half_pos. rewrite fpow_add, fpow_2 by lia. unfold t at 3. rewrite kpow_half_square by exact N. ring. }
  assert (Z : kmul (ksub (kmul c c) t) (kadd (kmul c c) t) = k0).
  { transitivity (ksub (kmul (kmul c c) (kmul c c)) (kmul t t)); [ring|]. rewrite Q. ring. }
  apply kno_zero in Z. destruct Z as [Z|Z]; [left; now apply ksub_zero|right].
  apply ksub_zero. rewrite <- Z. ring.
Qed.
Lemma square_eq a b : kmul a a = kmul b b -> a = b \/ a = kopp b.
Proof.
  intros E. assert (Z : kmul (ksub a b) (kadd a b) = k0).
  { transitivity (ksub (kmul a a) (kmul b b)); [ring|]. rewrite E. ring. }
  apply kno_zero in Z. destruct Z as [Z|Z]; [left; now apply ksub_zero|right]. apply ksub_zero. rewrite <- Z. ring.
Qed.

Lemma curve_square x y : oncurve (x, y) <-> kmul (kmul x x) (kadd (kmul kd (kmul y y)) k1) = ksub (kmul y y) k1.
Proof.
  cbn [Edwards.oncurve]. split; intros E.
  - transitivity (ksub (kadd k1 (kmul (kmul kd (kmul x x)) (kmul y y))) (ksub k1 (kmul x x))); [ring|]. rewrite <- E. ring.
  - transitivity (kadd (ksub (kmul y y) k1) (ksub k1 (kmul x x))); [ring|]. rewrite <- E. ring.
Qed.
Lemma k_one_nz : k1 <> k0. Proof. apply (f1_neq _ fieldp_prime). Qed.
Lemma curve_den y : kadd (kmul kd (kmul y y)) k1 <> k0.
Proof.
  intros E. assert (Y : y <> k0).
  { intros ->. apply k_one_nz. rewrite <- E. ring. }
  apply (kd_nonsquare (kmul ki (kinv y))).
  transitivity (kmul (kmul ki ki) (kmul (kinv y) (kinv y))); [ring|]. rewrite ki_sq.
  assert (I : kmul (kinv y) y = k1) by (apply finv_l; [exact fieldp_prime|exact Y]).
  assert (J : kmul kd (kmul y y) = kopp k1) by (apply ksub_zero; rewrite <- E; ring).
  rewrite <- J. transitivity (kmul kd (kmul (kmul (kinv y) y) (kmul (kinv y) y))); [ring|]. rewrite I. ring.
Qed.

(** * Points as bytes *)
Definition enc_num (A : K * K) : Z := kval (snd A) + if Z.odd (kval (fst A)) then 2 ^ 255 else 0.
Definition enc (A : K * K) : bytes := le_bytes 32 (Z.to_N (enc_num A)).
Lemma fieldp_255 : fieldp < 2 ^ 255.
Proof. Transparent fieldp. reflexivity. Opaque fieldp. Qed.
Lemma two256 : Z.of_N (256 ^ N.of_nat 32) = 2 ^ 255 + 2 ^ 255. Proof. reflexivity. Qed.
Lemma enc_num_range A : 0 <= enc_num A < 2 ^ 255 + 2 ^ 255.
Proof.
  unfold enc_num. pose proof (val_range (snd A)). pose proof fieldp_255.
  assert (0 < 2 ^ 255) by reflexivity. set (w := 2 ^ 255) in *. clearbody w. destruct (Z.odd _); lia.
Qed.
Lemma enc_length A : length (enc A) = 32%nat.
Proof. apply le_bytes_length. Qed.
Lemma enc_word A : Z.of_N (le_word (enc A)) = enc_num A.
Proof.
  pose proof (enc_num_range A). pose proof two256. unfold enc. rewrite le_word_bytes; [lia|].
  set (w := (256 ^ N.of_nat 32)%N) in *. clearbody w. lia.
Qed.
Lemma enc_from s A : length s = 32%nat -> Z.of_N (le_word s) = enc_num A -> s = enc A.
Proof.
  intros L E. apply le_word_eq; [rewrite enc_length; exact L|]. apply N2Z.inj. now rewrite enc_word.
Qed.
Lemma parity_flip x : x <> k0 -> Z.odd (kval (kopp x)) = negb (Z.odd (kval x)).
Proof. intros N. rewrite val_opp by exact N. rewrite Z.odd_sub, fp_odd. now destruct (Z.odd (kval x)). Qed.
Lemma split_num (b : bool) y : 0 <= y < 2 ^ 255 ->
  let n := y + if b then 2 ^ 255 else 0 in (2 ^ 255 <=? n) = b /\ n mod 2 ^ 255 = y.
Proof.
  assert (0 < 2 ^ 255) by reflexivity. set (w := 2 ^ 255) in *. clearbody w. intros Hy. cbv zeta. destruct b.
  - split; [apply Z.leb_le; lia|]. symmetry. apply (Z.mod_unique _ _ 1); lia.
  - split; [apply Z.leb_gt; lia|]. rewrite Z.add_0_r. now apply Z.mod_small.
Qed.
Lemma groupq_pos : 0 < groupq. Proof. reflexivity. Qed.
Lemma modq_range s : 0 <= sha512_modq s < groupq.
Proof. apply Z.mod_pos_bound, groupq_pos. Qed.
Lemma times_order n : times (n * Z.to_nat groupq) gen = O.
Proof. rewrite times_times by exact gen_on. rewrite gen_order. apply times_zero. Qed.
Lemma times_modq z : 0 <= z -> times (Z.to_nat (z mod groupq)) gen = times (Z.to_nat z) gen.
Proof.
  intros Hz. pose proof groupq_pos. pose proof (Z.mod_pos_bound z groupq ltac:(lia)).
  assert (Q : 0 <= z / groupq) by (apply Z.div_pos; lia).
  replace (Z.to_nat z) with (Z.to_nat (z / groupq) * Z.to_nat groupq + Z.to_nat (z mod groupq))%nat.
  - rewrite times_plus, times_order, plus_0; [reflexivity|exact gen_on].
  - rewrite <- Z2Nat.inj_mul, <- Z2Nat.inj_add by (lia || nia). f_equal. pose proof (Z_div_mod_eq_full z groupq). nia.
Qed.
Lemma expand_pos secret : 0 <= fst (secret_expand secret).
Proof.
  unfold secret_expand. cbn [fst]. apply Z.lor_nonneg. split; [|discriminate].
  apply Z.land_nonneg. left. lia.
Qed.
Lemma groupq_256 : groupq < 2 ^ 255. Proof. reflexivity. Qed.

Section Red.
  Variable red : Z -> Z.
  Hypothesis red_spec : forall x, red x = x mod fieldp.
  Local Lemma kr x : k (red x) = k x. Proof. now apply k_red. Qed.
  Lemma red_range x : 0 <= red x < fieldp.
  Proof. rewrite red_spec. apply Z.mod_pos_bound. exact fp_pos. Qed.
  Lemma k_powm a e : 0 < e -> k (powm red a (Z.to_pos e)) = kpow (k a) e.
  Proof.
    intros He. rewrite (powm_spec fieldp) by exact red_spec. rewrite Z2Pos.id by exact He.
    rewrite inF_mod, fpow_inF; [reflexivity|lia].
  Qed.
  Lemma powm_range a e : 0 <= powm red a e < fieldp.
  Proof. rewrite (powm_spec fieldp) by exact red_spec. apply Z.mod_pos_bound. exact fp_pos. Qed.
  Lemma k_modp_inv a : k (modp_inv red a) = kinv (k a).
  Proof. unfold modp_inv. rewrite k_powm by exact inv_pos. reflexivity. Qed.
  Lemma red_zero a b : red (a - b) = 0 <-> k a = k b.
  Proof.
    rewrite red_spec. rewrite inF_iff. pose proof fp_pos. split; intros E.
    - apply Z.mod_divide in E; [|lia]. destruct E as [c E]. replace a with (b + c * fieldp) by lia. apply Z_mod_plus_full.
    - rewrite Zminus_mod, E, Z.sub_diag. apply Z.mod_0_l. lia.
  Qed.

  (** The number under the root. *)
  Lemma x2_value y : k (red ((y * y - 1) * modp_inv red (curved * red (y * y) + 1)))
    = kmul (ksub (kmul (k y) (k y)) k1) (kinv (kadd (kmul kd (kmul (k y) (k y))) k1)).
  Proof.
    rewrite kr, inF_mul, k_modp_inv, inF_add, inF_mul, kr, inF_sub, !inF_mul, k_curved_eq, k_one_eq. reflexivity.
  Qed.
  Lemma x2_square x y : oncurve (x, y) ->
    kmul (ksub (kmul y y) k1) (kinv (kadd (kmul kd (kmul y y)) k1)) = kmul x x.
  Proof.
    intros H. apply curve_square in H. rewrite <- H.
    pose proof (finv_l fieldp fieldp_prime _ (curve_den y)) as I. set (w := kadd _ _) in *.
    transitivity (kmul (kmul x x) (kmul (kinv w) w)); [ring|]. rewrite I. ring.
  Qed.

  Lemma recover_on x y : oncurve (x, y) -> recover_x red (kval y) (Z.odd (kval x)) = Some (kval x).
  Proof.
    intros H. unfold recover_x. pose proof (val_range y) as Ry. rewrite (proj2 (Z.leb_gt _ _)) by apply Ry.
    set (x2 := red ((kval y * kval y - 1) * modp_inv red (curved * red (kval y * kval y) + 1))).
    assert (E2 : k x2 = kmul x x) by (unfold x2; rewrite x2_value, k_val; now apply x2_square).
    assert (R2 : 0 <= x2 < fieldp) by apply red_range. clearbody x2. cbv zeta.
    destruct (x2 =? 0) eqn:Z0.
    - apply Z.eqb_eq in Z0. rewrite Z0, k_zero_eq in E2. symmetry in E2. apply kno_zero in E2.
      assert (X : x = k0) by tauto. subst x. rewrite <- k_zero_eq, val_k, Z.mod_0_l by (pose proof fp_pos; lia). reflexivity.
    - apply Z.eqb_neq in Z0.
      assert (Nx : x <> k0).
      { intros ->. apply Z0. apply k_small_inj; [exact R2|pose proof fp_pos; lia|]. rewrite E2, k_zero_eq. ring. }
      set (c := powm red x2 (Z.to_pos ((fieldp + 3) / 8))).
      assert (Ec : k c = kpow (kmul x x) ((fieldp + 3) / 8)) by (unfold c; rewrite k_powm, E2 by exact root_pos; reflexivity).
      assert (Rc : 0 <= c < fieldp) by apply powm_range. clearbody c.
      pose proof (root_candidate x (k c) Nx Ec) as Cand.
      set (r := if red (c * c - x2) =? 0 then c else red (c * sqrt_m1)).
      assert (Sr : kmul (k r) (k r) = kmul x x).
      { unfold r. destruct (red (c * c - x2) =? 0) eqn:T.
        - apply Z.eqb_eq, red_zero in T. rewrite inF_mul, E2 in T. exact T.
        - apply Z.eqb_neq in T. rewrite red_zero, inF_mul, E2 in T. destruct Cand as [C|C]; [tauto|].
          rewrite kr, inF_mul. change (k sqrt_m1) with ki.
          transitivity (kmul (kmul (k c) (k c)) (kmul ki ki)); [ring|]. rewrite C, ki_sq. ring. }
      assert (Rr : 0 <= r < fieldp) by (unfold r; destruct (red (c * c - x2) =? 0); [exact Rc|apply red_range]).
      clearbody r.
      rewrite (proj2 (Z.eqb_eq (red (r * r - x2)) 0)) by (apply red_zero; rewrite inF_mul, E2; exact Sr).
      f_equal. apply square_eq in Sr. destruct Sr as [S|S].
      + assert (V : kval x = r) by (rewrite <- S, val_k; now apply Z.mod_small). rewrite V, eqb_reflx. reflexivity.
      + assert (V : kval (kopp x) = r) by (rewrite <- S, val_k; now apply Z.mod_small).
        rewrite <- V, parity_flip by exact Nx. destruct (Z.odd (kval x)); cbn [negb Bool.eqb]; rewrite val_opp by exact Nx; lia.
  Qed.
  Lemma recover_sound y sign x : 0 <= y -> recover_x red y sign = Some x ->
    0 <= y < fieldp /\ 0 <= x < fieldp /\ oncurve (k x, k y) /\ Z.odd x = sign.
  Proof.
    intros Hy. unfold recover_x. destruct (fieldp <=? y) eqn:L; [discriminate|]. apply Z.leb_gt in L.
    set (x2 := red _). assert (E2 : k x2 = kmul (ksub (kmul (k y) (k y)) k1) (kinv (kadd (kmul kd (kmul (k y) (k y))) k1))) by apply x2_value.
    assert (R2 : 0 <= x2 < fieldp) by apply red_range.
    clearbody x2. cbv zeta.
    assert (On : forall z, kmul (k z) (k z) = k x2 -> oncurve (k z, k y)).
    { intros z Hz. apply curve_square. rewrite Hz, E2.
      pose proof (finv_l fieldp fieldp_prime _ (curve_den (k y))) as I. set (w := kadd _ _) in *.
      transitivity (kmul (ksub (kmul (k y) (k y)) k1) (kmul (kinv w) w)); [ring|]. rewrite I. ring. }
    destruct (x2 =? 0) eqn:Z0.
    - destruct sign; [discriminate|]. intros E. injection E as <-. apply Z.eqb_eq in Z0.
      pose proof fp_pos. repeat split; try lia. apply On. rewrite Z0, k_zero_eq. ring.
    - apply Z.eqb_neq in Z0.
      set (c := powm red x2 (Z.to_pos ((fieldp + 3) / 8))).
      assert (Rc : 0 <= c < fieldp) by apply powm_range. clearbody c.
      set (r := if red (c * c - x2) =? 0 then c else red (c * sqrt_m1)).
      assert (Rr : 0 <= r < fieldp) by (unfold r; destruct (red (c * c - x2) =? 0); [exact Rc|apply red_range]).
      clearbody r. destruct (red (r * r - x2) =? 0) eqn:T; [|discriminate]. apply Z.eqb_eq, red_zero in T. rewrite inF_mul in T.
      assert (Nr : r <> 0).
      { intros ->. apply Z0. apply k_small_inj; [exact R2|pose proof fp_pos; lia|]. rewrite <- T, k_zero_eq. ring. }
      assert (Nk : k r <> k0).
      { intros E. apply Nr. apply k_small_inj; [exact Rr|pose proof fp_pos; lia|]. rewrite E. symmetry. apply k_zero_eq. }
      intros E. injection E as <-. split; [lia|].
      assert (Vr : kval (k r) = r) by (rewrite val_k; now apply Z.mod_small).
      destruct (Bool.eqb (Z.odd r) sign) eqn:S.
      + apply eqb_prop in S. repeat split; try lia; [apply On, T|exact S].
      + assert (Ko : k (fieldp - r) = kopp (k r)).
        { rewrite <- Vr at 1. rewrite <- val_opp by exact Nk. apply k_val. }
        repeat split; try lia.
        * apply On. rewrite Ko. rewrite <- T. ring.
        * rewrite Z.odd_sub, fp_odd. destruct (Z.odd r), sign; cbn in *; congruence.
  Qed.

  Lemma red_kval z : red z = kval (k z).
  Proof. now rewrite val_k. Qed.
  Lemma compress_rep P A : rep P A -> point_compress red P = enc A.
  Proof.
    destruct P as [[[X Y] Z] T]. intros H. apply rep_affine in H. subst A. cbn [point_compress].
    unfold enc, enc_num. cbn [fst snd]. rewrite !red_kval, !inF_mul, k_modp_inv. reflexivity.
  Qed.
  Lemma affine_rep x y : rep (kval x, kval y, 1, red (kval x * kval y)) (x, y).
  Proof.
    cbn [rep extended]. rewrite kr, inF_mul, !k_val, k_one_eq. split; [exact k_one_nz|]. repeat split; ring.
  Qed.
  Lemma decompress_enc A : oncurve A -> exists P, point_decompress red (enc A) = Some P /\ rep P A.
  Proof.
    destruct A as [x y]. intros H. unfold point_decompress. rewrite enc_length. cbn [Nat.eqb negb]. rewrite enc_word.
    unfold enc_num. cbn [fst snd].
    destruct (split_num (Z.odd (kval x)) (kval y)) as [E1 E2]; [pose proof (val_range y); pose proof fieldp_255; lia|].
    cbv zeta in E1, E2. rewrite E1, E2, (recover_on x y H). eexists. split; [reflexivity|]. apply affine_rep.
  Qed.
  Lemma decompress_sound s P : point_decompress red s = Some P -> exists A, oncurve A /\ rep P A /\ s = enc A.
  Proof.
    unfold point_decompress. destruct (Nat.eqb (length s) 32) eqn:L; [|discriminate]. cbn [negb]. apply Nat.eqb_eq in L.
    set (n := Z.of_N (le_word s)).
    assert (Rn : 0 <= n < 2 ^ 255 + 2 ^ 255).
    { unfold n. pose proof (le_word_bound s) as B. rewrite L in B. pose proof two256.
      set (w := (256 ^ N.of_nat 32)%N) in *. clearbody w. set (v := 2 ^ 255) in *. clearbody v. lia. }
    destruct (recover_x red (n mod 2 ^ 255) (2 ^ 255 <=? n)) as [x|] eqn:R; [|discriminate]. intros E.
    assert (Y0 : 0 <= n mod 2 ^ 255) by (apply Z.mod_pos_bound; reflexivity).
    apply recover_sound in R; [|exact Y0]. destruct R as (Ry & Rx & On & Od).
    exists (k x, k (n mod 2 ^ 255)). split; [exact On|].
    assert (Vx : kval (k x) = x) by (rewrite val_k; now apply Z.mod_small).
    assert (Vy : kval (k (n mod 2 ^ 255)) = n mod 2 ^ 255) by (rewrite (val_k (n mod 2 ^ 255)); now apply Z.mod_small).
    split.
    - pose proof (affine_rep (k x) (k (n mod 2 ^ 255))) as A. rewrite Vx, Vy in A. apply (f_equal (fun o => match o with Some q => q | None => neutral end)) in E.
      cbv beta iota in E. rewrite <- E. exact A.
    - apply enc_from; [exact L|]. unfold enc_num. cbn [fst snd]. fold n. rewrite Vx, Vy, Od.
      clear -Rn. assert (0 < 2 ^ 255) by reflexivity. set (w := 2 ^ 255) in *. clearbody w.
      destruct (w <=? n) eqn:C.
      + apply Z.leb_le in C. rewrite <- (Z.mod_unique n w 1 (n - w)) by lia. lia.
      + apply Z.leb_gt in C. rewrite Z.mod_small by lia. lia.
  Qed.
  Lemma enc_inj A B : enc A = enc B -> enc_num A = enc_num B.
  Proof. intros E. rewrite <- !enc_word. now rewrite E. Qed.
  Lemma enc_point A B : enc A = enc B -> oncurve A -> oncurve B -> A = B.
  Proof.
    intros E HA HB. destruct (decompress_enc A HA) as (P & EP & RP), (decompress_enc B HB) as (Q & EQ & RQ).
    rewrite E, EQ in EP. injection EP as <-. destruct Q as [[[X Y] Z] T]. apply rep_affine in RP, RQ. congruence.
  Qed.

  (** * Verification and signing *)
  Lemma verify_iff public msg signature : ed25519_verify red public msg signature = true <->
    exists A R s, oncurve A /\ oncurve R /\ public = enc A /\ signature = enc R ++ s /\ length s = 32%nat /\
      Z.of_N (le_word s) < groupq /\
      times (Z.to_nat (Z.of_N (le_word s))) gen = plus R (times (Z.to_nat (sha512_modq (enc R ++ enc A ++ msg))) A).
  Proof.
    unfold ed25519_verify. split.
    - destruct (Nat.eqb (length public) 32) eqn:L1; [|discriminate]. destruct (Nat.eqb (length signature) 64) eqn:L2; [|discriminate].
      cbn [negb orb]. apply Nat.eqb_eq in L1, L2.
      destruct (point_decompress red public) as [PA|] eqn:DA; [|discriminate].
      destruct (point_decompress red (firstn 32 signature)) as [PR|] eqn:DR; [|discriminate].
      apply decompress_sound in DA, DR. destruct DA as (A & OA & RA & EA), DR as (R & OR & RR & ER).
      set (s := skipn 32 signature). destruct (groupq <=? Z.of_N (le_word s)) eqn:C; [discriminate|]. apply Z.leb_gt in C.
      intros E. exists A, R, s. repeat (split; [assumption|]).
      split; [rewrite <- ER; unfold s; now rewrite firstn_skipn|].
      split; [unfold s; rewrite skipn_length; lia|]. split; [exact C|].
      rewrite EA, ER in E. pose proof (modq_range (enc R ++ enc A ++ msg)).
      revert E. apply (equal_rep red red_spec).
      + apply mul_rep; [exact red_spec|lia|exact gen_on|exact gen_rep].
      + apply add_rep; try assumption; [apply times_on; assumption|]. apply mul_rep; [exact red_spec|lia|assumption|assumption].
    - intros (A & R & s & OA & OR & -> & -> & L & C & E).
      rewrite !app_length, !enc_length, L. cbn [Nat.add Nat.eqb negb orb].
      rewrite firstn_app, skipn_app, enc_length, Nat.sub_diag, firstn_O, skipn_O, app_nil_r.
      rewrite (firstn_all2 (enc R)), (skipn_all2 (enc R)) by (rewrite enc_length; lia). cbn [app].
      destruct (decompress_enc A OA) as (PA & -> & RA), (decompress_enc R OR) as (PR & -> & RR).
      rewrite (proj2 (Z.leb_gt _ _)) by exact C. pose proof (modq_range (enc R ++ enc A ++ msg)).
      refine (proj2 (equal_rep red red_spec _ _ _ _ _ _) E).
      + apply mul_rep; [exact red_spec|lia|exact gen_on|exact gen_rep].
      + apply add_rep; try assumption; [apply times_on; assumption|]. apply mul_rep; [exact red_spec|lia|assumption|assumption].
  Qed.
  Lemma gen_mul_rep z : 0 <= z -> rep (point_mul red z generator) (times (Z.to_nat z) gen).
  Proof. intros H. apply mul_rep; [exact red_spec|exact H|exact gen_on|exact gen_rep]. Qed.
  Lemma sign_verify secret msg :
    ed25519_verify red (secret_to_public red secret) msg (ed25519_sign red secret msg) = true.
  Proof.
    apply verify_iff. unfold secret_to_public, ed25519_sign. pose proof (expand_pos secret) as Ha.
    destruct (secret_expand secret) as [a prefix]. cbn [fst] in *.
    rewrite (compress_rep _ _ (gen_mul_rep a Ha)).
    set (A := times (Z.to_nat a) gen). set (r := sha512_modq (prefix ++ msg)).
    assert (Hr : 0 <= r < groupq) by apply modq_range.
    rewrite (compress_rep _ _ (gen_mul_rep r (proj1 Hr))). set (R := times (Z.to_nat r) gen).
    set (h := sha512_modq (enc R ++ enc A ++ msg)). assert (Hh : 0 <= h < groupq) by apply modq_range.
    set (S := (r + h * a) mod groupq). assert (HS : 0 <= S < groupq) by (apply Z.mod_pos_bound, groupq_pos).
    assert (W : Z.of_N (le_word (le_bytes 32 (Z.to_N S))) = S).
    { pose proof groupq_256. pose proof two256. rewrite le_word_bytes; [lia|].
      set (w := (256 ^ N.of_nat 32)%N) in *. clearbody w. set (v := 2 ^ 255) in *. clearbody v. lia. }
    exists A, R, (le_bytes 32 (Z.to_N S)).
    split; [apply times_on, gen_on|]. split; [apply times_on, gen_on|]. split; [reflexivity|]. split; [reflexivity|].
    split; [apply le_bytes_length|]. rewrite W. split; [lia|]. fold h.
    unfold S. rewrite times_modq by nia. unfold R, A. rewrite <- times_times, <- times_plus by exact gen_on.
    f_equal. rewrite <- Z2Nat.inj_mul, <- Z2Nat.inj_add by nia. reflexivity.
  Qed.
End Red.
