(** The ladder of X25519 computes multiples of points, so two parties get the same secret. *)
From Coq Require Import ZArith Znumtheory Lia Bool Field ZifyBool ZifyNat ZifyN.
From Verif Require Import Base BaseFacts Codec CodecFacts Hash HashFacts DigestFacts Deps Primes Primes25519 Fp Edwards Ed25519
  CurveFacts Ed25519Facts Ed25519Spec Ed25519Points Ed25519World Montgomery X25519 X25519Spec.
Local Open Scope Z_scope.
Add Field Kf : K_field.

Definition ka : K := k a24.
Lemma ka_den : kadd ka k1 <> k0.
Proof. unfold ka. rewrite <- k_one_eq, <- inF_add. exact den_nz. Qed.
Lemma ka_eq : kmul kd (kadd ka k1) = kopp ka.
Proof. unfold ka at 2. change (k a24) with (k 121665). rewrite <- d_fraction. unfold ka. rewrite <- k_one_eq, <- inF_add. change (a24 + 1) with 121666. ring. Qed.
Lemma kinv_0 : kinv k0 = k0.
Proof. rewrite <- k_zero_eq. rewrite <- (k_modp_inv red_p red_p_spec 0). apply inF_iff. rewrite <- !red_p_spec. vm_compute. reflexivity. Qed.
Lemma kdiv_0 w : kdiv k0 w = k0.
Proof. unfold fdiv. ring. Qed.
Notation mont := (mont K k0 k1 kadd kmul ksub).
Definition mont_double := double_mont K k0 k1 kadd kmul ksub kopp kdiv kinv K_field K_dec kd ki ka k_two ki_sq kd_nonsquare ka_den ka_eq.
Definition mont_add := add_mont K k0 k1 kadd kmul ksub kopp kdiv kinv K_field K_dec kd ki k_two ki_sq kd_nonsquare.
Definition mont_from := mont_of K k0 k1 kadd kmul ksub kopp kdiv kinv K_field k_two.
Definition square_x := x_square K k0 k1 kadd kmul ksub kopp kdiv kinv K_field K_dec kd ki k_two ki_sq kd_nonsquare.
Opaque ka fieldp curved sqrt_m1 inF fadd fmul fsub fopp finv fdiv f0 f1 g_x g_y.

(** The u-coordinate; the field's inverse of 0 is 0. *)
Definition uc (A : K * K) : K := kmul (kadd k1 (snd A)) (kinv (ksub k1 (snd A))).
Lemma kinv_mul x : x <> k0 -> kmul x (kinv x) = k1.
Proof. exact (inv_mul K k0 k1 kadd kmul ksub kopp kdiv kinv K_field x). Qed.
Lemma mont_uc X Z A : mont X Z A -> kmul X (kinv Z) = uc A.
Proof.
  intros (c & C & -> & ->). unfold uc. set (y := snd A). destruct (K_dec (ksub k1 y) k0) as [E|N].
  - rewrite E. replace (kmul c k0) with k0 by ring. rewrite kinv_0. ring.
  - exact (cancel_inv K k0 k1 kadd kmul ksub kopp kdiv kinv K_field c (kadd k1 y) (ksub k1 y) C N).
Qed.
(** ** Points with u = 0 *)
Definition flat (A : K * K) : Prop := fst A = k0 /\ (snd A = k1 \/ snd A = kopp k1).
Lemma flat_uc A : flat A -> uc A = k0.
Proof.
  intros [_ [E|E]]; unfold uc; rewrite E.
  - replace (ksub k1 k1) with k0 by ring. rewrite kinv_0. ring.
  - ring.
Qed.
Lemma flat_plus A B : flat A -> flat B -> flat (plus A B).
Proof.
  destruct A as [x y], B as [x' y']. unfold flat. cbn [fst snd Edwards.plus]. intros [-> HA] [-> HB].
  rewrite (flat_x K k0 k1 kadd kmul ksub kopp kdiv kinv K_field kd y y' k_one_nz).
  rewrite (flat_y K k0 k1 kadd kmul ksub kopp kdiv kinv K_field kd y y' k_one_nz). split; [reflexivity|].
  destruct HA as [-> | ->], HB as [-> | ->]; [left|right|right|left]; ring.
Qed.
Lemma flat_times n A : flat A -> flat (times n A).
Proof.
  intros H. induction n as [|n IH]; cbn [Edwards.times]; [|now apply flat_plus].
  split; [reflexivity|left; reflexivity].
Qed.
Lemma uc_flat A : oncurve A -> uc A = k0 -> flat A.
Proof.
  destruct A as [x y]. intros H U. assert (Y : y = k1 \/ y = kopp k1).
  { unfold uc in U. cbn [snd] in U. destruct (K_dec (ksub k1 y) k0) as [E|N]; [left; symmetry; now apply ksub_zero|].
    right. apply kno_zero in U as [U|U].
    - transitivity (ksub (kadd k1 y) k1); [ring|]. rewrite U. ring.
    - exfalso. apply k_one_nz. rewrite <- (kinv_mul _ N), U. ring. }
  split; [|exact Y]. cbn [fst]. pose proof (square_x x y H) as S.
  assert (Q : kmul x x = k0).
  { rewrite S. replace (ksub (kmul y y) k1) with k0; [apply kdiv_0|]. destruct Y as [-> | ->]; ring. }
  apply kno_zero in Q. tauto.
Qed.
Lemma uc_mul A u : oncurve A -> u = uc A -> u <> k0 -> kmul u (ksub k1 (snd A)) = kadd k1 (snd A).
Proof.
  intros H -> N. unfold uc in *. destruct (K_dec (ksub k1 (snd A)) k0) as [E|N1]; [|exact (quotient_mul K k0 k1 kadd kmul ksub kopp kdiv kinv K_field _ _ N1)].
  exfalso. apply N. rewrite E, kinv_0. ring.
Qed.

Lemma diff_next n P : oncurve P -> plus (times (S n) P) (neg (times n P)) = P.
Proof.
  intros H. cbn [Edwards.times]. rewrite plus_ass by (try apply neg_on; try apply times_on; assumption).
  rewrite plus_opp by (now apply times_on). rewrite plus_com. apply plus_0.
Qed.

Section Red.
  Variable red : Z -> Z.
  Hypothesis red_spec : forall x, red x = x mod fieldp.
  Let kr := k_red red red_spec.
  Definition mrep (s : rungs) (A C : K * K) : Prop :=
    let '(x2, z2, x3, z3) := s in mont (k x2) (k z2) A /\ mont (k x3) (k z3) C.
  Lemma mrep_swap s A C : mrep (cswap true s) A C <-> mrep s C A.
  Proof. destruct s as [[[x2 z2] x3] z3]. cbn. tauto. Qed.
  Lemma rung_rep x1 s A C P : oncurve A -> oncurve C -> oncurve P -> plus C (neg A) = P \/ plus A (neg C) = P ->
    k x1 <> k0 -> kmul (k x1) (ksub k1 (snd P)) = kadd k1 (snd P) -> mrep s A C -> mrep (rung red x1 s) (plus A A) (plus A C).
  Proof.
    destruct s as [[[x2 z2] x3] z3]. intros HA HC HP HD U E [M2 M3]. cbn [rung mrep].
    repeat first [rewrite kr|rewrite inF_add|rewrite inF_mul|rewrite inF_sub]. split.
    - exact (mont_double _ _ _ HA M2).
    - exact (mont_add _ _ _ _ _ _ _ _ HA HC HP HD U E M2 M3).
  Qed.
  Lemma cswap_xorb a b s : cswap (xorb a b) s = cswap b (cswap a s).
  Proof. destruct s as [[[x2 z2] x3] z3], a, b; reflexivity. Qed.
  Lemma shift_step kk t : 0 <= kk -> Z.to_nat (Z.shiftr kk (Z.of_nat t)) =
    (2 * Z.to_nat (Z.shiftr kk (Z.of_nat (S t))) + if Z.testbit kk (Z.of_nat t) then 1 else 0)%nat.
  Proof.
    intros H. rewrite Nat2Z.inj_succ, <- Z.add_1_r, <- Z.shiftr_shiftr by lia.
    rewrite <- (Z.add_0_l (Z.of_nat t)) at 3. rewrite <- Z.shiftr_spec by lia.
    assert (R : 0 <= Z.shiftr kk (Z.of_nat t)) by now apply Z.shiftr_nonneg.
    set (w := Z.shiftr kk (Z.of_nat t)) in *. clearbody w. rewrite Z.shiftr_div_pow2 by lia. change (2 ^ 1) with 2.
    rewrite Z.bit0_odd. pose proof (Zmod_odd w) as M. destruct (Z.odd w); lia.
  Qed.
  Lemma ladder_rep x1 kk P : oncurve P -> k x1 <> k0 -> kmul (k x1) (ksub k1 (snd P)) = kadd k1 (snd P) -> 0 <= kk ->
    forall t swap s, mrep (cswap swap s) (times (Z.to_nat (Z.shiftr kk (Z.of_nat t))) P) (times (S (Z.to_nat (Z.shiftr kk (Z.of_nat t)))) P) ->
    mrep (ladder red x1 kk t swap s) (times (Z.to_nat kk) P) (times (S (Z.to_nat kk)) P).
  Proof.
    intros HP U E Hk. induction t as [|t IH]; intros swap s M.
    - cbn [ladder]. change (Z.of_nat 0) with 0 in M. rewrite Z.shiftr_0_r in M. exact M.
    - cbn [ladder]. apply IH. rewrite (shift_step kk t Hk), cswap_xorb. set (n := Z.to_nat (Z.shiftr kk (Z.of_nat (S t)))) in *. clearbody n.
      assert (Hn : oncurve (times n P)) by now apply times_on. assert (Hn' : oncurve (times (S n) P)) by now apply times_on.
      destruct (Z.testbit kk (Z.of_nat t)).
      + apply mrep_swap. apply mrep_swap in M.
        replace (times (S (2 * n + 1)) P) with (plus (times (S n) P) (times (S n) P)) by (rewrite <- times_plus by exact HP; f_equal; lia).
        replace (times (2 * n + 1) P) with (plus (times (S n) P) (times n P)) by (rewrite <- times_plus by exact HP; f_equal; lia).
        apply (rung_rep x1 _ _ _ P); try assumption. right. now apply diff_next.
      + change (cswap false (cswap swap s)) with (let '(x2, z2, x3, z3) := cswap swap s in cswap swap s).
        replace (let '(x2, z2, x3, z3) := cswap swap s in cswap swap s) with (cswap swap s) by now destruct (cswap swap s) as [[[? ?] ?] ?].
        replace (cswap false (rung red x1 (cswap swap s))) with (rung red x1 (cswap swap s)) by now destruct (rung red x1 (cswap swap s)) as [[[? ?] ?] ?].
        replace (times (S (2 * n + 0)) P) with (plus (times n P) (times (S n) P)) by (rewrite <- times_plus by exact HP; f_equal; lia).
        replace (times (2 * n + 0) P) with (plus (times n P) (times n P)) by (rewrite <- times_plus by exact HP; f_equal; lia).
        apply (rung_rep x1 _ _ _ P); try assumption. left; now apply diff_next.
  Qed.
  (** With u = 0, both z-coordinates vanish after the first step. *)
  Definition no_z (s : rungs) : Prop := let '(_, z2, _, z3) := s in k z2 = k0 /\ k z3 = k0.
  Lemma no_z_swap b s : no_z (cswap b s) <-> no_z s.
  Proof. destruct s as [[[x2 z2] x3] z3], b; cbn; tauto. Qed.
  Lemma rung_no_z x1 s : k x1 = k0 -> let '(x2, z2, _, _) := s in kmul (k x2) (k z2) = k0 -> no_z (rung red x1 s).
  Proof.
    destruct s as [[[x2 z2] x3] z3]. intros U H. cbn [rung no_z].
    repeat first [rewrite kr|rewrite inF_add|rewrite inF_mul|rewrite inF_sub]. rewrite U. split; [|ring].
    set (e := ksub _ _). assert (Z : e = k0); [|rewrite Z; ring].
    transitivity (kmul (kadd (kadd k1 k1) (kadd k1 k1)) (kmul (k x2) (k z2))); [unfold e; ring|]. rewrite H. ring.
  Qed.
  Lemma ladder_no_z x1 kk : k x1 = k0 -> forall t swap s, no_z s -> no_z (ladder red x1 kk t swap s).
  Proof.
    intros U. induction t as [|t IH]; intros swap s H; cbn [ladder]; [now apply no_z_swap|].
    apply IH. apply (no_z_swap (xorb swap (Z.testbit kk (Z.of_nat t)))) in H. set (s' := cswap _ s) in *. clearbody s'.
    pose proof (rung_no_z x1 s' U) as R. destruct s' as [[[x2 z2] x3] z3]. apply R. destruct H as [-> _]. ring.
  Qed.
  Lemma ladder_start_no_z x1 kk t : k x1 = k0 -> no_z (ladder red x1 kk (S t) false (1, 0, x1, 1)).
  Proof.
    intros U. cbn [ladder]. apply ladder_no_z; [exact U|].
    pose proof (rung_no_z x1 (cswap (xorb false (Z.testbit kk (Z.of_nat t))) (1, 0, x1, 1)) U) as R.
    destruct (xorb false (Z.testbit kk (Z.of_nat t))); cbn [cswap] in *; apply R; [rewrite U|rewrite k_zero_eq]; ring.
  Qed.
  Lemma x25519_uc kk u P : oncurve P -> k u = uc P -> 0 <= kk < 2 ^ 255 ->
    k (x25519_num red kk u) = uc (times (Z.to_nat kk) P).
  Proof.
    intros HP U Hk. unfold x25519_num. destruct (K_dec (k u) k0) as [Z|N].
    - pose proof (ladder_start_no_z u kk 254 Z) as H. change (S 254) with 255%nat in H.
      destruct (ladder red u kk 255 false (1, 0, u, 1)) as [[[x2 z2] x3] z3]. destruct H as [H _].
      rewrite kr, inF_mul, (k_modp_inv red red_spec), H, kinv_0, flat_uc; [ring|]. apply flat_times, uc_flat; [exact HP|]. now rewrite <- U.
    - assert (H : mrep (ladder red u kk 255 false (1, 0, u, 1)) (times (Z.to_nat kk) P) (times (S (Z.to_nat kk)) P)).
      { apply ladder_rep; try assumption; [now apply uc_mul|tauto|].
        assert (S0 : Z.shiftr kk (Z.of_nat 255) = 0). { rewrite Z.shiftr_div_pow2 by lia. apply Z.div_small. change (Z.of_nat 255) with 255. exact Hk. }
        rewrite S0. change (Z.to_nat 0) with 0%nat. cbn [cswap mrep Edwards.times]. rewrite k_zero_eq, k_one_eq. split.
        - apply mont_from; [intros [A _]; exact (k_one_nz A)|ring].
        - rewrite plus_com, plus_0. destruct P as [x y]. apply mont_from; [tauto|]. pose proof (uc_mul (x, y) (k u) HP U N) as Q. cbn [snd] in Q. rewrite Q. ring. }
      destruct (ladder red u kk 255 false (1, 0, u, 1)) as [[[x2 z2] x3] z3]. destruct H as [H _].
      rewrite kr, inF_mul, (k_modp_inv red red_spec). now apply mont_uc.
  Qed.
  Lemma x25519_range kk u : 0 <= x25519_num red kk u < fieldp.
  Proof.
    unfold x25519_num. destruct (ladder red u kk 255 false (1, 0, u, 1)) as [[[x2 z2] x3] z3]. rewrite red_spec. apply Z.mod_pos_bound. exact fp_pos.
  Qed.
  Lemma x25519_val kk u P : oncurve P -> k u = uc P -> 0 <= kk < 2 ^ 255 -> x25519_num red kk u = kval (uc (times (Z.to_nat kk) P)).
  Proof.
    intros HP U Hk. rewrite <- (x25519_uc kk u P HP U Hk), val_k. symmetry. apply Z.mod_small, x25519_range.
  Qed.
End Red.

(** * Bytes *)
Definition u_bytes (A : K * K) : bytes := le_bytes 32 (Z.to_N (kval (uc A))).
Lemma u_bytes_length A : length (u_bytes A) = 32%nat.
Proof. apply le_bytes_length. Qed.
Lemma u_bytes_word A : Z.of_N (le_word (u_bytes A)) = kval (uc A).
Proof.
  unfold u_bytes. pose proof (val_range (uc A)) as R. pose proof fieldp_255. pose proof two256.
  rewrite le_word_bytes; [apply Z2N.id; tauto|]. set (w := (256 ^ N.of_nat 32)%N) in *. clearbody w. set (v := 2 ^ 255) in *. clearbody v. lia.
Qed.
Lemma u_bytes_decode A : k (decode_u (u_bytes A)) = uc A.
Proof.
  unfold decode_u. rewrite u_bytes_word, Z.mod_small, k_val; [reflexivity|]. pose proof (val_range (uc A)). pose proof fieldp_255. lia.
Qed.
Lemma scalar_bits b i : 0 <= i -> Z.testbit (decode_scalar b) i = (3 <=? i) && (i <? 254) && Z.testbit (Z.of_N (le_word b)) i || (i =? 254).
Proof.
  intros H. unfold decode_scalar. rewrite Z.lor_spec, Z.land_spec, clamp_mask_bits by exact H. rewrite Z.pow2_bits_eqb by lia. rewrite (Z.eqb_sym 254 i).
  now rewrite (Bool.andb_comm (Z.testbit _ i)).
Qed.
Lemma clamped_iff b a : clamped b a <-> length b = 32%nat /\ a = decode_scalar b.
Proof.
  unfold clamped. split; intros [L H]; (split; [exact L|]).
  - apply Z.bits_inj'. intros i Hi. rewrite H, scalar_bits by exact Hi. reflexivity.
  - intros i Hi. rewrite H. now apply scalar_bits.
Qed.
Lemma scalar_range b : 0 <= decode_scalar b < 2 ^ 255.
Proof.
  assert (P : 0 <= decode_scalar b).
  { unfold decode_scalar. apply Z.lor_nonneg. split; [apply Z.land_nonneg; left; lia|]. apply Z.pow_nonneg. lia. }
  split; [exact P|]. destruct (Z.eq_dec (decode_scalar b) 0) as [E|N]; [rewrite E; reflexivity|].
  apply Z.log2_lt_pow2; [lia|]. destruct (Z_lt_ge_dec (Z.log2 (decode_scalar b)) 255) as [L|L]; [exact L|exfalso].
  assert (T : Z.testbit (decode_scalar b) (Z.log2 (decode_scalar b)) = true) by (apply Z.bit_log2; lia).
  rewrite scalar_bits in T by lia. rewrite (proj2 (Z.ltb_ge _ 254)), (proj2 (Z.eqb_neq _ 254)) in T by lia. rewrite Bool.andb_false_r in T. discriminate T.
Qed.
Lemma x25519_point red secret b P : (forall x, red x = x mod fieldp) -> oncurve P -> k (decode_u b) = uc P ->
  x25519 red secret b = u_bytes (times (Z.to_nat (decode_scalar secret)) P).
Proof.
  intros R HP U. unfold x25519, u_bytes. now rewrite (x25519_val red R _ _ P HP U (scalar_range secret)).
Qed.
Lemma nine_uc : k (decode_u nine) = uc gen.
Proof.
  change (decode_u nine) with 9. unfold uc. rewrite gen_xy. unfold pt. cbn [snd].
  assert (E : kmul (k 9) (ksub k1 (k g_y)) = kadd k1 (k g_y)).
  { apply (cancel_mul (k 5)); [exact five_nz|]. transitivity (kmul (k 9) (ksub (k 5) (kmul (k 5) (k g_y)))); [ring|]. rewrite g_y_five.
    transitivity (kadd (k 5) (kmul (k 5) (k g_y))); [rewrite g_y_five|ring]. rewrite <- inF_sub, <- inF_mul, <- inF_add. reflexivity. }
  assert (N : ksub k1 (k g_y) <> k0).
  { intros Z. rewrite Z in E. assert (W : kadd k1 (k g_y) = k0) by (rewrite <- E; ring). apply k_two.
    transitivity (kadd (kadd k1 (k g_y)) (ksub k1 (k g_y))); [ring|]. rewrite W, Z. ring. }
  rewrite <- E. symmetry. transitivity (kmul (k 9) (kmul (ksub k1 (k g_y)) (kinv (ksub k1 (k g_y))))); [ring|]. rewrite (kinv_mul _ N). ring.
Qed.
Lemma public_point secret : x25519_public secret = u_bytes (times (Z.to_nat (decode_scalar secret)) gen).
Proof. unfold x25519_public. rewrite (x25519_point modp secret nine gen modp_spec gen_on nine_uc). reflexivity. Qed.
Theorem common_secret a b : x25519 modp a (x25519_public b) = x25519 modp b (x25519_public a).
Proof.
  rewrite !public_point. rewrite (x25519_point modp a _ (times (Z.to_nat (decode_scalar b)) gen)), (x25519_point modp b _ (times (Z.to_nat (decode_scalar a)) gen));
    try exact modp_spec; try apply u_bytes_decode; try (apply times_on; exact gen_on).
  rewrite <- !times_times by exact gen_on. now rewrite Nat.mul_comm.
Qed.

(** * The specification *)
Lemma val_one : kval k1 = 1.
Proof. rewrite <- k_one_eq, val_k. apply Z.mod_small. pose proof fieldp_pos. lia. Qed.
Lemma u_iff P u : small P -> (u_coordinate P u <-> coord u /\ k u = uc (pt P)).
Proof.
  destruct P as [x y]. intros S. pose proof (coords_pt _ S) as C. unfold coords in C. assert (Cy : kval (k y) = y) by exact (f_equal snd C).
  unfold u_coordinate, uc, pt. cbn [fst snd].
  assert (Q : (if y =? 1 then u = 0 else same (u * (1 - y)) (1 + y)) -> k u = kmul (kadd k1 (k y)) (kinv (ksub k1 (k y)))).
  { destruct (y =? 1) eqn:E.
    - apply Z.eqb_eq in E. subst y. intros ->. rewrite k_one_eq, k_zero_eq. replace (ksub k1 k1) with k0 by ring. rewrite kinv_0. ring.
    - apply Z.eqb_neq in E. intros H. apply same_iff in H. rewrite inF_mul, inF_add, inF_sub, k_one_eq in H. rewrite <- H.
      assert (N : ksub k1 (k y) <> k0). { intros Z. apply E. apply ksub_zero in Z. rewrite <- Cy, <- Z. exact val_one. }
      transitivity (kmul (k u) (kmul (ksub k1 (k y)) (kinv (ksub k1 (k y))))); [rewrite (kinv_mul _ N)|]; ring. }
  assert (Q' : coord u -> k u = kmul (kadd k1 (k y)) (kinv (ksub k1 (k y))) -> if y =? 1 then u = 0 else same (u * (1 - y)) (1 + y)).
  { intros R H. destruct (y =? 1) eqn:E.
    - apply Z.eqb_eq in E. subst y. rewrite k_one_eq in H. replace (ksub k1 k1) with k0 in H by ring. rewrite kinv_0 in H.
      replace (kmul (kadd k1 k1) k0) with k0 in H by ring. rewrite <- k_zero_eq in H. apply k_small_inj in H; [exact H|now apply coord_iff|]. pose proof fp_pos. lia.
    - apply Z.eqb_neq in E. apply same_iff. rewrite inF_mul, inF_add, inF_sub, k_one_eq. rewrite H.
      assert (N : ksub k1 (k y) <> k0). { intros Z. apply E. apply ksub_zero in Z. rewrite <- Cy, <- Z. exact val_one. }
      exact (quotient_mul K k0 k1 kadd kmul ksub kopp kdiv kinv K_field _ _ N). }
  split; intros [R H]; (split; [exact R|]); [exact (Q H)|exact (Q' R H)].
Qed.
Lemma written_u_iff P b : small P -> (written_u P b <-> b = u_bytes (pt P)).
Proof.
  intros S. unfold written_u. split.
  - intros [L H]. apply u_iff in H; [|exact S]. destruct H as [R H]. apply le_word_eq; [now rewrite u_bytes_length|].
    apply N2Z.inj. rewrite u_bytes_word, <- H, val_k. symmetry. apply Z.mod_small. now apply coord_iff.
  - intros ->. split; [apply u_bytes_length|]. apply u_iff; [exact S|]. rewrite u_bytes_word. split; [apply coord_iff, val_range|apply k_val].
Qed.
Lemma names_iff b P : names_point b P <-> length b = 32%nat /\ small P /\ oncurve (pt P) /\ k (decode_u b) = uc (pt P).
Proof.
  unfold names_point, decode_u. split.
  - intros (L & H & u & U & E). apply on_curve_iff in H as [S H]. apply u_iff in U; [|exact S]. apply same_iff in E. split; [exact L|]. split; [exact S|]. split; [exact H|].
    rewrite <- E. apply U.
  - intros (L & S & H & E). split; [exact L|]. split; [apply on_curve_iff; split; assumption|]. exists (kval (uc (pt P))).
    split; [apply u_iff; [exact S|]; split; [apply coord_iff, val_range|apply k_val]|]. apply same_iff. rewrite k_val. symmetry. exact E.
Qed.
Theorem public_iff secret public : public_of secret public <-> length secret = 32%nat /\ public = x25519_public secret.
Proof.
  rewrite public_point. unfold public_of. split.
  - intros (G & a & A & HG & HC & M & W). apply base_iff in HG as [_ EG]. apply clamped_iff in HC as [L ->]. split; [exact L|].
    apply multiple_iff in M; [|rewrite EG; exact gen_on]. destruct M as [S M]. apply written_u_iff in W; [|exact S]. rewrite W, M, EG, Z_N_nat. reflexivity.
  - intros [L ->]. exists (g_x, g_y), (decode_scalar secret), (coords (times (Z.to_nat (decode_scalar secret)) gen)).
    split; [apply base_iff; split; [exact g_small|symmetry; exact gen_xy]|]. split; [apply clamped_iff; split; [exact L|reflexivity]|].
    split; [apply multiple_iff; rewrite <- gen_xy; [exact gen_on|]; split; [apply coords_small|rewrite pt_coords, Z_N_nat; reflexivity]|].
    apply written_u_iff; [apply coords_small|]. now rewrite pt_coords.
Qed.
Theorem common_iff secret public P z : names_point public P -> (common secret public z <-> length secret = 32%nat /\ z = x25519 modp secret public).
Proof.
  intros HN. pose proof HN as HN'. apply names_iff in HN' as (Lp & SP & OP & UP). unfold common. split.
  - intros (a & P' & Q & HC & HP & M & W). apply clamped_iff in HC as [L ->]. split; [exact L|].
    apply names_iff in HP as (_ & SP' & OP' & UP'). apply multiple_iff in M; [|exact OP']. destruct M as [S M]. apply written_u_iff in W; [|exact S].
    rewrite W, M, Z_N_nat. symmetry. apply x25519_point; [exact modp_spec|exact OP'|exact UP'].
  - intros [L ->]. exists (decode_scalar secret), P, (coords (times (Z.to_nat (decode_scalar secret)) (pt P))).
    split; [apply clamped_iff; split; [exact L|reflexivity]|]. split; [exact HN|].
    split; [apply multiple_iff; [exact OP|]; split; [apply coords_small|rewrite pt_coords, Z_N_nat; reflexivity]|].
    apply written_u_iff; [apply coords_small|]. rewrite pt_coords. apply x25519_point; [exact modp_spec|exact OP|exact UP].
Qed.
Lemma public_names secret : exists P, names_point (x25519_public secret) P.
Proof.
  rewrite public_point. set (A := times _ gen). exists (coords A). apply names_iff. rewrite pt_coords.
  split; [apply u_bytes_length|]. split; [apply coords_small|]. split; [apply times_on; exact gen_on|apply u_bytes_decode].
Qed.

(** * Weak keys and other texts *)
Lemma scalar_eight b : decode_scalar b = decode_scalar b / 8 * 8.
Proof.
  pose proof (Z.div_mod (decode_scalar b) 8 ltac:(lia)) as E. assert (M : decode_scalar b mod 2 ^ 3 = 0).
  { apply Z.bits_inj'. intros i Hi. rewrite Z.bits_0. destruct (Z_lt_ge_dec i 3) as [L|L]; [|apply Z.mod_pow2_bits_high; lia].
    rewrite Z.mod_pow2_bits_low by lia. rewrite scalar_bits by lia. rewrite (proj2 (Z.leb_gt 3 i)), (proj2 (Z.eqb_neq i 254)) by lia. reflexivity. }
  change (2 ^ 3) with 8 in M. lia.
Qed.
Lemma scalar_pos b : 0 < decode_scalar b / 8 < groupq.
Proof.
  pose proof (scalar_range b) as [R1 R2]. pose proof (scalar_eight b) as E. assert (Q : 2 ^ 255 < groupq * 8) by reflexivity.
  assert (N : decode_scalar b <> 0). { intros Z. pose proof (scalar_bits b 254 ltac:(lia)) as T. rewrite Z, Z.bits_0 in T. cbn [Z.leb Z.ltb Z.eqb Z.compare] in T. rewrite Bool.orb_true_r in T. discriminate T. }
  set (m := decode_scalar b / 8) in *. clearbody m. lia.
Qed.
Lemma uc_zero A : uc A = k0 -> u_bytes A = zeros.
Proof. intros E. unfold u_bytes. rewrite E, <- k_zero_eq, val_k, Z.mod_0_l by (pose proof fp_pos; lia). reflexivity. Qed.
Lemma uc_O : uc O = k0.
Proof. apply flat_uc. split; [reflexivity|left; reflexivity]. Qed.
Lemma weak_secret b s : weak_agreement_key b -> x25519 modp s b = zeros.
Proof.
  intros (P & N & M). apply names_iff in N as (_ & SP & OP & U). apply multiple_iff in M; [|exact OP]. destruct M as [_ M]. rewrite zero_pt in M. change (N.to_nat 8) with 8%nat in M.
  rewrite (x25519_point modp s b (pt P) modp_spec OP U). apply uc_zero. rewrite (scalar_eight s). pose proof (scalar_pos s).
  rewrite Z2Nat.inj_mul by lia. change (Z.to_nat 8) with 8%nat. rewrite times_times, <- M, times_zero by exact OP. exact uc_O.
Qed.
Theorem weak_common b s z : weak_agreement_key b -> length s = 32%nat -> (common s b z <-> z = zeros).
Proof.
  intros W L. pose proof W as (P & N & _). rewrite (common_iff s b P z N), (weak_secret b s W). tauto.
Qed.
Lemma flat_double A : flat A -> plus A A = O.
Proof.
  destruct A as [x y]. intros [Ex Ey]. cbn [fst snd] in Ex, Ey. subst x. cbn [Edwards.plus].
  rewrite (flat_x K k0 k1 kadd kmul ksub kopp kdiv kinv K_field kd y y k_one_nz), (flat_y K k0 k1 kadd kmul ksub kopp kdiv kinv K_field kd y y k_one_nz).
  unfold Edwards.O. f_equal. destruct Ey as [-> | ->]; ring.
Qed.
Lemma times_2 A : times 2 A = plus A A.
Proof. cbn [Edwards.times]. rewrite (plus_com A O), plus_0. reflexivity. Qed.
Lemma weak_zeros : weak_agreement_key zeros.
Proof.
  assert (F : flat (pt (0, prime_p - 1))).
  { split; unfold pt; cbn [fst snd]; [exact k_zero_eq|right]. rewrite prime_p_eq, <- k_one_eq, <- inF_opp. apply inF_iff.
    replace (fieldp - 1) with (- 1 + 1 * fieldp) by lia. apply Z_mod_plus_full. }
  assert (C : oncurve (pt (0, prime_p - 1))).
  { destruct (pt (0, prime_p - 1)) as [x y]. destruct F as [Ex Ey]. cbn [fst snd] in Ex, Ey. subst x. cbn [Edwards.oncurve]. destruct Ey as [-> | ->]; ring. }
  assert (S : small (0, prime_p - 1)) by (split; apply coord_iff; cbn [fst snd]; rewrite ?prime_p_eq; pose proof fp_pos; lia).
  exists (0, prime_p - 1). split.
  - apply names_iff. split; [reflexivity|]. split; [exact S|]. split; [exact C|]. rewrite (flat_uc _ F). change (decode_u zeros) with 0. exact k_zero_eq.
  - apply multiple_iff; [exact C|]. split; [exact zero_small|]. rewrite zero_pt. change (N.to_nat 8) with (4 * 2)%nat. rewrite times_times by exact C.
    rewrite times_2, (flat_double _ F), times_zero. reflexivity.
Qed.
(** Honest keys never give the secret of weak ones. *)
Lemma times_gen_O n : 0 <= n -> times (Z.to_nat n) gen = O -> (groupq | n).
Proof.
  intros Hn H. pose proof groupq_pos. apply Z.mod_divide; [lia|]. pose proof (Z.mod_pos_bound n groupq ltac:(lia)) as B.
  destruct (Z.eq_dec (n mod groupq) 0) as [E|N]; [exact E|]. exfalso. apply (order_divides (Z.to_nat (n mod groupq))); [lia|lia|].
  rewrite times_modq by exact Hn. exact H.
Qed.
Lemma honest_nonzero a b : x25519 modp a (x25519_public b) <> zeros.
Proof.
  rewrite public_point. rewrite (x25519_point modp a _ (times (Z.to_nat (decode_scalar b)) gen)); [|exact modp_spec|apply times_on; exact gen_on|apply u_bytes_decode].
  rewrite <- times_times by exact gen_on. intros E. set (A := times _ gen) in E.
  assert (U : uc A = k0). { pose proof (u_bytes_word A) as W. rewrite E in W. change (Z.of_N (le_word zeros)) with 0 in W. rewrite <- (k_val (uc A)), <- W. exact k_zero_eq. }
  assert (OA : oncurve A) by (apply times_on; exact gen_on).
  pose proof (flat_double A (uc_flat A OA U)) as D. unfold A in D. rewrite <- times_plus in D by exact gen_on.
  pose proof (scalar_range a) as [Ra _]. pose proof (scalar_range b) as [Rb _]. pose proof (scalar_eight a) as Ea. pose proof (scalar_eight b) as Eb.
  pose proof (scalar_pos a) as Pa. pose proof (scalar_pos b) as Pb. rewrite <- Z2Nat.inj_mul, <- Z2Nat.inj_add in D by (try apply Z.mul_nonneg_nonneg; assumption).
  apply times_gen_O in D; [|nia]. rewrite Ea, Eb in D. set (m := decode_scalar a / 8) in *. set (n := decode_scalar b / 8) in *. clearbody m n.
  replace (m * 8 * (n * 8) + m * 8 * (n * 8)) with (128 * (m * n)) in D by ring.
  apply (prime_mult _ groupq_prime) in D as [D|D].
  - apply Z.divide_pos_le in D; [|lia]. assert (X : 128 < groupq) by reflexivity. lia.
  - apply (prime_mult _ groupq_prime) in D as [D|D]; apply Z.divide_pos_le in D; lia.
Qed.
(** The other value of the highest bit. *)
Definition flip (b : bytes) : bytes :=
  let n := le_word b in le_bytes 32 (if (n <? 2 ^ 255)%N then n + 2 ^ 255 else n - 2 ^ 255)%N.
Lemma flip_word b : length b = 32%nat -> Z.of_N (le_word (flip b)) = if Z.of_N (le_word b) <? 2 ^ 255 then Z.of_N (le_word b) + 2 ^ 255 else Z.of_N (le_word b) - 2 ^ 255.
Proof.
  intros L. pose proof (le_word_bound b) as B. rewrite L in B. unfold flip. cbv zeta. assert (E : (256 ^ N.of_nat 32 = 2 ^ 255 + 2 ^ 255)%N) by reflexivity.
  assert (E2 : Z.of_N (2 ^ 255) = 2 ^ 255) by reflexivity. set (v := (2 ^ 255)%N) in *. set (vz := 2 ^ 255) in *. clearbody v vz.
  set (n := le_word b) in *. clearbody n. rewrite le_word_bytes; [|rewrite E in *; destruct (n <? v)%N eqn:Q; lia].
  destruct (n <? v)%N eqn:Q; destruct (Z.of_N n <? vz) eqn:Q'; lia.
Qed.
Lemma flip_names b P : names_point b P -> names_point (flip b) P /\ flip b <> b.
Proof.
  intros N. apply names_iff in N as (L & S & C & U). pose proof (flip_word b L) as W. assert (V : 0 < 2 ^ 255) by reflexivity. split.
  - apply names_iff. split; [apply le_bytes_length|]. split; [exact S|]. split; [exact C|]. rewrite <- U. f_equal. unfold decode_u. rewrite W.
    destruct (Z.of_N (le_word b) <? 2 ^ 255).
    + replace (Z.of_N (le_word b) + 2 ^ 255) with (Z.of_N (le_word b) + 1 * 2 ^ 255) by ring. apply Z_mod_plus_full.
    + replace (Z.of_N (le_word b) - 2 ^ 255) with (Z.of_N (le_word b) + (-1) * 2 ^ 255) by ring. apply Z_mod_plus_full.
  - intros E. rewrite E in W. set (v := 2 ^ 255) in *. clearbody v. destruct (Z.of_N (le_word b) <? v); lia.
Qed.
Lemma names_common b b' P s z : names_point b P -> names_point b' P -> (common s b z <-> common s b' z).
Proof.
  intros N N'. rewrite (common_iff s b P z N), (common_iff s b' P z N'). apply names_iff in N as (_ & _ & C & U). apply names_iff in N' as (_ & _ & _ & U').
  rewrite (x25519_point modp s b _ modp_spec C U), (x25519_point modp s b' _ modp_spec C U'). tauto.
Qed.
(** For computing. *)
Lemma public_fast s : x25519_public s = x25519 red_p s nine.
Proof. rewrite public_point. symmetry. exact (x25519_point red_p s nine gen red_p_spec gen_on nine_uc). Qed.
Lemma common_fast a b : x25519 modp a (x25519_public b) = x25519 red_p a (x25519_public b).
Proof.
  rewrite public_point. set (A := times _ gen). assert (C : oncurve A) by (apply times_on; exact gen_on).
  rewrite (x25519_point modp a _ A modp_spec C (u_bytes_decode A)). symmetry. exact (x25519_point red_p a _ A red_p_spec C (u_bytes_decode A)).
Qed.
