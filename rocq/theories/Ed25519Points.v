(** The points of [Ed25519Spec] are those of the group, and the base point has prime order. *)
From Coq Require Import ZArith Znumtheory Lia Bool Field ZifyBool ZifyNat ZifyN.
From Verif Require Import Base BaseFacts Codec CodecFacts Hash HashFacts DigestFacts Deps Primes Primes25519 Fp Edwards Ed25519
  CurveFacts Ed25519Facts Ed25519Spec.
Local Open Scope Z_scope.
Add Field Kf : K_field.

Lemma prime_p_eq : prime_p = fieldp. Proof. Transparent fieldp. reflexivity. Qed.
Lemma order_L_eq : order_L = groupq. Proof. reflexivity. Qed.
Lemma d_fraction : kmul (k 121666) kd = kopp (k 121665).
Proof.
  rewrite <- k_curved_eq, <- inF_mul, <- inF_opp. apply inF_iff. rewrite <- !red_p_spec. vm_compute. reflexivity.
Qed.
Lemma den_nz : k 121666 <> k0.
Proof.
  rewrite <- k_zero_eq. intros E. apply inF_iff in E. rewrite <- !red_p_spec in E. vm_compute in E. discriminate E.
Qed.
Lemma five_nz : k 5 <> k0.
Proof.
  rewrite <- k_zero_eq. intros E. apply inF_iff in E. rewrite <- !red_p_spec in E. vm_compute in E. discriminate E.
Qed.
Lemma g_y_five : kmul (k 5) (k g_y) = k 4.
Proof. rewrite <- inF_mul. apply inF_iff. rewrite <- !red_p_spec. vm_compute. reflexivity. Qed.
Lemma g_range : 0 <= g_x < fieldp /\ 0 <= g_y < fieldp /\ Z.even g_x = true /\ g_x <> 0.
Proof. repeat split; vm_compute; congruence. Qed.
Opaque fieldp curved sqrt_m1 inF fadd fmul fsub fopp finv fdiv f0 f1 g_x g_y.

Definition pt (P : point) : K * K := (k (fst P), k (snd P)).
Definition coords (A : K * K) : point := (kval (fst A), kval (snd A)).
Definition small (P : point) : Prop := coord (fst P) /\ coord (snd P).
Lemma coord_iff a : coord a <-> 0 <= a < fieldp.
Proof. unfold coord. now rewrite prime_p_eq. Qed.
Lemma same_iff a b : same a b <-> k a = k b.
Proof.
  unfold same. rewrite prime_p_eq, inF_iff. pose proof fp_pos. split.
  - intros [c E]. replace a with (b + c * fieldp) by lia. apply Z_mod_plus_full.
  - intros E. apply Z.mod_divide; [lia|]. rewrite Zminus_mod, E, Z.sub_diag. apply Z.mod_0_l. lia.
Qed.
Lemma coords_small A : small (coords A).
Proof. split; apply coord_iff, val_range. Qed.
Lemma pt_coords A : pt (coords A) = A.
Proof. destruct A as [x y]. unfold pt, coords. cbn [fst snd]. now rewrite !k_val. Qed.
Lemma coords_pt P : small P -> coords (pt P) = P.
Proof.
  destruct P as [x y]. intros [Hx Hy]. cbn [fst snd] in *. apply coord_iff in Hx, Hy.
  unfold pt, coords. cbn [fst snd]. now rewrite !val_k, !Z.mod_small.
Qed.
Lemma cancel_mul c a b : c <> k0 -> (kmul c a = kmul c b <-> a = b).
Proof.
  intros N. split; [|now intros ->]. intros E. apply ksub_zero.
  assert (Z : kmul c (ksub a b) = k0) by (transitivity (ksub (kmul c a) (kmul c b)); [ring|rewrite E; ring]).
  apply kno_zero in Z. tauto.
Qed.
Lemma on_curve_iff P : on_curve P <-> small P /\ oncurve (pt P).
Proof.
  destruct P as [x y]. unfold on_curve, small, pt. cbn [fst snd Edwards.oncurve]. rewrite same_iff.
  rewrite inF_mul, !inF_sub, !inF_mul.
  assert (E : ksub (k 121666) (kmul (k 121665) (kmul (kmul (k x) (k x)) (kmul (k y) (k y))))
              = kmul (k 121666) (kadd k1 (kmul (kmul kd (kmul (k x) (k x))) (kmul (k y) (k y))))).
  { transitivity (kadd (k 121666) (kmul (kopp (k 121665)) (kmul (kmul (k x) (k x)) (kmul (k y) (k y))))); [ring|].
    rewrite <- d_fraction. ring. }
  rewrite E, cancel_mul by exact den_nz. tauto.
Qed.
Lemma div_iff a b c : b <> k0 -> (kmul c b = a <-> c = kdiv a b).
Proof.
  intros N. split; [intros <-|intros ->]; field; exact N.
Qed.
Lemma pair_iff (a b c d : K) : (a, b) = (c, d) <-> a = c /\ b = d.
Proof.
  split; [|now intros [-> ->]]. intros E. split; [exact (f_equal fst E)|exact (f_equal snd E)].
Qed.
Lemma sum_iff P Q R : oncurve (pt P) -> oncurve (pt Q) -> (sum P Q R <-> small R /\ pt R = plus (pt P) (pt Q)).
Proof.
  destruct P as [x1 y1], Q as [x2 y2], R as [x3 y3]. intros HP HQ.
  pose proof (den_p _ _ _ _ HP HQ) as DP. pose proof (den_m _ _ _ _ HP HQ) as DM.
  unfold sum, small, pt. cbn [fst snd Edwards.plus] in *. rewrite !same_iff.
  rewrite !inF_mul, !inF_sub, !inF_add, !inF_mul.
  set (t := kmul (kmul (kmul (k x1) (k x2)) (k y1)) (k y2)).
  assert (E1 : ksub (k 121666) (kmul (k 121665) t) = kmul (k 121666) (kadd k1 (kmul kd t))).
  { transitivity (kadd (k 121666) (kmul (kopp (k 121665)) t)); [ring|]. rewrite <- d_fraction. ring. }
  assert (E2 : kadd (k 121666) (kmul (k 121665) t) = kmul (k 121666) (ksub k1 (kmul kd t))).
  { transitivity (ksub (k 121666) (kmul (kopp (k 121665)) t)); [ring|]. rewrite <- d_fraction. ring. }
  rewrite E1, E2.
  replace (kmul (kmul (kmul (kmul kd (k x1)) (k x2)) (k y1)) (k y2)) with (kmul kd t) in * by (unfold t; ring).
  assert (C : forall u v w, kmul u (kmul (k 121666) v) = kmul (k 121666) w <-> kmul u v = w).
  { intros u v w. rewrite <- (cancel_mul (k 121666) (kmul u v) w) by exact den_nz.
    replace (kmul u (kmul (k 121666) v)) with (kmul (k 121666) (kmul u v)) by ring. reflexivity. }
  rewrite !C, !div_iff by assumption.
  rewrite pair_iff. tauto.
Qed.
Lemma zero_pt : pt (0, 1) = O.
Proof. unfold pt. cbn [fst snd]. now rewrite k_zero_eq, k_one_eq. Qed.
Lemma zero_small : small (0, 1).
Proof. pose proof fieldp_pos. split; apply coord_iff; cbn [fst snd]; lia. Qed.
Lemma multiple_iff P n Q : oncurve (pt P) -> (multiple P n Q <-> small Q /\ pt Q = times (N.to_nat n) (pt P)).
Proof.
  intros HP. split.
  - induction 1 as [|n Q R M [_ IH] S].
    + split; [exact zero_small|]. rewrite zero_pt. reflexivity.
    + apply sum_iff in S; [|exact HP|rewrite IH; now apply times_on]. destruct S as [Sm S].
      split; [exact Sm|]. rewrite N2Nat.inj_succ. cbn [Edwards.times]. now rewrite S, IH.
  - revert Q. pattern n. apply N.peano_ind; clear n.
    + intros Q [S E]. replace Q with (0, 1); [constructor|]. rewrite <- (coords_pt Q S), E. change (N.to_nat 0) with 0%nat. cbn [Edwards.times].
      rewrite <- zero_pt. symmetry. apply coords_pt, zero_small.
    + intros n IH Q [S E]. rewrite N2Nat.inj_succ in E. cbn [Edwards.times] in E.
      set (T := times (N.to_nat n) (pt P)) in *. apply multiple_S with (Q := coords T).
      * apply IH. split; [apply coords_small|apply pt_coords].
      * apply sum_iff; [exact HP|rewrite pt_coords; now apply times_on|]. split; [exact S|]. now rewrite pt_coords.
Qed.
Lemma gen_xy : gen = pt (g_x, g_y). Proof. reflexivity. Qed.
Lemma g_small : small (g_x, g_y).
Proof. pose proof g_range. split; apply coord_iff; cbn [fst snd]; tauto. Qed.
Lemma base_iff P : base_point P <-> small P /\ pt P = gen.
Proof.
  destruct P as [x y]. unfold base_point. rewrite on_curve_iff, same_iff, inF_mul. split.
  - intros ((S & On) & Ey & Ex). split; [exact S|]. unfold pt in *. cbn [fst snd] in *.
    assert (Y : k y = k g_y) by (apply (cancel_mul (k 5)); [exact five_nz|]; rewrite Ey; symmetry; exact g_y_five).
    rewrite Y in *. pose proof gen_on as G. rewrite gen_xy in G |- *. unfold pt in G |- *. cbn [fst snd] in *. f_equal.
    apply curve_square in On, G. rewrite <- G in On.
    assert (Sq : kmul (k x) (k x) = kmul (k g_x) (k g_x)).
    { apply (cancel_mul (kadd (kmul kd (kmul (k g_y) (k g_y))) k1)); [apply curve_den|].
      transitivity (kmul (kmul (k x) (k x)) (kadd (kmul kd (kmul (k g_y) (k g_y))) k1)); [ring|]. rewrite On. ring. }
    apply square_eq in Sq. destruct Sq as [E|E]; [exact E|]. exfalso.
    destruct g_range as (Rx & _ & Ev & Nx). destruct S as [Sx _]. cbn [fst] in Sx. apply coord_iff in Sx.
    assert (N : k g_x <> k0).
    { intros Z. rewrite <- k_zero_eq in Z. apply k_small_inj in Z; [tauto|exact Rx|pose proof fp_pos; lia]. }
    pose proof (parity_flip (k g_x) N) as F. rewrite <- E, !val_k, !Z.mod_small in F by assumption.
    rewrite <- !Z.negb_even, Ex, Ev in F. discriminate F.
  - intros (S & E). rewrite E. split; [split; [exact S|exact gen_on]|].
    assert (X : (x, y) = (g_x, g_y)) by (rewrite <- (coords_pt _ S), E, gen_xy; apply coords_pt, g_small).
    rewrite (f_equal fst X : x = g_x), (f_equal snd X : y = g_y). split; [exact g_y_five|apply g_range].
Qed.
Lemma even_odd_if (b : bool) z u v : Z.even z = negb b -> (if Z.even z then u else v : Z) = if b then v else u.
Proof. intros ->. now destruct b. Qed.
Lemma written_iff P b : small P -> (written P b <-> b = enc (pt P)).
Proof.
  destruct P as [x y]. intros S. pose proof (coords_pt _ S) as C. unfold coords in C.
  assert (Cx : kval (k x) = x) by exact (f_equal fst C). assert (Cy : kval (k y) = y) by exact (f_equal snd C).
  unfold written. assert (N : enc_num (pt (x, y)) = y + (if Z.even x then 0 else 2 ^ 255)).
  { unfold enc_num, pt. cbn [fst snd]. rewrite Cx, Cy, <- Z.negb_even. now destruct (Z.even x). }
  split.
  - intros [L E]. apply enc_from; [exact L|]. now rewrite N.
  - intros ->. split; [apply enc_length|]. now rewrite enc_word.
Qed.

Lemma groupq_N : Z.to_N order_L = Z.to_N groupq. Proof. reflexivity. Qed.
Lemma hash_mod t : N.to_nat (le_word (real_sha512 t) mod Z.to_N order_L) = Z.to_nat (sha512_modq t).
Proof.
  unfold sha512_modq. rewrite groupq_N. pose proof groupq_pos. generalize (le_word (real_sha512 t)) as w. intros w.
  rewrite <- (Z2N.id groupq) at 2 by lia. rewrite <- N2Z.inj_mod by lia. now rewrite N2Z.id || (rewrite Z_N_nat; now rewrite N2Z.id) || lia.
Qed.
Section Red.
  Variable red : Z -> Z.
  Hypothesis red_spec : forall x, red x = x mod fieldp.
  Lemma accepted_iff public msg signature : ed25519_verify red public msg signature = true <-> accepted public msg signature.
  Proof.
    rewrite (verify_iff red red_spec). split.
    - intros (A & R & s & OA & OR & -> & -> & L & C & E).
      exists (g_x, g_y), (coords A), (coords R), (enc R), s, (le_word s), (coords (times (N.to_nat (le_word s)) gen)),
        (coords (times (Z.to_nat (sha512_modq (enc R ++ enc A ++ msg))) A)).
      split; [apply base_iff; split; [exact g_small|reflexivity]|].
      split; [apply on_curve_iff; rewrite pt_coords; split; [apply coords_small|exact OA]|].
      split; [apply written_iff; [apply coords_small|now rewrite pt_coords]|]. split; [reflexivity|].
      split; [apply on_curve_iff; rewrite pt_coords; split; [apply coords_small|exact OR]|].
      split; [apply written_iff; [apply coords_small|now rewrite pt_coords]|]. split; [exact L|]. split; [reflexivity|].
      split; [now rewrite order_L_eq|].
      split; [apply multiple_iff; rewrite <- gen_xy; [exact gen_on|]; split; [apply coords_small|apply pt_coords]|].
      split; [apply multiple_iff; rewrite pt_coords; [exact OA|]; split; [apply coords_small|]; rewrite pt_coords, hash_mod; reflexivity|].
      apply sum_iff; rewrite !pt_coords; [exact OR|now apply times_on|]. split; [apply coords_small|].
      rewrite <- E. now rewrite Z_N_nat || (rewrite <- Z_N_nat, N2Z.id).
    - intros (G & A & R & r & s & S & SG & hA & HG & HA & WA & -> & HR & WR & L & -> & C & MS & MA & SU).
      apply base_iff in HG. destruct HG as [SmG EG]. apply on_curve_iff in HA, HR. destruct HA as [SmA OA], HR as [SmR OR].
      apply written_iff in WA, WR; try assumption. subst public r.
      apply multiple_iff in MS; [|rewrite EG; exact gen_on]. apply multiple_iff in MA; [|exact OA].
      destruct MS as [_ ES], MA as [_ EA]. apply sum_iff in SU; [|exact OR|rewrite EA; now apply times_on].
      destruct SU as [_ SU]. exists (pt A), (pt R), s. do 5 (split; [assumption || reflexivity|]).
      split; [now rewrite <- order_L_eq|]. rewrite <- hash_mod, <- EA, <- SU, ES, EG. f_equal. lia.
  Qed.
End Red.

(** * The order of the base point *)
Lemma gen_not_O : gen <> O.
Proof.
  intros E. apply (f_equal fst) in E. cbn [fst gen Edwards.O] in E. rewrite <- k_zero_eq in E. destruct g_range as (R & _ & _ & N).
  apply k_small_inj in E; [tauto|exact R|pose proof fp_pos; lia].
Qed.
Opaque Edwards.plus Edwards.O gen Edwards.neg.
Lemma plus_cancel A B C : oncurve A -> oncurve B -> oncurve C -> plus A B = plus A C -> B = C.
Proof.
  intros HA HB HC E. apply (f_equal (plus (neg A))) in E. pose proof (neg_on _ HA).
  rewrite <- !plus_ass, (plus_com (neg A) A), plus_opp, !plus_0 in E by assumption. exact E.
Qed.
Lemma order_divides n : (0 < n)%nat -> Z.of_nat n < groupq -> times n gen <> O.
Proof.
  intros Hn Hl E. pose proof groupq_prime as P.
  assert (R : rel_prime groupq (Z.of_nat n)).
  { apply prime_rel_prime; [exact P|]. intros D. apply Z.divide_pos_le in D; lia. }
  apply rel_prime_bezout in R. destruct R as [u v R].
  set (w := v mod groupq). pose proof groupq_pos as Q. pose proof (Z.mod_pos_bound v groupq Q) as W. fold w in W.
  assert (X : exists t, w * Z.of_nat n = 1 + t * groupq).
  { exists (- u - v / groupq * Z.of_nat n). unfold w. pose proof (Z_div_mod_eq_full v groupq). nia. }
  destruct X as [t X]. assert (T : 0 <= t) by nia.
  assert (Y : times (Z.to_nat w * n) gen = O) by (rewrite times_times by exact gen_on; rewrite E; apply times_zero).
  replace (Z.to_nat w * n)%nat with (1 + Z.to_nat t * Z.to_nat groupq)%nat in Y.
  - rewrite times_plus, times_order in Y by exact gen_on. cbn [Edwards.times] in Y. rewrite (plus_com gen O), (plus_0 gen), (plus_com gen O), (plus_0 gen) in Y.
    exact (gen_not_O Y).
  - apply Nat2Z.inj. rewrite Nat2Z.inj_add, !Nat2Z.inj_mul, !Z2Nat.id by lia. lia.
Qed.
Lemma times_inj_le m n : (m <= n)%nat -> Z.of_nat n < groupq -> times m gen = times n gen -> m = n.
Proof.
  intros H L E. replace n with (m + (n - m))%nat in E by lia. rewrite times_plus in E by exact gen_on.
  rewrite <- (plus_0 (times m gen)), (plus_com O (times m gen)) in E at 1.
  apply plus_cancel in E; [|apply times_on, gen_on|apply O_on|apply times_on, gen_on].
  destruct (Nat.eq_dec m n) as [|N]; [assumption|]. exfalso. apply (order_divides (n - m)); [lia|lia|]. now symmetry.
Qed.
Lemma times_inj m n : Z.of_nat m < groupq -> Z.of_nat n < groupq -> times m gen = times n gen -> m = n.
Proof.
  intros Hm Hn E. destruct (Nat.le_ge_cases m n); [now apply times_inj_le|symmetry; apply times_inj_le; auto].
Qed.
