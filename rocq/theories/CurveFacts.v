(** The curve of Ed25519: its group of points, its coordinates and the order of its base point. *)
From Coq Require Import ZArith Znumtheory Lia Bool Field.
From Verif Require Import Base Hash Primes Primes25519 Fp Edwards Ed25519.
Local Open Scope Z_scope.

Lemma fieldp_prime : prime fieldp.
Proof. exact prime_57896044618658097711785492504343953926634992332820282019728792003956564819949. Qed.
Lemma groupq_prime : prime groupq.
Proof. exact prime_7237005577332262213973186563042994240857116359379907606001950938285454250989. Qed.
Lemma fieldp_pos : 2 < fieldp.
Proof. reflexivity. Qed.

Notation K := (F fieldp).
Notation k := (inF fieldp).
Notation k0 := (f0 fieldp).
Notation k1 := (f1 fieldp).
Notation kadd := (fadd fieldp).
Notation kmul := (fmul fieldp).
Notation ksub := (fsub fieldp).
Notation kopp := (fopp fieldp).
Notation kdiv := (fdiv fieldp).
Notation kinv := (finv fieldp).
Notation kval := (fval fieldp).
Definition K_field := F_field fieldp fieldp_prime.
Add Field Kf : K_field.
Definition K_dec := F_dec fieldp.
Definition kd : K := k curved.
Definition ki : K := k sqrt_m1.

Lemma k_two : kadd k1 k1 <> k0.
Proof.
  intros E. unfold f1 in E. rewrite <- inF_add in E. apply (inF_0 _ fieldp_prime) in E.
  apply Z.divide_pos_le in E; [|lia]. pose proof fieldp_pos. lia.
Qed.
Lemma ki_sq : kmul ki ki = kopp k1.
Proof.
  unfold ki, f1. rewrite <- inF_mul, <- inF_opp. apply inF_iff. rewrite <- !red_p_spec. vm_compute. reflexivity.
Qed.
(** [d] is a square if and only if 121665 * 121666 is one. *)
Lemma kd_euler : powm red_p (121665 * 121666) (Z.to_pos ((fieldp - 1) / 2)) = fieldp - 1.
Proof. vm_compute. reflexivity. Qed.
Lemma kd_small : kmul (kopp kd) (kmul (k 121666) (k 121666)) = k (121665 * 121666).
Proof.
  unfold kd. rewrite <- inF_opp, <- !inF_mul. apply inF_iff. rewrite <- !red_p_spec. vm_compute. reflexivity.
Qed.
Lemma kd_nonsquare z : kmul z z <> kd.
Proof.
  intros E. pose proof fieldp_pos. set (w := kmul (kmul ki z) (k 121666)).
  assert (W : kmul w w = k (121665 * 121666)).
  { rewrite <- kd_small, <- E. transitivity (kmul (kmul (kmul ki ki) (kmul z z)) (kmul (k 121666) (k 121666))); [unfold w; ring|].
    rewrite ki_sq. ring. }
  assert (Z0 : w <> k0).
  { intros Z. rewrite Z in W. unfold f0 in W. rewrite <- inF_mul in W. apply inF_iff in W. rewrite <- !red_p_spec in W. vm_compute in W. discriminate W. }
  pose proof (fermat_F fieldp fieldp_prime w Z0) as Fz. clearbody w.
  replace (fieldp - 1) with (2 * ((fieldp - 1) / 2)) in Fz by reflexivity.
  rewrite fpow_mul, fpow_2, W in Fz; try apply fieldp_prime; try (vm_compute; congruence).
  rewrite fpow_inF in Fz; try apply fieldp_prime; try (vm_compute; congruence).
  apply inF_iff in Fz.
  pose proof kd_euler as X. rewrite (powm_spec fieldp) in X by exact red_p_spec.
  change (Zpos (Z.to_pos ((fieldp - 1) / 2))) with ((fieldp - 1) / 2) in X.
  rewrite X in Fz. rewrite <- red_p_spec in Fz. vm_compute in Fz. discriminate Fz.
Qed.

Notation oncurve := (oncurve K k1 kadd kmul ksub kd).
Notation plus := (plus K k1 kadd kmul ksub kdiv kd).
Notation O := (O K k0 k1).
Notation neg := (neg K kopp).
Notation times := (times K k0 k1 kadd kmul ksub kdiv kd).
Definition plus_on := plus_oncurve K k0 k1 kadd kmul ksub kopp kdiv kinv K_field K_dec kd ki k_two ki_sq kd_nonsquare.
Definition plus_ass := plus_assoc K k0 k1 kadd kmul ksub kopp kdiv kinv K_field K_dec kd ki k_two ki_sq kd_nonsquare.
Definition plus_com := plus_comm K k0 k1 kadd kmul ksub kopp kdiv kinv K_field kd.
Definition plus_0 := plus_O K k0 k1 kadd kmul ksub kopp kdiv kinv K_field kd.
Definition plus_opp := plus_neg K k0 k1 kadd kmul ksub kopp kdiv kinv K_field K_dec kd ki k_two ki_sq kd_nonsquare.
Definition O_on := O_oncurve K k0 k1 kadd kmul ksub kopp kdiv kinv K_field kd.
Definition neg_on := neg_oncurve K k0 k1 kadd kmul ksub kopp kdiv kinv K_field kd.
Definition den_p := complete_p K k0 k1 kadd kmul ksub kopp kdiv kinv K_field K_dec kd ki k_two ki_sq kd_nonsquare.
Definition den_m := complete_m K k0 k1 kadd kmul ksub kopp kdiv kinv K_field K_dec kd ki k_two ki_sq kd_nonsquare.
Definition times_on := times_oncurve K k0 k1 kadd kmul ksub kopp kdiv kinv K_field K_dec kd ki k_two ki_sq kd_nonsquare.
Definition times_plus := times_add K k0 k1 kadd kmul ksub kopp kdiv kinv K_field K_dec kd ki k_two ki_sq kd_nonsquare.
Definition times_times := times_mul K k0 k1 kadd kmul ksub kopp kdiv kinv K_field K_dec kd ki k_two ki_sq kd_nonsquare.
Definition times_zero := times_O K k0 k1 kadd kmul ksub kopp kdiv kinv K_field kd.
Definition kmul_nz := mul_nonzero K k0 k1 kadd kmul ksub kopp kdiv kinv K_field K_dec.
Definition kno_zero := no_zero_div K k0 k1 kadd kmul ksub kopp kdiv kinv K_field K_dec.
Definition ksub_zero := sub_zero K k0 k1 kadd kmul ksub kopp kdiv kinv K_field.

Lemma k_zero_eq : k 0 = k0. Proof. reflexivity. Qed.
Lemma k_one_eq : k 1 = k1. Proof. reflexivity. Qed.
Lemma k_two_eq : k 2 = kadd k1 k1. Proof. change 2 with (1 + 1). rewrite inF_add. reflexivity. Qed.
Lemma k_curved_eq : k curved = kd. Proof. reflexivity. Qed.

(** * Extended coordinates *)
Opaque fadd fmul fsub fopp fdiv finv inF f0 f1 kd ki fieldp curved.
Notation ext := (extended K k0 kmul).
Definition ext_plus := extended_plus K k0 k1 kadd kmul ksub kopp kdiv kinv K_field K_dec kd ki k_two ki_sq kd_nonsquare.
Definition ext_affine := extended_affine K k0 k1 kadd kmul ksub kopp kdiv kinv K_field.
Definition ext_equal := extended_equal K k0 k1 kadd kmul ksub kopp kdiv kinv K_field K_dec.
Definition rep (P : xpoint) (A : K * K) : Prop := let '(X, Y, Z, T) := P in ext (k X) (k Y) (k Z) (k T) A.

Section Red.
  Variable red : Z -> Z.
  Hypothesis red_spec : forall x, red x = x mod fieldp.
  Lemma k_red x : k (red x) = k x.
  Proof. rewrite red_spec. apply inF_mod. Qed.

  Lemma neutral_rep : rep neutral O.
  Proof.
    cbn [rep neutral Edwards.O extended]. rewrite k_zero_eq, k_one_eq.
    split; [apply (f1_neq _ fieldp_prime)|]. repeat split; ring.
  Qed.
  Lemma add_rep P Q A B : oncurve A -> oncurve B -> rep P A -> rep Q B -> rep (point_add red P Q) (plus A B).
  Proof.
    destruct P as [[[X1 Y1] Z1] T1], Q as [[[X2 Y2] Z2] T2]. intros HA HB HP HQ.
    cbn [point_add rep].
    repeat first [rewrite k_red|rewrite inF_add|rewrite inF_mul|rewrite inF_sub]. rewrite k_curved_eq, k_two_eq.
    exact (ext_plus _ _ _ _ _ _ _ _ _ _ HA HB HP HQ).
  Qed.
  Lemma mul_pos_rep s : forall P Q A B, oncurve A -> oncurve B -> rep P A -> rep Q B ->
    rep (point_mul_pos red s P Q) (plus B (times (Pos.to_nat s) A)).
  Proof.
    induction s as [s IH|s IH|]; intros P Q A B HA HB HP HQ; cbn [point_mul_pos].
    - replace (plus B (times (Pos.to_nat s~1) A)) with (plus (plus B A) (times (Pos.to_nat s) (plus A A))).
      + apply IH; try apply plus_on; try apply add_rep; assumption.
      + replace (Pos.to_nat s~1) with (1 + Pos.to_nat s * 2)%nat by lia. rewrite times_plus, times_times by assumption.
        cbn [Edwards.times]. rewrite (plus_com A O), plus_0.
        rewrite plus_ass by (try apply times_on; try apply plus_on; assumption). reflexivity.
    - replace (plus B (times (Pos.to_nat s~0) A)) with (plus B (times (Pos.to_nat s) (plus A A))).
      + apply IH; try apply plus_on; try apply add_rep; assumption.
      + replace (Pos.to_nat s~0) with (Pos.to_nat s * 2)%nat by lia. rewrite times_times by assumption.
        cbn [Edwards.times]. rewrite (plus_com A O), plus_0. reflexivity.
    - change (Pos.to_nat 1) with 1%nat. cbn [Edwards.times]. rewrite (plus_com A O), plus_0. now apply add_rep.
  Qed.
  Lemma mul_rep s P A : 0 <= s -> oncurve A -> rep P A -> rep (point_mul red s P) (times (Z.to_nat s) A).
  Proof.
    intros Hs HA HP. destruct s as [|s|s]; [apply neutral_rep| |lia]. cbn [point_mul Z.to_nat].
    rewrite <- (plus_0 (times _ _)). apply mul_pos_rep; try assumption; [apply O_on|apply neutral_rep].
  Qed.
  Lemma rep_affine X Y Z T A : rep (X, Y, Z, T) A -> A = (kmul (k X) (kinv (k Z)), kmul (k Y) (kinv (k Z))).
  Proof. apply ext_affine. Qed.
  Lemma equal_rep P Q A B : rep P A -> rep Q B -> (point_equal red P Q = true <-> A = B).
  Proof.
    destruct P as [[[X1 Y1] Z1] T1], Q as [[[X2 Y2] Z2] T2]. intros HP HQ.
    cbn [point_equal]. rewrite andb_true_iff, !Z.eqb_eq, !red_spec.
    assert (J : forall a b, (a - b) mod fieldp = 0 <-> ksub (k a) (k b) = k0).
    { intros a b. rewrite <- inF_sub. rewrite (inF_0 _ fieldp_prime). apply Z.mod_divide. pose proof fieldp_pos. lia. }
    rewrite !J, !inF_mul. exact (ext_equal _ _ _ _ _ _ _ _ _ _ HP HQ).
  Qed.
End Red.

(** * The generator *)
Definition gen : K * K := (k g_x, k g_y).
Lemma gen_on : oncurve gen.
Proof.
  cbn [Edwards.oncurve gen]. rewrite <- k_one_eq, <- k_curved_eq. rewrite <- !inF_mul, <- inF_sub, <- inF_add.
  apply inF_iff. rewrite <- !red_p_spec. vm_compute. reflexivity.
Qed.
Lemma gen_rep : rep generator gen.
Proof.
  cbn [rep generator gen extended]. rewrite k_one_eq. split; [apply (f1_neq _ fieldp_prime)|].
  split; [ring|]. split; [ring|]. rewrite <- inF_mul. transitivity (k (g_x * g_y)); [|ring].
  apply inF_iff. rewrite <- !red_p_spec. vm_compute. reflexivity.
Qed.
Lemma gen_order_computed : point_equal red_p (point_mul red_p groupq generator) neutral = true.
Proof. vm_compute. reflexivity. Qed.
Lemma gen_order : times (Z.to_nat groupq) gen = O.
Proof.
  refine (proj1 (equal_rep red_p red_p_spec _ _ _ _ _ (neutral_rep)) gen_order_computed).
  apply mul_rep; [exact red_p_spec|discriminate|exact gen_on|exact gen_rep].
Qed.
