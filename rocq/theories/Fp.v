(** The field of integers modulo a prime. *)
From Coq Require Import ZArith Znumtheory Lia Bool Field Eqdep_dec.
From Verif Require Import Primes.
Local Open Scope Z_scope.

Section Fp.
  Variable p : Z.
  Definition F : Type := {z : Z | (z mod p =? z) = true}.
  Definition fval (a : F) : Z := proj1_sig a.
  Lemma fmod_ok z : ((z mod p) mod p =? z mod p) = true.
  Proof. apply Z.eqb_eq. apply Zmod_mod. Qed.
  Definition inF (z : Z) : F := exist _ (z mod p) (fmod_ok z).
  Lemma F_eq (a b : F) : fval a = fval b -> a = b.
  Proof.
    destruct a as [a Ha], b as [b Hb]. cbn. intros ->. f_equal. apply UIP_dec, bool_dec.
  Qed.
  Lemma fval_mod (a : F) : fval a mod p = fval a.
  Proof. destruct a as [a Ha]. apply Z.eqb_eq, Ha. Qed.
  Lemma inF_val (a : F) : inF (fval a) = a.
  Proof. apply F_eq. cbn. apply fval_mod. Qed.
  Lemma inF_iff a b : inF a = inF b <-> a mod p = b mod p.
  Proof.
    split; intros E; [exact (f_equal fval E)|]. apply F_eq. exact E.
  Qed.

  Definition f0 : F := inF 0.
  Definition f1 : F := inF 1.
  Definition fadd (a b : F) : F := inF (fval a + fval b).
  Definition fmul (a b : F) : F := inF (fval a * fval b).
  Definition fsub (a b : F) : F := inF (fval a - fval b).
  Definition fopp (a : F) : F := inF (- fval a).
  Definition fpow (a : F) (n : Z) : F := inF (fval a ^ n).
  Definition finv (a : F) : F := fpow a (p - 2).
  Definition fdiv (a b : F) : F := fmul a (finv b).

  Lemma inF_add a b : inF (a + b) = fadd (inF a) (inF b).
  Proof. apply inF_iff. cbn. apply Zplus_mod. Qed.
  Lemma inF_mul a b : inF (a * b) = fmul (inF a) (inF b).
  Proof. apply inF_iff. cbn. apply Zmult_mod. Qed.
  Lemma inF_sub a b : inF (a - b) = fsub (inF a) (inF b).
  Proof. apply inF_iff. cbn. apply Zminus_mod. Qed.
  Lemma inF_opp a : inF (- a) = fopp (inF a).
  Proof. apply inF_iff. cbn. rewrite <- !Z.sub_0_l, Zminus_mod, (Zminus_mod 0 (a mod p)), Zmod_mod. reflexivity. Qed.
  Lemma inF_mod a : inF (a mod p) = inF a.
  Proof. apply inF_iff. apply Zmod_mod. Qed.
  Lemma F_cases (P : F -> Prop) : (forall z, P (inF z)) -> forall a, P a.
  Proof. intros H a. rewrite <- inF_val. apply H. Qed.

  Lemma F_ring : ring_theory f0 f1 fadd fmul fsub fopp eq.
  Proof.
    unfold f0, f1.
    constructor; intros; repeat match goal with a : F |- _ => rewrite <- (inF_val a); generalize (fval a); clear a; intros a end;
      repeat first [rewrite <- inF_add|rewrite <- inF_mul|rewrite <- inF_opp|rewrite <- inF_sub]; apply f_equal; ring.
  Qed.

  Hypothesis Hp : prime p.
  Lemma p_gt : 1 < p.
  Proof. destruct Hp. assumption. Qed.
  Lemma fval_range a : 0 <= fval a < p.
  Proof. rewrite <- fval_mod. apply Z.mod_pos_bound. pose proof p_gt. lia. Qed.
  Lemma inF_0 z : inF z = f0 <-> (p | z).
  Proof.
    pose proof p_gt. unfold f0. rewrite inF_iff, Z.mod_0_l by lia. apply Z.mod_divide. lia.
  Qed.
  Lemma f1_neq : f1 <> f0.
  Proof.
    intros E. apply inF_0 in E. apply Z.divide_1_r in E. pose proof p_gt. lia.
  Qed.
  Lemma fpow_inF a n : 0 <= n -> fpow (inF a) n = inF (a ^ n).
  Proof.
    intros Hn. apply inF_iff. cbn. rewrite <- (Z2Nat.id n) by assumption. induction (Z.to_nat n) as [|k IH]; [reflexivity|].
    rewrite Nat2Z.inj_succ, !Z.pow_succ_r by lia. rewrite mulmod_l, <- mulmod_r, IH. apply mulmod_r.
  Qed.
  Lemma fpow_add a m n : 0 <= m -> 0 <= n -> fpow a (m + n) = fmul (fpow a m) (fpow a n).
  Proof.
    intros. unfold fpow. rewrite <- inF_mul, Z.pow_add_r by assumption. reflexivity.
  Qed.
  Lemma fpow_mul a m n : 0 <= m -> 0 <= n -> fpow a (m * n) = fpow (fpow a m) n.
  Proof.
    intros. unfold fpow at 1 3. rewrite fpow_inF by assumption. now rewrite Z.pow_mul_r by assumption.
  Qed.
  Lemma fpow_1 a : fpow a 1 = a.
  Proof. unfold fpow. rewrite Z.pow_1_r. apply inF_val. Qed.
  Lemma fpow_2 a : fpow a 2 = fmul a a.
  Proof. change 2 with (1 + 1). rewrite fpow_add, fpow_1 by lia. reflexivity. Qed.
  Lemma fpow_mul_base a b n : 0 <= n -> fpow (fmul a b) n = fmul (fpow a n) (fpow b n).
  Proof.
    intros Hn. pattern a; apply F_cases; intros x. pattern b; apply F_cases; intros y.
    rewrite <- inF_mul, !fpow_inF, <- inF_mul by assumption. now rewrite Z.pow_mul_l.
  Qed.
  Lemma fermat_F a : a <> f0 -> fpow a (p - 1) = f1.
  Proof.
    pattern a; apply F_cases; intros x Hx. pose proof p_gt. rewrite fpow_inF by lia. apply inF_iff.
    rewrite fermat; [symmetry; apply Z.mod_small; lia|assumption|]. intros D. apply Hx, inF_0, D.
  Qed.
  Lemma finv_l a : a <> f0 -> fmul (finv a) a = f1.
  Proof.
    intros Ha. pose proof p_gt. unfold finv. rewrite <- (fpow_1 a) at 2. rewrite <- fpow_add by lia.
    replace (p - 2 + 1) with (p - 1) by lia. now apply fermat_F.
  Qed.
  Lemma F_field : field_theory f0 f1 fadd fmul fsub fopp fdiv finv eq.
  Proof.
    constructor; [exact F_ring|exact f1_neq|reflexivity|exact finv_l].
  Qed.
  Lemma F_dec (a b : F) : {a = b} + {a <> b}.
  Proof.
    destruct (Z.eq_dec (fval a) (fval b)) as [E|E]; [left; now apply F_eq|right; now intros ->].
  Qed.
End Fp.
