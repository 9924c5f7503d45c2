(** Fermat's little theorem, and Pocklington's criterion for showing that a large number is prime. *)
From Coq Require Import ZArith Znumtheory List Permutation Lia Bool.
Import ListNotations.
Local Open Scope Z_scope.

(** * Fermat *)
Definition upto (p : Z) : list Z := map Z.of_nat (seq 1 (Z.to_nat (p - 1))).
Lemma upto_in p x : In x (upto p) <-> 1 <= x < p.
Proof.
  unfold upto. rewrite in_map_iff. split.
  - intros (n & <- & H). apply in_seq in H. lia.
  - intros H. exists (Z.to_nat x). split; [lia|]. apply in_seq. lia.
Qed.
Lemma upto_nodup p : NoDup (upto p).
Proof.
  unfold upto. apply FinFun.Injective_map_NoDup; [intros a b; lia|apply seq_NoDup].
Qed.
Lemma map_nodup {A B} (f : A -> B) l : (forall x y, In x l -> In y l -> f x = f y -> x = y) -> NoDup l -> NoDup (map f l).
Proof.
  induction l as [|a l IH]; intros H N; [constructor|]. inversion N; subst. cbn. constructor.
  - rewrite in_map_iff. intros (b & E & I). apply H in E; [subst; tauto|now right|now left].
  - apply IH; [|assumption]. intros x y Ix Iy. apply H; now right.
Qed.

Definition prod (l : list Z) : Z := fold_right Z.mul 1 l.
Lemma prod_perm l m : Permutation l m -> prod l = prod m.
Proof.
  induction 1; cbn [prod fold_right]; [reflexivity| | |congruence].
  - fold (prod l) (prod l'). now rewrite IHPermutation.
  - ring.
Qed.
Lemma mulmod_l p a b : ((a mod p) * b) mod p = (a * b) mod p.
Proof.
  destruct (Z.eq_dec p 0) as [->|H]; [rewrite !Zmod_0_r; reflexivity|]. apply Z.mul_mod_idemp_l; assumption.
Qed.
Lemma mulmod_r p a b : (a * (b mod p)) mod p = (a * b) mod p.
Proof. rewrite Z.mul_comm, mulmod_l. now rewrite Z.mul_comm. Qed.
Lemma prod_scale p a l :
  prod (map (fun i => (a * i) mod p) l) mod p = (a ^ Z.of_nat (length l) * prod l) mod p.
Proof.
  induction l as [|i l IH]; [reflexivity|]. cbn [map prod fold_right length].
  rewrite Nat2Z.inj_succ, Z.pow_succ_r by lia.
  fold (prod (map (fun i => (a * i) mod p) l)). fold (prod l).
  rewrite mulmod_l, <- mulmod_r, IH, mulmod_r. f_equal. ring.
Qed.
Lemma prod_coprime p l : prime p -> Forall (fun x => ~ (p | x)) l -> ~ (p | prod l).
Proof.
  intros Hp. induction 1 as [|x l Hx Hl IH]; cbn.
  - intros H. apply Z.divide_1_r in H. destruct Hp. lia.
  - intros H. apply prime_mult in H; tauto.
Qed.
Lemma cancel p a b c : prime p -> ~ (p | c) -> (a * c) mod p = (b * c) mod p -> a mod p = b mod p.
Proof.
  intros Hp Hc E. assert (0 < p) by (destruct Hp; lia).
  assert (D : (p | (a - b) * c)).
  { apply Z.mod_divide; [lia|]. replace ((a - b) * c) with (a * c - b * c) by ring.
    rewrite Zminus_mod, E, Z.sub_diag. apply Z.mod_0_l. lia. }
  apply prime_mult in D; [|assumption]. destruct D as [D|D]; [|tauto].
  destruct D as [k D]. replace a with (b + k * p) by lia. apply Z_mod_plus_full.
Qed.
Lemma fermat p a : prime p -> ~ (p | a) -> a ^ (p - 1) mod p = 1.
Proof.
  intros Hp Ha. assert (1 < p) by (destruct Hp; lia).
  assert (N : forall x, 1 <= x < p -> ~ (p | x)).
  { intros x Hx D. apply Z.divide_pos_le in D; lia. }
  assert (P : Permutation (map (fun i => (a * i) mod p) (upto p)) (upto p)).
  { apply NoDup_Permutation_bis.
    - apply map_nodup; [|apply upto_nodup]. intros x y Hx Hy E. apply upto_in in Hx, Hy.
      rewrite (Z.mul_comm a x), (Z.mul_comm a y) in E. apply cancel in E; [|assumption|assumption].
      now rewrite !Z.mod_small in E by lia.
    - rewrite map_length. lia.
    - intros x Hx. apply in_map_iff in Hx as (i & <- & Hi). apply upto_in in Hi. apply upto_in.
      pose proof (Z.mod_pos_bound (a * i) p ltac:(lia)).
      assert ((a * i) mod p <> 0); [|lia]. intros E. apply Z.mod_divide in E; [|lia].
      apply prime_mult in E; [|assumption]. destruct E as [E|E]; [tauto|]. now apply N in E. }
  apply prod_perm in P. apply (f_equal (fun z => z mod p)) in P. rewrite prod_scale in P.
  rewrite <- (Z.mul_1_l (prod (upto p))) in P at 2.
  apply cancel in P; [|assumption|].
  - unfold upto in P. rewrite map_length, seq_length, Z2Nat.id in P by lia.
    now rewrite (Z.mod_small 1) in P by lia.
  - apply prod_coprime; [assumption|]. apply Forall_forall. intros x Hx. apply N, upto_in, Hx.
Qed.

(** * Modular exponentiation *)
(** [x mod m] with an estimate of the quotient from the [k] bits of [m] and [u], about 2^(2k+33)/m. A wrong estimate only
    costs time. *)
Definition fmod (k u m x : Z) : Z :=
  let r := x - Z.shiftr (Z.shiftr x (k - 33) * u) (k + 66) * m in
  if (0 <=? r) && (r <? m) then r else x mod m.
Lemma fmod_spec k u m x : fmod k u m x = x mod m.
Proof.
  unfold fmod. set (q := Z.shiftr _ _). destruct (0 <=? x - q * m) eqn:A; [|reflexivity].
  destruct (x - q * m <? m) eqn:C; [|reflexivity]. apply Z.leb_le in A. apply Z.ltb_lt in C. cbn [andb].
  apply (Z.mod_unique x m q); lia.
Qed.
Definition reciprocal (m : Z) : Z * Z := let k := Z.log2 m + 1 in (k, 2 ^ (2 * k + 33) / m).
Fixpoint psqr (a : positive) : positive :=
  match a with
  | xH => xH
  | xO b => xO (xO (psqr b))
  | xI b => xI (xO (psqr b + b))
  end.
Definition zsqr (a : Z) : Z := match a with Z0 => Z0 | Zpos b => Zpos (psqr b) | Zneg b => Zpos (psqr b) end.
Lemma psqr_spec a : psqr a = (a * a)%positive.
Proof. induction a as [a IH|a IH|]; cbn [psqr]; lia. Qed.
Lemma zsqr_spec a : zsqr a = a * a.
Proof. destruct a; cbn [zsqr]; rewrite ?psqr_spec; reflexivity. Qed.
Fixpoint powm (red : Z -> Z) (a : Z) (e : positive) : Z :=
  match e with
  | xH => red a
  | xO e' => red (zsqr (powm red a e'))
  | xI e' => red (a * zsqr (powm red a e'))
  end.
Lemma powm_spec m red a e : (forall x, red x = x mod m) -> powm red a e = a ^ Zpos e mod m.
Proof.
  intros R. induction e as [e IH|e IH|]; cbn [powm]; rewrite ?zsqr_spec, ?R.
  - rewrite IH, Pos2Z.inj_xI, Z.pow_add_r, Z.pow_1_r by lia.
    set (x := a ^ Zpos e). rewrite Z.mul_comm, <- Z.mul_assoc, mulmod_l, (Z.mul_comm x), <- Z.mul_assoc, mulmod_l.
    replace (a ^ (2 * Zpos e)) with (x * x); [f_equal; ring|].
    unfold x. rewrite <- Z.pow_add_r by lia. f_equal. lia.
  - rewrite IH, Pos2Z.inj_xO, mulmod_l, mulmod_r. rewrite <- Z.pow_add_r by lia. f_equal. f_equal. lia.
  - now rewrite Z.pow_1_r.
Qed.

(** * Prime divisors *)
Lemma has_prime_divisor n : 1 < n -> exists l, prime l /\ (l | n) /\ (prime n \/ l * l <= n).
Proof.
  intros H. assert (P : 0 <= n) by lia. revert H. pattern n. apply Z_lt_induction; [|exact P]. clear n P.
  intros n IH H. destruct (prime_dec n) as [Hp|Hp].
  - exists n. split; [assumption|]. split; [apply Z.divide_refl|tauto].
  - destruct (not_prime_divide n H Hp) as (u & Hu & [v Hv]).
    assert (S : exists s t, 1 < s /\ s <= t /\ n = s * t).
    { destruct (Z_le_gt_dec u v); [exists u, v|exists v, u]; nia. }
    destruct S as (s & t & Hs & Hst & ->).
    destruct (IH s) as (l & Hl & D & _); [nia|lia|].
    exists l. split; [assumption|]. split; [now apply Z.divide_mul_l|]. right.
    assert (l <= s) by (apply Z.divide_pos_le; [lia|assumption]). destruct Hl. nia.
Qed.

Fixpoint trial (fuel : nat) (k n : Z) : bool :=
  match fuel with
  | O => false
  | S f => (n <? k * k) || (negb (n mod k =? 0) && trial f (k + 1) n)
  end.
Lemma trial_spec fuel : forall k n, 0 < k -> trial fuel k n = true ->
  forall l, k <= l -> l * l <= n -> ~ (l | n).
Proof.
  induction fuel as [|f IH]; intros k n Hk T l Hl Hs D; [discriminate|]. cbn [trial] in T.
  apply orb_prop in T as [T|T].
  - apply Z.ltb_lt in T. nia.
  - apply andb_prop in T as [T1 T2]. apply negb_true_iff, Z.eqb_neq in T1.
    destruct (Z.eq_dec l k) as [->|].
    + apply T1. apply Z.mod_divide; [lia|assumption].
    + eapply (IH (k + 1)); [lia|exact T2| |exact Hs|exact D]. lia.
Qed.
Lemma small_prime fuel n : 1 < n -> trial fuel 2 n = true -> prime n.
Proof.
  intros H T. destruct (has_prime_divisor n H) as (l & Hl & D & [P|P]); [assumption|].
  exfalso. destruct Hl. eapply (trial_spec fuel 2 n); [lia|exact T| |exact P|exact D]. lia.
Qed.

(** * Pocklington *)
Lemma pow_mod_one m b n : 1 < m -> 0 <= n -> b mod m = 1 -> b ^ n mod m = 1.
Proof.
  intros Hm Hn Hb. rewrite <- (Z2Nat.id n) by assumption. induction (Z.to_nat n) as [|k IH].
  - cbn. apply Z.mod_small. lia.
  - rewrite Nat2Z.inj_succ, Z.pow_succ_r by lia. rewrite Zmult_mod, Hb, IH. apply Z.mod_small. lia.
Qed.
Lemma divisor_mod l n a b : 0 < l -> (l | n) -> a mod n = b mod n -> a mod l = b mod l.
Proof.
  intros Hl [k ->] E. destruct (Z.eq_dec k 0) as [->|].
  - rewrite Z.mul_0_l, !Zmod_0_r in E. now subst.
  - rewrite (Z_div_mod_eq_full a (k * l)), (Z_div_mod_eq_full b (k * l)), E.
    rewrite <- !(Zplus_comm ((b) mod (k * l))).
    replace (k * l * (a / (k * l))) with ((k * (a / (k * l))) * l) by ring.
    replace (k * l * (b / (k * l))) with ((k * (b / (k * l))) * l) by ring.
    now rewrite !Z_mod_plus_full.
Qed.
(** [red] is a way of reducing modulo [n]; the base [a] should be small. *)
Definition witness (red : Z -> Z) (n q a w : Z) : bool :=
  match n - 1, (n - 1) / q with
  | Zpos e, Zpos f => (Zpos f * q =? n - 1) && (powm red a e =? 1) && (red ((powm red a f - 1) * w) =? 1)
  | _, _ => false
  end.
Lemma witness_divides red n q a w l :
  (forall x, red x = x mod n) -> prime q -> witness red n q a w = true -> prime l -> (l | n) -> (q | l - 1).
Proof.
  intros Hr Hq W Hl D. unfold witness in W.
  destruct (n - 1) as [|e|] eqn:En; try discriminate. destruct (Zpos e / q) as [|f|] eqn:Ef; try discriminate.
  apply andb_prop in W as [W W3]. apply andb_prop in W as [W1 W2].
  apply Z.eqb_eq in W1, W2, W3. rewrite Hr in W3. rewrite !(powm_spec n red) in * by exact Hr.
  assert (1 < l) by (destruct Hl; lia). assert (1 < q) by (destruct Hq; lia). assert (1 < n) by lia.
  set (b := a ^ Zpos f) in *.
  assert (Bq : b ^ q mod l = 1).
  { rewrite <- (Z.mod_small 1 l) at 1 by lia. apply (divisor_mod l n); [lia|assumption|].
    unfold b. rewrite <- Z.pow_mul_r by lia. rewrite W1, W2. symmetry. apply Z.mod_small. lia. }
  assert (B1 : b mod l <> 1).
  { intros E.
    assert (X : ((b mod n - 1) * w) mod l = 1 mod l).
    { apply (divisor_mod l n); [lia|assumption|]. rewrite W3. symmetry. apply Z.mod_small. lia. }
    assert (Y : (b mod n) mod l = 1).
    { rewrite <- E. apply (divisor_mod l n); [lia|assumption|]. apply Z.mod_mod. lia. }
    assert (O : (b mod n - 1) mod l = 0).
    { rewrite Zminus_mod, Y, (Z.mod_small 1 l) by lia. apply Z.mod_0_l. lia. }
    rewrite <- mulmod_l, O, Z.mul_0_l, Z.mod_0_l, Z.mod_small in X by lia. lia. }
  destruct (Z.eq_dec ((l - 1) mod q) 0) as [E|E]; [apply Z.mod_divide; [lia|assumption]|]. exfalso.
  assert (R : rel_prime q (l - 1)).
  { apply prime_rel_prime; [assumption|]. intros X. apply E. apply Z.mod_divide; [lia|assumption]. }
  assert (Nb : ~ (l | b)).
  { intros [k X]. apply (f_equal (fun z => z ^ q mod l)) in X. rewrite Bq in X.
    replace q with (Z.succ (q - 1)) in X by lia. rewrite Z.pow_succ_r in X by lia.
    rewrite (Z.mul_comm k l), <- Z.mul_assoc, Z.mul_comm, Z_mod_mult in X. lia. }
  pose proof (fermat l b Hl Nb) as Fb.
  apply rel_prime_bezout in R. destruct R as [u v R].
  (* b = b^1 with u q + v (l-1) = 1; make the exponents nonnegative *)
  set (s := u mod (l - 1)).
  assert (S : 0 <= s < l - 1 \/ l - 1 = 0) by (unfold s; pose proof (Z.mod_pos_bound u (l - 1)); lia).
  destruct S as [S|S]; [|lia].
  assert (S1 : exists t, s * q = 1 + t * (l - 1)).
  { unfold s. exists (- v - (u / (l - 1)) * q). pose proof (Z_div_mod_eq_full u (l - 1)). nia. }
  destruct S1 as [t Ht].
  assert (0 <= t \/ s = 0) by nia.
  destruct H2 as [Ht0|Hs0].
  - apply B1.
    assert (E1 : b ^ (s * q) mod l = 1) by (rewrite Z.mul_comm, Z.pow_mul_r by lia; apply pow_mod_one; [lia|lia|exact Bq]).
    rewrite Ht in E1. rewrite Z.pow_add_r, Z.pow_1_r in E1 by nia.
    rewrite <- mulmod_r in E1. rewrite (Z.mul_comm t), Z.pow_mul_r in E1 by lia.
    rewrite (pow_mod_one l (b ^ (l - 1)) t), Z.mul_1_r in E1; [exact E1|lia|lia|exact Fb].
  - rewrite Hs0 in Ht. clear -Ht Fb B1 H. assert (T : t <= -1) by nia.
    assert (L2 : l = 2) by nia. subst l. apply B1. rewrite <- Fb. change (2 - 1) with 1. now rewrite Z.pow_1_r.
Qed.
Theorem pocklington red n q a w r c v :
  (forall x, red x = x mod n) ->
  prime q -> prime r -> q <> r -> n < (q * r + 1) * (q * r + 1) ->
  witness red n q a w = true -> witness red n r c v = true -> prime n.
Proof.
  intros Hred Hq Hr Hqr Hn Wq Wr.
  assert (N : 1 < n).
  { unfold witness in Wq. destruct (n - 1) eqn:E; try discriminate. lia. }
  destruct (has_prime_divisor n N) as (l & Hl & D & [P|P]); [assumption|]. exfalso.
  pose proof (witness_divides _ _ _ _ _ _ Hred Hq Wq Hl D) as [k K].
  pose proof (witness_divides _ _ _ _ _ _ Hred Hr Wr Hl D) as R.
  rewrite K in R. apply prime_mult in R; [|assumption]. destruct R as [[j R]|R].
  - destruct Hl as [L _], Hq as [Q _], Hr as [R' _]. subst k.
    rewrite <- Z.mul_assoc, (Z.mul_comm r q) in K. clear -L Q R' Hn P K. assert (X : 1 < q * r) by nia. set (m := q * r) in *.
    assert (0 < j) by nia. assert (m + 1 <= l) by nia. nia.
  - apply prime_div_prime in R; [congruence|assumption|assumption].
Qed.
Theorem pocklington_one red n q a w :
  (forall x, red x = x mod n) ->
  prime q -> n < (q + 1) * (q + 1) -> witness red n q a w = true -> prime n.
Proof.
  intros Hred Hq Hn Wq.
  assert (N : 1 < n).
  { unfold witness in Wq. destruct (n - 1) eqn:E; try discriminate. lia. }
  destruct (has_prime_divisor n N) as (l & Hl & D & [P|P]); [assumption|]. exfalso.
  pose proof (witness_divides _ _ _ _ _ _ Hred Hq Wq Hl D) as [k K].
  destruct Hl as [L _], Hq as [Q _]. clear -L Q Hn P K. assert (0 < k) by nia. assert (q + 1 <= l) by nia. nia.
Qed.
