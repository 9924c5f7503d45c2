(** [Hash]'s SHA-2 is that of [ShaSpec]. *)
From Coq Require Import ZArith Znumtheory Lia Bool ZifyBool ZifyNat ZifyN.
From Verif Require Import Base BaseFacts Codec CodecFacts Hash HashFacts DigestFacts Ed25519 ShaSpec.
Local Open Scope N_scope.

(** * Bits *)
Section Bits.
  Variable w : N.
  Lemma high x i : x < 2 ^ w -> w <= i -> N.testbit x i = false.
  Proof. intros H L. rewrite <- (N.mod_small x (2 ^ w)) by exact H. now apply N.mod_pow2_bits_high. Qed.
  Lemma small_bits x : (forall i, w <= i -> N.testbit x i = false) -> x < 2 ^ w.
  Proof.
    intros H. assert (E : x mod 2 ^ w = x).
    { apply N.bits_inj. intros i. destruct (N.lt_ge_cases i w) as [L|G]; [now apply N.mod_pow2_bits_low|]. rewrite N.mod_pow2_bits_high by exact G. symmetry. now apply H. }
    rewrite <- E. apply N.mod_lt. apply N.pow_nonzero. discriminate.
  Qed.
  Lemma eq_bits x y : x < 2 ^ w -> y < 2 ^ w -> (forall i, i < w -> N.testbit x i = N.testbit y i) -> x = y.
  Proof.
    intros X Y H. apply N.bits_inj. intros i. destruct (N.lt_ge_cases i w) as [L|G]; [now apply H|]. rewrite !high by assumption. reflexivity.
  Qed.
  Lemma wmask_mod x : wmask w x = x mod 2 ^ w.
  Proof. apply N.land_ones. Qed.
  Lemma wadd_mod a b : wadd w a b = (a + b) mod 2 ^ w.
  Proof. apply wmask_mod. Qed.
  Lemma rotr_bit r x i : x < 2 ^ w -> r < w -> N.testbit (rotr w r x) i = (i <? w) && N.testbit x ((i + r) mod w).
  Proof.
    intros X R. unfold rotr. rewrite N.lor_spec, N.shiftr_spec'. destruct (N.ltb_spec i w) as [L|G]; cbn [andb].
    - rewrite wmask_mod, N.mod_pow2_bits_low by exact L. destruct (N.lt_ge_cases (i + r) w) as [I|I].
      + rewrite N.shiftl_spec_low by lia. rewrite N.mod_small by exact I. apply orb_false_r.
      + rewrite (high x (i + r)) by assumption. rewrite N.shiftl_spec_high' by lia. cbn [orb]. f_equal.
        rewrite <- (N.mod_unique (i + r) w 1 (i + r - w)); lia.
    - rewrite (high x (i + r)) by lia. rewrite wmask_mod, N.mod_pow2_bits_high by exact G. reflexivity.
  Qed.
End Bits.

(** * Numbers and bytes *)
Lemma fold_number b : forall n, fold_left (fun n b => n * 256 + Byte.to_N b) b n = n * 256 ^ N.of_nat (length b) + number b.
Proof.
  induction b as [|x b IH]; intros n; [cbn; lia|]. cbn [fold_left number length]. rewrite IH, Nat2N.inj_succ, N.pow_succ_r'. lia.
Qed.
Lemma be_word_number b : be_word b = number b.
Proof. unfold be_word. rewrite fold_number. lia. Qed.
Lemma number_bound b : number b < 256 ^ N.of_nat (length b).
Proof.
  induction b as [|x b IH]; [reflexivity|]. cbn [number length]. rewrite Nat2N.inj_succ, N.pow_succ_r'. pose proof (Byte.to_N_bounded x). nia.
Qed.
Lemma number_app a b : number (a ++ b) = number a * 256 ^ N.of_nat (length b) + number b.
Proof.
  induction a as [|x a IH]; [reflexivity|]. cbn [app number]. rewrite IH, app_length, Nat2N.inj_add, N.pow_add_r. lia.
Qed.
Lemma number_inj a : forall b, length a = length b -> number a = number b -> a = b.
Proof.
  induction a as [|x a IH]; intros [|y b] L E; try discriminate; [reflexivity|]. injection L as L. cbn [number] in E. rewrite <- L in E.
  pose proof (number_bound a) as A. pose proof (number_bound b) as B. rewrite <- L in B. set (M := 256 ^ N.of_nat (length a)) in *. clearbody M.
  assert (Q : Byte.to_N x = Byte.to_N y /\ number a = number b) by (apply (N.div_mod_unique M); [assumption..|lia]). destruct Q as [Q1 Q2]. apply to_N_inj in Q1. subst y. f_equal. now apply IH.
Qed.
Lemma number_bytes k : forall x, number (be_bytes k x) = x mod 256 ^ N.of_nat k.
Proof.
  induction k as [|k IH]; intros x; [cbn [be_bytes number]; rewrite N.mod_1_r; reflexivity|]. cbn [be_bytes]. rewrite number_app, IH. cbn [number length].
  rewrite to_N_byte_of_N by (apply N.mod_lt; discriminate). change (256 ^ N.of_nat 1) with 256. change (256 ^ N.of_nat 0) with 1.
  rewrite Nat2N.inj_succ, N.pow_succ_r'. rewrite N.mod_mul_r by (try discriminate; apply N.pow_nonzero; discriminate). lia.
Qed.
Lemma be_bytes_number k b x : length b = k -> x < 256 ^ N.of_nat k -> (number b = x <-> b = be_bytes k x).
Proof.
  intros L X. split; [|intros ->; rewrite number_bytes; now apply N.mod_small]. intros E. apply number_inj; [now rewrite be_bytes_length|].
  rewrite number_bytes, N.mod_small by exact X. exact E.
Qed.

Lemma fill_count M n k : (0 < M)%nat -> (k < M)%nat -> Nat.divide M (n + k) -> k = ((M - n mod M) mod M)%nat.
Proof.
  intros P H [q E]. pose proof (Nat.div_mod n M ltac:(lia)) as D. pose proof (Nat.mod_upper_bound n M ltac:(lia)).
  set (m := (n mod M)%nat) in *. set (d := (n / M)%nat) in *. clearbody m d. destruct m as [|m].
  - rewrite Nat.sub_0_r, Nat.mod_same by lia. assert (q = d) as -> by (destruct (Nat.lt_trichotomy q d) as [C|[C|C]]; [nia|exact C|nia]). lia.
  - rewrite Nat.mod_small by lia. assert (q = S d) as -> by (destruct (Nat.lt_trichotomy q (S d)) as [C|[C|C]]; [nia|exact C|nia]). lia.
Qed.
Lemma fill_divides M n : (0 < M)%nat -> Nat.divide M (n + (M - n mod M) mod M).
Proof.
  intros P. pose proof (Nat.div_mod n M ltac:(lia)) as D. pose proof (Nat.mod_upper_bound n M ltac:(lia)).
  set (m := (n mod M)%nat) in *. set (d := (n / M)%nat) in *. clearbody m d. destruct m as [|m].
  - rewrite Nat.sub_0_r, Nat.mod_same by lia. exists d. lia.
  - rewrite Nat.mod_small by lia. exists (S d). nia.
Qed.
(** * Blocks and words *)
Lemma skipn_skipn {A} a : forall b (l : list A), skipn a (skipn b l) = skipn (a + b) l.
Proof.
  intros b. induction b as [|b IH]; intros l; [now rewrite Nat.add_0_r|]. destruct l as [|x l]; [now rewrite !skipn_nil|]. rewrite Nat.add_succ_r. exact (IH l).
Qed.
Lemma concat_unique k : forall (a b : list bytes), (0 < k)%nat -> Forall (fun x => length x = k) a -> Forall (fun x => length x = k) b -> concat a = concat b -> a = b.
Proof.
  induction a as [|x a IH]; intros [|y b] P A B E; [reflexivity| | |].
  - inversion_clear B. cbn in E. apply (f_equal (@length byte)) in E. rewrite app_length in E. cbn [length] in E. lia.
  - inversion_clear A. cbn in E. apply (f_equal (@length byte)) in E. rewrite app_length in E. cbn [length] in E. lia.
  - inversion_clear A. inversion_clear B. cbn [concat] in E. apply app_eq_length in E as [-> E]; [|congruence]. f_equal. now apply IH.
Qed.
Lemma blocks_iff M (b : bytes) (blocks : list bytes) : (0 < M)%nat -> Nat.divide M (length b) ->
  (concat blocks = b /\ Forall (fun x => length x = M) blocks <-> blocks = chunks M b).
Proof.
  intros P [q E]. assert (C : Forall (fun x : bytes => length x = M) (chunks M b)) by (eapply (@chunks_lengths byte M q); [exact P|lia]). split.
  - intros [X Y]. apply (concat_unique M); try assumption. rewrite chunks_concat by exact P. exact X.
  - intros ->. split; [now apply chunks_concat|exact C].
Qed.
Lemma chunks_fuel_nth k : (0 < k)%nat -> forall f (l : bytes) t, (length l <= f)%nat -> nth t (chunks_fuel f k l) [] = firstn k (skipn (t * k) l).
Proof.
  intros P. induction f as [|f IH]; intros l t L.
  - destruct l; [|cbn in L; lia]. rewrite skipn_nil, firstn_nil. now destruct t.
  - destruct l as [|x l]; [rewrite skipn_nil, firstn_nil; now destruct t|]. set (b := x :: l) in *. change (chunks_fuel (S f) k b) with (firstn k b :: chunks_fuel f k (skipn k b)).
    assert (0 < length b)%nat by (cbn; lia). clearbody b. destruct t as [|t]; [reflexivity|]. cbn [nth]. rewrite IH by (rewrite skipn_length; lia).
    rewrite skipn_skipn. f_equal. f_equal. lia.
Qed.
Lemma chunks_fuel_count k : (0 < k)%nat -> forall f n (l : bytes), length l = (n * k)%nat -> (length l <= f)%nat -> length (chunks_fuel f k l) = n.
Proof.
  intros P. induction f as [|f IH]; intros n l E L.
  - destruct l; [|cbn in L; lia]. cbn in E. destruct n; [reflexivity|nia].
  - destruct l as [|x l]; [cbn in E; destruct n; [reflexivity|nia]|]. set (b := x :: l) in *. change (chunks_fuel (S f) k b) with (firstn k b :: chunks_fuel f k (skipn k b)).
    assert (0 < length b)%nat by (cbn; lia). clearbody b. destruct n as [|n]; [cbn in E; lia|]. cbn [length]. f_equal. apply IH; rewrite skipn_length; nia.
Qed.

Lemma chunks_fuel_enough k : (0 < k)%nat -> forall f f' (l : bytes), (length l <= f)%nat -> (length l <= f')%nat -> chunks_fuel f k l = chunks_fuel f' k l.
Proof.
  intros P. induction f as [|f IH]; intros f' l L L'.
  - destruct l; [|cbn in L; lia]. now destruct f'.
  - destruct l as [|x l]; [now destruct f'|]. destruct f' as [|f']; [cbn in L'; lia|]. set (b := x :: l) in *. assert (0 < length b)%nat by (cbn; lia).
    change (firstn k b :: chunks_fuel f k (skipn k b) = firstn k b :: chunks_fuel f' k (skipn k b)). f_equal. apply IH; rewrite skipn_length; lia.
Qed.
Lemma chunks_next k (x y : bytes) : (0 < k)%nat -> length x = k -> chunks k (x ++ y) = x :: chunks k y.
Proof.
  intros P L. assert (E1 : firstn k (x ++ y) = x) by (rewrite firstn_app, L, Nat.sub_diag, firstn_O, app_nil_r; apply firstn_all2; lia).
  assert (E2 : skipn k (x ++ y) = y) by (rewrite skipn_app, L, Nat.sub_diag, skipn_O, skipn_all2 by lia; reflexivity).
  assert (LE : length (x ++ y) = (k + length y)%nat) by (rewrite app_length; lia).
  unfold chunks. destruct (length (x ++ y)) as [|f] eqn:F; [lia|]. destruct (x ++ y) as [|z t] eqn:Q; [discriminate|].
  change (chunks_fuel (S f) k (z :: t)) with (firstn k (z :: t) :: chunks_fuel f k (skipn k (z :: t))). rewrite E1, E2. f_equal. apply chunks_fuel_enough; lia.
Qed.
Lemma chunks_app k (a b : bytes) q : (0 < k)%nat -> length a = (q * k)%nat -> chunks k (a ++ b) = chunks k a ++ chunks k b.
Proof.
  intros P. revert a. induction q as [|q IH]; intros a L.
  - destruct a; [reflexivity|discriminate].
  - rewrite <- (firstn_skipn k a), <- app_assoc. assert (L1 : length (firstn k a) = k) by (rewrite firstn_length; lia).
    rewrite (chunks_next k (firstn k a) (skipn k a ++ b)), (chunks_next k (firstn k a) (skipn k a)) by assumption. rewrite IH by (rewrite skipn_length; lia). reflexivity.
Qed.

Section Variant.
  Variables (v : variant) (K : list N) (wb : nat).
  Notation w := (v_bits v).
  Notation modulus := (2 ^ v_bits v).
  Let p : sha_params := {| sw := v_bits v; s_rounds := v_rounds v; s_k := K; S0 := v_S0 v; S1 := v_S1 v; s0 := v_s0 v; s1 := v_s1 v |}.
  Hypothesis WB : w = 8 * N.of_nat wb.
  Hypothesis WP : (0 < wb)%nat.
  Definition turns (r : N * N * N) : Prop := let '(a, b, c) := r in a < w /\ b < w /\ c < w.
  Hypothesis RS0 : turns (v_S0 v).
  Hypothesis RS1 : turns (v_S1 v).
  Hypothesis Rs0 : turns (v_s0 v).
  Hypothesis Rs1 : turns (v_s1 v).
  Hypothesis RN : (16 <= v_rounds v)%nat.
  Hypothesis LK : length K = v_rounds v.

  Lemma wb_eq : N.to_nat (w / 8) = wb.
  Proof. rewrite WB, N.mul_comm, N.div_mul by discriminate. apply Nat2N.id. Qed.
  Lemma wbytes : word_bytes v = wb.
  Proof. exact wb_eq. Qed.
  Lemma mod_256 : modulus = 256 ^ N.of_nat wb.
  Proof. rewrite WB, N.pow_mul_r. reflexivity. Qed.
  Lemma mod_nz : modulus <> 0.
  Proof. apply N.pow_nonzero. discriminate. Qed.
  Lemma mod_lt x : x mod modulus < modulus.
  Proof. apply N.mod_lt, mod_nz. Qed.

  (** * Functions on words *)
  Lemma rotations_iff r x y : turns r -> x < modulus -> (rotations v r x y <-> y = big p r x).
  Proof.
    destruct r as [[a b] c]. intros (A & B & C) X. unfold rotations, bit. cbn [big sw p]. unfold big, xor3, p. cbn [sw].
    assert (T : forall i, N.testbit (N.lxor (rotr w a x) (N.lxor (rotr w b x) (rotr w c x))) i =
      (i <? w) && xorb (N.testbit x ((i + a) mod w)) (xorb (N.testbit x ((i + b) mod w)) (N.testbit x ((i + c) mod w)))).
    { intros i. rewrite !N.lxor_spec, !rotr_bit by assumption. now destruct (i <? w). }
    assert (S : N.lxor (rotr w a x) (N.lxor (rotr w b x) (rotr w c x)) < modulus).
    { apply small_bits. intros i L. rewrite T, (proj2 (N.ltb_ge i w)) by exact L. reflexivity. }
    split.
    - intros [Y H]. apply (eq_bits w); [exact Y|exact S|]. intros i L. rewrite T, H, (proj2 (N.ltb_lt i w)) by exact L. reflexivity.
    - intros ->. split; [exact S|]. intros i L. rewrite T, (proj2 (N.ltb_lt i w)) by exact L. reflexivity.
  Qed.
  Lemma rotations_shift_iff r x y : turns r -> x < modulus -> (rotations_shift v r x y <-> y = Hash.small p r x).
  Proof.
    destruct r as [[a b] c]. intros (A & B & C) X. unfold rotations_shift, bit. unfold Hash.small, xor3, p. cbn [sw].
    assert (T : forall i, N.testbit (N.lxor (rotr w a x) (N.lxor (rotr w b x) (N.shiftr x c))) i =
      (i <? w) && xorb (N.testbit x ((i + a) mod w)) (xorb (N.testbit x ((i + b) mod w)) (N.testbit x (i + c)))).
    { intros i. rewrite !N.lxor_spec, !rotr_bit, N.shiftr_spec' by assumption. destruct (N.ltb_spec i w) as [L|G]; [reflexivity|].
      cbn [andb]. rewrite (high w x (i + c)) by lia. reflexivity. }
    assert (S : N.lxor (rotr w a x) (N.lxor (rotr w b x) (N.shiftr x c)) < modulus).
    { apply small_bits. intros i L. rewrite T, (proj2 (N.ltb_ge i w)) by exact L. reflexivity. }
    split.
    - intros [Y H]. apply (eq_bits w); [exact Y|exact S|]. intros i L. rewrite T, H, (proj2 (N.ltb_lt i w)) by exact L. reflexivity.
    - intros ->. split; [exact S|]. intros i L. rewrite T, (proj2 (N.ltb_lt i w)) by exact L. reflexivity.
  Qed.
  Definition ch_of (e f g : N) : N := N.lxor (N.land e f) (N.land (wmask w (N.lxor e (N.ones w))) g).
  Definition maj_of (a b c : N) : N := xor3 (N.land a b) (N.land a c) (N.land b c).
  Lemma choice_iff e f g r : e < modulus -> f < modulus -> g < modulus -> (choice v e f g r <-> r = ch_of e f g).
  Proof.
    intros E F G. unfold choice, bit.
    assert (T : forall i, i < w -> N.testbit (ch_of e f g) i = if N.testbit e i then N.testbit f i else N.testbit g i).
    { intros i L. unfold ch_of. rewrite N.lxor_spec, !N.land_spec, wmask_mod, N.mod_pow2_bits_low, N.lxor_spec, N.ones_spec_low by exact L.
      now destruct (N.testbit e i), (N.testbit f i), (N.testbit g i). }
    assert (S : ch_of e f g < modulus).
    { apply small_bits. intros i L. unfold ch_of. rewrite N.lxor_spec, !N.land_spec, (high w f), (high w g) by assumption. now rewrite !andb_false_r. }
    split.
    - intros [Y H]. apply (eq_bits w); [exact Y|exact S|]. intros i L. rewrite T, H by exact L. reflexivity.
    - intros ->. split; [exact S|exact T].
  Qed.
  Lemma majority_iff a b c r : a < modulus -> b < modulus -> c < modulus -> (majority v a b c r <-> r = maj_of a b c).
  Proof.
    intros A B C. unfold majority, bit.
    assert (T : forall i, N.testbit (maj_of a b c) i = true <->
      (N.testbit a i = true /\ N.testbit b i = true) \/ (N.testbit a i = true /\ N.testbit c i = true) \/ (N.testbit b i = true /\ N.testbit c i = true)).
    { intros i. unfold maj_of, xor3. rewrite !N.lxor_spec, !N.land_spec. destruct (N.testbit a i), (N.testbit b i), (N.testbit c i); cbn; intuition congruence. }
    assert (S : maj_of a b c < modulus).
    { apply small_bits. intros i L. unfold maj_of, xor3. rewrite !N.lxor_spec, !N.land_spec, (high w a), (high w b), (high w c) by assumption. reflexivity. }
    split.
    - intros [Y H]. apply (eq_bits w); [exact Y|exact S|]. intros i L. apply eq_true_iff_eq. rewrite T. now apply H.
    - intros ->. split; [exact S|]. intros i _. apply T.
  Qed.

  (** * Padding *)
  Lemma mod_256_2 : modulus ^ 2 = 256 ^ N.of_nat (2 * wb).
  Proof. rewrite mod_256, <- N.pow_mul_r. f_equal. lia. Qed.
  Lemma filled_iff m b : filled v m b <-> b = sha_pad p m.
  Proof.
    unfold filled, sha_pad. cbn [sw p]. unfold p. cbn [sw]. rewrite wbytes, wb_eq. cbv zeta.
    assert (MP : (0 < 16 * wb)%nat) by lia. set (M := (16 * wb)%nat) in *. clearbody M. set (n := (length m + 1 + 2 * wb)%nat). split.
    - intros (k & len & -> & Hk & L & E & Dv). cbn [app]. f_equal. f_equal.
      assert (Q : length (m ++ x80 :: repeat x00 k ++ len) = (n + k)%nat) by (rewrite app_length; cbn [length]; rewrite app_length, repeat_length; unfold n; lia).
      rewrite Q in Dv. apply fill_count in Dv; [|assumption..]. rewrite <- Dv. f_equal.
      apply number_inj; [now rewrite be_bytes_length|]. rewrite E, number_bytes, mod_256_2. reflexivity.
    - intros ->. exists ((M - n mod M) mod M)%nat, (be_bytes (2 * wb) (8 * N.of_nat (length m))). split; [reflexivity|].
      split; [apply Nat.mod_upper_bound; lia|]. split; [apply be_bytes_length|]. split; [rewrite number_bytes, mod_256_2; reflexivity|].
      cbn [app]. replace (length _) with (n + (M - n mod M) mod M)%nat; [now apply fill_divides|].
      rewrite app_length. cbn [length]. rewrite app_length, repeat_length, be_bytes_length. unfold n. lia.
  Qed.

  (** * The schedule *)
  Definition next (W : list N) (t : nat) : N :=
    (Hash.small p (v_s1 v) (nth (t - 2) W 0) + nth (t - 7) W 0 + Hash.small p (v_s0 v) (nth (t - 15) W 0) + nth (t - 16) W 0) mod modulus.
  Lemma add4 a b c d : wadd w (wadd w a b) (wadd w c d) = (a + b + c + d) mod modulus.
  Proof. rewrite !wadd_mod. rewrite <- N.add_mod by exact mod_nz. f_equal. lia. Qed.
  Lemma rev_nth_0 (l : list N) i : (i < length l)%nat -> nth i (rev l) 0 = nth (length l - S i) l 0.
  Proof. apply rev_nth. Qed.
  Lemma firstn_nth (l : list N) k i : (i < k)%nat -> nth i (firstn k l) 0 = nth i l 0.
  Proof.
    revert l i. induction k as [|k IH]; intros l i L; [lia|]. destruct l as [|x l]; [reflexivity|]. destruct i as [|i]; [reflexivity|]. cbn [firstn nth]. apply IH. lia.
  Qed.
  Lemma schedule_spec n : forall pre, (16 <= length pre)%nat ->
    let W := pre ++ schedule p n (firstn 16 (rev pre)) in
    length W = (length pre + n)%nat /\ forall t, (length pre <= t < length pre + n)%nat -> nth t W 0 = next W t.
  Proof.
    induction n as [|n IH]; intros pre L; cbv zeta.
    - cbn [schedule]. rewrite app_nil_r. split; [lia|]. intros t H. lia.
    - cbn [schedule]. change (sw p) with w. change (s0 p) with (v_s0 v). change (s1 p) with (v_s1 v). rewrite add4.
      set (nw := (_ + _ + _ + _) mod modulus).
      assert (E : pre ++ nw :: schedule p n (nw :: firstn 15 (firstn 16 (rev pre))) = (pre ++ [nw]) ++ schedule p n (firstn 16 (rev (pre ++ [nw])))).
      { rewrite <- app_assoc. cbn [app]. f_equal. f_equal. rewrite rev_app_distr. change (firstn 16 (rev [nw] ++ rev pre)) with (nw :: firstn 15 (rev pre)). rewrite firstn_firstn. reflexivity. }
      rewrite E. assert (LP : length (pre ++ [nw]) = S (length pre)) by (rewrite app_length; cbn; lia).
      destruct (IH (pre ++ [nw]) ltac:(lia)) as [I1 I2]. rewrite LP in I1, I2.
      split; [lia|]. intros t H. destruct (Nat.eq_dec t (length pre)) as [->|NE]; [|apply I2; lia].
      assert (P : forall i, (i < length pre)%nat -> nth i ((pre ++ [nw]) ++ schedule p n (firstn 16 (rev (pre ++ [nw])))) 0 = nth i pre 0).
      { intros i Hi. rewrite <- app_assoc. now rewrite app_nth1. }
      unfold next. rewrite (P (length pre - 2)%nat), (P (length pre - 7)%nat), (P (length pre - 15)%nat), (P (length pre - 16)%nat) by lia. rewrite <- app_assoc, app_nth2, Nat.sub_diag by lia. cbn [app nth]. unfold nw.
      rewrite !firstn_nth, !rev_nth_0 by lia. reflexivity.
  Qed.
  Definition words_of (block : bytes) : list N := map be_word (chunks wb block).
  Lemma words_nth block t : nth t (words_of block) 0 = number (firstn wb (skipn (t * wb) block)).
  Proof.
    unfold words_of, chunks. change 0 with (be_word []). rewrite map_nth, (chunks_fuel_nth wb WP _ _ _ (le_n _)). apply be_word_number.
  Qed.
  Lemma piece_bound block t : number (firstn wb (skipn (t * wb) block)) < modulus.
  Proof.
    rewrite mod_256. eapply N.lt_le_trans; [apply number_bound|]. apply N.pow_le_mono_r; [discriminate|]. rewrite firstn_length. lia.
  Qed.
  Lemma expanded_next block W : expanded v block W <-> length W = v_rounds v /\
    (forall t, (t < 16)%nat -> nth t W 0 = number (firstn wb (skipn (t * wb) block))) /\ (forall t, (16 <= t < v_rounds v)%nat -> nth t W 0 = next W t).
  Proof.
    unfold expanded. rewrite wbytes. split; intros (L & A & B); (split; [exact L|]); (split; [exact A|]).
    - assert (S : forall t, (t < v_rounds v)%nat -> nth t W 0 < modulus).
      { intros t T. destruct (le_lt_dec 16 t) as [G|G]; [|rewrite A by exact G; apply piece_bound]. destruct (B t ltac:(lia)) as (x & y & _ & _ & ->). apply mod_lt. }
      intros t T. destruct (B t T) as (x & y & X & Y & ->). apply rotations_shift_iff in X; [|exact Rs1|apply S; lia]. apply rotations_shift_iff in Y; [|exact Rs0|apply S; lia].
      now subst x y.
    - assert (S : forall t, (t < v_rounds v)%nat -> nth t W 0 < modulus).
      { intros t T. destruct (le_lt_dec 16 t) as [G|G]; [|rewrite A by exact G; apply piece_bound]. rewrite B by lia. apply mod_lt. }
      intros t T. eexists _, _. split; [apply rotations_shift_iff; [exact Rs1|apply S; lia|reflexivity]|].
      split; [apply rotations_shift_iff; [exact Rs0|apply S; lia|reflexivity]|]. now apply B.
  Qed.
  Definition sched (block : bytes) : list N := words_of block ++ schedule p (v_rounds v - 16) (rev (words_of block)).
  Lemma expanded_iff block W : length block = (16 * wb)%nat -> (expanded v block W <-> W = sched block).
  Proof.
    intros LB. assert (LW : length (words_of block) = 16%nat).
    { unfold words_of. rewrite map_length. apply (chunks_fuel_count wb WP); [exact LB|reflexivity]. }
    assert (E : expanded v block (sched block)).
    { apply expanded_next. pose proof (schedule_spec (v_rounds v - 16) (words_of block)) as S. cbv zeta in S. rewrite LW in S.
      replace (firstn 16 (rev (words_of block))) with (rev (words_of block)) in S by (symmetry; apply firstn_all2; rewrite rev_length; lia).
      fold (sched block) in S. destruct (S (le_n _)) as [S1 S2]. split; [lia|]. split; [|intros t T; apply S2; lia].
      intros t T. unfold sched. rewrite app_nth1 by lia. apply words_nth. }
    split; [|now intros ->]. intros X. apply expanded_next in X as (L & A & B). apply expanded_next in E as (L' & A' & B').
    assert (Q : forall t, forall s, (s < t)%nat -> (s < v_rounds v)%nat -> nth s W 0 = nth s (sched block) 0).
    { induction t as [|t IH]; intros s Hs Hr; [lia|]. destruct (le_lt_dec 16 s) as [G|G]; [|rewrite A, A' by exact G; reflexivity].
      rewrite B, B' by lia. unfold next. rewrite !(IH (s - _)%nat) by lia. reflexivity. }
    apply (nth_ext _ _ 0 0); [congruence|]. intros s Hs. apply (Q (S s)); lia.
  Qed.

  (** * Rounds *)
  Definition words_ok (l : list N) : Prop := Forall (fun x => x < modulus) l.
  Lemma round_eq a b c d e f g h k x : sha_round p [a; b; c; d; e; f; g; h] (k, x) =
    let T1 := h + big p (v_S1 v) e + ch_of e f g + k + x in let T2 := big p (v_S0 v) a + maj_of a b c in
    [(T1 + T2) mod modulus; a; b; c; (d + T1) mod modulus; e; f; g].
  Proof.
    cbv zeta. cbn [sha_round fst snd]. change (sw p) with w. change (S0 p) with (v_S0 v). change (S1 p) with (v_S1 v).
    fold (ch_of e f g). fold (maj_of a b c). set (B1 := big p (v_S1 v) e). set (B0 := big p (v_S0 v) a). set (C := ch_of e f g). set (M := maj_of a b c).
    assert (E : wadd w (wadd w (wadd w h B1) C) (wadd w k x) = (h + B1 + C + k + x) mod modulus).
    { rewrite add4, wadd_mod. rewrite <- !N.add_assoc, N.add_mod_idemp_l by exact mod_nz. f_equal. lia. }
    rewrite E, !wadd_mod. rewrite <- N.add_mod by exact mod_nz. rewrite (N.add_mod_idemp_r d) by exact mod_nz. reflexivity.
  Qed.
  Lemma eight (st : list N) : length st = 8%nat -> exists a b c d e f g h, st = [a; b; c; d; e; f; g; h].
  Proof.
    do 9 (destruct st as [|? st]; [try discriminate|]); try discriminate. intros _. repeat eexists.
  Qed.
  Lemma rounds_iff : forall Ks Ws st st', length st = 8%nat -> words_ok st ->
    (rounds v Ks Ws st st' <-> length Ks = length Ws /\ st' = fold_left (sha_round p) (combine Ks Ws) st).
  Proof.
    induction Ks as [|k Ks IH]; intros Ws st st' L B.
    - split.
      + intros R. inversion R; subst. auto.
      + intros [E ->]. destruct Ws; [|discriminate]. constructor.
    - destruct (eight st L) as (a & b & c & d & e & f & g & h & ->). unfold words_ok in B. repeat rewrite Forall_cons_iff in B. destruct B as (Ba & Bb & Bc & Bd & Be & Bf & Bg & Bh & _).
      split.
      + intros R. inversion R as [|K0 W0 Ks0 Ws0 a0 b0 c0 d0 e0 f0 g0 h0 s1' ch s0' maj T1 T2 st0 R1 R2 E1 R3 R4 E2 R5]; subst.
        apply rotations_iff in R1; [|assumption..]. apply choice_iff in R2; [|assumption..]. apply rotations_iff in R3; [|assumption..]. apply majority_iff in R4; [|assumption..]. subst.
        apply IH in R5; [|reflexivity|repeat constructor; try assumption; apply mod_lt]. destruct R5 as [R5 ->]. split; [cbn; congruence|]. cbn [combine fold_left]. rewrite round_eq. reflexivity.
      + intros [E ->]. destruct Ws as [|x Ws]; [discriminate|]. cbn [combine fold_left]. rewrite round_eq. cbv zeta.
        eapply rounds_next; [apply rotations_iff; [assumption..|reflexivity]|apply choice_iff; [assumption..|reflexivity]|reflexivity|
          apply rotations_iff; [assumption..|reflexivity]|apply majority_iff; [assumption..|reflexivity]|reflexivity|].
        apply IH; [reflexivity|repeat constructor; try assumption; apply mod_lt|]. split; [injection E as E; exact E|reflexivity].
  Qed.

  (** * The chain *)
  Lemma zip_add_nth : forall a b i, length a = length b -> (i < length a)%nat -> nth i (zip_add w a b) 0 = (nth i a 0 + nth i b 0) mod modulus.
  Proof.
    induction a as [|x a IH]; intros [|y b] i L I; try discriminate; [cbn in I; lia|]. destruct i as [|i]; [cbn; apply wadd_mod|].
    cbn [zip_add nth]. apply IH; [now injection L|cbn in I; lia].
  Qed.
  Lemma added_iff H st H' : length H = 8%nat -> length st = 8%nat -> (added v H st H' <-> H' = zip_add w H st).
  Proof.
    intros L L'. unfold added. split.
    - intros [A B]. apply (nth_ext _ _ 0 0); [rewrite zip_add_length; congruence|]. intros i I. rewrite zip_add_nth by (congruence || lia). apply B. lia.
    - intros ->. split; [rewrite zip_add_length; congruence|]. intros i I. apply zip_add_nth; [congruence|lia].
  Qed.
  Lemma zip_add_ok : forall a b, words_ok (zip_add w a b).
  Proof. induction a as [|x a IH]; intros [|y b]; try constructor. - rewrite wadd_mod. apply mod_lt. - apply IH. Qed.
  Lemma fold_rounds_length l : forall st, length (fold_left (sha_round p) l st) = length st.
  Proof. induction l as [|x l IH]; intros st; [reflexivity|]. cbn [fold_left]. rewrite IH. apply sha_round_length. Qed.
  Lemma sha_block_eq H block : sha_block p H block = zip_add w H (fold_left (sha_round p) (combine K (sched block)) H).
  Proof. unfold sha_block. cbn [sw s_rounds s_k p]. unfold p at 1 2. cbn [sw]. rewrite wb_eq. reflexivity. Qed.
  Lemma chained_iff : forall blocks H H', Forall (fun x => length x = 16 * wb)%nat blocks -> length H = 8%nat -> words_ok H ->
    (chained v K blocks H H' <-> H' = fold_left (sha_block p) blocks H).
  Proof.
    induction blocks as [|block blocks IH]; intros H H' F L B.
    - split; [intros C; inversion C; subst; reflexivity|intros ->; constructor].
    - inversion F as [|? ? F1 F2]; subst.
      assert (LS : length (sched block) = v_rounds v) by (assert (E : expanded v block (sched block)) by (apply expanded_iff; [exact F1|reflexivity]); exact (proj1 E)).
      cbn [fold_left]. rewrite sha_block_eq. set (st := fold_left (sha_round p) (combine K (sched block)) H).
      assert (Lst : length st = 8%nat) by (unfold st; rewrite fold_rounds_length; exact L).
      assert (LZ : length (zip_add w H st) = 8%nat) by (rewrite zip_add_length; congruence). split.
      + intros C. inversion C as [|? ? W ? st0 H1 ? C1 C2 C3 C4]; subst. apply expanded_iff in C1; [|exact F1]. subst W.
        apply rounds_iff in C2; [|exact L|exact B]. destruct C2 as [_ C2]. fold st in C2. subst st0. apply added_iff in C3; [|exact L|exact Lst]. subst H1.
        now apply IH in C4; [|exact F2|exact LZ|apply zip_add_ok].
      + intros ->. apply chained_next with (W := sched block) (st := st) (H' := zip_add w H st).
        * now apply expanded_iff.
        * apply rounds_iff; [exact L|exact B|]. split; [congruence|reflexivity].
        * now apply added_iff.
        * apply IH; [exact F2|exact LZ|apply zip_add_ok|reflexivity].
  Qed.
  Lemma chained_ok : forall blocks H, length H = 8%nat -> words_ok H ->
    length (fold_left (sha_block p) blocks H) = 8%nat /\ words_ok (fold_left (sha_block p) blocks H).
  Proof.
    induction blocks as [|block blocks IH]; intros H L B; [auto|]. cbn [fold_left]. apply IH; [now rewrite sha_block_length|].
    rewrite sha_block_eq. apply zip_add_ok.
  Qed.

  (** * The digest *)
  Lemma written_iff : forall H d, words_ok H -> length d = (length H * wb)%nat ->
    ((forall i, (i < length H)%nat -> number (firstn wb (skipn (i * wb) d)) = nth i H 0) <-> d = flat_map (be_bytes wb) H).
  Proof.
    induction H as [|x H IH]; intros d B L.
    - split; [intros _; destruct d; [reflexivity|discriminate]|]. intros _ i I. cbn in I. lia.
    - inversion B as [|? ? B1 B2]; subst. cbn [length flat_map] in *. rewrite mod_256 in B1.
      assert (L1 : length (firstn wb d) = wb) by (rewrite firstn_length; lia). assert (L2 : length (skipn wb d) = (length H * wb)%nat) by (rewrite skipn_length; lia).
      pose proof (eq_sym (firstn_skipn wb d)) as Ed. split.
      + intros Q. transitivity (firstn wb d ++ skipn wb d); [exact Ed|]. pose proof (Q 0%nat ltac:(lia)) as Q0. cbn [Nat.mul nth] in Q0. rewrite skipn_O in Q0. apply (be_bytes_number wb) in Q0; [|exact L1|exact B1]. rewrite Q0. f_equal.
        apply IH; [exact B2|exact L2|]. intros i I. rewrite skipn_skipn. replace (i * wb + wb)%nat with (S i * wb)%nat by lia. exact (Q (S i) ltac:(lia)).
      + intros E. rewrite Ed in E. apply app_eq_length in E as [E1 E2]; [|rewrite L1, be_bytes_length; reflexivity]. intros [|i] I.
        * cbn [Nat.mul nth]. rewrite skipn_O. now apply (be_bytes_number wb).
        * cbn [nth]. replace (S i * wb)%nat with (i * wb + wb)%nat by lia. rewrite <- skipn_skipn. apply IH; [exact B2|exact L2|exact E2|lia].
  Qed.

  Variable IV : list N.
  Hypothesis HK : roots_of_primes 3 w 0 K.
  Hypothesis HI : roots_of_primes 2 w (v_prime v) IV.
  Hypothesis LI : length IV = 8%nat.
  Hypothesis UK : forall cs, length cs = length K -> roots_of_primes 3 w 0 cs -> cs = K.
  Hypothesis UI : forall cs, length cs = length IV -> roots_of_primes 2 w (v_prime v) cs -> cs = IV.
  Lemma roots_ok e k cs : roots_of_primes e w k cs -> words_ok cs.
  Proof. intros R. apply Forall_forall. intros c I. apply In_nth_error in I as [i I]. destruct (R i c I) as (q & _ & S & _). exact S. Qed.
  Lemma hashed_iff m H : hashed v m H <-> H = sha_state p IV m.
  Proof.
    unfold hashed, sha_state. cbn [sw p]. unfold p at 2. cbn [sw]. rewrite wb_eq, wbytes. split.
    - intros (K0 & H0 & b & blocks & A1 & A2 & A3 & A4 & A5 & A6 & A7 & A8). rewrite <- LK in A1. apply UK in A2; [|exact A1]. subst K0.
      rewrite <- LI in A3. apply UI in A4; [|exact A3]. subst H0. pose proof A5 as (? & ? & _ & _ & _ & _ & Dv). rewrite wbytes in Dv. apply filled_iff in A5. subst b.
      apply chained_iff in A8; [|exact A7|exact LI|exact (roots_ok _ _ _ HI)].
      rewrite (proj1 (blocks_iff (16 * wb) (sha_pad p m) blocks ltac:(lia) Dv) (conj A6 A7)) in A8. exact A8.
    - intros ->. assert (Fm : filled v m (sha_pad p m)) by now apply filled_iff. pose proof Fm as (? & ? & _ & _ & _ & _ & Dv). rewrite wbytes in Dv.
      destruct (proj2 (blocks_iff (16 * wb) (sha_pad p m) _ ltac:(lia) Dv) eq_refl) as [C1 C2].
      exists K, IV, (sha_pad p m), (chunks (16 * wb) (sha_pad p m)). do 7 (split; [assumption|]). apply chained_iff; [exact C2|exact LI|exact (roots_ok _ _ _ HI)|reflexivity].
  Qed.
  Lemma state_ok m : length (sha_state p IV m) = 8%nat /\ words_ok (sha_state p IV m).
  Proof. unfold sha_state. apply chained_ok; [exact LI|exact (roots_ok _ _ _ HI)]. Qed.
  Theorem digest_iff m d : digest v m d <-> d = flat_map (be_bytes wb) (sha_state p IV m).
  Proof.
    unfold digest. rewrite wbytes. destruct (state_ok m) as [L B]. split.
    - intros (H & HH & Ld & E). apply hashed_iff in HH. subst H. apply written_iff; [exact B|rewrite L; exact Ld|]. rewrite L. exact E.
    - intros E. assert (Ld : length d = (8 * wb)%nat) by (rewrite E, (@flat_map_length _ _ _ wb), L by apply be_bytes_length; reflexivity).
      exists (sha_state p IV m). split; [now apply hashed_iff|]. split; [exact Ld|]. rewrite <- L. apply written_iff; [exact B|rewrite L; exact Ld|exact E].
  Qed.
End Variant.
