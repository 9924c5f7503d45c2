(** XChaCha20-Poly1305 as computed opens exactly the sealed texts, and few one-time keys agree with two of them. *)
From Coq Require Import ZArith Znumtheory Lia Bool ZifyBool ZifyNat ZifyN.
From Verif Require Import Base BaseFacts Codec CodecFacts Hash HashFacts DigestFacts Primes Primes1305 Aead AeadSpec.

(** * Roots of polynomials modulo a prime *)
Section Roots.
  Local Open Scope Z_scope.
  Variable p : Z.
  Hypothesis P : prime p.
  Definition evalz (cs : list Z) (x : Z) : Z := fold_right (fun c a => c + x * a) 0 cs.
  Fixpoint quot (cs : list Z) (a : Z) : list Z :=
    match cs with [] => [] | _ :: r => match r with [] => [] | _ => evalz r a :: quot r a end end.
  Lemma quot_length cs a : length (quot cs a) = pred (length cs).
  Proof. induction cs as [|c [|d r] IH]; [reflexivity..|]. cbn [quot length pred] in *. f_equal. exact IH. Qed.
  Lemma quot_eval cs a x : evalz cs x - evalz cs a = (x - a) * evalz (quot cs a) x.
  Proof.
    induction cs as [|c [|d r] IH]; [cbn; ring|cbn; ring|].
    change (quot (c :: d :: r) a) with (evalz (d :: r) a :: quot (d :: r) a).
    set (q := quot (d :: r) a) in *. set (l := d :: r) in *. cbn [evalz fold_right]. fold (evalz l x) (evalz l a) (evalz q x). nia.
  Qed.
  Definition zero_mod (cs : list Z) : Prop := Forall (fun c => (p | c)) cs.
  Lemma quot_zero cs a : (p | evalz cs a) -> zero_mod (quot cs a) -> zero_mod cs.
  Proof.
    induction cs as [|c [|d r] IH]; intros E H; [constructor|..].
    - constructor; [|constructor]. cbn in E. now rewrite Z.mul_0_r, Z.add_0_r in E.
    - change (quot (c :: d :: r) a) with (evalz (d :: r) a :: quot (d :: r) a) in H. inversion H; subst.
      constructor; [|now apply IH]. change (evalz (c :: d :: r) a) with (c + a * evalz (d :: r) a) in E.
      apply (Z.divide_add_cancel_r p (a * evalz (d :: r) a)); [now apply Z.divide_mul_r|]. now rewrite Z.add_comm.
  Qed.
  Lemma roots cs : ~ zero_mod cs -> forall rs, NoDup rs -> Forall (fun x => 0 <= x < p /\ (p | evalz cs x)) rs -> (length rs < length cs)%nat.
  Proof.
    remember (length cs) as n eqn:E. revert cs E. induction n as [|n IH]; intros cs E NZ rs N F.
    - destruct cs; [|discriminate E]. exfalso. apply NZ. constructor.
    - destruct rs as [|a rs]; [cbn; lia|]. inversion F as [|? ? [Ra Da] F']; subst. inversion N as [|? ? Na N']; subst.
      assert (Q : (length rs < n)%nat); [|cbn; lia].
      apply (IH (quot cs a)); [rewrite quot_length; lia|intros Z; apply NZ; now apply (quot_zero cs a)|exact N'|].
      apply Forall_forall. intros x Hx. rewrite Forall_forall in F'. destruct (F' x Hx) as [Rx Dx]. split; [exact Rx|].
      pose proof (Z.divide_sub_r _ _ _ Dx Da) as D. rewrite quot_eval in D. apply prime_mult in D; [|exact P]. destruct D as [D|D]; [|exact D].
      exfalso. apply Na. replace a with x; [exact Hx|]. destruct D as [k D]. assert (k = 0) by nia. nia.
  Qed.
End Roots.

(** * Counting *)
Lemma filter_split {A} (f : A -> bool) l : length l = (length (filter f l) + length (filter (fun x => negb (f x)) l))%nat.
Proof. induction l as [|x l IH]; [reflexivity|]. cbn [filter length]. destruct (f x); cbn [negb length]; lia. Qed.
Lemma pigeon {A} (f : A -> Z) n ks : forall l : list A, Forall (fun x => In (f x) ks) l ->
  (forall k, In k ks -> (length (filter (fun x => Z.eqb (f x) k) l) <= n)%nat) -> (length l <= length ks * n)%nat.
Proof.
  induction ks as [|k ks IH]; intros l F H.
  - destruct l as [|x l]; [cbn; lia|]. inversion F as [|? ? []].
  - rewrite (filter_split (fun x => Z.eqb (f x) k)). pose proof (H k (or_introl eq_refl)).
    assert (Q : (length (filter (fun x => negb (Z.eqb (f x) k)) l) <= length ks * n)%nat); [|cbn [length]; lia].
    apply IH.
    + apply Forall_forall. intros x Hx. apply filter_In in Hx as [Hx E]. rewrite Forall_forall in F. destruct (F x Hx) as [K|I]; [|exact I].
      cbv beta in E. rewrite <- K, Z.eqb_refl in E. discriminate E.
    + intros k' Hk'. etransitivity; [|exact (H k' (or_intror Hk'))].
      clear. induction l as [|x l IH]; [reflexivity|]. cbn [filter]. destruct (Z.eqb (f x) k) eqn:E; cbn [negb filter];
        destruct (Z.eqb (f x) k'); cbn [length]; lia.
Qed.

Local Open Scope N_scope.
(** * Poly1305 *)
Lemma p1305_eq : 2 ^ 130 - 5 = p1305. Proof. reflexivity. Qed.
Lemma p1305_prime : prime (Z.of_N p1305). Proof. exact prime_1361129467683753853853498429727072845819. Qed.
Lemma p1305_nz : p1305 <> 0. Proof. discriminate. Qed.
Lemma p1305_bounds : 2 ^ 129 < p1305 < 2 ^ 130. Proof. split; reflexivity. Qed.
Opaque p1305.
Lemma word_of_bytes n : forall x, x < 256 ^ N.of_nat n -> le_word (le_bytes n x) = x.
Proof.
  induction n as [|n IH]; intros x H.
  - cbn in H. cbn [le_bytes le_word fold_right]. lia.
  - cbn [le_bytes]. unfold le_word. cbn [fold_right]. fold (le_word (le_bytes n (x / 256))).
    rewrite Nat2N.inj_succ, N.pow_succ_r' in H.
    rewrite IH by (apply N.div_lt_upper_bound; lia).
    rewrite to_N_byte_of_N by (apply N.mod_lt; lia). pose proof (N.div_mod' x 256). lia.
Qed.
Lemma word_mod n : forall x, le_word (le_bytes n x) = x mod 256 ^ N.of_nat n.
Proof.
  induction n as [|n IH]; intros x.
  - cbn [le_bytes le_word fold_right]. change (256 ^ N.of_nat 0) with 1. now rewrite N.mod_1_r.
  - cbn [le_bytes]. unfold le_word. cbn [fold_right]. fold (le_word (le_bytes n (x / 256))). rewrite IH.
    rewrite to_N_byte_of_N by (apply N.mod_lt; lia). rewrite Nat2N.inj_succ, N.pow_succ_r'.
    assert (256 ^ N.of_nat n <> 0) by (apply N.pow_nonzero; lia). rewrite N.mod_mul_r by lia. reflexivity.
Qed.
Lemma word_bound s : le_word s < 256 ^ N.of_nat (length s).
Proof.
  induction s as [|c s IH]; [cbn; lia|]. unfold le_word. cbn [fold_right length]. fold (le_word s).
  rewrite Nat2N.inj_succ, N.pow_succ_r'. pose proof (Byte.to_N_bounded c). lia.
Qed.
Lemma word_app a b : le_word (a ++ b) = le_word a + 256 ^ N.of_nat (length a) * le_word b.
Proof.
  induction a as [|c a IH]; [unfold le_word; cbn [app fold_right length]; change (256 ^ N.of_nat 0) with 1; lia|].
  unfold le_word in *. cbn [app fold_right length]. rewrite IH, Nat2N.inj_succ, N.pow_succ_r'. ring.
Qed.
Definition piece_value (q : bytes) : N := le_word q + 256 ^ N.of_nat (length q).
Lemma piece_word q : le_word (q ++ [x01]) = piece_value q.
Proof. rewrite word_app. unfold piece_value. change (le_word [x01]) with 1. lia. Qed.
Lemma piece_inj q q' : piece_value q = piece_value q' -> q = q'.
Proof.
  intros E. unfold piece_value in E. pose proof (word_bound q) as B1. pose proof (word_bound q') as B2.
  assert (L : length q = length q').
  { destruct (Nat.lt_trichotomy (length q) (length q')) as [H|[H|H]]; [|exact H|]; exfalso.
    - assert (256 ^ N.of_nat (S (length q)) <= 256 ^ N.of_nat (length q')) by (apply N.pow_le_mono_r; lia).
      rewrite Nat2N.inj_succ, N.pow_succ_r' in H0. lia.
    - assert (256 ^ N.of_nat (S (length q')) <= 256 ^ N.of_nat (length q)) by (apply N.pow_le_mono_r; lia).
      rewrite Nat2N.inj_succ, N.pow_succ_r' in H0. lia. }
  apply le_word_eq; [exact L|]. rewrite L in E. lia.
Qed.
Lemma piece_range q : (length q <= 16)%nat -> 0 < piece_value q < p1305.
Proof.
  intros L. unfold piece_value. pose proof (word_bound q) as B1.
  assert (256 ^ N.of_nat (length q) <= 256 ^ 16) by (apply N.pow_le_mono_r; lia).
  assert (256 ^ N.of_nat (length q) <> 0) by (apply N.pow_nonzero; lia). pose proof p1305_bounds as [B2 _].
  change (2 ^ 129) with (2 * 256 ^ 16) in B2. set (w := 256 ^ 16) in *. clearbody w. lia.
Qed.

Lemma chunk_nil {A} f k : chunks_fuel f k (@nil A) = []. Proof. now destruct f. Qed.
Lemma chunk_pieces : forall f m, (length m <= f)%nat -> pieces m (chunks_fuel f 16 m).
Proof.
  induction f as [|f IH]; intros m L.
  - destruct m; [constructor|cbn in L; lia].
  - destruct m as [|c m]; [constructor|]. set (t := c :: m) in *. change (chunks_fuel (S f) 16 t) with (firstn 16 t :: chunks_fuel f 16 (skipn 16 t)).
    assert (Lt : (0 < length t)%nat) by (cbn; lia). clearbody t. clear c m.
    destruct (le_lt_dec (length t) 16) as [H|H].
    + rewrite firstn_all2, skipn_all2, chunk_nil by lia. constructor; [intros ->; cbn in Lt; lia|exact H].
    + rewrite <- (firstn_skipn 16 t) at 1. constructor; [rewrite firstn_length; lia| |apply IH; rewrite skipn_length; lia].
      intros E. apply (f_equal (@length byte)) in E. rewrite skipn_length in E. cbn in E. lia.
Qed.
Lemma pieces_chunks m : pieces m (chunks 16 m).
Proof. apply chunk_pieces. reflexivity. Qed.
Lemma pieces_one m ps : pieces m ps -> forall ps', pieces m ps' -> ps = ps'.
Proof.
  assert (X : forall p q l : bytes, (length p <= 16)%nat -> length q = 16%nat -> l <> [] -> p = q ++ l -> False).
  { intros p q l L Q Nl ->. rewrite app_length in L. destruct l; [tauto|cbn in L; lia]. }
  induction 1 as [|p N L|p m ps L N H IH]; intros ps' H'.
  - inversion H' as [E|p' N' L' E|p' m' ps0 L' N' H0 E]; [reflexivity|tauto|]. destruct p'; [discriminate L'|discriminate].
  - inversion H' as [E|p' N' L' E|p' m' ps0 L' N' H0 E]; [subst; tauto|reflexivity|]. exfalso. apply (X p p' m' L L' N'). now symmetry.
  - inversion H' as [E|p' N' L' E|p' m' ps0 L' N' H0 E].
    + destruct p; [discriminate L|discriminate E].
    + exfalso. apply (X (p ++ m) p m L' L N). reflexivity.
    + apply app_eq_length in E as [-> ->]; [|congruence]. f_equal. now apply IH.
Qed.
Lemma pieces_inj m ps : pieces m ps -> forall m', pieces m' ps -> m = m'.
Proof.
  assert (X : forall m ps, pieces m ps -> m = concat ps).
  { induction 1; [reflexivity|cbn; now rewrite app_nil_r|cbn; congruence]. }
  intros H m' H'. apply X in H, H'. congruence.
Qed.
Lemma pieces_sizes m ps : pieces m ps -> Forall (fun q => (length q <= 16)%nat) ps.
Proof. induction 1 as [|p N L|p m ps L N H IH]; [apply Forall_nil|apply Forall_cons; [exact L|apply Forall_nil]|apply Forall_cons; [lia|exact IH]]. Qed.
Lemma pieces_count (m : bytes) ps : pieces m ps -> (length ps = (length m + 15) / 16)%nat.
Proof.
  induction 1 as [|p N L|p m ps L N H IH]; [reflexivity|..].
  - destruct p; [tauto|]. cbn [length] in *. apply (Nat.div_unique _ 16 1 (length p)); lia.
  - cbn [length]. rewrite IH, app_length, L. replace (16 + length m + 15)%nat with (length m + 15 + 1 * 16)%nat by lia. rewrite Nat.div_add by lia. lia.
Qed.

Lemma step_fold r ps : forall a, fold_left (poly1305_step r) ps a mod p1305 = (a * r ^ N.of_nat (length ps) + total r ps) mod p1305.
Proof.
  pose proof p1305_nz as Z. induction ps as [|q ps IH]; intros a.
  - cbn [fold_left length total]. change (r ^ N.of_nat 0) with 1. f_equal. lia.
  - cbn [fold_left]. rewrite IH. cbn [total]. unfold poly1305_step. rewrite piece_word. unfold piece_value.
    rewrite <- (N.add_mod_idemp_l (_ * r ^ _)), N.mul_mod_idemp_l, N.add_mod_idemp_l by exact Z. f_equal. cbn [length].
    rewrite Nat2N.inj_succ, N.pow_succ_r'. ring.
Qed.
Lemma fold_small r ps : forall a, a < p1305 -> fold_left (poly1305_step r) ps a < p1305.
Proof.
  induction ps as [|q ps IH]; intros a H; [exact H|]. cbn [fold_left]. apply IH. apply N.mod_lt. exact p1305_nz.
Qed.
Lemma poly1305_tagged r s m : tagged r s m (poly1305 r s m).
Proof.
  exists (chunks 16 m). split; [apply pieces_chunks|]. split; [apply le_bytes_length|]. unfold poly1305.
  rewrite word_of_bytes by (change (256 ^ N.of_nat 16) with (2 ^ 128); apply N.mod_lt; discriminate).
  rewrite p1305_eq. f_equal. f_equal.
  rewrite <- (N.mod_small (fold_left _ _ _) p1305) by (apply fold_small; destruct p1305 eqn:E; [now pose proof p1305_nz|reflexivity]).
  rewrite step_fold. reflexivity.
Qed.
Lemma tagged_iff r s m t : tagged r s m t <-> t = poly1305 r s m.
Proof.
  split; [|intros ->; apply poly1305_tagged]. intros (ps & H & L & E). destruct (poly1305_tagged r s m) as (ps' & H' & L' & E').
  pose proof (pieces_one _ _ H _ H') as <-. apply le_word_eq; congruence.
Qed.

(** * Few one-time keys agree with two tags *)
Section Count.
  Local Open Scope Z_scope.
  Definition coefs (ps : list bytes) : list Z := map (fun q => Z.of_N (piece_value q)) (rev ps).
  Lemma evalz_app a b x : evalz (a ++ b) x = evalz a x + x ^ Z.of_nat (length a) * evalz b x.
  Proof.
    induction a as [|c a IH]; [unfold evalz; cbn [app fold_right length]; change (Z.of_nat 0) with 0; rewrite Z.pow_0_r; ring|].
    unfold evalz in *. cbn [app fold_right length]. rewrite IH, Nat2Z.inj_succ, Z.pow_succ_r by lia. ring.
  Qed.
  Lemma total_evalz r ps : Z.of_N (total r ps) = Z.of_N r * evalz (coefs ps) (Z.of_N r).
  Proof.
    induction ps as [|q ps IH]; [cbn [total coefs]; unfold coefs, evalz; cbn; lia|].
    cbn [total]. unfold coefs in *. cbn [rev]. rewrite map_app, evalz_app, map_length, rev_length. cbn [map].
    change (evalz [?c] ?x) with (c + x * 0). fold (piece_value q).
    rewrite N2Z.inj_add, N2Z.inj_mul, N2Z.inj_pow, IH, nat_N_Z. cbn [length]. rewrite Nat2Z.inj_succ, Z.pow_succ_r by lia. ring.
  Qed.
  (** Differences of coefficient lists *)
  Fixpoint diff (a b : list Z) : list Z :=
    match a, b with
    | [], _ => map Z.opp b
    | _, [] => a
    | x :: a', y :: b' => (x - y) :: diff a' b'
    end.
  Lemma diff_eval a : forall b x, evalz (diff a b) x = evalz a x - evalz b x.
  Proof.
    assert (O : forall b x, evalz (map Z.opp b) x = - evalz b x).
    { induction b as [|c b IH]; intros x; [reflexivity|]. unfold evalz in *. cbn [map fold_right]. rewrite IH. ring. }
    induction a as [|c a IH]; intros b x; [cbn [diff]; rewrite O; cbn; ring|]. destruct b as [|d b]; [cbn; ring|].
    specialize (IH b x). unfold evalz in *. cbn [diff fold_right]. rewrite IH. ring.
  Qed.
  Lemma diff_length a : forall b, length (diff a b) = Nat.max (length a) (length b).
  Proof. induction a as [|c a IH]; intros [|d b]; cbn [diff length]; rewrite ?map_length; [reflexivity..|]. cbn [length Nat.max]. now rewrite IH. Qed.
  Lemma diff_zero p a : forall b, Forall (fun c => 0 < c < p) a -> Forall (fun c => 0 < c < p) b -> zero_mod p (diff a b) -> a = b.
  Proof.
    assert (O : forall c, 0 < c < p -> (p | c) -> False) by (intros c R H; apply Z.divide_pos_le in H; lia).
    induction a as [|c a IH]; intros [|d b] Fa Fb Z; [reflexivity|..].
    - exfalso. inversion Z; inversion Fb; subst. apply (O d); [assumption|]. now apply Z.divide_opp_r.
    - exfalso. inversion Z; inversion Fa; subst. now apply (O c).
    - inversion Z as [|? ? [k E] Z']; inversion Fa; inversion Fb; subst. f_equal; [|now apply IH].
      assert (k = 0) by (destruct (Z.lt_trichotomy k 0) as [|[|]]; nia). subst k. lia.
  Qed.

  Variables (t t' : bytes) (ps ps' : list bytes).
  Hypothesis S1 : Forall (fun q => (length q <= 16)%nat) ps.
  Hypothesis S2 : Forall (fun q => (length q <= 16)%nat) ps'.
  Hypothesis NE : ps <> ps'.
  Definition agree (k : N * N) : Prop := (fst k < p1305)%N /\ (snd k < 2 ^ 128)%N /\
    le_word t = ((total (fst k) ps mod p1305 + snd k) mod 2 ^ 128)%N /\ le_word t' = ((total (fst k) ps' mod p1305 + snd k) mod 2 ^ 128)%N.
  Lemma coefs_range l : Forall (fun q => (length q <= 16)%nat) l -> Forall (fun c => 0 < c < Z.of_N p1305) (coefs l).
  Proof.
    intros F. unfold coefs. apply Forall_map. apply Forall_rev. eapply Forall_impl; [|exact F]. intros q H. cbv beta. pose proof (piece_range q H). lia.
  Qed.
  Lemma coefs_inj : coefs ps <> coefs ps'.
  Proof.
    intros E. apply NE. unfold coefs in E. rewrite <- (rev_involutive ps), <- (rev_involutive ps'). f_equal.
    revert E. generalize (rev ps) (rev ps'). induction l as [|q l IH]; intros [|q' l'] E; try discriminate E; [reflexivity|].
    injection E as E1 E2. f_equal; [apply piece_inj; lia|now apply IH].
  Qed.
  Definition delta (k : N * N) : Z := Z.of_N (total (fst k) ps mod p1305) - Z.of_N (total (fst k) ps' mod p1305).
  Definition slot (k : N * N) : Z := delta k / 2 ^ 128.
  Lemma two128 : Z.of_N (2 ^ 128) = 2 ^ 128. Proof. reflexivity. Qed.
  Lemma four128 : Z.of_N p1305 < 4 * 2 ^ 128. Proof. Transparent p1305. reflexivity. Opaque p1305. Qed.
  Lemma agree_delta k : agree k -> delta k mod 2 ^ 128 = (Z.of_N (le_word t) - Z.of_N (le_word t')) mod 2 ^ 128.
  Proof.
    intros (_ & _ & E1 & E2). rewrite E1, E2, !N2Z.inj_mod, two128 by discriminate. rewrite <- Zminus_mod.
    rewrite !N2Z.inj_add. unfold delta. f_equal. lia.
  Qed.
  Lemma slot_range k : -4 <= slot k <= 3.
  Proof.
    assert (W : 0 < 2 ^ 128) by reflexivity. pose proof four128 as Q. pose proof p1305_nz. unfold slot, delta.
    pose proof (N.mod_lt (total (fst k) ps) p1305 ltac:(assumption)). pose proof (N.mod_lt (total (fst k) ps') p1305 ltac:(assumption)).
    set (w := 2 ^ 128) in *. clearbody w. split; [apply Z.div_le_lower_bound|apply Z.lt_succ_r, Z.div_lt_upper_bound]; nia.
  Qed.
  Lemma agree_same k k' : agree k -> agree k' -> fst k = fst k' -> k = k'.
  Proof.
    intros (_ & R & E & _) (_ & R' & E' & _) F. destruct k as [r s], k' as [r' s']. cbn [fst snd] in *. subst r'. f_equal.
    rewrite E in E'. set (x := (total r ps mod p1305)%N) in *. set (w := (2 ^ 128)%N) in *. assert (w <> 0%N) by discriminate. clearbody w x.
    pose proof (N.div_mod' (x + s) w). pose proof (N.div_mod' (x + s') w). pose proof (N.mod_lt (x + s) w ltac:(assumption)).
    assert ((x + s) / w = (x + s') / w)%N; [|nia]. nia.
  Qed.
  Lemma agree_count ks : NoDup ks -> Forall agree ks -> (length ks <= 8 * Nat.max (length ps) (length ps'))%nat.
  Proof.
    intros N F. change 8%nat with (length [-4; -3; -2; -1; 0; 1; 2; 3]). apply (pigeon slot).
    - apply Forall_forall. intros k _. pose proof (slot_range k). cbn [In]. lia.
    - intros j _. set (l := filter _ ks). set (e := (Z.of_N (le_word t) - Z.of_N (le_word t')) mod 2 ^ 128 + j * 2 ^ 128).
      assert (R : (length (map (fun k => Z.of_N (fst k)) l) < length (- e :: diff (coefs ps) (coefs ps')))%nat).
      { apply (roots (Z.of_N p1305) p1305_prime).
        - intros Z. inversion Z as [|? ? _ Z']; subst. apply diff_zero in Z'; [exact (coefs_inj Z')|now apply coefs_range..].
        - assert (Nl : NoDup l) by now apply NoDup_filter. assert (Fl : Forall agree l).
          { apply Forall_forall. intros k H. apply filter_In in H as [H _]. rewrite Forall_forall in F. now apply F. }
          clearbody l. clear - Nl Fl. induction l as [|k l IH]; [constructor|]. inversion Nl; inversion Fl; subst. cbn [map]. constructor; [|now apply IH].
          intros I. apply in_map_iff in I as (k' & E & I). match goal with H : Forall agree l |- _ => rewrite Forall_forall in H; specialize (H k' I) end.
          assert (k = k') by (apply agree_same; [assumption..|lia]). subst k'. contradiction.
        - apply Forall_forall. intros x H. apply in_map_iff in H as (k & <- & H). apply filter_In in H as [H J]. rewrite Forall_forall in F. specialize (F k H).
          apply Z.eqb_eq in J. assert (E : delta k = e).
          { unfold e. rewrite <- (agree_delta k F), <- J. unfold slot. pose proof (Z_div_mod_eq_full (delta k) (2 ^ 128)). lia. }
          pose proof F as (R & _). split; [lia|].
          change (evalz (- e :: ?l) ?x) with (- e + x * evalz l x). rewrite diff_eval, <- E.
          replace (- delta k + Z.of_N (fst k) * (evalz (coefs ps) (Z.of_N (fst k)) - evalz (coefs ps') (Z.of_N (fst k))))
            with (Z.of_N (total (fst k) ps) - Z.of_N (total (fst k) ps') - delta k) by (rewrite !total_evalz; ring).
          unfold delta. rewrite !N2Z.inj_mod by exact p1305_nz. set (a := Z.of_N (total _ ps)). set (b := Z.of_N (total _ ps')).
          exists (a / Z.of_N p1305 - b / Z.of_N p1305). pose proof (Z_div_mod_eq_full a (Z.of_N p1305)). pose proof (Z_div_mod_eq_full b (Z.of_N p1305)). lia. }
      rewrite map_length in R. cbn [length] in R. rewrite diff_length in R. unfold coefs in R. rewrite !map_length, !rev_length in R. lia.
  Qed.
  (** All of them in a list. *)
  Definition agreeb (k : N * N) : bool :=
    (N.eqb (le_word t) ((total (fst k) ps mod p1305 + snd k) mod 2 ^ 128) && N.eqb (le_word t') ((total (fst k) ps' mod p1305 + snd k) mod 2 ^ 128))%N.
  Lemma agree_list : exists ks, (length ks <= 8 * Nat.max (length ps) (length ps'))%nat /\ forall k, agree k -> In k ks.
  Proof.
    set (bound := p1305). assert (Eb : bound = p1305) by reflexivity. clearbody bound.
    set (two := (2 ^ 128)%N). assert (Et : two = (2 ^ 128)%N) by reflexivity. clearbody two.
    set (all := list_prod (map N.of_nat (seq 0 (N.to_nat bound))) (map N.of_nat (seq 0 (N.to_nat two)))).
    assert (I : forall k, In k all <-> (fst k < bound)%N /\ (snd k < two)%N).
    { intros [r s]. unfold all. rewrite in_prod_iff. cbn [fst snd].
      assert (X : forall x b, In x (map N.of_nat (seq 0 (N.to_nat b))) <-> (x < b)%N).
      { intros x b. rewrite in_map_iff. split; [intros (n & <- & H); apply in_seq in H; lia|]. intros H. exists (N.to_nat x). split; [lia|]. apply in_seq. lia. }
      now rewrite !X. }
    exists (nodup (fun a b : N * N => ltac:(decide equality; apply N.eq_dec)) (filter agreeb all)). split.
    - apply agree_count; [apply NoDup_nodup|]. apply Forall_forall. intros k H. apply nodup_In, filter_In in H as [H B]. apply I in H as [H1 H2].
      unfold agreeb in B. apply andb_prop in B as [B1 B2]. apply N.eqb_eq in B1, B2. unfold agree. rewrite <- Eb, <- Et. rewrite Eb in *. rewrite Et in *. auto.
    - intros k (H1 & H2 & E1 & E2). apply nodup_In, filter_In. split; [apply I; subst; auto|]. unfold agreeb. rewrite <- E1, <- E2, !N.eqb_refl. reflexivity.
  Qed.
End Count.

(** * The text under the tag *)
Lemma pad_count n k : (k < 16)%nat -> (16 | N.of_nat (n + k)) -> k = ((16 - n mod 16) mod 16)%nat.
Proof.
  intros K [q E]. assert (E' : (n + k = N.to_nat q * 16)%nat) by lia. pose proof (Nat.div_mod n 16 ltac:(lia)) as D.
  pose proof (Nat.mod_upper_bound n 16 ltac:(lia)). set (m := (n mod 16)%nat) in *. set (d := (n / 16)%nat) in *. clearbody m d.
  destruct m as [|m].
  - change ((16 - 0) mod 16)%nat with 0%nat. lia.
  - rewrite Nat.mod_small by lia. lia.
Qed.
Lemma pad_divides n : (16 | N.of_nat (n + (16 - n mod 16) mod 16)).
Proof.
  pose proof (Nat.div_mod n 16 ltac:(lia)) as D. pose proof (Nat.mod_upper_bound n 16 ltac:(lia)).
  set (m := (n mod 16)%nat) in *. set (d := (n / 16)%nat) in *. clearbody m d. destruct m as [|m].
  - change ((16 - 0) mod 16)%nat with 0%nat. exists (N.of_nat d). lia.
  - rewrite Nat.mod_small by lia. exists (N.of_nat (S d)). lia.
Qed.
Lemma covered_iff c d : covered c d <-> d = mac_text c.
Proof.
  split.
  - intros (k & len & K & Dv & L & E & ->). apply pad_count in Dv; [|exact K]. subst k. unfold mac_text, pad16. rewrite <- !app_assoc. f_equal. f_equal.
    change (le_bytes 8 0) with (repeat x00 8). f_equal. apply le_word_eq; [now rewrite le_bytes_length|]. rewrite E, word_mod. reflexivity.
  - intros ->. exists ((16 - length c mod 16) mod 16)%nat, (le_bytes 8 (N.of_nat (length c))).
    split; [apply Nat.mod_upper_bound; lia|]. split; [apply pad_divides|]. split; [apply le_bytes_length|]. split; [apply word_mod|].
    unfold mac_text, pad16. rewrite <- !app_assoc. reflexivity.
Qed.
Lemma mac_text_inj c c' : N.of_nat (length c) < 2 ^ 64 -> N.of_nat (length c') < 2 ^ 64 -> mac_text c = mac_text c' -> c = c'.
Proof.
  intros L L' E. unfold mac_text in E.
  assert (Q : length (pad16 c ++ le_bytes 8 0) = length (pad16 c' ++ le_bytes 8 0)).
  { apply (f_equal (@length byte)) in E. rewrite !app_length, !le_bytes_length in *. lia. }
  rewrite !app_assoc in E. apply app_eq_length in E as [E1 E2]; [|exact Q]. clear Q.
  apply (f_equal le_word) in E2. rewrite !word_mod in E2. change (256 ^ N.of_nat 8) with (2 ^ 64) in E2. rewrite !N.mod_small in E2 by assumption.
  apply app_inv_tail in E1. unfold pad16 in E1. apply app_eq_length in E1; [exact (proj1 E1)|lia].
Qed.
Lemma mac_text_blocks c : ((length (mac_text c) + 15) / 16 = S ((length c + 15) / 16))%nat.
Proof.
  unfold mac_text, pad16. rewrite !app_length, !le_bytes_length, repeat_length. destruct (pad_divides (length c)) as [q E].
  pose proof (Nat.mod_upper_bound (16 - length c mod 16) 16 ltac:(lia)) as K. set (k := ((16 - length c mod 16) mod 16)%nat) in *. clearbody k.
  assert (E' : (length c + k = N.to_nat q * 16)%nat) by lia.
  replace (length c + k + (8 + 8) + 15)%nat with (15 + S (N.to_nat q) * 16)%nat by lia. rewrite Nat.div_add by lia. change (15 / 16)%nat with 0%nat.
  cbn [Nat.add]. f_equal. apply (Nat.div_unique (length c + 15) 16 (N.to_nat q) (15 - k)); lia.
Qed.
Lemma authentic_iff rs c t : authentic rs c t <-> t = poly1305 (fst rs) (snd rs) (mac_text c).
Proof.
  split; [intros (d & C & T); apply covered_iff in C; subst d; now apply tagged_iff|].
  intros ->. exists (mac_text c). split; [now apply covered_iff|now apply tagged_iff].
Qed.
Theorem authentic_one k c t t' : authentic k c t -> authentic k c t' -> t = t'.
Proof. rewrite !authentic_iff. congruence. Qed.

(** * ChaCha20 *)
Lemma set_nth_length i x (l : list N) : (i < length l)%nat -> length (set_nth i x l) = length l.
Proof. intros H. unfold set_nth. rewrite app_length. cbn [length]. rewrite firstn_length, skipn_length. lia. Qed.
Lemma quarter_at_length v i j k l : length v = 16%nat -> (i < 16 -> j < 16 -> k < 16 -> l < 16 -> length (quarter_at v i j k l) = 16)%nat.
Proof.
  intros L I J K M. unfold quarter_at. destruct (quarter _ _ _ _) as [[[a b] c] d].
  rewrite !set_nth_length; rewrite ?set_nth_length; rewrite ?set_nth_length; rewrite ?set_nth_length; lia.
Qed.
Lemma iter_length n v : length v = 16%nat -> length (Nat.iter n double_round v) = 16%nat.
Proof.
  intros L. induction n as [|n IH]; [exact L|]. change (Nat.iter (S n) double_round v) with (double_round (Nat.iter n double_round v)).
  set (w := Nat.iter n double_round v) in *. clearbody w. unfold double_round. repeat (apply quarter_at_length; [|lia..]). exact IH.
Qed.
Lemma rounds_length v : length v = 16%nat -> length (twenty_rounds v) = 16%nat.
Proof. exact (iter_length 10 v). Qed.
Lemma chunk_count {A} k f : (0 < k)%nat -> forall n (l : list A), length l = (n * k)%nat -> (length l <= f)%nat -> length (chunks_fuel f k l) = n.
Proof.
  intros K. induction f as [|f IH]; intros n l E L.
  - destruct l; [|cbn in L; lia]. cbn in E. destruct n; [reflexivity|nia].
  - destruct l as [|x l]; [cbn in E; destruct n; [reflexivity|nia]|]. set (w := x :: l) in *. change (chunks_fuel (S f) k w) with (firstn k w :: chunks_fuel f k (skipn k w)).
    assert (0 < length w)%nat by (cbn; lia). clearbody w. destruct n as [|n]; [cbn in E; lia|]. cbn [length]. f_equal. apply IH; rewrite skipn_length; nia.
Qed.
Lemma words_length n s : length s = (n * 4)%nat -> length (words s) = n.
Proof. intros E. unfold words. rewrite map_length. apply chunk_count; [lia|exact E|reflexivity]. Qed.
Lemma flat_words l : length (flat_map (le_bytes 4) l) = (4 * length l)%nat.
Proof. induction l as [|x l IH]; [reflexivity|]. cbn [flat_map length]. rewrite app_length, IH, le_bytes_length. lia. Qed.
Lemma block_length key ctr nonce : length key = 32%nat -> length nonce = 12%nat -> length (chacha_block key ctr nonce) = 64%nat.
Proof.
  intros K M. unfold chacha_block. set (st := chacha_constants ++ _).
  assert (L : length st = 16%nat). { unfold st. rewrite !app_length, (words_length 8 key K), (words_length 3 nonce M). reflexivity. }
  rewrite flat_words, map_length, combine_length, (rounds_length st L), L. reflexivity.
Qed.
Lemma subkey_length key nonce : length key = 32%nat -> length nonce = 24%nat -> length (subkey key nonce) = 32%nat.
Proof.
  intros K M. unfold subkey, hchacha. rewrite flat_words, app_length, firstn_length, skipn_length, rounds_length; [reflexivity|].
  rewrite !app_length, (words_length 8 key K), (words_length 4); [reflexivity|]. rewrite firstn_length, M. reflexivity.
Qed.
Lemma subnonce_length nonce : length nonce = 24%nat -> length (subnonce nonce) = 12%nat.
Proof. intros M. unfold subnonce. rewrite app_length, repeat_length, skipn_length, M. reflexivity. Qed.
Lemma lxor_byte x y : N.lxor (Byte.to_N x) (Byte.to_N y) < 256.
Proof.
  pose proof (Byte.to_N_bounded x). pose proof (Byte.to_N_bounded y). set (a := Byte.to_N x) in *. set (b := Byte.to_N y) in *. clearbody a b.
  assert (Z : N.shiftr (N.lxor a b) 8 = 0).
  { rewrite N.shiftr_lxor, !N.shiftr_div_pow2. change (2 ^ 8) with 256. rewrite !N.div_small by lia. reflexivity. }
  rewrite N.shiftr_div_pow2 in Z. change (2 ^ 8) with 256 in Z. apply N.div_small_iff in Z; lia.
Qed.
Definition bxor (x y : byte) : byte := byte_of_N (N.lxor (Byte.to_N x) (Byte.to_N y)).
Lemma bxor_N x y : Byte.to_N (bxor x y) = N.lxor (Byte.to_N x) (Byte.to_N y).
Proof. apply to_N_byte_of_N, lxor_byte. Qed.
Lemma xor_bytes_nth a : forall b i x, (length a <= length b)%nat -> nth_error a i = Some x -> nth_error (xor_bytes a b) i = Some (bxor x (nth i b x00)).
Proof.
  induction a as [|c a IH]; intros b i x L E; [destruct i; discriminate E|]. destruct b as [|d b]; [cbn in L; lia|].
  destruct i as [|i]; [injection E as ->; reflexivity|]. cbn [nth_error] in E. cbn [length] in L. unfold xor_bytes in *. cbn [combine map nth_error nth]. apply IH; [lia|exact E].
Qed.
Lemma xor_bytes_length a b : (length a <= length b)%nat -> length (xor_bytes a b) = length a.
Proof. intros L. unfold xor_bytes. rewrite map_length, combine_length. lia. Qed.
Lemma nth_error_skip {A} k : forall i (l : list A), nth_error (skipn k l) i = nth_error l (k + i).
Proof. induction k as [|k IH]; intros i l; [reflexivity|]. destruct l as [|x l]; [now destruct i|]. exact (IH i l). Qed.
Lemma nth_error_first {A} k : forall i (l : list A), (i < k)%nat -> nth_error (firstn k l) i = nth_error l i.
Proof.
  induction k as [|k IH]; intros i l L; [lia|]. destruct l as [|x l]; [reflexivity|]. destruct i as [|i]; [reflexivity|]. cbn [firstn nth_error]. apply IH. lia.
Qed.
Lemma some_inj {A} (a b : A) : Some a = Some b -> a = b.
Proof. now intros [= H]. Qed.
Section Stream.
  Variables key nonce : bytes.
  Hypothesis BL : forall ctr, length (chacha_block key ctr nonce) = 64%nat.
  Lemma xor_blocks_facts : forall f m ctr, (length m <= f)%nat ->
    length (xor_blocks key ctr nonce (chunks_fuel f 64 m)) = length m /\
    forall i x, nth_error m i = Some x ->
      nth_error (xor_blocks key ctr nonce (chunks_fuel f 64 m)) i = Some (bxor x (nth (i mod 64) (chacha_block key (ctr + N.of_nat (i / 64)) nonce) x00)).
  Proof.
    induction f as [|f IH]; intros m ctr L.
    - destruct m; [|cbn in L; lia]. split; [reflexivity|]. intros [|i] x E; discriminate E.
    - destruct m as [|c m]; [split; [reflexivity|intros [|i] x E; discriminate E]|]. set (w := c :: m) in *.
      change (chunks_fuel (S f) 64 w) with (firstn 64 w :: chunks_fuel f 64 (skipn 64 w)). assert (0 < length w)%nat by (cbn; lia). clearbody w.
      cbn [xor_blocks]. destruct (IH (skipn 64 w) (ctr + 1) ltac:(rewrite skipn_length; lia)) as [I1 I2].
      assert (LX : length (xor_bytes (firstn 64 w) (chacha_block key ctr nonce)) = length (firstn 64 w)).
      { apply xor_bytes_length. rewrite BL, firstn_length. lia. }
      split.
      + rewrite app_length, I1, LX, firstn_length, skipn_length. lia.
      + intros i x E. assert (Li : (i < length w)%nat) by (apply nth_error_Some; rewrite E; discriminate).
        destruct (le_lt_dec 64 i) as [G|G].
        * rewrite nth_error_app2 by (rewrite LX, firstn_length; lia). rewrite LX, firstn_length. replace (Nat.min 64 (length w)) with 64%nat by lia.
          rewrite (I2 _ x); [|rewrite nth_error_skip, <- E; f_equal; lia].
          f_equal. f_equal. assert (Q : i = (i - 64 + 1 * 64)%nat) by lia. f_equal.
          -- rewrite Q at 2. symmetry. apply Nat.mod_add. lia.
          -- rewrite Q at 2. rewrite Nat.div_add by lia. f_equal. lia.
        * rewrite nth_error_app1 by (rewrite LX, firstn_length; lia). rewrite Nat.mod_small, Nat.div_small by lia. rewrite N.add_0_r.
          apply xor_bytes_nth; [rewrite BL, firstn_length; lia|]. rewrite <- E. now apply nth_error_first.
  Qed.
End Stream.
(** * One-time keys *)
Definition clamp_mask : N := 0x0ffffffc0ffffffc0ffffffc0fffffff.
Lemma clamp_bits i : N.testbit clamp_mask i = kept_bit i.
Proof.
  destruct (N.ltb_spec i 128) as [L|G].
  - assert (A : forallb (fun k => Bool.eqb (N.testbit clamp_mask (N.of_nat k)) (kept_bit (N.of_nat k))) (seq 0 128) = true) by (vm_compute; reflexivity).
    rewrite forallb_forall in A. rewrite <- (N2Nat.id i). apply Bool.eqb_prop, A, in_seq. lia.
  - unfold kept_bit. replace (i <? 128) with false by (symmetry; now apply N.ltb_ge). apply N.bits_above_log2. eapply N.lt_le_trans; [|exact G]. reflexivity.
Qed.
Lemma clamp_testbit x i : N.testbit (clamp x) i = kept_bit i && N.testbit x i.
Proof. unfold clamp. fold clamp_mask. rewrite N.land_spec, clamp_bits. apply Bool.andb_comm. Qed.
Lemma kept_small r : (forall i, N.testbit r i = true -> kept_bit i = true) -> r < 2 ^ 124.
Proof.
  intros H. assert (Z : N.shiftr r 124 = 0).
  { apply N.bits_inj_0. intros i. rewrite N.shiftr_spec'. destruct (N.testbit r (i + 124)) eqn:E; [|reflexivity]. apply H in E. rewrite <- clamp_bits in E.
    rewrite N.bits_above_log2 in E; [discriminate E|]. eapply N.lt_le_trans; [|apply N.le_add_l]. reflexivity. }
  rewrite N.shiftr_div_pow2 in Z. apply N.div_small_iff in Z; [exact Z|discriminate].
Qed.
Lemma onetime_from_iff key nonce rs : length key = 32%nat -> length nonce = 24%nat ->
  onetime_from key nonce rs <-> rs = onetime (subkey key nonce) (subnonce nonce).
Proof.
  intros K M. pose proof (block_length _ 0 _ (subkey_length _ _ K M) (subnonce_length _ M)) as L. unfold onetime_from, onetime.
  set (b := chacha_block _ _ _) in *. clearbody b. split.
  - intros (rb & sb & rest & -> & R & S & B & E). destruct rs as [r s]. cbn [fst snd] in *. 
    assert (F : firstn 16 (rb ++ sb ++ rest) = rb) by (rewrite firstn_app, R, Nat.sub_diag, firstn_O, app_nil_r, <- R; apply firstn_all).
    assert (G : firstn 16 (skipn 16 (rb ++ sb ++ rest)) = sb).
    { rewrite skipn_app, R, Nat.sub_diag, skipn_O, skipn_all2 by lia. cbn [app]. rewrite firstn_app, S, Nat.sub_diag, firstn_O, app_nil_r, <- S. apply firstn_all. }
    rewrite F, G. f_equal; [|exact E]. apply N.bits_inj. intros i. rewrite clamp_testbit. apply B.
  - intros ->. exists (firstn 16 b), (firstn 16 (skipn 16 b)), (skipn 16 (skipn 16 b)). rewrite !firstn_skipn. split; [reflexivity|].
    rewrite !firstn_length, skipn_length, L. split; [reflexivity|]. split; [reflexivity|]. split; [|reflexivity]. intros i. apply clamp_testbit.
Qed.
Lemma onetime_from_key key nonce rs : onetime_from key nonce rs -> onetime_key rs.
Proof.
  intros (rb & sb & rest & _ & _ & S & B & E). split.
  - intros i T. rewrite B in T. now apply andb_prop in T.
  - rewrite E. change (2 ^ 128) with (256 ^ N.of_nat 16). rewrite <- S. apply word_bound.
Qed.
Theorem authentic_few c t c' t' : c <> c' -> N.of_nat (length c) < 2 ^ 64 -> N.of_nat (length c') < 2 ^ 64 ->
  exists ks, (length ks <= 8 * Nat.max (text_blocks c) (text_blocks c'))%nat /\
    forall k, onetime_key k -> authentic k c t -> authentic k c' t' -> In k ks.
Proof.
  intros N L L'. pose proof (pieces_chunks (mac_text c)) as P. pose proof (pieces_chunks (mac_text c')) as P'.
  assert (NE : chunks 16 (mac_text c) <> chunks 16 (mac_text c')).
  { intros E. rewrite E in P. apply N. apply mac_text_inj; [exact L|exact L'|]. exact (pieces_inj _ _ P _ P'). }
  destruct (agree_list t t' _ _ (pieces_sizes _ _ P) (pieces_sizes _ _ P') NE) as (ks & B & H). exists ks. split.
  - rewrite (pieces_count _ _ P), (pieces_count _ _ P'), !mac_text_blocks in B. exact B.
  - intros k [R S] (d & C & T) (d' & C' & T'). apply covered_iff in C, C'. subst d d'. apply H.
    destruct T as (ps & Q & _ & E), T' as (ps' & Q' & _ & E'). rewrite (pieces_one _ _ Q _ P) in E. rewrite (pieces_one _ _ Q' _ P') in E'.
    rewrite p1305_eq in E, E'. split; [|split; [exact S|split; [exact E|exact E']]]. etransitivity; [exact (kept_small _ R)|]. etransitivity; [|exact (proj1 p1305_bounds)]. reflexivity.
Qed.
Section Sealing.
  Variables key nonce : bytes.
  Hypothesis LK : length key = 32%nat.
  Hypothesis LN : length nonce = 24%nat.
  Notation cipher := (chacha20 (subkey key nonce) 1 (subnonce nonce)).
  Lemma cipher_ciphered m : ciphered key nonce m (cipher m).
  Proof.
    assert (BL : forall ctr, length (chacha_block (subkey key nonce) ctr (subnonce nonce)) = 64%nat) by (intros; apply block_length; [now apply subkey_length|now apply subnonce_length]).
    destruct (xor_blocks_facts _ _ BL (length m) m 1 (le_n _)) as [F1 F2]. split; [exact F1|]. intros i x y X Y. unfold chacha20, chunks in Y.
    rewrite (F2 i x X) in Y. apply some_inj in Y. subst y. exact (bxor_N _ _).
  Qed.
  Lemma ciphered_one m c c' : ciphered key nonce m c -> ciphered key nonce m c' -> c = c'.
  Proof.
    intros [L H] [L' H']. assert (E : forall i, nth_error c i = nth_error c' i).
    { intros i. destruct (nth_error m i) as [x|] eqn:Em.
      - assert (Li : (i < length m)%nat) by (apply nth_error_Some; rewrite Em; discriminate).
        destruct (nth_error c i) as [y|] eqn:Ec; [|apply nth_error_None in Ec; lia]. destruct (nth_error c' i) as [z|] eqn:Ez; [|apply nth_error_None in Ez; lia].
        f_equal. apply to_N_inj. rewrite (H i x y Em Ec), (H' i x z Em Ez). reflexivity.
      - apply nth_error_None in Em. transitivity (@None byte); [|symmetry]; apply nth_error_None; lia. }
    clear - E L L'. revert c' L' E. generalize (length m) L. clear. intros n L. revert c L. induction n as [|n IH]; intros [|y c] L [|z c'] L' E; try discriminate; [reflexivity|].
    pose proof (E 0%nat) as E0. injection E0 as ->. f_equal. injection L as L. injection L' as L'. apply (IH c L c' L'). intros i. exact (E (S i)).
  Qed.
  Lemma ciphered_back m c : ciphered key nonce m c <-> ciphered key nonce c m.
  Proof.
    assert (X : forall a b, ciphered key nonce a b -> ciphered key nonce b a).
    { intros a b [L H]. split; [congruence|]. intros i x y X Y. rewrite (H i y x Y X), N.lxor_assoc, N.lxor_nilpotent, N.lxor_0_r. reflexivity. }
    split; apply X.
  Qed.
  Lemma sealed_iff m z : sealed key nonce m z <-> z = xchacha_seal key nonce m.
  Proof.
    unfold xchacha_seal, mac. destruct (onetime (subkey key nonce) (subnonce nonce)) as [r s] eqn:O. split.
    - intros (c & t & rs & -> & C & T & A). apply onetime_from_iff in T; [|assumption..]. rewrite O in T. subst rs. apply authentic_iff in A. cbn [fst snd] in A. pose proof (ciphered_one _ _ _ C (cipher_ciphered m)) as <-. now subst t.
    - intros ->. exists (cipher m), (poly1305 r s (mac_text (cipher m))), (r, s). split; [reflexivity|]. split; [apply cipher_ciphered|].
      split; [apply onetime_from_iff; [assumption..|now rewrite O]|]. now apply authentic_iff.
  Qed.
  Lemma mac_length c : length (mac (subkey key nonce) (subnonce nonce) c) = 16%nat.
  Proof. unfold mac. destruct (onetime _ _) as [r s]. apply le_bytes_length. Qed.
  Theorem open_iff z m : xchacha_open key nonce z = Some m <-> sealed key nonce m z.
  Proof.
    rewrite sealed_iff. unfold xchacha_open, xchacha_seal. split.
    - destruct (Nat.ltb (length z) 16) eqn:L; [discriminate|]. apply Nat.ltb_ge in L. set (c := firstn (length z - 16) z).
      destruct (bytes_eqb _ _) eqn:E; [|discriminate]. apply bytes_eqb_eq in E. intros [= <-].
      rewrite <- (ciphered_one _ _ _ (proj1 (ciphered_back _ _) (cipher_ciphered c)) (cipher_ciphered (cipher c))). rewrite <- E. symmetry. apply firstn_skipn.
    - intros ->. cbv zeta. set (c := cipher m). pose proof (mac_length c) as L. rewrite app_length, L.
      replace (Nat.ltb (length c + 16) 16) with false by (symmetry; apply Nat.ltb_ge; lia). replace (length c + 16 - 16)%nat with (length c) by lia.
      rewrite firstn_app, firstn_all, Nat.sub_diag, firstn_O, app_nil_r. rewrite skipn_app, skipn_all, Nat.sub_diag, skipn_O. cbn [app].
      rewrite bytes_eqb_refl. f_equal. exact (ciphered_one _ _ _ (cipher_ciphered c) (proj1 (ciphered_back _ _) (cipher_ciphered m))).
  Qed.
  Theorem sealed_exists m : exists z, sealed key nonce m z.
  Proof. eexists. apply sealed_iff. reflexivity. Qed.
  Theorem sealed_one m z z' : sealed key nonce m z -> sealed key nonce m z' -> z = z'.
  Proof. rewrite !sealed_iff. congruence. Qed.
  Theorem sealed_inj m m' z : sealed key nonce m z -> sealed key nonce m' z -> m = m'.
  Proof. rewrite <- !open_iff. congruence. Qed.
End Sealing.
