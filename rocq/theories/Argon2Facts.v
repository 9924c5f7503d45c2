(** The memory of Argon2 always holds the latest blocks of the recurrence. *)
From Coq Require Import Arith Lia.
From Verif Require Import Base Hash HashFacts AeadFacts DigestFacts Deps Argon2 Argon2Spec.
Require Import ZifyBool ZifyNat ZifyN.
Local Open Scope nat_scope.

Lemma filter_none (p : nat -> bool) n : forall a, (forall u, a <= u < a + n -> p u = false)%nat -> filter p (seq a n) = [].
Proof. induction n as [|n IH]; intros a H; cbn [seq filter]; [reflexivity|]. rewrite (H a) by lia. apply IH. intros u Hu. apply H. lia. Qed.
Lemma filter_all (p : nat -> bool) n : forall a, (forall u, a <= u < a + n -> p u = true)%nat -> filter p (seq a n) = seq a n.
Proof. induction n as [|n IH]; intros a H; cbn [seq filter]; [reflexivity|]. rewrite (H a) by lia. f_equal. apply IH. intros u Hu. apply H. lia. Qed.
Lemma filter_range (p : nat -> bool) n lo hi : (hi <= n)%nat -> (forall u, (u < n)%nat -> p u = (lo <=? u)%nat && (u <? hi)%nat) -> filter p (seq 0 n) = seq lo (hi - lo).
Proof.
  intros H P. destruct (Nat.le_gt_cases hi lo) as [L|L].
  - replace (hi - lo)%nat with 0%nat by lia. apply filter_none. intros u Hu. rewrite P by lia. lia.
  - replace n with (lo + ((hi - lo) + (n - hi)))%nat by lia. rewrite !seq_app, !filter_app, filter_none, filter_all, filter_none.
    + rewrite app_nil_r. reflexivity.
    + intros u Hu. rewrite P by lia. lia.
    + intros u Hu. rewrite P by lia. lia.
    + intros u Hu. rewrite P by lia. lia.
Qed.

Section Refine.
  Variables (g : block -> block -> block) (lanes seg passes : nat) (first : nat -> nat -> block).
  Hypotheses (L1 : (1 <= lanes)%nat) (S2 : (2 <= seg)%nat).
  Notation q := (4 * seg)%nat.
  Notation filled := (filled g lanes seg passes first).

  (** ** The recurrence has a solution *)
  Definition next (f : nat -> nat -> block) (lane n : nat) : block :=
    if Nat.ltb n 2 then first lane n
    else let new := g (f lane (n - 1)%nat) (f (its_lane g lanes seg passes f lane n) (chosen g lanes seg passes f lane n)) in
      if Nat.ltb n q then new else zip_xor (f lane (n - q)%nat) new.
  Lemma nth_choice l n i : (0 < n)%nat -> (forall u, In u l -> (u < n)%nat) -> (nth i l 0 < n)%nat.
  Proof. intros P H. destruct (Nat.lt_ge_cases i (length l)) as [L|L]; [apply H, nth_In, L|rewrite nth_overflow by exact L; exact P]. Qed.
  Lemma chosen_lt f lane n : (0 < n)%nat -> (chosen g lanes seg passes f lane n < n)%nat.
  Proof. intros P. unfold chosen. apply nth_choice; [exact P|]. intros u I. apply filter_In in I as [I _]. apply in_seq in I. lia. Qed.
  Lemma next_ext f f' lane n : (forall l u, (u < n)%nat -> f l u = f' l u) -> next f lane n = next f' lane n.
  Proof.
    intros E. unfold next. destruct (Nat.ltb_spec n 2) as [H|H]; [reflexivity|].
    assert (R : random g lanes seg passes f lane n = random g lanes seg passes f' lane n) by (unfold random; rewrite (E lane (n - 1)%nat) by lia; reflexivity).
    assert (I : its_lane g lanes seg passes f lane n = its_lane g lanes seg passes f' lane n) by (unfold its_lane; rewrite R; reflexivity).
    assert (C : chosen g lanes seg passes f lane n = chosen g lanes seg passes f' lane n) by (unfold chosen, choices; rewrite R, I; reflexivity).
    rewrite I, C, (E lane (n - 1)%nat), (E lane (n - q)%nat), (E _ (chosen g lanes seg passes f' lane n)); [reflexivity|apply chosen_lt; lia|lia|lia].
  Qed.
  Fixpoint table (n : nat) : nat -> nat -> block :=
    match n with O => fun _ _ => [] | S n' => fun l u => if Nat.eqb u n' then next (table n') l n' else table n' l u end.
  Definition solution (l u : nat) : block := table (S u) l u.
  Lemma table_solution n : forall l u, (u < n)%nat -> table n l u = solution l u.
  Proof.
    induction n as [|n IH]; intros l u H; [lia|]. unfold solution. cbn [table]. rewrite Nat.eqb_refl. destruct (Nat.eqb_spec u n) as [->|N]; [reflexivity|].
    rewrite IH by lia. unfold solution. cbn [table]. rewrite Nat.eqb_refl. reflexivity.
  Qed.
  Theorem solution_filled : filled solution.
  Proof.
    intros lane n _ _. unfold solution at 1. cbn [table]. rewrite Nat.eqb_refl. etransitivity; [|reflexivity].
    exact (next_ext _ _ lane n (fun l u H => table_solution n l u H)).
  Qed.

  (** ** What the memory holds *)
  Variable blocks : nat -> nat -> block.
  Hypothesis F : filled blocks.
  Definition holds (m : nat -> block) (made : nat -> nat) : Prop := forall l u, (l < lanes)%nat -> (u < made l)%nat -> (made l <= u + q)%nat ->
    m (l * q + u mod q)%nat = blocks l u.
  Lemma mod_pos pass x : (x < q)%nat -> ((pass * q + x) mod q = x)%nat.
  Proof. intros H. rewrite Nat.add_comm, Nat.mod_add by lia. apply Nat.mod_small. exact H. Qed.
  Lemma cell_eq l x l' x' : (x < q)%nat -> (x' < q)%nat -> (l * q + x = l' * q + x')%nat -> l = l' /\ x = x'.
  Proof. intros H H' E. assert (l = l') by nia. subst l'. split; [reflexivity|lia]. Qed.
  Lemma mod_q u : (u mod q < q)%nat.
  Proof. apply Nat.mod_upper_bound. lia. Qed.
  Lemma same_cell u u' : (u mod q = u' mod q)%nat -> (u < u')%nat -> (u' < u + q)%nat -> False.
  Proof.
    intros E H H'. pose proof (Nat.div_mod u q ltac:(lia)) as D. pose proof (Nat.div_mod u' q ltac:(lia)) as D'. rewrite E in D.
    revert D D'. generalize (u / q)%nat (u' / q)%nat (u' mod q)%nat. intros a b c D D'. destruct (Nat.le_gt_cases b a); nia.
  Qed.
  Lemma holds_write m made lane b : (lane < lanes)%nat -> holds m made -> b = blocks lane (made lane) ->
    holds (write m (lane * q + made lane mod q) b) (fun l => if Nat.eqb l lane then S (made lane) else made l).
  Proof.
    intros Hl H -> l u Hu. unfold write. destruct (Nat.eqb_spec l lane) as [->|N]; intros H1 H2.
    - destruct (Nat.eqb_spec (lane * q + u mod q) (lane * q + made lane mod q)) as [E|E].
      + destruct (Nat.eq_dec u (made lane)) as [->|N]; [reflexivity|]. exfalso. apply (same_cell u (made lane)); lia.
      + apply H; [exact Hl| |lia]. destruct (Nat.eq_dec u (made lane)) as [->|N]; [congruence|lia].
    - destruct (Nat.eqb_spec (l * q + u mod q) (lane * q + made lane mod q)) as [E|E]; [|exact (H l u Hu H1 H2)].
      apply cell_eq in E; [tauto|apply mod_q|apply mod_q].
  Qed.
  Lemma holds_ext m made made' : (forall l, (l < lanes)%nat -> made l = made' l) -> holds m made -> holds m made'.
  Proof. intros E H l u Hl. rewrite <- (E l Hl). exact (H l u Hl). Qed.

  Definition begun (s0 : nat) : nat := if Nat.eqb s0 0 then 2%nat else s0.
  (** In the segment from [s0] on, lanes before [lane] are ready, this one has [t] blocks. *)
  Definition made_in (s0 lane t l : nat) : nat := if Nat.ltb l lane then (s0 + seg)%nat else if Nat.eqb l lane then t else begun s0.
  Definition address_block (lane slice c : nat) : block := g no_block (g no_block (address_input lanes seg passes 0 lane slice c)).
  Definition addressed (pass slice lane blk : nat) (st : state) : Prop :=
    Nat.eqb pass 0 && Nat.ltb slice 2 = true -> counter st = ((blk + 127) / 128)%nat /\ ((blk mod 128 <> 0)%nat -> addresses st = address_block lane slice (counter st)).
  Lemma counted blk : ((blk + 127) / 128 = if Nat.eqb (blk mod 128) 0 then blk / 128 else S (blk / 128))%nat.
  Proof.
    pose proof (Nat.div_mod blk 128 ltac:(lia)) as E. pose proof (Nat.mod_upper_bound blk 128 ltac:(lia)) as U. destruct (Nat.eqb_spec (blk mod 128) 0) as [Z|Z].
    - symmetry. apply (Nat.div_unique _ _ _ 127); lia.
    - symmetry. apply (Nat.div_unique _ _ _ (blk mod 128 - 1)%nat); lia.
  Qed.
  Lemma counted_next blk : ((S blk + 127) / 128 = S (blk / 128))%nat.
  Proof. replace (S blk + 127)%nat with (blk + 1 * 128)%nat by lia. rewrite Nat.div_add by lia. lia. Qed.

  Section Step.
    Variables (pass slice lane blk : nat).
    Hypotheses (Hp : (pass < passes)%nat) (Hs : (slice < 4)%nat) (Hl : (lane < lanes)%nat) (Hb : (blk < seg)%nat) (Hf : (pass = 0 -> slice = 0 -> 2 <= blk)%nat).
    Let s0 := (pass * q + slice * seg)%nat.
    Let n := (s0 + blk)%nat.
    Lemma seg_div : (n / seg = 4 * pass + slice)%nat.
    Proof. symmetry. apply (Nat.div_unique _ _ _ blk); [lia|]. unfold n, s0. nia. Qed.
    Lemma seg_start : (n / seg * seg = s0)%nat.
    Proof. rewrite seg_div. unfold s0. nia. Qed.
    Lemma seg_mod : (n mod seg = blk)%nat.
    Proof. symmetry. apply (Nat.mod_unique _ _ (4 * pass + slice)); [lia|]. unfold n, s0. nia. Qed.
    Lemma n_two : (2 <= n)%nat.
    Proof. unfold n, s0. destruct pass as [|r]; [|nia]. destruct slice as [|x]; [specialize (Hf eq_refl eq_refl); lia|nia]. Qed.
    Lemma n_end : (n < passes * q)%nat.
    Proof. unfold n, s0. nia. Qed.
    Lemma n_mod : (n mod q = slice * seg + blk)%nat.
    Proof. unfold n, s0. rewrite <- Nat.add_assoc. apply mod_pos. nia. Qed.
    Lemma early : Nat.ltb n (2 * seg) = Nat.eqb pass 0 && Nat.ltb slice 2.
    Proof.
      unfold n, s0. destruct pass as [|r]; cbn [Nat.eqb andb]; [|apply Nat.ltb_ge; nia]. destruct (Nat.ltb_spec slice 2); [apply Nat.ltb_lt; nia|apply Nat.ltb_ge; nia].
    Qed.
    Lemma earliest : Nat.ltb n seg = Nat.eqb pass 0 && Nat.eqb slice 0.
    Proof.
      unfold n, s0. destruct pass as [|r]; cbn [Nat.eqb andb]; [|apply Nat.ltb_ge; nia]. destruct (Nat.eqb_spec slice 0); [apply Nat.ltb_lt; nia|apply Nat.ltb_ge; nia].
    Qed.
    Definition area (other : nat) : nat :=
        if Nat.eqb pass 0 then
          if Nat.eqb slice 0 then (blk - 1)%nat
          else if Nat.eqb other lane then (slice * seg + blk - 1)%nat
          else (slice * seg - if Nat.eqb blk 0 then 1 else 0)%nat
        else if Nat.eqb other lane then (lane_length seg - seg + blk - 1)%nat
        else (lane_length seg - seg - if Nat.eqb blk 0 then 1 else 0)%nat.
    Let other := its_lane g lanes seg passes blocks lane n.
    Lemma own_first : Nat.eqb pass 0 && Nat.eqb slice 0 = true -> other = lane.
    Proof. intros E. unfold other, its_lane. rewrite earliest, E. reflexivity. Qed.
    Lemma other_lt : (other < lanes)%nat.
    Proof.
      unfold other, its_lane. destruct (Nat.ltb n seg); [exact Hl|]. pose proof (N.mod_upper_bound (random g lanes seg passes blocks lane n / 2 ^ 32) (N.of_nat lanes) ltac:(lia)). lia.
    Qed.
    Lemma choices_seq : choices g lanes seg passes blocks lane n = seq (s0 - 3 * seg) (area other).
    Proof.
      unfold choices. fold other. pose proof own_first as O. pose proof n_two as T. destruct (Nat.eqb_spec other lane) as [E|E].
      - rewrite (filter_range _ n (s0 - 3 * seg) (n - 1)).
        + f_equal. unfold area. rewrite (proj2 (Nat.eqb_eq _ _) E). unfold n, s0, lane_length in *. destruct pass as [|r]; cbn [Nat.eqb]; [destruct slice as [|[|[|[|x]]]]; cbn [Nat.eqb]; lia|nia].
        + lia.
        + intros u Hu. unfold may_refer. rewrite seg_start, (proj2 (Nat.eqb_eq _ _) E). lia.
      - assert (Z : (0 < s0)%nat). { destruct (Nat.eq_dec s0 0) as [Z|Z]; [|lia]. exfalso. apply E, O. unfold s0 in Z. destruct pass, slice; cbn; try reflexivity; nia. }
        rewrite (filter_range _ n (s0 - 3 * seg) (s0 - if Nat.eqb blk 0 then 1 else 0)).
        + f_equal. unfold area. rewrite (proj2 (Nat.eqb_neq _ _) E). unfold n, s0, lane_length in *. destruct pass as [|r]; cbn [Nat.eqb]; [destruct slice as [|[|[|[|x]]]]; cbn [Nat.eqb]; lia|].
          destruct (Nat.eqb blk 0); nia.
        + unfold n. lia.
        + intros u Hu. unfold may_refer. rewrite seg_start, (proj2 (Nat.eqb_neq _ _) E). unfold n in *. destruct (Nat.eqb_spec blk 0) as [->|Nb]; [rewrite Nat.add_0_r, Nat.eqb_refl|rewrite (proj2 (Nat.eqb_neq (s0 + blk) s0)) by lia]; cbn [andb negb]; lia.
    Qed.
    Lemma area_pos : (1 <= area other)%nat.
    Proof.
      pose proof own_first as O. unfold area, lane_length. destruct pass as [|r]; cbn [Nat.eqb] in *.
      - destruct slice as [|x]; cbn [Nat.eqb andb] in *; [specialize (Hf eq_refl eq_refl); lia|]. destruct (Nat.eqb other lane), (Nat.eqb blk 0); nia.
      - destruct (Nat.eqb other lane), (Nat.eqb blk 0); nia.
    Qed.
    Definition start : nat := if negb (Nat.eqb pass 0) && negb (Nat.eqb slice 3) then ((slice + 1) * seg)%nat else 0%nat.
    Lemma start_mod x : ((start + x) mod q = (s0 - 3 * seg + x) mod q)%nat.
    Proof.
      unfold start, s0. destruct pass as [|r]; cbn [Nat.eqb negb andb].
      - f_equal. destruct slice as [|[|[|[|y]]]]; lia.
      - destruct (Nat.eqb_spec slice 3) as [->|N]; cbn [negb andb].
        + replace (S r * q + 3 * seg - 3 * seg + x)%nat with (x + S r * q)%nat by lia. rewrite Nat.mod_add by lia. reflexivity.
        + replace (S r * q + slice * seg - 3 * seg + x)%nat with ((slice + 1) * seg + x + r * q)%nat by nia. rewrite Nat.mod_add by lia. reflexivity.
    Qed.
    Definition relative (rand : N) : nat :=
      (area other - 1 - N.to_nat (N.shiftr (N.of_nat (area other) * N.shiftr (N.land rand 0xFFFFFFFF * N.land rand 0xFFFFFFFF) 32) 32))%nat.
    Lemma chosen_eq : chosen g lanes seg passes blocks lane n = (s0 - 3 * seg + relative (random g lanes seg passes blocks lane n))%nat.
    Proof.
      unfold chosen. rewrite choices_seq, seq_length. set (r := random g lanes seg passes blocks lane n). pose proof area_pos as A. unfold relative.
      change 0xFFFFFFFF%N with (N.ones 32). rewrite !N.land_ones, !N.shiftr_div_pow2. rewrite N.pow_2_r. set (x := (_ * _ / 2 ^ 32)%N).
      rewrite seq_nth; [f_equal; lia|lia].
    Qed.
    Lemma chosen_range : (s0 <= chosen g lanes seg passes blocks lane n + 3 * seg)%nat /\
      (if Nat.eqb other lane then S (chosen g lanes seg passes blocks lane n) < n else chosen g lanes seg passes blocks lane n < s0)%nat.
    Proof.
      assert (I : In (chosen g lanes seg passes blocks lane n) (choices g lanes seg passes blocks lane n)).
      { unfold chosen. apply nth_In. rewrite choices_seq, seq_length. pose proof area_pos. lia. }
      apply filter_In in I as [_ I]. fold other in I. unfold may_refer in I. rewrite seg_start in I. destruct (Nat.eqb other lane); lia.
    Qed.
  End Step.

  Lemma fill_blocks_holds k : forall pass slice lane blk st, (pass < passes)%nat -> (slice < 4)%nat -> (lane < lanes)%nat -> (blk + k = seg)%nat ->
    (pass = 0 -> slice = 0 -> 2 <= blk)%nat ->
    let s0 := (pass * q + slice * seg)%nat in
    addressed pass slice lane blk st -> holds (memory st) (made_in s0 lane (s0 + blk)) ->
    holds (memory (fill_blocks g lanes seg passes k pass slice lane blk (lane * q + slice * seg + blk) (lane * q + (s0 + blk - 1) mod q) st)) (made_in s0 lane (s0 + seg)).
  Proof.
    induction k as [|k IH]; intros pass slice lane blk st Hp Hs Hl Hb Hf s0 A H.
    - cbn [fill_blocks]. replace (s0 + seg)%nat with (s0 + blk)%nat by lia. exact H.
    - assert (Hk : (blk < seg)%nat) by lia. pose proof (n_mod pass slice lane blk Hp Hs Hl Hk Hf) as Nm. pose proof (n_two pass slice lane blk Hp Hs Hl Hk Hf) as N2. pose proof (n_end pass slice lane blk Hp Hs Hl Hk Hf) as Ne.
      pose proof (F lane (s0 + blk) Hl Ne) as E. fold s0 in Nm, N2, Ne.
      cbn [fill_blocks]. cbv zeta. set (st1 := if _ && Nat.eqb (blk mod 128) 0 then _ else st).
      assert (M1 : memory st1 = memory st) by (unfold st1; destruct (_ && _); reflexivity).
      assert (A1 : Nat.eqb pass 0 && Nat.ltb slice 2 = true -> counter st1 = S (blk / 128) /\ addresses st1 = address_block lane slice (S (blk / 128))).
      { intros I. destruct (A I) as [A2 A3]. unfold st1. rewrite I. cbn [andb]. rewrite counted in A2. destruct (Nat.eqb_spec (blk mod 128) 0) as [Z|Z].
        - cbn [update_address_block counter addresses]. rewrite A2. split; [reflexivity|]. apply andb_true_iff in I as [I _]. apply Nat.eqb_eq in I. subst pass. reflexivity.
        - rewrite A2. split; [reflexivity|]. rewrite <- A2. exact (A3 Z). }
      rewrite M1. set (rand := if _ && _ then nth (blk mod 128) (addresses st1) 0%N else nth 0 (memory st _) 0%N).
      assert (P : memory st (lane * q + (s0 + blk - 1) mod q)%nat = blocks lane (s0 + blk - 1)).
      { apply H; [exact Hl| |]; unfold made_in; rewrite Nat.ltb_irrefl, Nat.eqb_refl; lia. }
      assert (R : rand = random g lanes seg passes blocks lane (s0 + blk)).
      { unfold rand, random. unfold s0. rewrite (early pass slice lane blk Hp Hs Hl Hk Hf), (seg_div pass slice lane blk Hp Hs Hl Hk Hf), (seg_mod pass slice lane blk Hp Hs Hl Hk Hf). fold s0. destruct (Nat.eqb pass 0 && Nat.ltb slice 2) eqn:I.
        - destruct (A1 eq_refl) as [_ ->]. apply andb_true_iff in I as [I _]. apply Nat.eqb_eq in I. subst pass. reflexivity.
        - rewrite P. reflexivity. }
      set (ref := if Nat.eqb pass 0 && Nat.eqb slice 0 then lane else _).
      assert (O : ref = its_lane g lanes seg passes blocks lane (s0 + blk)).
      { unfold ref, its_lane. unfold s0 at 1. rewrite (earliest pass slice lane blk Hp Hs Hl Hk Hf). rewrite N.shiftr_div_pow2, R. reflexivity. }
      clearbody rand ref. rewrite O, R. clear ref O rand R. set (o := its_lane _ _ _ _ _ _ _).
      change (if Nat.eqb pass 0 then if Nat.eqb slice 0 then (blk - 1)%nat else if Nat.eqb o lane then (slice * seg + blk - 1)%nat else (slice * seg - (if Nat.eqb blk 0 then 1 else 0))%nat
        else if Nat.eqb o lane then (lane_length seg - seg + blk - 1)%nat else (lane_length seg - seg - (if Nat.eqb blk 0 then 1 else 0))%nat) with (area pass slice lane blk o).
      change (if negb (Nat.eqb pass 0) && negb (Nat.eqb slice 3) then ((slice + 1) * seg)%nat else 0%nat) with (start pass slice).
      change (lane_length seg) with q.
      pose proof (start_mod pass slice lane blk Hp Hs Hl Hk Hf) as Sm. rewrite Sm. clear Sm. fold s0.
      pose proof (chosen_eq pass slice lane blk Hp Hs Hl Hk Hf) as Ce. unfold relative in Ce. fold s0 in Ce. fold o in Ce. rewrite <- Ce. clear Ce.
      destruct (chosen_range pass slice lane blk Hp Hs Hl Hk Hf) as [C1 C2]. fold s0 in C1, C2. fold o in C2. set (c := chosen _ _ _ _ _ _ _) in *.
      assert (Q : memory st (o * q + c mod q)%nat = blocks o c).
      { assert (Ol : (o < lanes)%nat) by exact (other_lt pass slice lane blk Hp Hs Hl Hk Hf). unfold made_in in H. apply H; [exact Ol| |]; destruct (Nat.eqb_spec o lane) as [Eo|Eo].
        - rewrite (proj2 (Nat.ltb_ge o lane)) by lia. lia.
        - destruct (Nat.ltb o lane); [lia|]. unfold begun. destruct (Nat.eqb_spec s0 0); lia.
        - rewrite (proj2 (Nat.ltb_ge o lane)) by lia. lia.
        - destruct (Nat.ltb o lane); [lia|]. unfold begun. destruct (Nat.eqb_spec s0 0); lia. }
      rewrite P, Q. set (b := if Nat.eqb pass 0 then _ else _).
      assert (Eb : b = blocks lane (s0 + blk)).
      { rewrite E. rewrite (proj2 (Nat.ltb_ge _ _) N2). cbv zeta. fold o. fold c. unfold b. destruct (Nat.eqb_spec pass 0) as [Z|Z].
        - rewrite (proj2 (Nat.ltb_lt (s0 + blk) q)); [reflexivity|]. unfold s0. subst pass. nia.
        - rewrite (proj2 (Nat.ltb_ge (s0 + blk) q)) by (unfold s0; nia). f_equal.
          assert (X : memory st (lane * q + (s0 + blk - q) mod q)%nat = blocks lane (s0 + blk - q)).
          { apply H; [exact Hl| |]; unfold made_in; rewrite Nat.ltb_irrefl, Nat.eqb_refl; unfold s0 in *; nia. }
          rewrite <- X. f_equal. rewrite <- Nat.add_assoc. f_equal. rewrite <- Nm. unfold s0. destruct pass as [|r]; [congruence|].
          replace (S r * q + slice * seg + blk)%nat with (S r * q + slice * seg + blk - q + 1 * q)%nat at 1 by nia. rewrite Nat.mod_add by lia. reflexivity. }
      assert (W := @holds_write (memory st) (made_in s0 lane (s0 + blk)) lane b Hl H).
      unfold made_in in W at 1 2 3 4. rewrite Nat.ltb_irrefl, Nat.eqb_refl in W. specialize (W Eb). rewrite Nm in W.
      specialize (IH pass slice lane (S blk) {| memory := write (memory st) (lane * q + slice * seg + blk) b; addresses := addresses st1; counter := counter st1 |} Hp Hs Hl ltac:(lia) ltac:(lia)).
      cbv zeta in IH. fold s0 in IH. cbn [memory] in IH.
      replace (S (lane * q + slice * seg + blk))%nat with (lane * q + slice * seg + S blk)%nat by lia.
      assert (Pv : lane * q + (s0 + S blk - 1) mod q = lane * q + slice * seg + blk) by (replace (s0 + S blk - 1) with (s0 + blk) by lia; rewrite Nm; lia).
      rewrite Pv in IH.
      apply IH.
      + intros I. cbn [counter addresses]. destruct (A1 I) as [A2 A3]. rewrite counted_next. split; [exact A2|]. intros _. rewrite A2. exact A3.
      + rewrite <- Nat.add_assoc. eapply holds_ext; [|exact W]. intros l Hl'. unfold made_in. destruct (Nat.eqb_spec l lane) as [->|N]; [rewrite Nat.ltb_irrefl; lia|reflexivity].
  Qed.
  Lemma fill_segment_holds pass slice lane m : (pass < passes)%nat -> (slice < 4)%nat -> (lane < lanes)%nat ->
    let s0 := (pass * q + slice * seg)%nat in
    holds m (fun l => if Nat.ltb l lane then (s0 + seg)%nat else begun s0) ->
    holds (fill_segment g lanes seg passes pass slice m lane) (fun l => if Nat.ltb l (S lane) then (s0 + seg)%nat else begun s0).
  Proof.
    intros Hp Hs Hl s0 H. unfold fill_segment. cbv zeta. set (b := Nat.eqb pass 0 && Nat.eqb slice 0). set (f := if b then 2%nat else 0%nat). set (st := if b then _ else _).
    assert (M : memory st = m) by (unfold st; destruct b; reflexivity).
    assert (Bg : begun s0 = (s0 + f)%nat).
    { unfold begun, f, b, s0. destruct pass as [|r]; [destruct slice as [|x]|]; cbn [Nat.eqb andb]; [reflexivity| |]; rewrite (proj2 (Nat.eqb_neq _ _)) by nia; lia. }
    assert (X := fill_blocks_holds (seg - f) pass slice lane f st Hp Hs Hl ltac:(unfold f; destruct b; lia)).
    cbv zeta in X. fold s0 in X. replace (if Nat.eqb slice 0 && Nat.eqb f 0 then _ else _) with (lane * q + (s0 + f - 1) mod q)%nat.
    - eapply holds_ext; [|apply X].
      + intros l Hl'. unfold made_in. destruct (Nat.ltb_spec l lane), (Nat.ltb_spec l (S lane)), (Nat.eqb_spec l lane); lia.
      + intros -> ->. unfold f, b. cbn. lia.
      + intros I. unfold st, f. destruct b eqn:Eb; unfold b in Eb.
        * cbn [update_address_block counter addresses]. split; [reflexivity|]. intros _. apply andb_true_iff in Eb as [E1 E2]. apply Nat.eqb_eq in E1, E2. rewrite E1, E2. reflexivity.
        * cbn [counter]. split; [reflexivity|]. intros Z. exfalso. apply Z. reflexivity.
      + rewrite M. eapply holds_ext; [|exact H]. intros l Hl'. unfold made_in. destruct (Nat.ltb_spec l lane); [reflexivity|]. destruct (Nat.eqb_spec l lane); [exact Bg|reflexivity].
    - change (lane_length seg) with q. destruct (Nat.eqb_spec slice 0) as [->|Ns]; [destruct (Nat.eqb_spec f 0) as [Ef|Ef]|]; cbn [andb].
      + destruct pass as [|r]; [discriminate Ef|]. replace (s0 + f - 1) with (r * q + (q - 1)) by (rewrite Ef; unfold s0; nia). rewrite mod_pos by lia. rewrite Ef. lia.
      + unfold f, b in Ef |- *. destruct pass as [|r]; [|cbn in Ef; lia]. unfold s0. cbn [Nat.eqb andb]. rewrite Nat.mod_small by lia. lia.
      + replace (s0 + f - 1)%nat with (pass * q + (slice * seg + f - 1))%nat by (unfold s0; nia). assert ((f = 0)%nat) by (unfold f, b; try rewrite (proj2 (Nat.eqb_neq slice 0)) by exact Ns; rewrite andb_false_r; reflexivity).
        rewrite mod_pos by nia. nia.
  Qed.
  Lemma fill_lanes_holds pass slice k m : (pass < passes)%nat -> (slice < 4)%nat -> (k <= lanes)%nat ->
    let s0 := (pass * q + slice * seg)%nat in holds m (fun _ => begun s0) ->
    holds (fold_left (fill_segment g lanes seg passes pass slice) (seq 0 k) m) (fun l => if Nat.ltb l k then (s0 + seg)%nat else begun s0).
  Proof.
    intros Hp Hs Hk s0 H. induction k as [|k IH].
    - eapply holds_ext; [|exact H]. reflexivity.
    - rewrite seq_S, fold_left_app. cbn [fold_left Nat.add]. apply fill_segment_holds; [exact Hp|exact Hs|lia|]. apply IH. lia.
  Qed.
  Lemma fill_slice_holds pass slice m : (pass < passes)%nat -> (slice < 4)%nat -> holds m (fun _ => begun (pass * q + slice * seg)) ->
    holds (fill_slice g lanes seg passes pass m slice) (fun _ => begun (pass * q + S slice * seg)).
  Proof.
    intros Hp Hs H. eapply holds_ext; [|exact (fill_lanes_holds pass slice lanes m Hp Hs (le_n _) H)]. intros l Hl. cbv beta zeta. rewrite (proj2 (Nat.ltb_lt l lanes) Hl).
    unfold begun. rewrite (proj2 (Nat.eqb_neq _ 0)) by nia. nia.
  Qed.
  Lemma fill_slices_holds pass k m : (pass < passes)%nat -> (k <= 4)%nat -> holds m (fun _ => begun (pass * q)) ->
    holds (fold_left (fill_slice g lanes seg passes pass) (seq 0 k) m) (fun _ => begun (pass * q + k * seg)).
  Proof.
    intros Hp Hk H. induction k as [|k IH].
    - eapply holds_ext; [|exact H]. intros l _. cbv beta. f_equal. lia.
    - rewrite seq_S, fold_left_app. cbn [fold_left Nat.add]. apply fill_slice_holds; [exact Hp|lia|]. apply IH. lia.
  Qed.
  Lemma fill_passes_holds k m : (k <= passes)%nat -> holds m (fun _ => 2%nat) -> holds (fold_left (fill_pass g lanes seg passes) (seq 0 k) m) (fun _ => begun (k * q)).
  Proof.
    intros Hk H. induction k as [|k IH]; [exact H|]. rewrite seq_S, fold_left_app. cbn [fold_left Nat.add]. unfold fill_pass at 1.
    eapply holds_ext; [|apply (fill_slices_holds k 4); [lia|lia|apply IH; lia]]. intros l _. cbv beta. f_equal. lia.
  Qed.
  Theorem fill_last m : (1 <= passes)%nat -> holds m (fun _ => 2%nat) -> last_blocks lanes seg (fill g lanes seg passes m) = final_block lanes seg passes blocks.
  Proof.
    intros P H. pose proof (fill_passes_holds passes m (le_n _) H) as X.
    assert (V : forall l, (l < lanes)%nat -> fill g lanes seg passes m (l * q + q - 1)%nat = blocks l (passes * q - 1)%nat).
    { intros l Hl. unfold fill. rewrite <- (X l (passes * q - 1)%nat Hl).
      - f_equal. replace (passes * q - 1)%nat with ((passes - 1) * q + (q - 1))%nat by nia. rewrite mod_pos by lia. lia.
      - unfold begun. destruct (Nat.eqb_spec (passes * q) 0); nia.
      - unfold begun. destruct (Nat.eqb_spec (passes * q) 0); nia. }
    unfold last_blocks, final_block. change (lane_length seg) with q. rewrite <- (V 0%nat) by lia. cbn [Nat.mul Nat.add].
    assert (Y : forall k a acc, (1 <= a)%nat -> (a + k <= lanes)%nat -> fold_left (fun b lane => zip_xor b (fill g lanes seg passes m (lane * q + q - 1)%nat)) (seq a k) acc =
      fold_left zip_xor (map (fun lane => blocks lane (passes * q - 1)%nat) (seq a k)) acc).
    { induction k as [|k IH]; intros a acc Ha Hk; [reflexivity|]. cbn [seq map fold_left]. rewrite V by lia. apply IH; lia. }
    apply Y; lia.
  Qed.
End Refine.

(** ** The beginning and the end *)
Lemma initial_cell h0 lanes q k : (2 <= q) -> (k <= lanes) -> forall l i, (l < k) -> (i < 2) ->
  fold_left (fun m lane => write (write m (lane * q) (first_block h0 lane 0)) (lane * q + 1) (first_block h0 lane 1)) (seq 0 k) (fun _ => no_block) (l * q + i) = first_block h0 l i.
Proof.
  intros Q. induction k as [|k IH]; intros K l i Hl Hi; [lia|]. rewrite seq_S, fold_left_app. cbn [fold_left Nat.add]. unfold write at 1 2.
  destruct (Nat.eqb_spec (l * q + i) (k * q + 1)) as [E|E].
  - assert (l = k) by nia. subst l. assert (i = 1) by lia. subst i. reflexivity.
  - destruct (Nat.eqb_spec (l * q + i) (k * q)) as [E'|E'].
    + assert (l = k) by nia. subst l. assert (i = 0) by lia. subst i. reflexivity.
    + apply IH; [lia| |exact Hi]. destruct (Nat.eq_dec l k) as [->|N]; [lia|lia].
Qed.
Lemma start_text lanes memory passes size pw salt : initial_hash lanes memory passes size pw salt = blake2b 64 (hashed_first lanes memory passes size pw salt).
Proof.
  unfold initial_hash, hashed_first. cbv zeta. cbn [flat_map]. rewrite app_nil_r, <- !app_assoc. reflexivity.
Qed.
Local Opaque blake2b blake2b_long block_bytes compress last_blocks fill solution.
Theorem argon2id_iff lanes memory passes size pw salt tag : (1 <= lanes -> 8 * lanes <= memory -> 1 <= passes ->
  argon2id lanes memory passes size pw salt tag <-> tag = argon2id_tag lanes memory passes size pw salt)%N.
Proof.
  intros L M P. assert (S2 : 2 <= N.to_nat (memory / (4 * lanes))).
  { assert (2 <= memory / (4 * lanes))%N by (apply N.div_le_lower_bound; lia). lia. }
  set (seg := N.to_nat (memory / (4 * lanes))) in *. set (p := N.to_nat lanes). assert (L1 : 1 <= p) by (unfold p; lia).
  set (h0 := blake2b 64 (hashed_first lanes memory passes size pw salt)).
  assert (X : forall blocks, filled compress p seg (N.to_nat passes) (first_block h0) blocks ->
    last_blocks p seg (fill compress p seg (N.to_nat passes) (initial_memory h0 p (4 * seg))) = final_block p seg (N.to_nat passes) blocks).
  { intros blocks F. apply (@fill_last compress p seg (N.to_nat passes) (first_block h0) L1 S2 blocks F); [lia|]. intros l u Hl Hu _. cbv beta in Hu.
    rewrite Nat.mod_small by lia. unfold initial_memory. rewrite (initial_cell h0 p) by lia. rewrite (F l u Hl) by nia. rewrite (proj2 (Nat.ltb_lt u 2) Hu). reflexivity. }
  unfold argon2id, argon2id_tag. cbv zeta. fold seg p h0. rewrite start_text. fold h0. split.
  - intros (blocks & F & ->). exact (f_equal (fun b => blake2b_long size (block_bytes b)) (eq_sym (X blocks F))).
  - intros ->. exists (solution compress p seg (N.to_nat passes) (first_block h0)).
    pose proof (solution_filled compress p seg (N.to_nat passes) (first_block h0) L1 S2) as F.
    exact (conj F (f_equal (fun b => blake2b_long size (block_bytes b)) (X _ F))).
Qed.

Local Transparent blake2b blake2b_long.
(** ** Sizes *)
Lemma set_nth_len i x (l : list N) : i < length l -> length (set_nth i x l) = length l.
Proof. intros H. unfold set_nth. rewrite app_length, firstn_length. cbn [length]. rewrite skipn_length. lia. Qed.
Lemma mix_len add v a b c d x y : a < length v -> b < length v -> c < length v -> d < length v -> length (mix add v a b c d x y) = length v.
Proof. intros A B0 C0 D0. unfold mix. cbv zeta. rewrite !set_nth_len; rewrite ?set_nth_len; rewrite ?set_nth_len; rewrite ?set_nth_len; try assumption; reflexivity. Qed.
Local Opaque mix.
Lemma mix_round_len add v m : length v = 16 -> length (mix_round add v m) = 16.
Proof.
  assert (M : forall v a b c d x y, a < 16 -> b < 16 -> c < 16 -> d < 16 -> length v = 16 -> length (mix add v a b c d x y) = 16).
  { intros w a b c d x y A B0 C0 D0 W. rewrite mix_len; [exact W|lia..]. }
  intros L. unfold mix_round. cbv zeta. repeat (apply M; [lia..|]). exact L.
Qed.
Local Opaque mix_round.
Lemma zip_xor_len a : forall b, length (zip_xor a b) = Nat.min (length a) (length b).
Proof. induction a as [|x a IH]; intros [|y b]; cbn [zip_xor length]; try reflexivity. rewrite IH. reflexivity. Qed.
Lemma fold_keeps {A C} (P : A -> Prop) (f : A -> C -> A) : (forall a c, P a -> P (f a c)) -> forall s w, P w -> P (fold_left f s w).
Proof. intros K. induction s as [|i s IH]; intros w W; [exact W|]. exact (IH _ (K _ _ W)). Qed.
Lemma rounds_len (f : list nat -> list N) s w : length w = 16 -> length (fold_left (fun v i => mix_round (wadd 64) v (f i)) s w) = 16.
Proof. apply (fold_keeps (fun v => length v = 16)). intros v i V. exact (mix_round_len _ _ _ V). Qed.
Lemma halves_len h v : length h = 8 -> length v = 16 -> length (zip_xor h (zip_xor (firstn 8 v) (skipn 8 v))) = 8.
Proof. intros H V. rewrite !zip_xor_len, firstn_length, skipn_length, V, H. reflexivity. Qed.
Lemma b2_compress_len h b t l : length h = 8 -> length (b2_compress h b t l) = 8.
Proof.
  intros H. unfold b2_compress. cbv zeta. apply halves_len; [exact H|]. apply (rounds_len (fun s => map (fun i => nth i (b2_words b) 0%N) s)).
  rewrite app_length, zip_xor_len, H. reflexivity.
Qed.
Lemma b2_blocks_len bs : forall h t, length h = 8 -> length (b2_blocks h t bs) = 8.
Proof.
  induction bs as [|b bs IH]; intros h t H; cbn [b2_blocks]; [apply b2_compress_len; exact H|]. destruct bs as [|b' bs]; [apply b2_compress_len; exact H|].
  apply IH. apply b2_compress_len. exact H.
Qed.
Theorem blake2b_len size m : size <= 64 -> length (blake2b size m) = size.
Proof.
  intros H. unfold blake2b. cbv zeta. rewrite firstn_length, (@flat_map_length _ _ _ 8) by apply le_bytes_length. rewrite b2_blocks_len; [lia|]. rewrite zip_xor_len. reflexivity.
Qed.
Lemma long_tail_len r : forall size v, size <= 64 -> length (long_tail r size v) = 32 * r + size.
Proof.
  induction r as [|r IH]; intros size v H; cbn [long_tail]; cbv zeta; [rewrite blake2b_len by exact H; lia|]. rewrite app_length, firstn_length, blake2b_len, IH by lia. lia.
Qed.
Theorem blake2b_long_len size m : length (blake2b_long size m) = size.
Proof.
  unfold blake2b_long. cbv zeta. destruct (Nat.leb_spec size 64) as [H|H]; [apply blake2b_len; exact H|].
  pose proof (Nat.div_mod (size + 31) 32 ltac:(lia)) as E. pose proof (Nat.mod_upper_bound (size + 31) 32 ltac:(lia)) as U. rewrite long_tail_len; lia.
Qed.
Theorem tag_len lanes memory passes size pw salt : length (argon2id_tag lanes memory passes size pw salt) = size.
Proof. unfold argon2id_tag. cbv zeta. apply blake2b_long_len. Qed.

(** ** What the first hash is taken of tells all inputs apart *)
Lemma word4_inj a b : (a < 2 ^ 32 -> b < 2 ^ 32 -> le_bytes 4 a = le_bytes 4 b -> a = b)%N.
Proof. intros A B0 E. apply (f_equal le_word) in E. rewrite !word_of_bytes in E by (change (256 ^ N.of_nat 4)%N with (2 ^ 32)%N; assumption). exact E. Qed.
Lemma word4_app a b x y : (a < 2 ^ 32 -> b < 2 ^ 32 -> le_bytes 4 a ++ x = le_bytes 4 b ++ y -> a = b /\ x = y)%N.
Proof. intros A B0 E. apply app_eq_length in E; [|rewrite !le_bytes_length; reflexivity]. destruct E as [E F]. split; [exact (word4_inj _ _ A B0 E)|exact F]. Qed.
Theorem first_inj lanes memory passes size pw salt lanes' memory' passes' size' pw' salt' :
  Forall (fun n => n < 2 ^ 32)%N [lanes; memory; passes; N.of_nat size; N.of_nat (length pw); N.of_nat (length salt)] ->
  Forall (fun n => n < 2 ^ 32)%N [lanes'; memory'; passes'; N.of_nat size'; N.of_nat (length pw'); N.of_nat (length salt')] ->
  hashed_first lanes memory passes size pw salt = hashed_first lanes' memory' passes' size' pw' salt' ->
  (lanes, memory, passes, size, pw, salt) = (lanes', memory', passes', size', pw', salt').
Proof.
  intros H H'. repeat match goal with X : Forall _ (_ :: _) |- _ => apply Forall_cons_iff in X as [? X] end. unfold hashed_first. cbn [flat_map]. rewrite !app_nil_r, <- !app_assoc. intros E.
  apply word4_app in E as [E1 E]; [|assumption..]. apply word4_app in E as [E2 E]; [|assumption..]. apply word4_app in E as [E3 E]; [|assumption..]. apply word4_app in E as [E4 E]; [|assumption..].
  apply word4_app in E as [_ E]; [|reflexivity..]. apply word4_app in E as [_ E]; [|reflexivity..]. apply word4_app in E as [E5 E]; [|assumption..].
  apply app_eq_length in E; [|lia]. destruct E as [E6 E]. apply word4_app in E as [E7 E]; [|assumption..]. apply app_eq_length in E; [|lia]. destruct E as [E8 _].
  apply Nat2N.inj in E2. congruence.
Qed.
