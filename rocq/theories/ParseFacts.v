(** What the parser returns: unread input is shorter, values are well formed and not too deep. *)
From Verif Require Import Base BaseFacts Codec CodecFacts Json JsonParse Deps JsonFacts JsonParseFacts SchemaFacts.
Require Import ZifyBool ZifyNat ZifyN.
Set Implicit Arguments.
Unset Strict Implicit.

Lemma option_map_some {A C} (f : A -> C) o y : option_map f o = Some y -> exists x, o = Some x /\ y = f x.
Proof. destruct o; [intros [= <-]; eauto | discriminate]. Qed.
Ltac inv_map H := apply option_map_some in H as (?x & H & ?E).

(** ** Progress *)
Lemma skip_ws_len s : (length (skip_ws s) <= length s)%nat.
Proof. induction s as [|c s IH]; cbn; [lia|]. destruct (is_ws c); cbn; lia. Qed.
Lemma skip_ws_cons s c r : skip_ws s = c :: r -> (length r < length s)%nat /\ is_ws c = false.
Proof.
  intros H. split; [pose proof (skip_ws_len s); rewrite H in *; cbn in *; lia|].
  induction s as [|a s IH]; cbn in H; [discriminate|]. destruct (is_ws a) eqn:E; [auto|congruence].
Qed.
Lemma strip_len lit : forall s r, strip lit s = Some r -> (length r <= length s)%nat.
Proof.
  induction lit as [|a lit IH]; intros [|b s] r; cbn; try discriminate; try (intros [= <-]; cbn; lia).
  destruct (beq a b); [|discriminate]. intros H. apply IH in H. lia.
Qed.
Lemma prepend_some p o t r : prepend p o = Some (t, r) -> exists a, o = Some (a, r) /\ t = p ++ a.
Proof. intros H. apply option_map_some in H as ([a r'] & H & E). injection E as -> ->. eauto. Qed.
Lemma str_body_len n : forall s t r, (length s <= n)%nat -> str_body s = Some (t, r) -> (length r < length s)%nat.
Proof.
  induction n as [|n IH]; intros s t r L; (destruct s as [|c s]; [discriminate|]); cbn [length] in L; [lia|].
  cbn [str_body]. destruct (beq c q_quote); [intros [= <- <-]; cbn; lia|].
  destruct (beq c q_bslash).
  - destruct s as [|e r1]; [discriminate|]. destruct (beq e "u"%byte).
    + destruct r1 as [|a [|b [|c1 [|d r2]]]]; try discriminate.
      destruct (hex4 a b c1 d) as [m|]; [|discriminate]. destruct ((m <? 55296) || (57343 <? m))%N.
      * intros H. apply prepend_some in H as (x & H & _). apply IH in H; cbn [length] in *; lia.
      * destruct (56320 <=? m)%N; [discriminate|].
        destruct r2 as [|p [|q [|a2 [|b2 [|c2 [|d2 r3]]]]]]; try discriminate.
        destruct (beq p q_bslash && beq q "u"%byte); [|discriminate].
        destruct (hex4 a2 b2 c2 d2) as [m2|]; [|discriminate]. destruct ((m2 <? 56320) || (57343 <? m2))%N; [discriminate|].
        intros H. apply prepend_some in H as (x & H & _). apply IH in H; cbn [length] in *; lia.
    + destruct (short_escape e); [|discriminate]. intros H. apply prepend_some in H as (x & H & _). apply IH in H; cbn [length] in *; lia.
  - destruct (inr 0 31 c); [discriminate|]. intros H. apply prepend_some in H as (x & H & _). apply IH in H; cbn [length] in *; lia.
Qed.
Lemma parse_str_len s t r : parse_str s = Some (t, r) -> (length r < length s)%nat /\ utf8_valid t = true.
Proof.
  unfold parse_str. destruct (str_body s) as [[a b]|] eqn:E; [|discriminate]. destruct (utf8_valid a) eqn:U; [|discriminate].
  intros [= <- <-]. split; auto. eapply str_body_len; eauto.
Qed.
Lemma ignore_str_len n : forall s r, (length s <= n)%nat -> ignore_str s = Some r -> (length r < length s)%nat.
Proof.
  induction n as [|n IH]; intros s r L; (destruct s as [|c s]; [discriminate|]); cbn [length] in L; [lia|].
  cbn [ignore_str]. destruct (beq c q_quote); [intros [= <-]; cbn; lia|].
  destruct (beq c q_bslash).
  - destruct s as [|e r1]; [discriminate|]. destruct (beq e "u"%byte).
    + destruct r1 as [|a [|b [|c1 [|d r2]]]]; try discriminate.
      destruct (hex4 a b c1 d) as [m|]; [|discriminate]. intros H. apply IH in H; cbn [length] in *; lia.
    + destruct (short_escape e); [|discriminate]. intros H. apply IH in H; cbn [length] in *; lia.
  - destruct (inr 0 31 c); [discriminate|]. intros H. apply IH in H; cbn [length] in *; lia.
Qed.
Lemma span_digits_len s d r : span_digits s = (d, r) -> (length s = length d + length r)%nat.
Proof.
  revert d; induction s as [|c s IH]; cbn; intros d; [intros [= <- <-]; reflexivity|].
  destruct (is_digit c); [|intros [= <- <-]; reflexivity]. destruct (span_digits s) as [d' r'] eqn:E. intros [= <- <-].
  cbn. rewrite (IH _ eq_refl). reflexivity.
Qed.
Lemma scan_int_len s d r : scan_int s = Some (d, r) -> (length r < length s)%nat.
Proof.
  unfold scan_int. destruct (span_digits s) as [d' r'] eqn:E. apply span_digits_len in E.
  destruct d' as [|c ds]; [discriminate|]. destruct (beq c "0"%byte && negb (is_empty ds)); [discriminate|].
  intros [= <- <-]. cbn in E. lia.
Qed.
Lemma scan_frac_len s d r : scan_frac s = Some (d, r) -> (length r <= length s)%nat.
Proof.
  destruct s as [|c s]; cbn; [intros [= <- <-]; auto|]. destruct (beq c "."%byte); [|intros [= <- <-]; auto].
  destruct (span_digits s) as [d' r'] eqn:E. apply span_digits_len in E. destruct d'; [discriminate|]. intros [= <- <-]. cbn in E. lia.
Qed.
Lemma scan_exp_len s d r : scan_exp s = Some (d, r) -> (length r <= length s)%nat.
Proof.
  destruct s as [|c s]; cbn; [intros [= <- <-]; auto|]. destruct (beq c "e"%byte || beq c "E"%byte); [|intros [= <- <-]; auto].
  set (p := match s with g :: r0 => if beq g "+"%byte || beq g "-"%byte then ([g], r0) else ([], s) | [] => ([], s) end).
  assert (L : (length (snd p) <= length s)%nat) by (unfold p; destruct s as [|g s']; [cbn; lia|]; destruct (beq g "+"%byte || beq g "-"%byte); cbn; lia).
  destruct p as [sg r1]. cbn in L. destruct (span_digits r1) as [d' r'] eqn:E. apply span_digits_len in E.
  destruct d'; [discriminate|]. intros [= <- <-]. cbn in E. lia.
Qed.
Lemma ignore_number_len s r : ignore_number s = Some r -> (length r < length s)%nat.
Proof.
  unfold ignore_number. destruct (scan_int s) as [[ds r1]|] eqn:E1; [|discriminate]. apply scan_int_len in E1.
  destruct (scan_frac r1) as [[fr r2]|] eqn:E2; [|discriminate]. apply scan_frac_len in E2.
  destruct (scan_exp r2) as [[ex r3]|] eqn:E3; [|discriminate]. apply scan_exp_len in E3. intros [= <-]. lia.
Qed.

(** ** Numbers *)
Section Num.
  Variable nok : number -> Prop.
  Variable f64 : bytes -> option N.
  Definition floats_ok : Prop := forall t b, f64 t = Some b -> nok (Float b).
  Definition ints_ok : Prop :=
    (forall n, (n < 2 ^ 64)%N -> nok (PosInt n)) /\ (forall m, m <> 0%N -> (m <= 2 ^ 63)%N -> nok (NegInt m)).
  Hypothesis Hf : floats_ok.
  Hypothesis Hi : ints_ok.
  Lemma parse_number_ok neg s n r : parse_number f64 neg s = Some (n, r) -> nok n /\ (length r < length s)%nat.
  Proof.
    unfold parse_number. destruct (scan_int s) as [[ds r1]|] eqn:E1; [|discriminate]. apply scan_int_len in E1.
    destruct (scan_frac r1) as [[fr r2]|] eqn:E2; [|discriminate]. apply scan_frac_len in E2.
    destruct (scan_exp r2) as [[ex r3]|] eqn:E3; [|discriminate]. apply scan_exp_len in E3.
    assert (F : option_map (fun b => (Float b, r3)) (f64 ((if neg then B "-" else []) ++ ds ++ fr ++ ex)) = Some (n, r) ->
                nok n /\ (length r < length s)%nat).
    { intros H. apply option_map_some in H as (b & H & E). injection E as -> ->. split; [eapply Hf; eauto | lia]. }
    destruct (is_empty fr && is_empty ex); [|exact F]. destruct Hi as [Hp Hm]. destruct neg.
    - destruct (N.eqb_spec (dec_value ds) 0); [exact F|]. destruct (N.leb_spec (dec_value ds) (2 ^ 63)); [|exact F].
      intros [= <- <-]. split; [auto | lia].
    - destruct (N.ltb_spec (dec_value ds) (2 ^ 64)); [|exact F]. intros [= <- <-]. split; [auto | lia].
  Qed.

  (** ** Values *)
  Fixpoint val_ok (j : json) : Prop :=
    match j with
    | JNull | JBool _ => True
    | JNum n => nok n
    | JStr s => utf8_valid s = true
    | JArr l => (fix all (l : list json) : Prop := match l with [] => True | x :: l' => val_ok x /\ all l' end) l
    | JObj m => increasing (map fst m) /\
      (fix all (l : list (bytes * json)) : Prop :=
         match l with [] => True | (k, x) :: l' => (utf8_valid k = true /\ val_ok x) /\ all l' end) m
    end.
  Lemma val_ok_arr l : val_ok (JArr l) <-> Forall val_ok l.
  Proof. cbn. induction l; [split; auto|]. rewrite IHl. split; [intros [? ?]; auto|]. intros H; inversion H; auto. Qed.
  Lemma val_ok_obj m : val_ok (JObj m) <->
    increasing (map fst m) /\ Forall (fun kv => utf8_valid (fst kv) = true /\ val_ok (snd kv)) m.
  Proof.
    cbn. apply and_iff_compat_l. induction m as [|[k v] m IH]; [split; auto|]. rewrite IH.
    split; [intros [? ?]; auto|]. intros H; inversion H; auto.
  Qed.
  Lemma forall_insert {A} (Q : bytes * A -> Prop) k v m : Q (k, v) -> Forall Q m -> Forall Q (obj_insert k v m).
  Proof.
    intros Hq. induction 1 as [|[k' v'] m H F IH]; cbn; [auto|]. destruct (bytes_compare k k'); auto.
  Qed.
  Lemma insert_keys {A} k (v : A) m k0 : In k0 (map fst (obj_insert k v m)) -> k0 = k \/ In k0 (map fst m).
  Proof.
    induction m as [|[k' v'] m IH]; cbn; [intros [<-|[]]; auto|]. destruct (bytes_compare k k'); cbn; intuition congruence.
  Qed.
  Lemma insert_increasing {A} k (v : A) m : increasing (map fst m) -> increasing (map fst (obj_insert k v m)).
  Proof.
    induction m as [|[k' v'] m IH]; cbn [obj_insert map fst increasing]; [auto|]. intros [H1 H2].
    destruct (bytes_compare k k') eqn:E; cbn [map fst increasing].
    - apply bytes_compare_eq in E. subst. auto.
    - split; [|auto]. constructor; [exact E|]. eapply Forall_impl; [|exact H1]. intros k0. apply bytes_compare_trans. exact E.
    - split; [|auto]. apply Forall_forall. intros k0 Hk. apply insert_keys in Hk as [->|Hk].
      + rewrite bytes_compare_antisym, E. reflexivity.
      + rewrite Forall_forall in H1. auto.
  Qed.

  (** ** Loops *)
  Lemma next_elem_more first s u r : next_elem first s = More u r -> (length r <= length s)%nat /\ r <> [].
  Proof.
    unfold next_elem. destruct (skip_ws s) as [|c q] eqn:E; [discriminate|]. apply skip_ws_cons in E as [E _].
    destruct (beq c "]"%byte); [discriminate|]. destruct first; [intros [= <- <-]; split; [cbn; lia | discriminate]|].
    destruct (beq c ","%byte); [|discriminate]. destruct (skip_ws q) as [|c' q'] eqn:E'; [discriminate|].
    apply skip_ws_cons in E' as [E' _]. destruct (beq c' "]"%byte); [discriminate|]. intros [= <- <-]. split; [cbn; lia | discriminate].
  Qed.
  Lemma next_elem_stop first s r : next_elem first s = Stop r -> (length r < length s)%nat.
  Proof.
    unfold next_elem. destruct (skip_ws s) as [|c q] eqn:E; [discriminate|]. apply skip_ws_cons in E as [E _].
    destruct (beq c "]"%byte); [intros [= <-]; lia|]. destruct first; [discriminate|].
    destruct (beq c ","%byte); [|discriminate]. destruct (skip_ws q) as [|c' q']; [discriminate|]. destruct (beq c' "]"%byte); discriminate.
  Qed.
  Lemma colon_len s r : colon s = Some r -> (length r < length s)%nat.
  Proof.
    unfold colon. destruct (skip_ws s) as [|c q] eqn:E; [discriminate|]. apply skip_ws_cons in E as [E _].
    destruct (beq c ":"%byte); [|discriminate]. intros [= <-]. exact E.
  Qed.
  Section NextKey.
    Context {K : Type}.
    Variable key : bytes -> option (K * bytes).
    Hypothesis Hkey : forall s k r, key s = Some (k, r) -> (length r < length s)%nat.
    Lemma next_key_more first s k r : next_key key first s = More k r ->
      (length r < length s)%nat /\ exists s' r', key s' = Some (k, r').
    Proof.
      unfold next_key. destruct (skip_ws s) as [|c q] eqn:E; [discriminate|]. apply skip_ws_cons in E as [E _].
      assert (R : forall q, match key q with Some (k0, r1) => match colon r1 with Some r2 => More k0 r2 | None => Fail end | None => Fail end = More k r ->
                  (length r < length q)%nat /\ exists s' r', key s' = Some (k, r')).
      { intros q0. destruct (key q0) as [[k0 r1]|] eqn:Ek; [|discriminate]. destruct (colon r1) as [r2|] eqn:Ec; [|discriminate].
        intros [= -> ->]. pose proof (Hkey Ek). apply colon_len in Ec. split; [lia | eauto]. }
      destruct (beq c "}"%byte); [discriminate|]. destruct first.
      - destruct (beq c q_quote); [|discriminate]. intros H. apply R in H as [H1 H2]. split; [lia | auto].
      - destruct (beq c ","%byte); [|discriminate]. destruct (skip_ws q) as [|c' q'] eqn:E'; [discriminate|].
        apply skip_ws_cons in E' as [E' _]. destruct (beq c' q_quote); [|discriminate]. intros H. apply R in H as [H1 H2]. split; [lia | auto].
    Qed.
    Lemma next_key_stop first s r : next_key key first s = Stop r -> (length r < length s)%nat.
    Proof.
      unfold next_key. destruct (skip_ws s) as [|c q] eqn:E; [discriminate|]. apply skip_ws_cons in E as [E _].
      assert (R : forall q, match key q with Some (k0, r1) => match colon r1 with Some r2 => More k0 r2 | None => Fail end | None => Fail end = Stop r -> False).
      { intros q0. destruct (key q0) as [[k0 r1]|]; [|discriminate]. destruct (colon r1); discriminate. }
      destruct (beq c "}"%byte); [intros [= <-]; lia|]. destruct first.
      - destruct (beq c q_quote); [|discriminate]. intros H. destruct (R _ H).
      - destruct (beq c ","%byte); [|discriminate]. destruct (skip_ws q) as [|c' q']; [discriminate|].
        destruct (beq c' q_quote); [|discriminate]. intros H. destruct (R _ H).
    Qed.

    Variable A : Type.
    Variable member : A -> K -> bytes -> option (A * bytes).
    Variable I : A -> Prop.
    Hypothesis Hm : forall st k s st' r s0 r0, key s0 = Some (k, r0) -> I st -> member st k s = Some (st', r) -> I st' /\ (length r < length s)%nat.
    Lemma map_loop_ok fuel : forall first st s st' r, I st -> map_loop key member fuel first st s = Some (st', r) ->
      I st' /\ (length r < length s)%nat.
    Proof.
      induction fuel as [|fuel IH]; intros first st s st' r HI; cbn [map_loop]; [discriminate|].
      destruct (next_key key first s) as [q|k q|] eqn:E; [|..|discriminate].
      - intros [= <- <-]. apply next_key_stop in E. auto.
      - apply next_key_more in E as (L & s' & r' & Ek). destruct (member st k q) as [[st1 r1]|] eqn:Em; [|discriminate].
        destruct (Hm Ek HI Em) as [HI' L']. intros H. apply IH in H as [H1 H2]; auto. split; [auto | lia].
    Qed.
  End NextKey.
  Section SeqLoop.
    Context {A : Type}.
    Variable elem : bytes -> option (A * bytes).
    Variable Q : A -> Prop.
    Hypothesis He : forall s x r, elem s = Some (x, r) -> Q x /\ (length r < length s)%nat.
    Lemma seq_loop_ok fuel : forall first s l r, seq_loop elem fuel first s = Some (l, r) -> Forall Q l /\ (length r < length s)%nat.
    Proof.
      induction fuel as [|fuel IH]; intros first s l r; cbn [seq_loop]; [discriminate|].
      destruct (next_elem first s) as [q|u q|] eqn:E; [|..|discriminate].
      - intros [= <- <-]. apply next_elem_stop in E. auto.
      - apply next_elem_more in E as [L _]. destruct (elem q) as [[x r1]|] eqn:Ee; [|discriminate].
        apply He in Ee as [Hx Lx]. destruct (seq_loop elem fuel false r1) as [[xs r2]|] eqn:Es; [|discriminate].
        apply IH in Es as [H1 H2]. intros [= <- <-]. split; [auto | lia].
    Qed.
  End SeqLoop.

  Lemma depth_arr_lt l d : Forall (fun x => depth x < d)%nat l -> (0 < d)%nat -> (depth (JArr l) < S d)%nat.
  Proof. intros F Hd. cbn [depth]. induction F; cbn [fold_right]; lia. Qed.
  Lemma depth_obj_lt m d : Forall (fun kv => depth (snd kv) < d)%nat m -> (0 < d)%nat -> (depth (JObj m) < S d)%nat.
  Proof. intros F Hd. cbn [depth]. induction F; cbn [fold_right]; lia. Qed.
  Lemma depth_arr_ge l x : In x l -> (S (depth x) <= depth (JArr l))%nat.
  Proof. cbn [depth]. induction l as [|y l IH]; cbn; [tauto|]. intros [->|H]; [lia|]. apply IH in H. lia. Qed.

  Theorem de_value_ok d : forall s j r, (0 < d)%nat -> de_value f64 d s = Some (j, r) ->
    val_ok j /\ (depth j < d)%nat /\ (length r < length s)%nat.
  Proof.
    induction d as [|d IH]; intros s j r Hd; [lia|]. cbn [de_value].
    destruct (skip_ws s) as [|c q] eqn:E; [discriminate|]. apply skip_ws_cons in E as [L _].
    destruct (beq c "n"%byte); [intros H; apply option_map_some in H as (x & H & Ex); injection Ex as -> ->; apply strip_len in H; cbn; repeat split; lia|].
    destruct (beq c "t"%byte); [intros H; apply option_map_some in H as (x & H & Ex); injection Ex as -> ->; apply strip_len in H; cbn; repeat split; lia|].
    destruct (beq c "f"%byte); [intros H; apply option_map_some in H as (x & H & Ex); injection Ex as -> ->; apply strip_len in H; cbn; repeat split; lia|].
    destruct (beq c "-"%byte).
    { intros H; apply option_map_some in H as ([n x] & H & Ex); injection Ex as -> ->. apply parse_number_ok in H as [H1 H2]. cbn [val_ok depth]. repeat split; [auto | lia | lia]. }
    destruct (is_digit c).
    { intros H; apply option_map_some in H as ([n x] & H & Ex); injection Ex as -> ->. apply parse_number_ok in H as [H1 H2]. cbn [val_ok depth length] in *. repeat split; [auto | lia | lia]. }
    destruct (beq c q_quote).
    { intros H; apply option_map_some in H as ([n x] & H & Ex); injection Ex as -> ->. apply parse_str_len in H as [H1 H2]. cbn [val_ok depth]. repeat split; [auto | lia | lia]. }
    destruct (beq c "["%byte).
    { destruct d as [|d]; [discriminate|]. intros H; apply option_map_some in H as ([l x] & H & Ex); injection Ex as -> ->.
      apply seq_loop_ok with (Q := fun j => val_ok j /\ (depth j < S d)%nat) in H as [H1 H2].
      - split; [|split; [|lia]].
        + apply val_ok_arr. eapply Forall_impl; [|exact H1]. intros ? [? ?]; assumption.
        + apply depth_arr_lt; [|lia]. eapply Forall_impl; [|exact H1]. intros ? [? ?]; assumption.
      - intros s0 j0 r0 H0. apply IH in H0; [tauto | lia]. }
    destruct (beq c "{"%byte); [|discriminate].
    { destruct d as [|d]; [discriminate|]. intros H; apply option_map_some in H as ([m x] & H & Ex); injection Ex as -> ->.
      set (I := fun m : list (bytes * json) => val_ok (JObj m) /\ Forall (fun kv => (depth (snd kv) < S d)%nat) m).
      apply map_loop_ok with (I := I) in H.
      - destruct H as ((H1 & H2) & H3). split; [exact H1|]. split; [|lia]. apply depth_obj_lt; [exact H2 | lia].
      - intros s0 k0 r0 H0. apply parse_str_len in H0. tauto.
      - intros st k0 s0 st' r0 s1 r1 Hk HI H0. apply option_map_some in H0 as ([v y] & H0 & Ey). injection Ey as -> ->.
        apply IH in H0 as (V & Dv & Lv); [|lia]. split; [|auto]. apply parse_str_len in Hk as [_ Hk]. unfold I in *.
        destruct HI as [HI1 HI2]. split; [|apply forall_insert; auto].
        apply val_ok_obj in HI1 as [HI1 HI3]. apply val_ok_obj. split; [apply insert_increasing; auto | apply forall_insert; auto].
      - split; [cbn; auto | constructor]. }
  Qed.
End Num.

Lemma skip_value_len fuel : forall s r, skip_value fuel s = Some r -> (length r < length s)%nat.
Proof.
  induction fuel as [|fuel IH]; intros s r; cbn [skip_value]; [discriminate|].
  destruct (skip_ws s) as [|c q] eqn:E; [discriminate|]. apply skip_ws_cons in E as [L _].
  destruct (beq c "n"%byte); [intros H; apply strip_len in H; lia|].
  destruct (beq c "t"%byte); [intros H; apply strip_len in H; lia|].
  destruct (beq c "f"%byte); [intros H; apply strip_len in H; lia|].
  destruct (beq c "-"%byte); [intros H; apply ignore_number_len in H; lia|].
  destruct (is_digit c); [intros H; apply ignore_number_len in H; cbn in H; lia|].
  destruct (beq c q_quote); [intros H; apply ignore_str_len with (n := length q) in H; lia|].
  destruct (beq c "["%byte).
  { intros H. apply option_map_some in H as ([l x] & H & Ex). cbn in Ex. subst x.
    apply seq_loop_ok with (Q := fun _ => True) in H; [lia|].
    intros s0 x r0 H0. apply option_map_some in H0 as (y & H0 & Ey). injection Ey as _ ->. split; [auto | eauto]. }
  destruct (beq c "{"%byte); [|discriminate].
  { intros H. apply option_map_some in H as ([l x] & H & Ex). cbn in Ex. subst x.
    apply map_loop_ok with (I := fun _ => True) in H; [lia | | | exact I].
    - intros s0 k r0 H0. apply option_map_some in H0 as (y & H0 & Ey). injection Ey as _ ->. eapply ignore_str_len; eauto.
    - intros st k s0 st' r0 s1 r1 _ _ H0. apply option_map_some in H0 as (y & H0 & Ey). injection Ey as _ ->. split; [auto | eauto]. }
Qed.
Lemma ignore_value_len s r : ignore_value s = Some r -> (length r < length s)%nat.
Proof. apply skip_value_len. Qed.

(** ** Derived implementations *)
Section De.
  Variable nok : number -> Prop.
  Variable f64 : bytes -> option N.
  Hypothesis Hf : floats_ok nok f64.
  Hypothesis Hi : ints_ok nok.

  Fixpoint dat_ok (sc : schema) (x : data) {struct sc} : Prop :=
    match sc, x with
    | SString, DStr s => utf8_valid s = true
    | SValue, DVal j => val_ok nok j
    | SOption _, DNone => True
    | SOption sc', DSome x' => dat_ok sc' x'
    | SVec sc', DVec l => (fix all (l : list data) : Prop :=
                             match l with [] => True | x :: l' => dat_ok sc' x /\ all l' end) l
    | SEnum names, DEnum n => known_name names n = true
    | SStruct fs, DStruct l =>
      (fix go (fs : list field) (l : list data) : Prop :=
         match fs, l with
         | [], [] => True
         | (_, _, sc') :: fs', x' :: l' => dat_ok sc' x' /\ go fs' l'
         | _, _ => False
         end) fs l
    | _, _ => False
    end.
  Fixpoint flds_ok (fs : list field) (l : list data) : Prop :=
    match fs, l with
    | [], [] => True
    | f :: fs', x :: l' => dat_ok (snd f) x /\ flds_ok fs' l'
    | _, _ => False
    end.
  Lemma dat_ok_struct fs l : dat_ok (SStruct fs) (DStruct l) <-> flds_ok fs l.
  Proof. revert l; induction fs as [|[[n sk] sc] fs IH]; intros [|x l]; cbn in *; try tauto. rewrite IH. tauto. Qed.
  Lemma dat_ok_vec sc l : dat_ok (SVec sc) (DVec l) <-> Forall (dat_ok sc) l.
  Proof. cbn. induction l; [split; auto|]. rewrite IHl. split; [intros [? ?]; auto|]. intros H; inversion H; auto. Qed.

  Definition good (d : nat) (sc : schema) (x : data) : Prop := dat_ok sc x /\ (depth (ser sc x) < d)%nat.
  Definition reads_good (sc : schema) : Prop := forall d s x r, (0 < d)%nat ->
    de f64 sc d s = Some (x, r) -> good d sc x /\ (length r < length s)%nat.

  Lemma enter_some d d' : enter d = Some d' -> d = S d' /\ (0 < d')%nat.
  Proof. destruct d as [|[|d]]; cbn; try discriminate. intros [= <-]. split; lia. Qed.

  Section Struct.
    Variable d : nat.
    Hypothesis Hd : (0 < d)%nat.
    Definition slot (f : field) (a : option data) : Prop := match a with Some x => good d (snd f) x | None => True end.
    Lemma set_field_ok fs : Forall (fun f => reads_good (snd f)) fs -> forall acc k r acc' r', Forall2 slot fs acc ->
      set_field (map (fp f64 d) fs) acc k r = Some (acc', r') -> Forall2 slot fs acc' /\ (length r' < length r)%nat.
    Proof.
      induction 1 as [|f fs Hfi Hfs IH]; intros acc k r acc' r' F.
      - inversion F; subst. cbn. intros H. apply option_map_some in H as (y & H & E). injection E as -> ->. apply ignore_value_len in H. auto.
      - inversion F as [|? a ? acc0 Ha F0]; subst. cbn [map set_field fp]. destruct (bytes_eqb (field_name f) k).
        + destruct a; [discriminate|]. intros H. apply option_map_some in H as ([x y] & H & E). injection E as -> ->.
          apply Hfi in H as [H1 H2]; auto.
        + intros H. apply option_map_some in H as ([x y] & H & E). injection E as -> ->. apply IH in H as [H1 H2]; auto.
    Qed.
    Lemma finish_ok fs : forall acc l, Forall2 slot fs acc -> finish (map (fp f64 d) fs) acc = Some l ->
      Forall2 (fun f x => good d (snd f) x) fs l.
    Proof.
      induction fs as [|f fs IH]; intros acc l F; inversion F as [|? a ? acc0 Ha F0]; subst; cbn [map finish fp].
      - intros [= <-]. constructor.
      - destruct (finish (map (fp f64 d) fs) acc0) as [xs|] eqn:E.
        + destruct a as [x|].
          * intros [= <-]. constructor; eauto.
          * destruct (is_option (snd f)) eqn:Eo; [|discriminate]. intros [= <-]. constructor; [|eauto].
            destruct (snd f); try discriminate. split; cbn; auto.
        + destruct a; [|destruct (is_option (snd f))]; discriminate.
    Qed.
    Lemma seq_fields_ok fs : Forall (fun f => reads_good (snd f)) fs -> forall first s l r,
      seq_fields (map (fp f64 d) fs) first s = Some (l, r) -> Forall2 (fun f x => good d (snd f) x) fs l /\ (length r < length s)%nat.
    Proof.
      induction 1 as [|f fs Hfi Hfs IH]; intros first s l r; cbn [map seq_fields fp].
      - destruct (skip_ws s) as [|c q] eqn:E; [discriminate|]. apply skip_ws_cons in E as [L _].
        destruct (beq c "]"%byte); [|discriminate]. intros [= <- <-]. auto.
      - destruct (next_elem first s) as [q|u q|] eqn:E; try discriminate. apply next_elem_more in E as [L _].
        destruct (de f64 (snd f) d q) as [[x r1]|] eqn:Ed; [|discriminate]. apply Hfi in Ed as [G1 G2]; auto.
        intros H. apply option_map_some in H as ([xs r2] & H & E). injection E as -> ->. apply IH in H as [H1 H2].
        split; [constructor; auto | lia].
    Qed.
    Lemma struct_good fs l : Forall2 (fun f x => good d (snd f) x) fs l -> good (S d) (SStruct fs) (DStruct l).
    Proof.
      intros F. split.
      - apply dat_ok_struct. induction F as [|f x fs l [H1 H2] F IH]; cbn; auto.
      - rewrite ser_struct. apply depth_obj_lt; auto. induction F as [|f x fs l [H1 H2] F IH]; cbn [members]; [constructor|].
        destruct (skipped f x); [auto|]. constructor; auto.
    Qed.
    Lemma nones_slot fs : Forall2 slot fs (map (fun _ => None) (map (fp f64 d) fs)).
    Proof. induction fs; cbn; constructor; cbn; auto. Qed.
  End Struct.

  Theorem de_ok sc : reads_good sc.
  Proof.
    induction sc as [| |sc IH|sc IH|names|fs IH] using schema_ind'; intros d s x r Hd; cbn [de].
    - destruct (skip_ws s) as [|c q] eqn:E; [discriminate|]. apply skip_ws_cons in E as [L _].
      destruct (beq c q_quote); [|discriminate]. intros H. apply option_map_some in H as ([t y] & H & E). injection E as -> ->.
      apply parse_str_len in H as [H1 H2]. split; [split; [exact H2 | cbn; lia] | lia].
    - intros H. apply option_map_some in H as ([j y] & H & E). injection E as -> ->.
      apply (de_value_ok Hf Hi) in H as (H1 & H2 & H3); auto. split; [split; auto | auto].
    - destruct (skip_ws s) as [|c q] eqn:E; [discriminate|]. apply skip_ws_cons in E as [L _]. destruct (beq c "n"%byte).
      + intros H. apply option_map_some in H as (y & H & E). injection E as -> ->. apply strip_len in H. split; [split; cbn; auto | lia].
      + intros H. apply option_map_some in H as ([y r'] & H & E). injection E as -> ->. apply IH in H as [[H1 H2] H3]; auto.
        split; [split; auto | cbn [length] in *; lia].
    - destruct (skip_ws s) as [|c q] eqn:E; [discriminate|]. apply skip_ws_cons in E as [L _]. destruct (beq c "["%byte); [|discriminate].
      destruct (enter d) as [d'|] eqn:Ed; [|discriminate]. apply enter_some in Ed as [-> Hd'].
      intros H. apply option_map_some in H as ([l r'] & H & E). injection E as -> ->.
      apply seq_loop_ok with (Q := good d' sc) in H as [H1 H2]; [|intros s0 x0 r0; apply IH; auto].
      split; [|lia]. split.
      + apply dat_ok_vec. eapply Forall_impl; [|exact H1]. intros ? [? ?]; assumption.
      + cbn [ser]. apply depth_arr_lt; auto. rewrite Forall_map. eapply Forall_impl; [|exact H1]. intros ? [? ?]; assumption.
    - destruct (skip_ws s) as [|c q] eqn:E; [discriminate|]. apply skip_ws_cons in E as [L _]. destruct (beq c q_quote).
      + destruct (parse_str q) as [[t r']|] eqn:Ep; [|discriminate]. apply parse_str_len in Ep as [Lp _].
        destruct (known_name names t) eqn:Ek; [|discriminate]. intros [= <- <-]. split; [split; [exact Ek | exact Hd] | lia].
      + destruct (beq c "{"%byte); [|discriminate]. destruct (enter d) as [d'|]; [|discriminate].
        destruct (skip_ws q) as [|c1 r1] eqn:E1; [discriminate|]. apply skip_ws_cons in E1 as [L1 _].
        destruct (beq c1 q_quote); [|discriminate]. destruct (parse_str r1) as [[t r2]|] eqn:Ep; [|discriminate]. apply parse_str_len in Ep as [Lp _].
        destruct (known_name names t) eqn:Ek; [|discriminate]. destruct (colon r2) as [r3|] eqn:Ec; [|discriminate]. apply colon_len in Ec.
        destruct (strip (B "null") (skip_ws r3)) as [r4|] eqn:Es; [|discriminate]. apply strip_len in Es. pose proof (skip_ws_len r3).
        destruct (skip_ws r4) as [|c5 r5] eqn:E5; [discriminate|]. apply skip_ws_cons in E5 as [L5 _].
        destruct (beq c5 "}"%byte); [|discriminate]. intros [= <- <-]. split; [split; [exact Ek | exact Hd] | lia].
    - destruct (skip_ws s) as [|c q] eqn:E; [discriminate|]. apply skip_ws_cons in E as [L _].
      destruct (enter d) as [d'|] eqn:Ed; [|discriminate]. apply enter_some in Ed as [-> Hd'].
      change (map (fun f : field => (fst (fst f), is_option (snd f), de f64 (snd f) d')) fs) with (map (fp f64 d') fs).
      destruct (beq c "{"%byte).
      + match goal with |- context [map_loop ?a ?b ?c ?e ?f ?g] => destruct (map_loop a b c e f g) as [[acc r']|] eqn:Em; [|discriminate] end.
        apply map_loop_ok with (I := fun acc => Forall2 (slot d') fs acc) in Em.
        * destruct Em as [F Lm]. intros H. apply option_map_some in H as (l & H & E). injection E as -> ->.
          apply finish_ok in H; auto. split; [apply struct_good; auto | lia].
        * intros s0 k0 r0 H0. apply parse_str_len in H0. tauto.
        * intros st k s0 st' r0 s1 r1 _ HI H0. eapply set_field_ok in H0; eauto.
        * apply nones_slot.
      + destruct (beq c "["%byte); [|discriminate]. intros H. apply option_map_some in H as ([l r'] & H & E). injection E as -> ->.
        apply seq_fields_ok in H as [H1 H2]; auto. split; [apply struct_good; auto | lia].
  Qed.

  Theorem from_slice_ok sc s x : from_slice f64 sc s = Some x -> dat_ok sc x /\ (depth (ser sc x) <= 127)%nat.
  Proof.
    unfold from_slice. destruct (de f64 sc 128 s) as [[y r]|] eqn:E; [|discriminate]. apply de_ok in E as [[H1 H2] _]; [|lia].
    destruct (is_empty (skip_ws r)); [|discriminate]. intros [= <-]. split; [auto|lia].
  Qed.
End De.

Lemma val_ok_value f64t f64p : val_ok (number_ok f64t f64p) = value_ok f64t f64p. Proof. reflexivity. Qed.
Lemma dat_ok_data f64t f64p : dat_ok (number_ok f64t f64p) = data_ok f64t f64p. Proof. reflexivity. Qed.
Lemma ints_number_ok f64t f64p : ints_ok (number_ok f64t f64p). Proof. split; cbn; auto. Qed.
