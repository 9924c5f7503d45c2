(** Facts about JSON texts: unique readability, canonical form. *)
From Coq Require Import Permutation.
From Verif Require Import Base BaseFacts Codec CodecFacts Json JsonParse Deps.
Require Import ZifyBool ZifyNat ZifyN.
Set Implicit Arguments.
Ltac Zify.zify_post_hook ::= Z.div_mod_to_equations.

(** ** Induction over JSON values *)
Section Ind.
  Variable P : json -> Prop.
  Hypothesis Hnull : P JNull.
  Hypothesis Hbool : forall b, P (JBool b).
  Hypothesis Hnum : forall n, P (JNum n).
  Hypothesis Hstr : forall s, P (JStr s).
  Hypothesis Harr : forall l, Forall P l -> P (JArr l).
  Hypothesis Hobj : forall m, Forall (fun kv => P (snd kv)) m -> P (JObj m).
  Fixpoint json_ind' (j : json) : P j :=
    match j with
    | JNull => Hnull
    | JBool b => Hbool b
    | JNum n => Hnum n
    | JStr s => Hstr s
    | JArr l => Harr ((fix go l : Forall P l :=
                         match l with
                         | [] => Forall_nil _
                         | x :: l' => @Forall_cons _ P x l' (json_ind' x) (go l')
                         end) l)
    | JObj m => Hobj ((fix go m : Forall (fun kv => P (snd kv)) m :=
                         match m with
                         | [] => Forall_nil _
                         | kv :: m' => @Forall_cons _ (fun kv => P (snd kv)) kv m' (json_ind' (snd kv)) (go m')
                         end) m)
    end.
End Ind.

(** ** Byte order *)
Lemma bytes_compare_eq a b : bytes_compare a b = Eq <-> a = b.
Proof.
  revert b; induction a as [|x a IH]; intros [|y b]; cbn [bytes_compare]; try (split; congruence).
  destruct (N.compare_spec (Byte.to_N x) (Byte.to_N y)) as [E|E|E].
  - apply to_N_inj in E; subst. rewrite IH. split; congruence.
  - split; [discriminate|]. intros H; injection H as -> ->. lia.
  - split; [discriminate|]. intros H; injection H as -> ->. lia.
Qed.
Lemma bytes_compare_refl a : bytes_compare a a = Eq.
Proof. apply bytes_compare_eq; reflexivity. Qed.
Lemma bytes_compare_antisym a b : bytes_compare b a = CompOpp (bytes_compare a b).
Proof.
  revert b; induction a as [|x a IH]; intros [|y b]; cbn [bytes_compare]; try reflexivity.
  rewrite (N.compare_antisym (Byte.to_N x) (Byte.to_N y)).
  destruct (N.compare (Byte.to_N x) (Byte.to_N y)); cbn; auto.
Qed.
Lemma bytes_compare_trans a b c :
  bytes_compare a b = Lt -> bytes_compare b c = Lt -> bytes_compare a c = Lt.
Proof.
  revert b c; induction a as [|x a IH]; intros [|y b] [|z c]; cbn [bytes_compare]; try congruence.
  destruct (N.compare_spec (Byte.to_N x) (Byte.to_N y)) as [E|E|E];
    destruct (N.compare_spec (Byte.to_N y) (Byte.to_N z)) as [F|F|F]; try congruence; intros H1 H2.
  - replace (N.compare (Byte.to_N x) (Byte.to_N z)) with Eq by (symmetry; apply N.compare_eq_iff; congruence). eauto.
  - replace (N.compare (Byte.to_N x) (Byte.to_N z)) with Lt by (symmetry; apply N.compare_lt_iff; lia). auto.
  - replace (N.compare (Byte.to_N x) (Byte.to_N z)) with Lt by (symmetry; apply N.compare_lt_iff; lia). auto.
  - replace (N.compare (Byte.to_N x) (Byte.to_N z)) with Lt by (symmetry; apply N.compare_lt_iff; lia). auto.
Qed.

(** ** Strings *)
Lemma str_body_plain c r :
  beq c q_quote = false -> beq c q_bslash = false -> inr 0 31 c = false ->
  str_body (c :: r) = prepend [c] (str_body r).
Proof. intros H1 H2 H3. cbn [str_body]. rewrite H1, H2, H3. reflexivity. Qed.

Lemma str_body_short e x r :
  beq e "u"%byte = false -> short_escape e = Some x ->
  str_body (q_bslash :: e :: r) = prepend [x] (str_body r).
Proof. intros H1 H2. cbn [str_body]. change (beq q_bslash q_quote) with false. rewrite beq_refl, H1, H2. reflexivity. Qed.

Lemma str_body_u c r : inr 0 31 c = true ->
  str_body (q_bslash :: "u"%byte :: "0"%byte :: "0"%byte
      :: hex_digit (Byte.to_N c / 16) :: hex_digit (Byte.to_N c mod 16) :: r) = prepend [c] (str_body r).
Proof.
  intros H. cbn [str_body]. change (beq q_bslash q_quote) with false. rewrite beq_refl.
  change (beq "u"%byte "u"%byte) with true. cbv iota beta.
  unfold hex4. change (hex_val "0"%byte) with (Some 0%N).
  destruct (hex_nibbles c) as [Hh Hl].
  destruct (hex_digit_val Hh) as [-> _]. destruct (hex_digit_val Hl) as [-> _].
  unfold inr in H.
  replace (((0 * 16 + 0) * 16 + Byte.to_N c / 16) * 16 + Byte.to_N c mod 16)%N with (Byte.to_N c)
    by (rewrite (N.div_mod (Byte.to_N c) 16) at 1 by discriminate; lia).
  replace ((Byte.to_N c <? 55296) || (57343 <? Byte.to_N c))%N with true by lia.
  unfold utf8_encode. replace (Byte.to_N c <? 128)%N with true by lia.
  rewrite byte_of_N_to_N. reflexivity.
Qed.

Lemma str_body_escape_byte c r : str_body (escape_byte c ++ r) = prepend [c] (str_body r).
Proof.
  unfold escape_byte.
  destruct (beq c q_quote) eqn:E1; [apply beq_eq in E1; subst; apply str_body_short; reflexivity|].
  destruct (beq c q_bslash) eqn:E2; [apply beq_eq in E2; subst; apply str_body_short; reflexivity|].
  destruct (beq c x08) eqn:E3; [apply beq_eq in E3; subst; apply str_body_short; reflexivity|].
  destruct (beq c x09) eqn:E4; [apply beq_eq in E4; subst; apply str_body_short; reflexivity|].
  destruct (beq c x0a) eqn:E5; [apply beq_eq in E5; subst; apply str_body_short; reflexivity|].
  destruct (beq c x0c) eqn:E6; [apply beq_eq in E6; subst; apply str_body_short; reflexivity|].
  destruct (beq c x0d) eqn:E7; [apply beq_eq in E7; subst; apply str_body_short; reflexivity|].
  destruct (inr 0 31 c) eqn:E8; [apply str_body_u; assumption|].
  apply str_body_plain; assumption.
Qed.

Lemma str_body_escape s r : str_body (escape s ++ q_quote :: r) = Some (s, r).
Proof.
  induction s as [|c s IH]; [reflexivity|].
  unfold escape in *. cbn [flat_map]. rewrite <- app_assoc, str_body_escape_byte, IH. reflexivity.
Qed.

Lemma parse_str_escape s r : utf8_valid s = true -> parse_str (escape s ++ q_quote :: r) = Some (s, r).
Proof. intros H. unfold parse_str. rewrite str_body_escape, H. reflexivity. Qed.

Lemma quote_app s r : quote s ++ r = q_quote :: escape s ++ q_quote :: r.
Proof. unfold quote. cbn. rewrite <- app_assoc. reflexivity. Qed.

Lemma quote_inj s1 s2 r1 r2 : quote s1 ++ r1 = quote s2 ++ r2 -> s1 = s2 /\ r1 = r2.
Proof.
  rewrite !quote_app. intros H; injection H as H.
  apply (f_equal str_body) in H. rewrite !str_body_escape in H. injection H; auto.
Qed.

(** ** Number tokens *)
(** What follows a value: nothing, or a character that does not continue a number. *)
Definition delim (r : bytes) : bool := match r with [] => true | c :: _ => negb (is_num_char c) end.

Lemma num_token_inj t1 t2 r1 r2 :
  num_token t1 = true -> num_token t2 = true -> delim r1 = true -> delim r2 = true ->
  t1 ++ r1 = t2 ++ r2 -> t1 = t2 /\ r1 = r2.
Proof.
  unfold num_token. rewrite !andb_true_iff. intros [_ H1] [_ H2] D1 D2.
  revert t2 H2. induction t1 as [|c t1 IH]; intros [|c2 t2] H2; cbn.
  - auto.
  - intros ->. cbn in D1, H2. destruct (is_num_char c2); discriminate.
  - intros <-. cbn in D2, H1. destruct (is_num_char c); discriminate.
  - cbn in H1, H2. apply andb_true_iff in H1, H2. intros H; injection H as -> H.
    destruct (IH (proj2 H1) t2 (proj2 H2) H). subst; auto.
Qed.

(** ** Same data *)
(** Two documents carry the same data, up to the order of members and the canonical text [num] of
    numbers. *)
Fixpoint same (num : number -> bytes) (j1 j2 : json) {struct j1} : Prop :=
  match j1, j2 with
  | JNull, JNull => True
  | JBool a, JBool b => a = b
  | JNum a, JNum b => num a = num b
  | JStr a, JStr b => a = b
  | JArr l1, JArr l2 =>
    (fix all2 (l1 l2 : list json) : Prop :=
       match l1, l2 with
       | [], [] => True
       | x :: l1', y :: l2' => same num x y /\ all2 l1' l2'
       | _, _ => False
       end) l1 l2
  | JObj m1, JObj m2 =>
    length m1 = length m2 /\
    (fix all (m : list (bytes * json)) : Prop :=
       match m with
       | [] => True
       | (k, v) :: m' => (exists v2, In (k, v2) m2 /\ same num v v2) /\ all m'
       end) m1
  | _, _ => False
  end.

Lemma same_arr num l1 l2 : same num (JArr l1) (JArr l2) <-> Forall2 (same num) l1 l2.
Proof.
  revert l2; induction l1 as [|x l1 IH]; intros [|y l2]; cbn in *; try tauto.
  - split; auto.
  - split; [tauto|]. intros H; inversion H.
  - split; [tauto|]. intros H; inversion H.
  - rewrite IH. split; [intros [? ?]; constructor; auto|]. intros H; inversion H; auto.
Qed.

Lemma same_obj num m1 m2 : same num (JObj m1) (JObj m2) <->
  length m1 = length m2 /\ Forall (fun kv => exists v2, In (fst kv, v2) m2 /\ same num (snd kv) v2) m1.
Proof.
  cbn. apply and_iff_compat_l. generalize m2 as m. intros m.
  induction m1 as [|[k v] m1 IH]; [split; auto|].
  rewrite IH. split; [intros [? ?]; constructor; auto|]. intros H; inversion H; auto.
Qed.

(** No object has two members of the same name. *)
Fixpoint nodup_keys (j : json) : Prop :=
  match j with
  | JArr l => (fix all (l : list json) : Prop := match l with [] => True | x :: l' => nodup_keys x /\ all l' end) l
  | JObj m => NoDup (map fst m) /\
    (fix all (m : list (bytes * json)) : Prop :=
       match m with [] => True | (_, v) :: m' => nodup_keys v /\ all m' end) m
  | _ => True
  end.
Lemma nodup_arr l : nodup_keys (JArr l) <-> Forall nodup_keys l.
Proof. cbn. induction l; [split; auto|]. rewrite IHl. split; [intros [? ?]; auto|]. intros H; inversion H; auto. Qed.
Lemma nodup_obj m : nodup_keys (JObj m) <-> NoDup (map fst m) /\ Forall (fun kv => nodup_keys (snd kv)) m.
Proof.
  cbn. apply and_iff_compat_l. induction m as [|[k v] m IH]; [split; auto|]. rewrite IH.
  split; [intros [? ?]; auto|]. intros H; inversion H; auto.
Qed.

(** ** Sorting *)
Section Sort.
  Variable leb : bytes -> bytes -> bool.
  Definition total_order : Prop :=
    (forall a b, leb a b = true \/ leb b a = true) /\
    (forall a b, leb a b = true -> leb b a = true -> a = b) /\
    (forall a b c, leb a b = true -> leb b c = true -> leb a c = true).
  Context {A : Type}.
  Implicit Types l : list (bytes * A).

  Lemma insert_perm x l : Permutation (insert_by leb x l) (x :: l).
  Proof.
    induction l as [|y l IH]; cbn; [auto|]. destruct (leb (fst x) (fst y)); [auto|].
    rewrite IH. apply perm_swap.
  Qed.
  Lemma sort_perm l : Permutation (sort_by leb l) l.
  Proof. induction l; cbn; [auto|]. rewrite insert_perm. auto. Qed.

  Fixpoint sorted l : Prop :=
    match l with
    | [] => True
    | x :: l' => Forall (fun y => leb (fst x) (fst y) = true) l' /\ sorted l'
    end.
  Hypothesis Hord : total_order.
  Lemma insert_sorted x l : sorted l -> sorted (insert_by leb x l).
  Proof.
    destruct Hord as (Htot & Hanti & Htrans).
    induction l as [|y l IH]; cbn; [auto|]. intros [Hy Hl].
    destruct (leb (fst x) (fst y)) eqn:E; cbn.
    - repeat split; auto. constructor; auto. eapply Forall_impl; [|exact Hy]. cbn; eauto.
    - split; [|auto]. apply Permutation_Forall with (x :: l); [symmetry; apply insert_perm|].
      constructor; auto. destruct (Htot (fst y) (fst x)); congruence.
  Qed.
  Lemma sort_sorted l : sorted (sort_by leb l).
  Proof. induction l; cbn; auto using insert_sorted. Qed.

  Lemma sorted_perm_eq l1 l2 :
    sorted l1 -> sorted l2 -> NoDup (map fst l1) -> Permutation l1 l2 -> l1 = l2.
  Proof.
    destruct Hord as (Htot & Hanti & Htrans).
    revert l2; induction l1 as [|x l1 IH]; intros l2 S1 S2 ND HP.
    - apply Permutation_nil in HP; auto.
    - destruct l2 as [|y l2]; [symmetry in HP; apply Permutation_nil in HP; discriminate|].
      destruct S1 as [F1 S1], S2 as [F2 S2]. cbn in ND. inversion ND as [|? ? Hnin ND']; subst.
      assert (x = y).
      { assert (In x (y :: l2)) as [->|Hx] by (rewrite <- HP; left; auto); [auto|].
        assert (In y (x :: l1)) as [->|Hy] by (rewrite HP; left; auto); [auto|].
        rewrite Forall_forall in F1, F2. specialize (F1 _ Hy). specialize (F2 _ Hx).
        exfalso; apply Hnin. rewrite (Hanti _ _ F1 F2). apply in_map; auto. }
      subst y. f_equal. apply IH; auto. eapply Permutation_cons_inv; eauto.
  Qed.

  Lemma sort_unique l1 l2 : NoDup (map fst l1) -> Permutation l1 l2 -> sort_by leb l1 = sort_by leb l2.
  Proof.
    intros ND HP. apply sorted_perm_eq; auto using sort_sorted.
    - eapply Permutation_NoDup; [|exact ND]. apply Permutation_map. symmetry; apply sort_perm.
    - rewrite !sort_perm; auto.
  Qed.
End Sort.

(** ** The canonical text *)
Lemma join_cons sep p ps : join sep (p :: ps) = p ++ match ps with [] => [] | _ => sep ++ join sep ps end.
Proof. destruct ps; cbn; [rewrite app_nil_r|]; reflexivity. Qed.

Lemma member_text_app k t r : member_text (k, t) ++ r = quote k ++ B ":" ++ t ++ r.
Proof. unfold member_text. cbn [fst snd]. rewrite <- !app_assoc. reflexivity. Qed.

Definition first_in (p : byte -> bool) (t : bytes) : Prop := match t with c :: _ => p c = true | [] => False end.

Section Canon.
  Variable leb : bytes -> bytes -> bool.
  Variable num : number -> bytes.
  Hypothesis Hnum : forall n, num_token (num n) = true.
  Notation jcs := (jcs_text leb num).

  Definition kind (j : json) : nat :=
    match j with JNull => 0 | JBool _ => 1 | JNum _ => 2 | JStr _ => 3 | JArr _ => 4 | JObj _ => 5 end%nat.
  Definition kind_of (c : byte) : nat :=
    (if beq c "n"%byte then 0 else if beq c "t"%byte || beq c "f"%byte then 1
     else if beq c q_quote then 3 else if beq c "["%byte then 4 else if beq c "{"%byte then 5
     else if is_num_char c then 2 else 6)%nat.

  Lemma num_first n : exists c t, num n = c :: t /\ is_num_char c = true.
  Proof.
    specialize (Hnum n). unfold num_token in Hnum. destruct (num n) as [|c t]; [discriminate|].
    cbn in Hnum. apply andb_true_iff in Hnum as [? ?]. eauto.
  Qed.

  Lemma kind_num c : is_num_char c = true -> kind_of c = 2%nat.
  Proof.
    intros H. apply Nat.eqb_eq. revert c H. apply byte_impl with (Q := fun c => Nat.eqb (kind_of c) 2).
    vm_compute. reflexivity.
  Qed.

  Lemma jcs_first j : exists c t, jcs j = c :: t /\ kind_of c = kind j.
  Proof.
    destruct j as [|[]|n|s|l|m]; cbn [jcs_text bool_text kind]; try (do 2 eexists; split; [reflexivity|]; reflexivity).
    destruct (num_first n) as (c & t & -> & Hc). exists c, t. split; auto using kind_num.
  Qed.

  Lemma jcs_kind j1 j2 r1 r2 : jcs j1 ++ r1 = jcs j2 ++ r2 -> kind j1 = kind j2.
  Proof.
    destruct (jcs_first j1) as (c1 & t1 & -> & <-), (jcs_first j2) as (c2 & t2 & -> & <-).
    cbn. intros H; injection H as -> _. reflexivity.
  Qed.

  Definition readable (j1 : json) : Prop := forall j2 r1 r2,
    delim r1 = true -> delim r2 = true -> jcs j1 ++ r1 = jcs j2 ++ r2 -> same num j1 j2 /\ r1 = r2.

  Definition tail_text (l : list bytes) : bytes := match l with [] => [] | _ => B "," ++ join (B ",") l end.

  Lemma first_not_close j c t : jcs j = c :: t -> c <> "]"%byte /\ c <> "}"%byte.
  Proof.
    destruct (jcs_first j) as (c0 & t0 & -> & Hk). intros H; injection H as -> _.
    split; intros ->; destruct j; discriminate Hk.
  Qed.

  Lemma array_readable l1 : Forall readable l1 -> forall l2 r1 r2,
    join (B ",") (map jcs l1) ++ "]"%byte :: r1 = join (B ",") (map jcs l2) ++ "]"%byte :: r2 ->
    Forall2 (same num) l1 l2 /\ r1 = r2.
  Proof.
    induction 1 as [|x l1 Hx Hl IH]; intros [|y l2] r1 r2; cbn [map].
    - cbn. intros H; injection H as ->. auto.
    - rewrite join_cons. destruct (jcs_first y) as (c & t & E & _). rewrite E. cbn [join app].
      intros H. injection H as Hc _. destruct (first_not_close _ E); congruence.
    - rewrite join_cons. destruct (jcs_first x) as (c & t & E & _). rewrite E. cbn [join app].
      intros H. injection H as Hc _. destruct (first_not_close _ E); congruence.
    - rewrite !join_cons, <- !app_assoc. intros H.
      apply Hx in H as [Hxy H].
      2, 3: match goal with |- context [match ?m with _ => _ end] => destruct m end; reflexivity.
      destruct l1 as [|x' l1'], l2 as [|y' l2']; cbn [map] in *.
      + cbn in H. injection H as ->. auto.
      + discriminate H.
      + discriminate H.
      + cbn [app] in H. change (B ",") with [","%byte] in H. cbn [app] in H. injection H as H.
        apply (IH (y' :: l2')) in H as [? ?]. auto.
  Qed.

  (** Member lists with values already turned into texts. *)
  Lemma members_readable (l1 l2 : list (bytes * json)) : Forall (fun kv => readable (snd kv)) l1 -> forall r1 r2,
    join (B ",") (map member_text (map (fun kv => (fst kv, jcs (snd kv))) l1)) ++ "}"%byte :: r1
    = join (B ",") (map member_text (map (fun kv => (fst kv, jcs (snd kv))) l2)) ++ "}"%byte :: r2 ->
    Forall2 (fun a b => fst a = fst b /\ same num (snd a) (snd b)) l1 l2 /\ r1 = r2.
  Proof.
    intros H; revert l2; induction H as [|[k x] l1 Hx Hl IH]; intros [|[k' y] l2] r1 r2; cbn [map fst snd] in *.
    - cbn. intros H; injection H as ->. auto.
    - rewrite join_cons, <- app_assoc, member_text_app, quote_app. discriminate.
    - rewrite join_cons, <- app_assoc, member_text_app, quote_app. discriminate.
    - rewrite !join_cons, <- !app_assoc, !member_text_app.
      intros H. apply quote_inj in H as [-> H]. apply app_inv_head in H.
      apply Hx in H as [Hxy H].
      2, 3: match goal with |- context [match ?m with _ => _ end] => destruct m end; reflexivity.
      destruct l1 as [|[k1 x'] l1'], l2 as [|[k2 y'] l2']; cbn [map] in *.
      + cbn in H. injection H as ->. auto.
      + discriminate H.
      + discriminate H.
      + cbn [app] in H. change (B ",") with [","%byte] in H. cbn [app] in H. injection H as H.
        apply (IH ((k2, y') :: l2')) in H as [? ?]. auto.
  Qed.

  (** A sorted member list is the image of a reordering of the members. *)
  Lemma sort_map {A C} (f : A -> C) (m : list (bytes * A)) :
    sort_by leb (map (fun kv => (fst kv, f (snd kv))) m) = map (fun kv => (fst kv, f (snd kv))) (sort_by leb m).
  Proof.
    induction m as [|[k v] m IH]; cbn; [auto|]. rewrite IH. clear IH.
    induction (sort_by leb m) as [|[k' v'] l IH]; cbn; [auto|]. destruct (leb k k'); cbn; [auto|].
    f_equal; auto.
  Qed.

  Lemma jcs_obj m : jcs (JObj m) =
    B "{" ++ join (B ",") (map member_text (map (fun kv => (fst kv, jcs (snd kv))) (sort_by leb m))) ++ B "}".
  Proof. cbn [jcs_text]. rewrite sort_map. reflexivity. Qed.

  Theorem jcs_readable j : readable j.
  Proof.
    induction j as [|b|n|s|l IH|m IH] using json_ind'; intros j2 r1 r2 D1 D2 H;
      pose proof (jcs_kind _ _ _ _ H) as K; destruct j2 as [|b2|n2|s2|l2|m2]; try discriminate K; clear K.
    - apply app_inv_head in H. cbn; auto.
    - destruct b, b2; cbn in H; try discriminate H; injection H as ->; cbn; auto.
    - cbn [jcs_text] in H. apply num_token_inj in H as [? ?]; auto.
    - apply quote_inj in H as [-> ->]. cbn; auto.
    - cbn [jcs_text] in H. rewrite <- !app_assoc in H. apply app_inv_head in H. cbn [B app] in H.
      apply array_readable in H as [? ?]; auto. rewrite same_arr. auto.
    - rewrite !jcs_obj, <- !app_assoc in H. apply app_inv_head in H.
      apply members_readable in H as [F ->].
      2: { eapply Permutation_Forall; [symmetry; apply sort_perm|]. exact IH. }
      split; [|auto]. apply same_obj. split.
      + rewrite <- (Permutation_length (sort_perm leb m)), <- (Permutation_length (sort_perm leb m2)).
        clear -F. induction F; cbn; congruence.
      + apply Permutation_Forall with (sort_by leb m); [apply sort_perm|].
        clear IH D1 D2. assert (forall kv, In kv (sort_by leb m2) -> In kv m2) as Hin
          by (intros kv; apply Permutation_in, sort_perm).
        revert Hin. generalize dependent (sort_by leb m2). generalize (sort_by leb m).
        induction 1 as [|[k a] [k' b] la lb [E S] F IH]; intros Hin; constructor.
        * cbn in *. subst. exists b; split; auto.
        * apply IH. intros; apply Hin; right; auto.
  Qed.

  (** Equal canonical texts carry the same data. *)
  Theorem jcs_inj j1 j2 : jcs j1 = jcs j2 -> same num j1 j2.
  Proof.
    intros H. apply (jcs_readable j1) with (r1 := []) (r2 := []); auto. rewrite H; auto.
  Qed.

  Hypothesis Hord : total_order leb.

  Lemma NoDup_fst {A} (m : list (bytes * A)) : NoDup (map fst m) -> NoDup m.
  Proof. apply NoDup_map_inv. Qed.

  Lemma same_perm (m1 m2 : list (bytes * bytes)) :
    NoDup (map fst m1) -> NoDup (map fst m2) -> length m1 = length m2 -> incl m1 m2 -> Permutation m1 m2.
  Proof.
    intros N1 N2 L I. apply NoDup_Permutation_bis; auto using NoDup_fst. lia.
  Qed.

  (** The same data has the same canonical text. *)
  Theorem jcs_same j1 : forall j2, nodup_keys j1 -> nodup_keys j2 -> same num j1 j2 -> jcs j1 = jcs j2.
  Proof.
    induction j1 as [|b|n|s|l IH|m IH] using json_ind'; intros j2 N1 N2 S; destruct j2 as [|b2|n2|s2|l2|m2];
      try (exfalso; exact S); try (cbn in S |- *; congruence).
    - rewrite same_arr in S. rewrite nodup_arr in N1, N2. cbn [jcs_text]. do 3 f_equal.
      revert IH N1 N2. induction S as [|x y l l2 S F IHF]; intros IH N1 N2; [auto|].
      inversion IH; inversion N1; inversion N2; subst. cbn. f_equal; auto.
    - rewrite same_obj in S. destruct S as [L S]. rewrite nodup_obj in N1, N2. destruct N1 as [N1 F1], N2 as [N2 F2].
      cbn [jcs_text]. do 4 f_equal. apply sort_unique; auto.
      + rewrite map_map. cbn. auto.
      + apply same_perm.
        * rewrite map_map; auto.
        * rewrite map_map; auto.
        * rewrite !map_length; auto.
        * intros kt Hin. apply in_map_iff in Hin as ([k v] & <- & Hin). cbn.
          rewrite Forall_forall in IH, S, F1, F2.
          destruct (S _ Hin) as (v2 & Hin2 & Sv). cbn in *.
          apply in_map_iff. exists (k, v2). cbn. split; [|auto]. f_equal.
          symmetry. apply (IH _ Hin); [apply (F1 _ Hin)|apply (F2 _ Hin2)|exact Sv].
  Qed.
End Canon.
