(** The bases of multibase: what is decoded is exactly the texts of the table. *)
From Verif Require Import Base BaseFacts Codec CodecFacts Deps ExactSpec ExactFacts DecodeSpec DecodeFacts Bases BasesSpec.
Set Implicit Arguments.

(** ** Bits *)
Lemma binary_length k n : length (binary k n) = k.
Proof. revert n. induction k as [|k IH]; intros n; [reflexivity|]. cbn [binary]. rewrite app_length, IH. cbn. lia. Qed.
Lemma bits_length k n : length (bits_of k n) = k.
Proof. induction k as [|k IH]; [reflexivity|]. cbn. rewrite IH. reflexivity. Qed.
Lemma bits_shift k n : bits_of (S k) n = bits_of k (n / 2) ++ [N.odd n].
Proof.
  induction k as [|k IH]; [cbn; rewrite N.bit0_odd; reflexivity|].
  change (bits_of (S (S k)) n) with (N.testbit n (N.of_nat (S k)) :: bits_of (S k) n). rewrite IH. cbn [bits_of app]. f_equal.
  rewrite <- N.div2_div, N.div2_spec, N.shiftr_spec' by lia. f_equal. lia.
Qed.
Lemma bits_binary k n : bits_of k n = binary k n.
Proof. revert n. induction k as [|k IH]; intros n; [reflexivity|]. rewrite bits_shift, IH. reflexivity. Qed.
Lemma of_bits_app l b : of_bits (l ++ [b]) = (2 * of_bits l + (if b then 1 else 0))%N.
Proof. unfold of_bits. rewrite fold_left_app. reflexivity. Qed.
Lemma of_bits_lt l : (of_bits l < 2 ^ N.of_nat (length l))%N.
Proof.
  induction l as [|b l IH] using rev_ind; [reflexivity|]. rewrite of_bits_app, app_length. cbn [length].
  replace (N.of_nat (length l + 1)) with (N.succ (N.of_nat (length l))) by lia. rewrite N.pow_succ_r'. destruct b; lia.
Qed.
Lemma bits_of_of l : bits_of (length l) (of_bits l) = l.
Proof.
  induction l as [|b l IH] using rev_ind; [reflexivity|]. rewrite app_length, Nat.add_comm. cbn [length Nat.add]. rewrite bits_shift, of_bits_app.
  f_equal; [|f_equal].
  - rewrite N.mul_comm, N.div_add_l by lia. destruct b; [change (1 / 2)%N with 0%N|change (0 / 2)%N with 0%N]; rewrite N.add_0_r; exact IH.
  - rewrite N.add_comm, N.odd_add_mul_2. destruct b; reflexivity.
Qed.
Lemma of_bits_of k n : (n < 2 ^ N.of_nat k)%N -> of_bits (bits_of k n) = n.
Proof.
  revert n. induction k as [|k IH]; intros n H; [change (2 ^ N.of_nat 0)%N with 1%N in H; cbn; lia|].
  rewrite bits_shift, of_bits_app, IH.
  - rewrite (N.div_mod n 2) at 3 by lia. f_equal. rewrite <- N.bit0_mod, N.bit0_odd. reflexivity.
  - apply N.div_lt_upper_bound; [lia|]. rewrite Nat2N.inj_succ, N.pow_succ_r' in H. exact H.
Qed.

(** ** Groups *)
Lemma groups_concat {A} f k (l : list A) : (0 < k)%nat -> (length l <= f)%nat -> concat (groups_fuel f k l) = l.
Proof.
  intros K. revert l. induction f as [|f IH]; intros [|x l] H; try reflexivity; [cbn in H; lia|].
  cbn [groups_fuel concat]. rewrite IH; [apply firstn_skipn|]. rewrite skipn_length. cbn [length] in *. lia.
Qed.
Lemma groups_of_concat {A} k (gs : list (list A)) : (0 < k)%nat -> Forall (fun g => length g = k) gs -> forall f, (length (concat gs) <= f)%nat -> groups_fuel f k (concat gs) = gs.
Proof.
  intros K. induction 1 as [|g gs G _ IH]; intros f H; [destruct f; reflexivity|].
  destruct f as [|f]; [cbn [concat] in H; rewrite app_length in H; lia|]. cbn [concat]. destruct (g ++ concat gs) as [|x y] eqn:E.
  - destruct g; [cbn in G; lia|discriminate].
  - cbn [groups_fuel]. rewrite <- E, firstn_app, skipn_app, <- G, Nat.sub_diag, firstn_all, skipn_all. cbn [firstn skipn app]. rewrite app_nil_r. f_equal.
    rewrite G. apply IH. cbn [concat] in H. rewrite app_length in H. lia.
Qed.
Lemma groups_lengths {A} f k m (l : list A) : (0 < k)%nat -> (length l <= f)%nat -> length l = (k * m)%nat -> Forall (fun g => length g = k) (groups_fuel f k l).
Proof.
  intros K. revert m l. induction f as [|f IH]; intros m [|x l] H E; try constructor.
  - cbn [length] in *. destruct m as [|m]; [lia|]. rewrite firstn_length. cbn [length]. nia.
  - destruct m as [|m]; [cbn [length] in E; lia|]. apply IH with m; rewrite skipn_length; cbn [length] in *; nia.
Qed.
Lemma length_concat {A} k (gs : list (list A)) : Forall (fun g => length g = k) gs -> length (concat gs) = (k * length gs)%nat.
Proof. induction 1 as [|g gs G _ IH]; [cbn; lia|]. cbn [concat length]. rewrite app_length, IH, G. lia. Qed.
Lemma bits_of_bytes s : flat_map (fun b => bits_of 8 (Byte.to_N b)) s = concat (map (fun b => bits_of 8 (Byte.to_N b)) s).
Proof. apply flat_map_concat_map. Qed.
Lemma bytes_bits_length s : length (flat_map (fun b => bits_of 8 (Byte.to_N b)) s) = (8 * length s)%nat.
Proof.
  rewrite bits_of_bytes, (@length_concat _ 8), map_length; [reflexivity|]. apply Forall_map, Forall_forall. intros b _. apply bits_length.
Qed.
(** Bytes of bits, and back. *)
Lemma bytes_of_bits s : map (fun g => byte_of_N (of_bits g)) (groups 8 (flat_map (fun b => bits_of 8 (Byte.to_N b)) s)) = s.
Proof.
  rewrite bits_of_bytes. unfold groups. rewrite groups_of_concat; [|lia|apply Forall_map, Forall_forall; intros b _; apply bits_length|lia].
  rewrite map_map. rewrite <- (map_id s) at 2. apply map_ext. intros b. rewrite of_bits_of; [apply byte_of_N_to_N|exact (to_N_lt b)].
Qed.
Lemma bits_of_groups m l : length l = (8 * m)%nat -> flat_map (fun b => bits_of 8 (Byte.to_N b)) (map (fun g => byte_of_N (of_bits g)) (groups 8 l)) = l.
Proof.
  intros H. rewrite flat_map_concat_map, map_map. unfold groups. pose proof (@groups_lengths _ (length l) 8 m l ltac:(lia) ltac:(lia) H) as G.
  transitivity (concat (groups_fuel (length l) 8 l)); [|apply groups_concat; lia]. f_equal. rewrite <- (map_id (groups_fuel (length l) 8 l)) at 2. apply map_ext_in. intros g I.
  rewrite Forall_forall in G. specialize (G g I). pose proof (of_bits_lt g) as L. rewrite G in L. rewrite to_N_byte_of_N by exact L. rewrite <- G. apply bits_of_of.
Qed.
Lemma bytes_bits_inj s s' : flat_map (fun b => bits_of 8 (Byte.to_N b)) s = flat_map (fun b => bits_of 8 (Byte.to_N b)) s' -> s = s'.
Proof. intros H. rewrite <- (bytes_of_bits s), H. apply bytes_of_bits. Qed.

(** ** Alphabets *)
Definition alphabet_ok (a : bytes) : Prop := NoDup a.
Lemma find_index_nth c a i : forall v, find_index c a i = Some v -> (i <= v)%N /\ nth_error a (N.to_nat (v - i)) = Some c.
Proof.
  revert i. induction a as [|x a IH]; intros i v; cbn [find_index]; [discriminate|]. destruct (beq x c) eqn:E.
  - intros H. injection H as <-. apply beq_eq in E. subst. split; [lia|]. rewrite N.sub_diag. reflexivity.
  - intros H. apply IH in H as [L H]. split; [lia|]. replace (N.to_nat (v - i)) with (S (N.to_nat (v - (i + 1)))) by lia. exact H.
Qed.
Lemma nth_find_index a : NoDup a -> forall i n c, nth_error a n = Some c -> find_index c a i = Some (i + N.of_nat n)%N.
Proof.
  induction 1 as [|x a N _ IH]; intros i [|n] c H; cbn in H; try discriminate; cbn [find_index].
  - injection H as ->. rewrite beq_refl. f_equal. lia.
  - destruct (beq x c) eqn:E; [apply beq_eq in E; subst; exfalso; apply N; eapply nth_error_In; exact H|]. rewrite (IH _ _ _ H). f_equal. lia.
Qed.
Lemma find_iff a c v : NoDup a -> find_index c a 0 = Some v <-> nth_error a (N.to_nat v) = Some c.
Proof.
  intros N. split; intros H; [apply find_index_nth in H as [_ H]; rewrite N.sub_0_r in H; exact H|]. rewrite (nth_find_index N 0 _ H). f_equal. lia.
Qed.
Lemma map_opt_iff {A B} (g : A -> option B) l r : map_opt g l = Some r <-> Forall2 (fun x y => g x = Some y) l r.
Proof.
  revert r. induction l as [|x l IH]; intros r; cbn [map_opt].
  - split; [intros H; injection H as <-; constructor|intros H; inversion H; reflexivity].
  - split.
    + destruct (g x) as [y|] eqn:E; [|discriminate]. destruct (map_opt g l) as [r'|] eqn:F; [|discriminate]. intros H. injection H as <-. constructor; [exact E|apply IH; reflexivity].
    + intros H. inversion H as [|? y ? r' G F]; subst. rewrite G. apply IH in F. rewrite F. reflexivity.
Qed.
Lemma Forall2_iff {A B} (P Q : A -> B -> Prop) l r : (forall x y, P x y <-> Q x y) -> Forall2 P l r <-> Forall2 Q l r.
Proof. intros E. split; intros H; induction H; constructor; try assumption; apply E; assumption. Qed.

Lemma Forall2_same {A B} (P : A -> B -> Prop) l r : Forall2 P l r -> length l = length r.
Proof. induction 1; cbn; congruence. Qed.

(** ** Characters of [k] bits *)
Section Packed.
  Variable k : nat.
  Variable a : bytes.
  Hypothesis K : (0 < k <= 8)%nat.
  Hypothesis Nd : NoDup a.
  Hypothesis Sz : length a = (2 ^ k)%nat.
  Lemma size v c : nth_error a (N.to_nat v) = Some c -> (v < 2 ^ N.of_nat k)%N.
  Proof. intros H. assert (L : (N.to_nat v < length a)%nat) by (apply nth_error_Some; congruence). rewrite Sz in L.
    assert (E : N.of_nat (2 ^ k) = (2 ^ N.of_nat k)%N) by (rewrite Nat2N.inj_pow; reflexivity). lia. Qed.
  Lemma flat_bits f s : (forall n : N, f n = bits_of k n) -> flat_map f s = flat_map (bits_of k) s.
  Proof. intros E. induction s as [|x s IH]; [reflexivity|]. cbn. rewrite E, IH. reflexivity. Qed.
  Lemma symbol_bits_length (ns : list N) : length (flat_map (bits_of k) ns) = (k * length ns)%nat.
  Proof. rewrite flat_map_concat_map, (@length_concat _ k), map_length; [reflexivity|]. apply Forall_map, Forall_forall. intros b _. apply bits_length. Qed.
  Lemma packed_bits t s : packed k a t s <-> exists ns z, Forall2 (fun c n => nth_error a (N.to_nat n) = Some c) t ns /\ (z < k)%nat /\
    flat_map (bits_of k) ns = flat_map (fun b => bits_of 8 (Byte.to_N b)) s ++ repeat false z.
  Proof.
    assert (E1 : forall ns, flat_map (binary k) ns = flat_map (bits_of k) ns) by (intros ns; apply flat_bits; intros n; symmetry; apply bits_binary).
    assert (E2 : flat_map (fun b => binary 8 (Byte.to_N b)) s = flat_map (fun b => bits_of 8 (Byte.to_N b)) s).
    { clear. induction s as [|b s IH]; [reflexivity|]. cbn [flat_map]. rewrite IH, bits_binary. reflexivity. }
    unfold packed. setoid_rewrite E1. rewrite E2. reflexivity.
  Qed.
  Lemma zeros l : forallb negb l = true <-> l = repeat false (length l).
  Proof. induction l as [|[] l IH]; cbn; [split; reflexivity|split; discriminate|rewrite IH; split; congruence]. Qed.
  Theorem packed_decode t s : bits_decode k a t = Some s <-> packed k a t s.
  Proof.
    rewrite packed_bits. unfold bits_decode. split.
    - destruct (map_opt _ t) as [vs|] eqn:E; [|discriminate]. apply map_opt_iff in E. cbv zeta.
      set (l := flat_map (bits_of k) vs). set (n := (8 * (length l / 8))%nat). destruct (_ && _) eqn:C; [|discriminate].
      intros H. injection H as <-. apply andb_true_iff in C as [C1 C2]. apply Nat.ltb_lt in C1. apply zeros in C2.
      assert (L : (n <= length l)%nat) by (unfold n; pose proof (Nat.div_mod (length l) 8); lia).
      exists vs, (length l - n)%nat. split; [eapply Forall2_iff; [|exact E]; intros c v; symmetry; apply find_iff; exact Nd|]. split; [exact C1|].
      rewrite (@bits_of_groups (length l / 8)) by (rewrite firstn_length; lia). rewrite <- skipn_length, <- C2. symmetry. apply firstn_skipn.
    - intros (vs & z & H & Z & E). assert (M : map_opt (fun c => find_index c a 0) t = Some vs).
      { apply map_opt_iff. eapply Forall2_iff; [|exact H]. intros c v. apply find_iff. exact Nd. }
      rewrite M. cbv zeta. rewrite E. set (u := flat_map _ s) in *. assert (U : length u = (8 * length s)%nat) by apply bytes_bits_length.
      rewrite app_length, repeat_length, U. pose proof (symbol_bits_length vs) as V. rewrite E, app_length, repeat_length, U in V.
      assert (Q : ((8 * length s + z) / 8 = length s)%nat) by (rewrite Nat.add_comm, Nat.mul_comm, Nat.div_add by lia; rewrite Nat.div_small by lia; reflexivity).
      rewrite Q. replace ((8 * length s + z - 8 * length s)%nat) with z by lia. apply Nat.ltb_lt in Z. rewrite Z. rewrite <- U, skipn_app, skipn_all, Nat.sub_diag. cbn [skipn app andb].
      rewrite firstn_app, firstn_all, Nat.sub_diag. cbn [firstn]. rewrite app_nil_r.
      replace (forallb negb (repeat false z)) with true by (symmetry; apply zeros; rewrite repeat_length; reflexivity). unfold u. rewrite bytes_of_bits. reflexivity.
  Qed.
  Lemma missing_length n : exists m, (n + missing k n = k * m)%nat.
  Proof.
    unfold missing. pose proof (Nat.div_mod n k ltac:(lia)) as D. pose proof (Nat.mod_upper_bound n k ltac:(lia)) as U. destruct (Nat.eq_dec (n mod k) 0) as [E|E].
    - exists (n / k)%nat. rewrite E, Nat.sub_0_r, Nat.mod_same by lia. lia.
    - exists (n / k + 1)%nat. rewrite (Nat.mod_small (k - n mod k)) by lia. lia.
  Qed.
  Theorem packed_encode s : packed k a (bits_encode k a s) s.
  Proof.
    rewrite packed_bits. unfold bits_encode. cbv zeta. set (l := flat_map _ s). destruct (missing_length (length l)) as (m & M).
    set (L := l ++ _). assert (E : length L = (k * m)%nat) by (unfold L; rewrite app_length, repeat_length; exact M).
    unfold groups. pose proof (@groups_lengths _ (length L) k m L ltac:(lia) ltac:(lia) E) as G. exists (map of_bits (groups_fuel (length L) k L)), (missing k (length l)).
    split; [|split].
    - clear - G Sz. induction G as [|g gs H _ IH]; cbn [map]; [constructor|]. constructor; [|exact IH]. apply nth_error_nth'. rewrite Sz.
      pose proof (of_bits_lt g) as B. rewrite H in B. assert (X : N.of_nat (2 ^ k) = (2 ^ N.of_nat k)%N) by (rewrite Nat2N.inj_pow; reflexivity). lia.
    - unfold missing. apply Nat.mod_upper_bound. lia.
    - change (l ++ repeat false (missing k (length l))) with L. rewrite flat_map_concat_map, map_map.
      transitivity (concat (groups_fuel (length L) k L)); [|apply groups_concat; lia]. f_equal. rewrite <- (map_id (groups_fuel (length L) k L)) at 2. apply map_ext_in.
      intros g I. rewrite Forall_forall in G. rewrite <- (G g I). apply bits_of_of.
  Qed.
  Lemma packed_length t s : packed k a t s -> exists z, (z < k)%nat /\ (k * length t = 8 * length s + z)%nat.
  Proof.
    rewrite packed_bits. intros (ns & z & H & Z & E). exists z. split; [exact Z|]. apply (f_equal (@length bool)) in E.
    rewrite symbol_bits_length, app_length, repeat_length, bytes_bits_length in E. apply Forall2_same in H. lia.
  Qed.
  Lemma packed_chars t s : packed k a t s -> Forall (fun c => In c a) t.
  Proof. intros (ns & z & H & _). clear - H. induction H as [|c n t ns H _ IH]; constructor; [eapply nth_error_In; exact H|exact IH]. Qed.
End Packed.

(** ** Padding *)
Lemma unpad_split t : exists n, t = unpad t ++ repeat "="%byte n.
Proof.
  induction t as [|c t (n & IH)]; [exists 0%nat; reflexivity|]. cbn [unpad]. destruct (unpad t) as [|x u] eqn:E.
  - cbn [app] in IH. destruct (beq c "="%byte) eqn:C; [apply beq_eq in C; subst c; exists (S n); cbn; congruence|exists n; cbn; congruence].
  - exists n. cbn [app]. f_equal. exact IH.
Qed.
Lemma unpad_pads n : unpad (repeat "="%byte n) = [].
Proof. induction n as [|n IH]; [reflexivity|]. cbn [repeat unpad]. rewrite IH. reflexivity. Qed.
Lemma unpad_app v n : ~ In "="%byte v -> unpad (v ++ repeat "="%byte n) = v.
Proof.
  induction v as [|c v IH]; intros H; [apply unpad_pads|]. cbn [app unpad]. rewrite IH by (intros I; apply H; right; exact I). destruct v; [|reflexivity].
  destruct (beq c "="%byte) eqn:C; [apply beq_eq in C; subst; exfalso; apply H; left; reflexivity|reflexivity].
Qed.
Section Padded.
  Variables k octets chars : nat.
  Variable a : bytes.
  Hypothesis K : (0 < k <= 8)%nat.
  Hypothesis Nd : NoDup a.
  Hypothesis Sz : length a = (2 ^ k)%nat.
  Hypothesis Bl : (k * chars = 8 * octets)%nat.
  Hypothesis Oc : (0 < octets)%nat.
  Hypothesis Eq : ~ In "="%byte a.
  Definition block (u p : bytes) : Prop := (1 <= length p <= octets)%nat /\ exists v, packed k a v p /\ u = v ++ repeat "="%byte (chars - length v).
  Lemma block_length u p : block u p -> length u = chars.
  Proof. intros (L & v & H & ->). destruct (packed_length K Sz H) as (z & Z & E). rewrite app_length, repeat_length. assert (length v <= chars)%nat by nia. lia. Qed.
  Lemma block_iff u p : decode_block k chars a u = Some p <-> block u p.
  Proof.
    unfold decode_block. split.
    - destruct (Nat.eqb_spec (length u) chars) as [E|]; [|discriminate]. destruct (unpad_split u) as (n & U). destruct (unpad u) as [|c v'] eqn:V; [discriminate|]. cbn [is_empty negb andb].
      set (v := c :: v') in *. intros H. apply (packed_decode K Nd Sz) in H. destruct (packed_length K Sz H) as (z & Z & L).
      assert (length v >= 1)%nat by (unfold v; cbn; lia). assert (Lv : (length v + n)%nat = chars) by (rewrite <- E, U, app_length, repeat_length; reflexivity).
      split; [split; nia|]. exists v. split; [exact H|]. replace (chars - length v)%nat with n by lia. exact U.
    - intros R. pose proof (block_length R) as L. destruct R as (Lp & v & H & ->). rewrite L, Nat.eqb_refl. rewrite unpad_app.
      + destruct v as [|c v]; [destruct (packed_length K Sz H) as (z & Z & E); cbn [length] in E; lia|]. cbn [is_empty negb andb]. apply packed_decode; assumption.
      + intros I. apply Eq. pose proof (packed_chars H) as C. rewrite Forall_forall in C. exact (C _ I).
  Qed.
  Theorem padded_decode t s : pad_decode k chars a t = Some s <-> padded k octets chars a t s.
  Proof.
    assert (C0 : (0 < chars)%nat) by (destruct chars; lia). unfold pad_decode, padded. split.
    - destruct (map_opt _ _) as [ps|] eqn:E; [|discriminate]. intros H. injection H as <-. apply map_opt_iff in E.
      assert (T : t = concat (groups chars t)) by (symmetry; apply groups_concat; lia). exists (combine (groups chars t) ps). set (us := groups chars t) in *. clearbody us.
      assert (M : map fst (combine us ps) = us /\ map snd (combine us ps) = ps /\ Forall (fun '(u, p) => block u p) (combine us ps)).
      { clear - E Nd K Sz Bl Oc Eq. induction E as [|u p us ps H _ (I1 & I2 & I3)]; [repeat split; constructor|]. cbn [combine map fst snd]. rewrite I1, I2. repeat split; try reflexivity. constructor; [apply block_iff; exact H|exact I3]. }
      destruct M as (M1 & M2 & M3). split; [exact (eq_sym (f_equal (@concat byte) M2))|]. split; [exact (eq_trans T (eq_sym (f_equal (@concat byte) M1)))|exact M3].
    - intros (bl & -> & -> & F). assert (G : groups chars (concat (map fst bl)) = map fst bl).
      { apply groups_of_concat; [exact C0| |lia]. apply Forall_map. eapply Forall_impl; [|exact F]. intros [u p] H. exact (block_length H). }
      rewrite G. assert (M : map_opt (decode_block k chars a) (map fst bl) = Some (map snd bl)).
      { apply map_opt_iff. clear G. induction F as [|[u p] bl H _ IH]; cbn [map fst snd]; constructor; [apply block_iff; exact H|exact IH]. }
      rewrite M. reflexivity.
  Qed.
  Theorem padded_encode s : padded k octets chars a (pad_encode k octets chars a s) s.
  Proof.
    unfold pad_encode, padded. exists (map (fun p => (pad_block k chars a p, p)) (groups octets s)). rewrite !map_map. cbn [fst snd]. rewrite map_id.
    split; [symmetry; apply groups_concat; lia|]. split; [apply flat_map_concat_map|]. apply Forall_map, Forall_forall. intros p I.
    assert (L : forall f l q, In q (groups_fuel f octets l) -> (1 <= @length byte q <= octets)%nat).
    { clear - Oc. induction f as [|f IH]; intros [|x l] q H; try contradiction. destruct H as [<-|H]; [|exact (IH _ _ H)]. rewrite firstn_length. cbn [length]. lia. }
    split; [exact (L _ _ _ I)|]. exists (bits_encode k a p). split; [apply packed_encode; assumption|reflexivity].
  Qed.
  Lemma padded_chars t s : padded k octets chars a t s -> Forall (fun c => In c a \/ c = "="%byte) t.
  Proof.
    intros (bl & _ & -> & F). induction F as [|[u p] bl (_ & v & H & ->) _ IH]; cbn [map fst concat]; [constructor|]. apply Forall_app. split; [|exact IH]. apply Forall_app. split.
    - eapply Forall_impl; [|exact (packed_chars H)]. intros c I. left. exact I.
    - apply Forall_forall. intros c I. right. exact (repeat_spec _ _ _ I).
  Qed.
End Padded.

(** ** Digits *)
Section Radix.
  Variable a : bytes.
  Hypothesis Nd : NoDup a.
  Hypothesis Sz : (2 <= length a)%nat.
  Let b := N.of_nat (length a).
  Lemma position_nth n c : nth_error a n = Some c -> position c a = N.of_nat n.
  Proof.
    clear Sz b. revert n. induction Nd as [|x l H D IH]; intros [|n] E; cbn in E; try discriminate; cbn [position].
    - injection E as ->. rewrite beq_refl. reflexivity.
    - destruct (beq x c) eqn:B; [apply beq_eq in B; subst; exfalso; apply H; eapply nth_error_In; exact E|]. rewrite (IH D n E). lia.
  Qed.
  Lemma position_find c : In c a -> find_index c a 0 = Some (position c a) /\ (position c a < b)%N.
  Proof.
    intros I. apply In_nth_error in I as (n & E). rewrite (position_nth _ E). split; [rewrite (nth_find_index Nd 0 _ E); f_equal; lia|].
    assert (n < length a)%nat by (apply nth_error_Some; congruence). unfold b. lia.
  Qed.
  Lemma find_position c v : find_index c a 0 = Some v -> In c a /\ position c a = v.
  Proof. intros H. apply (find_iff _ _ Nd) in H. split; [eapply nth_error_In; exact H|]. rewrite (position_nth _ H). lia. Qed.
  Lemma position_head c : In c a -> position c a = 0%N <-> c = hd x00 a.
  Proof.
    clear Sz. destruct a as [|x l]; [contradiction|]. cbn [position hd]. intros _. destruct (beq x c) eqn:E; [apply beq_eq in E; subst; tauto|]. split; [lia|intros ->; rewrite beq_refl in E; discriminate].
  Qed.
  Lemma by_number s s' : number256 s = number256 s' -> leading x00 s = leading x00 s' -> s = s'.
  Proof. intros V L. apply base58_encode_inj, base58_by_number; assumption. Qed.
  Lemma bytes_conv ds : map Byte.to_N (map byte_of_N (conv b 256 ds)) = conv b 256 ds.
  Proof. apply map_inv. eapply Forall_impl; [|apply conv_lt; lia]. intros d Hd. apply to_N_byte_of_N. exact Hd. Qed.
  Lemma radix_bytes t : Forall (fun c => In c a) t ->
    let s := map byte_of_N (conv b 256 (map (fun c => position c a) t)) in
    number_in b (fun c => position c a) t = number256 s /\ leading (hd x00 a) t = leading x00 s.
  Proof.
    intros F s. unfold number256. rewrite !number_value. unfold s. rewrite (@leading_lead x00 Byte.to_N) by (apply Forall_forall; intros x _; apply to_N_0).
    rewrite bytes_conv, conv_value, conv_lead by lia. split; [reflexivity|]. apply leading_lead. eapply Forall_impl; [|exact F]. intros c. apply position_head.
  Qed.
  Theorem radix_decode_iff t s : radix_decode a t = Some s <-> radix a t s.
  Proof.
    unfold radix_decode, radix. fold b. split.
    - destruct (map_opt _ t) as [ds|] eqn:E; [|discriminate]. intros H. injection H as <-. apply map_opt_iff in E.
      assert (F : Forall (fun c => In c a) t /\ ds = map (fun c => position c a) t).
      { clear - E Nd Sz b. induction E as [|c v t ds H _ (I1 & ->)]; [split; constructor|]. apply find_position in H as (H1 & <-). split; [constructor; assumption|reflexivity]. }
      destruct F as (F & ->). split; [exact F|]. exact (radix_bytes F).
    - intros (F & V & L). assert (M : map_opt (fun c => find_index c a 0) t = Some (map (fun c => position c a) t)).
      { apply map_opt_iff. clear V L. induction F as [|c t H _ IH]; constructor; [apply position_find; exact H|exact IH]. }
      rewrite M. cbn [option_map]. f_equal. destruct (radix_bytes F) as [V' L']. apply by_number; congruence.
  Qed.
  Theorem radix_encode_text s : radix a (radix_encode a s) s.
  Proof.
    apply radix_decode_iff. unfold radix_decode, radix_encode. fold b. rewrite map_opt_map.
    - cbn [option_map]. rewrite conv_conv by (unfold b; try lia; apply map_to_N_lt). rewrite map_map. f_equal. rewrite <- (map_id s) at 2. apply map_ext. apply byte_of_N_to_N.
    - eapply Forall_impl; [|apply conv_lt; unfold b; lia]. intros d H. cbn beta. apply (find_iff _ _ Nd). apply nth_error_nth'. unfold b in H. lia.
  Qed.
End Radix.

(** ** Digits of either case *)
Definition cases : list (byte * byte) := combine (B "ABCDEFGHIJKLMNOPQRSTUVWXYZ") (B "abcdefghijklmnopqrstuvwxyz").
Definition folds (f : byte -> byte) (a : bytes) : bool :=
  forallb (fun d => beq (f d) d) a &&
  forallb (fun p => (negb (mem (snd p) a) || beq (f (fst p)) (snd p)) && (negb (mem (fst p) a) || beq (f (snd p)) (fst p))) cases.
Lemma folds_case f a c d : folds f a = true -> In d a -> either_case c d -> f c = d.
Proof.
  unfold folds. rewrite andb_true_iff, !forallb_forall. intros (F1 & F2) I [->|[H|H]].
  - apply beq_eq. apply F1. exact I.
  - specialize (F2 _ H). cbn [fst snd] in F2. apply andb_true_iff in F2 as [F2 _]. apply mem_In in I. rewrite I in F2. apply beq_eq. exact F2.
  - specialize (F2 _ H). cbn [fst snd] in F2. apply andb_true_iff in F2 as [_ F2]. apply mem_In in I. rewrite I in F2. apply beq_eq. exact F2.
Qed.
Definition caseb (f : byte -> byte) (c : byte) : bool :=
  beq c (f c) || existsb (fun p => beq (fst p) c && beq (snd p) (f c) || beq (fst p) (f c) && beq (snd p) c) cases.
Lemma caseb_case f c : caseb f c = true -> either_case c (f c).
Proof.
  unfold caseb. rewrite orb_true_iff, existsb_exists. intros [H|([x y] & I & H)]; [left; apply beq_eq; exact H|right]. cbn [fst snd] in H.
  rewrite orb_true_iff, !andb_true_iff, !beq_eq in H. destruct H as [(-> & ->)|(-> & ->)]; [left|right]; exact I.
Qed.
Lemma fold_decode f a t s : NoDup a -> (2 <= length a)%nat -> folds f a = true -> (forall c, caseb f c = true) -> radix_decode a (map f t) = Some s <-> caseless a t s.
Proof.
  intros N L F C. rewrite (radix_decode_iff N L). split.
  - intros R. exists (map f t). split; [|exact R]. clear R. induction t as [|c t IH]; constructor; [apply caseb_case, C|exact IH].
  - intros (u & H & R). assert (E : map f t = u).
    { destruct R as (I & _). clear L. induction H as [|c d t u H _ IH]; [reflexivity|]. inversion I; subst. cbn [map]. f_equal; [eapply folds_case; eassumption|apply IH; assumption]. }
    rewrite E. exact R.
Qed.

(** ** The table *)
Fixpoint distinct (l : bytes) : bool := match l with [] => true | c :: r => negb (mem c r) && distinct r end.
Lemma distinct_NoDup l : distinct l = true -> NoDup l.
Proof. induction l as [|c l IH]; [constructor|]. cbn. rewrite andb_true_iff, negb_true_iff. intros [H1 H2]. constructor; [apply mem_not_In; exact H1|exact (IH H2)]. Qed.
Definition good (x : kind) (R : bytes -> bytes -> Prop) : Prop :=
  (forall t s, kind_decode x t = Some s <-> R t s) /\ (forall s, R (kind_encode x s) s) /\ (forall t s, R t s -> Forall (fun c => is_ascii c = true) t).
Definition plain_alphabet (a : bytes) : bool := distinct a && forallb is_ascii a.
Lemma plain_facts a : plain_alphabet a = true -> NoDup a /\ forall c, In c a -> is_ascii c = true.
Proof. unfold plain_alphabet. rewrite andb_true_iff, forallb_forall. intros [H1 H2]. split; [apply distinct_NoDup; exact H1|exact H2]. Qed.
Lemma good_packed k a : plain_alphabet a = true -> (0 < k <= 8)%nat -> length a = (2 ^ k)%nat -> good (Packed k a) (packed k a).
Proof.
  intros P K L. apply plain_facts in P as (N & A). split; [|split].
  - intros t s. exact (packed_decode K N L t s).
  - intros s. apply packed_encode; assumption.
  - intros t s H. eapply Forall_impl; [|eapply packed_chars; exact H]. exact A.
Qed.
Lemma good_padded k n m a : plain_alphabet a = true -> (0 < k <= 8)%nat -> length a = (2 ^ k)%nat -> (k * m = 8 * n)%nat -> (0 < n)%nat -> mem "="%byte a = false ->
  good (Padded k n m a) (padded k n m a).
Proof.
  intros P K L E O M. apply plain_facts in P as (N & A). apply mem_not_In in M. split; [|split].
  - intros t s. apply padded_decode; assumption.
  - intros s. apply padded_encode; assumption.
  - intros t s H. eapply Forall_impl; [|eapply padded_chars; [..|exact H]; assumption]. intros c [I| ->]; [exact (A c I)|reflexivity].
Qed.
Lemma good_radix a : plain_alphabet a = true -> (2 <= length a)%nat -> good (Radix a) (radix a).
Proof.
  intros P L. apply plain_facts in P as (N & A). split; [|split].
  - intros t s. exact (radix_decode_iff N L t s).
  - intros s. exact (radix_encode_text N L s).
  - intros t s (H & _). eapply Forall_impl; [|exact H]. exact A.
Qed.
Lemma either_ascii c d : either_case c d -> is_ascii d = true -> is_ascii c = true.
Proof.
  assert (X : forallb (fun p => is_ascii (fst p) && is_ascii (snd p)) cases = true) by (vm_compute; reflexivity). rewrite forallb_forall in X.
  intros [->|[H|H]] A; [exact A| |]; specialize (X _ H); apply andb_true_iff in X as [X1 X2]; assumption.
Qed.
Lemma good_folded f a : plain_alphabet a = true -> (2 <= length a)%nat -> folds f a = true -> (forall c, caseb f c = true) -> good (Folded f a) (caseless a).
Proof.
  intros P L F C. apply plain_facts in P as (N & A). split; [|split].
  - intros t s. exact (fold_decode _ _ _ N L F C).
  - intros s. exists (radix_encode a s). split; [|exact (radix_encode_text N L s)]. cbn [kind_encode]. clear. induction (radix_encode a s); constructor; [left; reflexivity|assumption].
  - intros t s (u & E & H & _). revert H. induction E as [|c d t u X _ IH]; constructor; inversion H; subst; [eapply either_ascii; [exact X|apply A; assumption]|apply IH; assumption].
Qed.
Theorem table_good : Forall2 (fun p q => fst p = fst q /\ good (snd p) (snd q)) kinds table.
Proof.
  unfold kinds, table.
  repeat (constructor; [split; [reflexivity|]; cbn [snd];
    first [ apply good_packed; [vm_compute; reflexivity|lia|reflexivity]
          | apply good_padded; [vm_compute; reflexivity|lia|reflexivity|reflexivity|lia|reflexivity]
          | apply good_radix; [vm_compute; reflexivity|cbn; lia]
          | apply good_folded; [vm_compute; reflexivity|cbn; lia|vm_compute; reflexivity|apply forall_byte; vm_compute; reflexivity] ]|]).
  constructor.
Qed.
Lemma table_in c R : In (c, R) table -> exists x, find_kind c = Some x /\ good x R.
Proof.
  assert (N : NoDup (map fst kinds)) by (apply distinct_NoDup; vm_compute; reflexivity). unfold find_kind. revert N. generalize table_good. generalize table as tb, kinds as ks.
  intros tb ks F. induction F as [|[k x] [k' R'] ks tb (E & G) _ IH]; intros N I; [contradiction|]. cbn [fst snd] in *. subst k'. inversion N as [|? ? N1 N2]; subst.
  cbn [find fst]. destruct I as [I|I].
  - injection I as -> ->. rewrite beq_refl. exists x. split; [reflexivity|exact G].
  - destruct (beq k c) eqn:B; [|exact (IH N2 I)]. apply beq_eq in B. subst k. exfalso. apply N1. destruct (IH N2 I) as (y & Y & _).
    destruct (find _ ks) as [[c' y']|] eqn:Fd; [|discriminate]. apply find_some in Fd as (I1 & I2). cbn [fst] in I2. apply beq_eq in I2. subst c'. apply (in_map fst) in I1. exact I1.
Qed.
Lemma kind_in c x : find_kind c = Some x -> exists R, In (c, R) table /\ good x R.
Proof.
  unfold find_kind. generalize table_good. generalize table as tb, kinds as ks. intros tb ks F. induction F as [|[k y] [k' R'] ks tb (E & G) _ IH]; [discriminate|].
  cbn [fst snd] in *. subst k'. cbn [find fst]. destruct (beq k c) eqn:B.
  - intros H. cbn in H. injection H as ->. apply beq_eq in B. subst k. exists R'. split; [left; reflexivity|exact G].
  - intros H. destruct (IH H) as (R & I & GR). exists R. split; [right; exact I|exact GR].
Qed.
Theorem other_iff t n s : other_bases t = Some (n, s) <-> exists c, n = Byte.to_N c /\ text_in c t s.
Proof.
  unfold other_bases, text_in. split.
  - destruct t as [|c r]; [discriminate|]. destruct (find_kind c) as [x|] eqn:F; [|discriminate]. destruct (kind_decode x r) as [s'|] eqn:E; [|discriminate].
    cbn [option_map]. intros H. injection H as <- <-. exists c. split; [reflexivity|]. apply kind_in in F as (R & I & G). exists R, r. split; [exact I|]. split; [reflexivity|]. apply G. exact E.
  - intros (c & -> & R & r & I & -> & H). apply table_in in I as (x & -> & G). apply (proj1 G) in H. rewrite H. reflexivity.
Qed.
Lemma text_head c t s : text_in c t s -> exists r, t = c :: r /\ ~ In c (x00 :: B "zfF") /\ is_ascii c = true.
Proof.
  intros (R & r & I & -> & _). exists r. split; [reflexivity|]. assert (X : forallb (fun p => negb (mem (fst p) (x00 :: B "zfF")) && is_ascii (fst p)) kinds = true) by (vm_compute; reflexivity).
  rewrite forallb_forall in X. apply table_in in I as (x & F & _). unfold find_kind in F. destruct (find _ kinds) as [[c' x']|] eqn:E; [|discriminate].
  apply find_some in E as (I & E). cbn [fst] in E. apply beq_eq in E. subst c'. specialize (X _ I). cbn [fst] in X. apply andb_true_iff in X as [X1 X2]. split; [|exact X2]. apply mem_not_In. apply negb_true_iff. exact X1.
Qed.
Lemma text_utf8 c t s : text_in c t s -> utf8_valid t = true.
Proof.
  intros H. destruct (text_head H) as (_ & _ & _ & A). destruct H as (R & r & I & -> & H). apply utf8_ascii. constructor; [exact A|]. apply table_in in I as (x & _ & _ & _ & G). exact (G _ _ H).
Qed.
(** Every byte string has a text in each base. *)
Theorem text_exists c R s : In (c, R) table -> exists t, text_in c t s.
Proof. intros I. destruct (table_in I) as (x & _ & G). exists (c :: kind_encode x s), R, (kind_encode x s). split; [exact I|]. split; [reflexivity|]. apply G. Qed.
Lemma ascii_no_rocket t : (forall r, t <> rocket ++ r) \/ exists r, t = rocket ++ r.
Proof.
  destruct (bytes_dec (firstn 4 t) rocket) as [E|E]; [right; exists (skipn 4 t); rewrite <- E; symmetry; apply firstn_skipn|]. left. intros r ->. apply E. reflexivity.
Qed.

Section Multibase.
  Variable D : deps.
  Hypothesis M : multibase09 D.
  (** What a text of another base decodes to. *)
  Theorem decode_other t s : (forall r, t <> rocket ++ r) -> forall n, mb_decode (mb_other D) t = Some (OtherBase n, s) <-> exists c, n = Byte.to_N c /\ text_in c t s.
  Proof.
    intros NR n. rewrite multibase_iff. cbn [multibase_text]. rewrite (M NR), other_iff. split; [tauto|]. intros (c & E & H). split; [|split; [|exists c; auto]].
    - intros c' r' ->. destruct (text_head H) as (r & X & Y & _). injection X as -> _. exact Y.
    - intros ->. destruct (text_head H) as (r & X & _). discriminate.
  Qed.
  Theorem text_decodes c t s : text_in c t s -> mb_decode (mb_other D) t = Some (OtherBase (Byte.to_N c), s).
  Proof.
    intros H. apply decode_other; [|exists c; auto]. intros r E. destruct (text_head H) as (r' & X & _ & A). rewrite X in E. injection E as E _. subst c. discriminate A.
  Qed.
End Multibase.

(** ** One text per byte string in the bases without padding and of one case *)
Lemma groups_same k l l' : (0 < k)%nat -> flat_map (bits_of k) l = flat_map (bits_of k) l' -> Forall (fun n => (n < 2 ^ N.of_nat k)%N) l -> Forall (fun n => (n < 2 ^ N.of_nat k)%N) l' -> l = l'.
Proof.
  intros K E F F'. rewrite !flat_map_concat_map in E. assert (X : forall l, Forall (fun g => length g = k) (map (bits_of k) l)) by (intros m; apply Forall_map, Forall_forall; intros n _; apply bits_length).
  pose proof (@groups_of_concat _ k _ K (X l) _ (le_n _)) as G. pose proof (@groups_of_concat _ k _ K (X l') _ (le_n _)) as G'. rewrite E, G' in G. apply (f_equal (map of_bits)) in G. rewrite !map_map in G.
  assert (Y : forall l, Forall (fun n => (n < 2 ^ N.of_nat k)%N) l -> map (fun n => of_bits (bits_of k n)) l = l).
  { clear. induction 1 as [|n l H _ IH]; [reflexivity|]. cbn [map]. rewrite IH, of_bits_of by exact H. reflexivity. }
  rewrite !Y in G by assumption. congruence.
Qed.
Lemma packed_unique k a t t' s : (0 < k <= 8)%nat -> length a = (2 ^ k)%nat -> packed k a t s -> packed k a t' s -> t = t'.
Proof.
  intros K L H H'. destruct (packed_length K L H) as (z & Z & E). destruct (packed_length K L H') as (z' & Z' & E').
  assert (Q : length t = length t') by nia. apply packed_bits in H as (ns & y & F & Y & B). apply packed_bits in H' as (ns' & y' & F' & Y' & B').
  assert (A : forall t ns, Forall2 (fun c n => nth_error a (N.to_nat n) = Some c) t ns -> Forall (fun n => (n < 2 ^ N.of_nat k)%N) ns).
  { clear - L K. induction 1 as [|c n t ns H _ IH]; constructor; [|exact IH]. eapply size; eassumption. }
  pose proof (f_equal (@length bool) B) as C. pose proof (f_equal (@length bool) B') as C'. rewrite symbol_bits_length, app_length, repeat_length in C, C'.
  pose proof (Forall2_same F) as S. pose proof (Forall2_same F') as S'. assert (y = y') by nia. subst y'.
  assert (ns = ns') by (apply (@groups_same k); [lia|congruence|eapply A; exact F|eapply A; exact F']). subst ns'.
  clear - F F'. revert t' F'. induction F as [|c n t ns H _ IH]; intros t' F'; inversion F'; subst; [reflexivity|]. f_equal; [congruence|apply IH; assumption].
Qed.
Lemma number_digits b ds ds' : (2 <= b)%N -> Forall (fun d => (d < b)%N) ds -> Forall (fun d => (d < b)%N) ds' ->
  value b (rev ds) = value b (rev ds') -> lead ds = lead ds' -> ds = ds'.
Proof.
  intros B F F' V L. rewrite <- (@conv_conv b 256 ds), <- (@conv_conv b 256 ds') by (assumption || lia). f_equal. unfold conv. rewrite V, L. reflexivity.
Qed.
Lemma radix_unique a t t' s : NoDup a -> (2 <= length a)%nat -> radix a t s -> radix a t' s -> t = t'.
Proof.
  intros N L (F & V & Z) (F' & V' & Z'). rewrite <- V' in V. rewrite <- Z' in Z. rewrite !number_value in V.
  assert (A : forall t, Forall (fun c => In c a) t -> Forall (fun d => (d < N.of_nat (length a))%N) (map (fun c => position c a) t)).
  { intros u U. apply Forall_map. eapply Forall_impl; [|exact U]. intros c I. apply (position_find N L c I). }
  rewrite !(@leading_lead (hd x00 a) (fun c => position c a)) in Z by (eapply Forall_impl; [|eassumption]; intros c I; apply position_head; assumption).
  apply number_digits in V; [|lia|apply A; exact F|apply A; exact F'|exact Z]. clear - V F F' N.
  revert t' F' V. induction F as [|c t I _ IH]; intros [|c' t'] F' V; try discriminate; [reflexivity|]. inversion F' as [|? ? I' F'']; subst. cbn [map] in V. injection V as V1 V2.
  f_equal; [|apply IH; assumption]. apply In_nth_error in I as (n & E). apply In_nth_error in I' as (n' & E'). rewrite (position_nth N _ E), (position_nth N _ E') in V1.
  assert (n = n') by lia. subst. congruence.
Qed.
Theorem one_text c t t' s : In c (B "079bBvVhZmu") -> text_in c t s -> text_in c t' s -> t = t'.
Proof.
  intros I (R & r & T & -> & H) (R' & r' & T' & -> & H'). f_equal. destruct (table_in T) as (x & F & _ & _ & _). 
  assert (X : R = R') by (clear H H'; unfold table in T, T'; cbn [B In] in T, T'; repeat (destruct T as [T|T]; [injection T as <- <-; repeat (destruct T' as [T'|T']; [try discriminate T'; injection T' as <-; reflexivity|]); contradiction|]); contradiction).
  subst R'. clear T' F x. change (B "079bBvVhZmu") with ["0"; "7"; "9"; "b"; "B"; "v"; "V"; "h"; "Z"; "m"; "u"]%byte in I.
  unfold table in T. cbn [In] in T.
  repeat (destruct T as [T|T]; [injection T as <- <-; cbn [In] in I; 
    first [ (eapply packed_unique; [| |exact H|exact H']; [lia|reflexivity])
          | (refine (radix_unique _ _ H H'); [apply distinct_NoDup; vm_compute; reflexivity|apply Nat.leb_le; vm_compute; reflexivity])
          | (exfalso; repeat (destruct I as [I|I]; [discriminate I|]); exact I)]|]). contradiction.
Qed.
