(** Lemmas about the std operations of [Base]. *)
From Verif Require Import Base.

Lemma beq_eq a b : beq a b = true <-> a = b.
Proof.
  unfold beq. split; [apply Byte.byte_dec_bl | apply Byte.byte_dec_lb].
Qed.
Lemma beq_refl a : beq a a = true. Proof. apply beq_eq; reflexivity. Qed.
Lemma beq_neq a b : beq a b = false <-> a <> b.
Proof.
  destruct (beq a b) eqn:E; split; intros H; try congruence.
  - apply beq_eq in E. congruence.
  - intros ->. rewrite beq_refl in E. discriminate.
Qed.
Lemma beq_sym a b : beq a b = beq b a.
Proof.
  destruct (beq a b) eqn:E.
  - apply beq_eq in E. subst. symmetry. apply beq_refl.
  - apply beq_neq in E. symmetry. apply beq_neq. congruence.
Qed.

Lemma bytes_eqb_eq a b : bytes_eqb a b = true <-> a = b.
Proof.
  revert b; induction a as [|x a IH]; intros [|y b]; simpl; split; intros H; try congruence.
  - apply andb_true_iff in H as [H1 H2]. apply beq_eq in H1. apply IH in H2. congruence.
  - injection H as -> ->. rewrite beq_refl. simpl. apply IH. reflexivity.
Qed.
Lemma bytes_eqb_refl a : bytes_eqb a a = true.
Proof. apply bytes_eqb_eq; reflexivity. Qed.
Lemma bytes_eqb_neq a b : bytes_eqb a b = false <-> a <> b.
Proof.
  destruct (bytes_eqb a b) eqn:E; split; intros H; try congruence.
  - apply bytes_eqb_eq in E. congruence.
  - intros ->. rewrite bytes_eqb_refl in E. discriminate.
Qed.
Lemma bytes_eqb_sym a b : bytes_eqb a b = bytes_eqb b a.
Proof.
  destruct (bytes_eqb a b) eqn:E.
  - apply bytes_eqb_eq in E. subst. symmetry. apply bytes_eqb_refl.
  - apply bytes_eqb_neq in E. symmetry. apply bytes_eqb_neq. congruence.
Qed.
Lemma bytes_dec (a b : bytes) : {a = b} + {a <> b}.
Proof. destruct (bytes_eqb a b) eqn:E; [left; apply bytes_eqb_eq|right; apply bytes_eqb_neq]; assumption. Qed.

Lemma mem_In c s : mem c s = true <-> In c s.
Proof.
  unfold mem. rewrite existsb_exists. split.
  - intros (x & Hx & E). apply beq_eq in E. congruence.
  - intros H. exists c. split; [assumption|apply beq_refl].
Qed.
Lemma mem_not_In c s : mem c s = false <-> ~ In c s.
Proof. rewrite <- mem_In. destruct (mem c s); split; congruence. Qed.
Lemma mem_app c s t : mem c (s ++ t) = mem c s || mem c t.
Proof. unfold mem. apply existsb_app. Qed.
Lemma mem_cons c x s : mem c (x :: s) = beq c x || mem c s.
Proof. reflexivity. Qed.

(** ** [split] *)
Lemma split_not_nil c s : split c s <> [].
Proof. destruct s as [|x s]; simpl; [discriminate|]. destruct (beq x c); [discriminate|]. destruct (split c s); discriminate. Qed.

Lemma split_no c s : mem c s = false -> split c s = [s].
Proof.
  induction s as [|x s IH]; intros H; [reflexivity|].
  rewrite mem_cons in H. apply orb_false_iff in H as [H1 H2].
  simpl. rewrite beq_sym in H1. rewrite H1. rewrite IH by assumption. reflexivity.
Qed.

Lemma split_cons_sep c s : split c (c :: s) = [] :: split c s.
Proof. simpl. rewrite beq_refl. reflexivity. Qed.

(** Splitting at the first separator. *)
Lemma split_app c s t : mem c s = false -> split c (s ++ c :: t) = s :: split c t.
Proof.
  induction s as [|x s IH]; intros H.
  - apply split_cons_sep.
  - rewrite mem_cons in H. apply orb_false_iff in H as [H1 H2].
    simpl. rewrite beq_sym in H1. rewrite H1. rewrite IH by assumption. reflexivity.
Qed.

(** Every text is either free of [c] or has a first [c]. *)
Lemma first_sep c s : mem c s = false \/ exists a b, s = a ++ c :: b /\ mem c a = false.
Proof.
  induction s as [|x s IH]; [left; reflexivity|].
  destruct (beq c x) eqn:E.
  - apply beq_eq in E. subst. right. exists [], s. split; reflexivity.
  - destruct IH as [H|(a & b & -> & H)].
    + left. rewrite mem_cons, E, H. reflexivity.
    + right. exists (x :: a), b. split; [reflexivity|]. rewrite mem_cons, E, H. reflexivity.
Qed.

(** No piece contains the separator. *)
Lemma split_pieces c s : forall p, In p (split c s) -> mem c p = false.
Proof.
  induction s as [|x s IH]; intros p Hp.
  - destruct Hp as [<-|[]]. reflexivity.
  - simpl in Hp. destruct (beq x c) eqn:E.
    + destruct Hp as [<-|Hp]; [reflexivity|]. apply IH; assumption.
    + destruct (split c s) as [|q qs] eqn:Eq; [destruct (split_not_nil c s Eq)|].
      destruct Hp as [<-|Hp].
      * rewrite mem_cons, beq_sym, E. simpl. apply IH. left; reflexivity.
      * apply IH. right; assumption.
Qed.

Lemma split_join c s : join [c] (split c s) = s.
Proof.
  induction s as [|x s IH]; [reflexivity|].
  simpl. destruct (beq x c) eqn:E.
  - apply beq_eq in E. subst. destruct (split c s) as [|q qs] eqn:Eq; [destruct (split_not_nil c s Eq)|].
    simpl in *. rewrite IH. reflexivity.
  - destruct (split c s) as [|q qs] eqn:Eq; [destruct (split_not_nil c s Eq)|].
    simpl in *. destruct qs; simpl in *; rewrite <- IH; reflexivity.
Qed.

Lemma split_join_inv c ps : ps <> [] -> (forall p, In p ps -> mem c p = false) -> split c (join [c] ps) = ps.
Proof.
  induction ps as [|p ps IH]; intros Hn H; [congruence|].
  destruct ps as [|q qs].
  - simpl. apply split_no, H. left; reflexivity.
  - change (join [c] (p :: q :: qs)) with (p ++ c :: join [c] (q :: qs)).
    rewrite split_app by (apply H; left; reflexivity).
    rewrite IH; [reflexivity|discriminate|]. intros r Hr. apply H. right; assumption.
Qed.

Lemma split_length c s : length (split c s) = S (length (filter (beq c) s)).
Proof.
  induction s as [|x s IH]; [reflexivity|].
  simpl. rewrite beq_sym. destruct (beq c x) eqn:E.
  - simpl. rewrite IH. reflexivity.
  - destruct (split c s) as [|q qs] eqn:Eq; [destruct (split_not_nil c s Eq)|]. exact IH.
Qed.

Lemma last_opt_app {A} (l : list A) x : last_opt (l ++ [x]) = Some x.
Proof.
  induction l as [|y l IH]; [reflexivity|]. simpl. rewrite IH.
  destruct (l ++ [x]) eqn:E; [destruct l; discriminate|reflexivity].
Qed.
Lemma last_opt_cons {A} (x : A) l : l <> [] -> last_opt (x :: l) = last_opt l.
Proof. destruct l; [congruence|reflexivity]. Qed.

(** ** byte / N *)
Lemma byte_of_N_to_N b : byte_of_N (Byte.to_N b) = b.
Proof. unfold byte_of_N. rewrite Byte.of_to_N. reflexivity. Qed.
Lemma to_N_byte_of_N n : (n < 256)%N -> Byte.to_N (byte_of_N n) = n.
Proof.
  intros H. unfold byte_of_N. destruct (Byte.of_N n) as [b|] eqn:E.
  - apply Byte.to_of_N in E. exact E.
  - apply Byte.of_N_None_iff in E. lia.
Qed.
Lemma to_N_lt b : (Byte.to_N b < 256)%N.
Proof. pose proof (Byte.to_N_bounded b). lia. Qed.
Lemma to_N_inj a b : Byte.to_N a = Byte.to_N b -> a = b.
Proof. intros H. rewrite <- (byte_of_N_to_N a), <- (byte_of_N_to_N b), H. reflexivity. Qed.

Lemma forall_byte (P : byte -> bool) :
  forallb P (map byte_of_N (map N.of_nat (seq 0 256))) = true -> forall b, P b = true.
Proof.
  rewrite forallb_forall. intros H b. apply H.
  rewrite <- (byte_of_N_to_N b). apply in_map.
  rewrite <- (N2Nat.id (Byte.to_N b)). apply in_map. apply in_seq.
  pose proof (to_N_lt b). lia.
Qed.

Lemma app_eq_prefix {A} (a b c d : list A) : length a = length b -> a ++ c = b ++ d -> a = b /\ c = d.
Proof.
  revert b; induction a as [|x a IH]; intros [|y b] Hl H; simpl in *; try discriminate.
  - split; [reflexivity|assumption].
  - injection H as -> H. injection Hl as Hl. destruct (IH b Hl H) as [-> ->]. split; reflexivity.
Qed.
