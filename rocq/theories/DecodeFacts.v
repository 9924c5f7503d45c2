(** Proofs of C77. *)
From Verif Require Import Base BaseFacts Codec CodecFacts DidFacts DecodeSpec.
Set Implicit Arguments.
Local Open Scope N_scope.

Lemma cons_inj {A} (a b : A) l m : a :: l = b :: m -> a = b /\ l = m.
Proof. intros [= -> ->]. auto. Qed.
Section Digits.
  Variables (val : byte -> option N) (Q : byte -> byte -> Prop).
  Hypothesis V : forall c n, val c = Some n <-> n < 16 /\ Q c (hex_digit n).
  Lemma byte_nibbles a b : a < 16 -> b < 16 -> hex_encode [byte_of_N (16 * a + b)] = [hex_digit a; hex_digit b].
  Proof.
    intros Ha Hb. unfold hex_encode, hex_with. cbn [flat_map app]. rewrite to_N_byte_of_N by lia.
    replace ((16 * a + b) / 16) with a by (apply (N.div_unique _ _ _ b); lia).
    replace ((16 * a + b) mod 16) with b by (apply (N.mod_unique _ _ a); lia). reflexivity.
  Qed.
  Lemma hex_decode_with_iff : forall s t, hex_decode_with val t = Some s <-> Forall2 Q t (hex_encode s).
  Proof.
    induction s as [|x s IH]; intros t.
    - split.
      + destruct t as [|h [|l t]]; cbn [hex_decode_with]; [constructor|discriminate|].
        destruct (val h), (val l), (hex_decode_with val t); discriminate.
      + intros H. inversion H; subst. reflexivity.
    - change (hex_encode (x :: s)) with (hex_encode [x] ++ hex_encode s). split.
      + destruct t as [|h [|l t]]; cbn [hex_decode_with]; [discriminate|discriminate|].
        destruct (val h) as [a|] eqn:Ea; [|discriminate]. destruct (val l) as [b|] eqn:Eb; [|discriminate].
        destruct (hex_decode_with val t) as [r|] eqn:E; [|discriminate]. intros H. apply some_inj, cons_inj in H as [<- <-].
        apply V in Ea as [A1 A2], Eb as [B1 B2]. rewrite byte_nibbles by assumption. apply IH in E. cbn [app]. auto.
      + unfold hex_encode at 1, hex_with at 1. cbn [flat_map app]. intros H. inversion H as [|h y t1 ? Q1 H1]; subst. inversion H1 as [|l z t2 ? Q2 H2]; subst.
        destruct (hex_nibbles x) as [N1 N2]. apply IH in H2. cbn [hex_decode_with].
        rewrite (proj2 (V _ _) (conj N1 Q1)), (proj2 (V _ _) (conj N2 Q2)), H2, hex_byte. reflexivity.
  Qed.
End Digits.

Definition listed (l : list (byte * byte)) (a b : byte) : bool := existsb (fun p => beq a (fst p) && beq b (snd p)) l.
Lemma listed_iff l a b : listed l a b = true <-> In (a, b) l.
Proof.
  unfold listed. rewrite existsb_exists. split.
  - intros ([x y] & H & E). apply andb_true_iff in E as [E1 E2]. apply beq_eq in E1, E2. cbn in *. subst. exact H.
  - intros H. exists (a, b). split; [exact H|]. cbn. rewrite !beq_refl. reflexivity.
Qed.
Section Check.
  Variables (val : byte -> option N) (Qb : byte -> byte -> bool) (Q : byte -> byte -> Prop).
  Hypothesis R : forall a b, Qb a b = true <-> Q a b.
  Hypothesis C1 : forall c, (match val c with Some n => (n <? 16) && Qb c (hex_digit n) | None => true end) = true.
  Hypothesis C2 : forall c, forallb (fun n => negb (Qb c (hex_digit n)) || match val c with Some m => m =? n | None => false end) (below 16) = true.
  Lemma checked c n : val c = Some n <-> n < 16 /\ Q c (hex_digit n).
  Proof.
    rewrite <- R. split.
    - intros E. specialize (C1 c). rewrite E in C1. apply andb_true_iff in C1 as [H1 H2]. apply N.ltb_lt in H1. auto.
    - intros [Hn Hq]. pose proof (@forall_below 16 _ (C2 c) n Hn) as H. cbv beta in H. rewrite Hq in H. cbn [negb orb] in H.
      destruct (val c) as [m|]; [|discriminate]. apply N.eqb_eq in H. subst. reflexivity.
  Qed.
End Check.
Lemma lower_val c n : hex_val_lower c = Some n <-> n < 16 /\ c = hex_digit n.
Proof. revert c n. apply (@checked _ beq eq); [intros a b; split; [apply beq_eq|intros ->; apply beq_refl] | |]; intros c; destruct c; vm_compute; reflexivity. Qed.
Lemma upper_val c n : hex_val_upper c = Some n <-> n < 16 /\ upper_digit c (hex_digit n).
Proof. revert c n. eapply checked; [intros a b; apply listed_iff | |]; intros c; destruct c; vm_compute; reflexivity. Qed.
Definition same_b (a b : byte) : bool := beq a b || listed (combine (B "ABCDEF") (B "abcdef")) a b.
Lemma any_val c n : hex_val c = Some n <-> n < 16 /\ same_digit c (hex_digit n).
Proof.
  revert c n. apply (@checked _ same_b); [|intros c; destruct c; vm_compute; reflexivity..].
  intros a b. unfold same_b, same_digit. rewrite orb_true_iff, listed_iff. split; (intros [H|H]; [left|right; exact H]); [apply beq_eq, H|subst; apply beq_refl].
Qed.

Theorem hex_decode_iff t s : hex_decode t = Some s <-> Forall2 same_digit t (hex_encode s).
Proof. apply hex_decode_with_iff, any_val. Qed.
Lemma lower_iff t s : hex_decode_with hex_val_lower t = Some s <-> t = hex_encode s.
Proof.
  rewrite (@hex_decode_with_iff _ eq lower_val). split; [|intros ->; induction (hex_encode s); auto].
  intros H. induction H; congruence.
Qed.
Lemma upper_iff t s : hex_decode_with hex_val_upper t = Some s <-> Forall2 upper_digit t (hex_encode s).
Proof. apply hex_decode_with_iff, upper_val. Qed.
Lemma base58_iff t s : base58_decode t = Some s <-> t = base58_encode s.
Proof. split; [intros H; symmetry; apply base58_encode_decode, H | intros ->; apply base58_decode_encode]. Qed.
Theorem multibase_iff other t b s : mb_decode other t = Some (b, s) <-> multibase_text other t b s.
Proof.
  destruct t as [|c r]; [cbn; split; [discriminate|]; destruct b; cbn; try discriminate; [intros (u & E & _); discriminate | tauto]|].
  unfold mb_decode. destruct (beq c char_z) eqn:E1; [|destruct (beq c char_f) eqn:E2; [|destruct (beq c char_F) eqn:E3; [|destruct (beq c x00) eqn:E4]]];
    repeat match goal with H : beq _ _ = true |- _ => apply beq_eq in H; subst c end.
  - split.
    + destruct (base58_decode r) as [x|] eqn:E; [|discriminate]. cbn [option_map]. intros H. apply some_inj in H. injection H as <- <-.
      apply base58_iff in E. subst. reflexivity.
    + destruct b; cbn [multibase_text]; intros H; try (injection H as ->; try discriminate); try discriminate.
      * rewrite base58_decode_encode. reflexivity.
      * destruct H as (u & H & _); discriminate.
      * destruct H as (H & _). exfalso. eapply H; [reflexivity|]. cbn. auto.
  - split.
    + destruct (hex_decode_with hex_val_lower r) as [x|] eqn:E; [|discriminate]. cbn [option_map]. intros H. apply some_inj in H. injection H as <- <-.
      apply lower_iff in E. subst. reflexivity.
    + destruct b; cbn [multibase_text]; intros H; try discriminate.
      * injection H as ->. rewrite hex_lower_decode_encode. reflexivity.
      * destruct H as (u & H & _); discriminate.
      * destruct H as (H & _). exfalso. eapply H; [reflexivity|]. cbn. auto.
  - split.
    + destruct (hex_decode_with hex_val_upper r) as [x|] eqn:E; [|discriminate]. cbn [option_map]. intros H. apply some_inj in H. injection H as <- <-.
      apply upper_iff in E. exists r. auto.
    + destruct b; cbn [multibase_text]; intros H; try discriminate.
      * destruct H as (u & H & F). injection H as ->. apply upper_iff in F. rewrite F. reflexivity.
      * destruct H as (H & _). exfalso. eapply H; [reflexivity|]. cbn. auto.
  - split.
    + intros H. apply some_inj in H. injection H as <- <-. reflexivity.
    + destruct b; cbn [multibase_text]; intros H; try discriminate.
      * destruct H as (u & H & _); discriminate.
      * injection H as ->. reflexivity.
      * destruct H as (H & _). exfalso. eapply H; [reflexivity|]. cbn. auto.
  - split.
    + destruct (other (c :: r)) as [[n x]|] eqn:E; [|discriminate]. cbn [option_map]. intros H. apply some_inj in H. injection H as <- <-.
      split; [|split; [discriminate|exact E]]. intros c' r' H. injection H as <- <-. intros [<-|[<-|[<-|[<-|[]]]]];
        [rewrite beq_refl in E4|rewrite beq_refl in E1|rewrite beq_refl in E2|rewrite beq_refl in E3]; discriminate.
    + destruct b; cbn [multibase_text]; intros H.
      * injection H as -> _. discriminate.
      * injection H as -> _. discriminate.
      * destruct H as (u & H & _). injection H as -> _. discriminate.
      * injection H as -> _. discriminate.
      * destruct H as (_ & _ & ->). reflexivity.
Qed.
