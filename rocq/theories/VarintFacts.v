(** Proofs of C79. *)
From Verif Require Import Base BaseFacts Codec CodecFacts DidFacts DecodeFacts VarintSpec.
Set Implicit Arguments.
Local Open Scope N_scope.

Lemma form_cons b bs : 128 <= Byte.to_N b -> varint_form bs -> groups bs <> 0 -> varint_form (b :: bs).
Proof.
  intros Hb (i & l & -> & F & Hl & Z) G. exists (b :: i), l. split; [reflexivity|]. split; [constructor; auto|]. split; [exact Hl|right].
  destruct Z as [->|Z]; [|exact Z]. intros ->. apply G. reflexivity.
Qed.
Lemma form_inv b bs : varint_form (b :: bs) -> (Byte.to_N b < 128 /\ bs = []) \/ (128 <= Byte.to_N b /\ varint_form bs /\ groups bs <> 0).
Proof.
  intros (i & l & E & F & Hl & Z). destruct i as [|a i]; cbn [app] in E; apply cons_inj in E as [<- ->].
  - left. auto.
  - right. inversion F as [|? ? H1 H2]; subst. split; [exact H1|]. destruct Z as [Z|Z]; [discriminate|]. split; [exists i, l; auto|].
    clear F H1. induction i as [|c i IH]; cbn [app groups].
    + intros H. rewrite N.mod_small in H by exact Hl. assert (H0 : Byte.to_N l = Byte.to_N x00) by (change (Byte.to_N x00) with 0; lia).
      apply (f_equal byte_of_N) in H0. rewrite !byte_of_N_to_N in H0. congruence.
    + inversion H2; subst. intros H. apply IH; [assumption|lia].
Qed.
Lemma varint_fuel_spec f : forall n, n < 2 ^ N.of_nat f -> varint_form (varint_fuel (S f) n) /\ groups (varint_fuel (S f) n) = n.
Proof.
  induction f as [|f IH]; intros n Hn.
  - assert (n = 0) as -> by (cbn in Hn; lia). split; [exists [], x00; repeat split; auto|reflexivity].
  - remember (S f) as g. cbn [varint_fuel]. destruct (N.ltb_spec n 128) as [H|H].
    + split.
      * exists [], (byte_of_N n). split; [reflexivity|]. split; [constructor|]. split; [rewrite to_N_byte_of_N by lia; exact H|auto].
      * cbn [groups]. rewrite to_N_byte_of_N, N.mod_small by lia. lia.
    + subst g. assert (Hd : n / 128 < 2 ^ N.of_nat f).
      { apply N.div_lt_upper_bound; [lia|]. rewrite Nat2N.inj_succ, N.pow_succ_r' in Hn. lia. }
      pose proof (N.mod_lt n 128 ltac:(lia)) as M. destruct (IH _ Hd) as [A G].
      pose proof (N.div_mod n 128 ltac:(lia)) as DM. split.
      * apply form_cons; [rewrite to_N_byte_of_N by lia; lia|exact A|]. rewrite G. intros Z. rewrite Z in DM. lia.
      * cbn [groups]. rewrite G, to_N_byte_of_N by lia.
        replace ((n mod 128 + 128) mod 128) with (n mod 128); [lia|].
        apply (N.mod_unique _ _ 1); lia.
Qed.
Lemma size_bound n : n < 2 ^ N.of_nat (N.size_nat n).
Proof. destruct n as [|p]; [reflexivity|]. cbn [N.size_nat]. induction p; cbn [Pos.size_nat]; rewrite ?Nat2N.inj_succ, ?N.pow_succ_r'; lia. Qed.
Theorem varint_spec n : varint_form (varint n) /\ groups (varint n) = n.
Proof. apply varint_fuel_spec, size_bound. Qed.
(** Self-delimiting: no varint continues another one. *)
Lemma varint_prefix : forall a b r s, varint_form a -> varint_form b -> a ++ r = b ++ s -> a = b /\ r = s.
Proof.
  induction a as [|x a IH]; intros b r s Fa Fb E; [destruct Fa as ([|] & ? & ? & _); discriminate|].
  destruct b as [|y b]; [destruct Fb as ([|] & ? & ? & _); discriminate|]. cbn [app] in E. apply cons_inj in E as [-> E].
  destruct (form_inv Fa) as [[A ->]|(A & Fa' & _)], (form_inv Fb) as [[B ->]|(B & Fb' & _)]; try (exfalso; clear - A B; lia).
  - auto.
  - destruct (IH b r s Fa' Fb' E) as [-> ->]. auto.
Qed.
Theorem varint_unique bs : forall n, varint_form bs -> groups bs = n -> bs = varint n.
Proof.
  assert (U : forall a b, varint_form a -> varint_form b -> groups a = groups b -> a = b).
  { induction a as [|x a IH]; intros b Fa Fb E; [destruct Fa as ([|] & ? & ? & _); discriminate|].
    destruct b as [|y b]; [destruct Fb as ([|] & ? & ? & _); discriminate|]. cbn [groups] in E.
    pose proof (N.mod_lt (Byte.to_N x) 128 ltac:(lia)). pose proof (N.mod_lt (Byte.to_N y) 128 ltac:(lia)).
    assert (M : Byte.to_N x mod 128 = Byte.to_N y mod 128 /\ groups a = groups b) by lia. destruct M as [M G].
    pose proof (to_N_lt x). pose proof (to_N_lt y).
    assert (S : forall z, 128 <= Byte.to_N z -> Byte.to_N z mod 128 = Byte.to_N z - 128).
    { intros z Hz. pose proof (to_N_lt z). symmetry. apply (N.mod_unique _ _ 1); lia. }
    assert (X : Byte.to_N x = Byte.to_N y -> x = y) by (intros Q; apply (f_equal byte_of_N) in Q; rewrite !byte_of_N_to_N in Q; exact Q).
    destruct (form_inv Fa) as [[A ->]|(A & Fa' & Ga)], (form_inv Fb) as [[B ->]|(B & Fb' & Gb)]; cbn [groups] in G; try congruence.
    - rewrite !N.mod_small in M by assumption. rewrite X by exact M. reflexivity.
    - rewrite !S in M by assumption. rewrite X by lia. f_equal. apply IH; assumption. }
  intros n F <-. apply U; [exact F|apply varint_spec|]. symmetry. apply varint_spec.
Qed.
Theorem multihash_inj a b : multihash_bytes a = multihash_bytes b -> a = b.
Proof.
  destruct a as [c d], b as [c' d']. unfold multihash_bytes. cbn [fst snd]. intros E.
  apply varint_prefix in E as [E1 E]; [|apply varint_spec..]. apply varint_prefix in E as [_ E]; [|apply varint_spec..].
  apply (f_equal groups) in E1. rewrite !(proj2 (varint_spec _)) in E1. congruence.
Qed.
(** Not even with anything after it. *)
Theorem multihash_prefix a b r s : multihash_bytes a ++ r = multihash_bytes b ++ s -> a = b /\ r = s.
Proof.
  destruct a as [c d], b as [c' d']. unfold multihash_bytes. cbn [fst snd]. rewrite <- !app_assoc. intros E.
  apply varint_prefix in E as [E1 E]; [|apply varint_spec..]. apply varint_prefix in E as [E2 E]; [|apply varint_spec..].
  apply (f_equal groups) in E1. apply (f_equal groups) in E2. rewrite !(proj2 (varint_spec _)) in E1. rewrite !(proj2 (varint_spec _)) in E2. apply Nat2N.inj in E2. subst c'.
  assert (d = d' /\ r = s) as [-> ->]; [|auto].
  revert d' E2 E. induction d as [|x d IH]; intros [|y d'] L E; cbn in *; try discriminate; auto.
  apply cons_inj in E as [-> E]. injection L as L. destruct (IH d' L E) as [-> ->]. auto.
Qed.
