(** Facts about the codecs: inverses, alphabets, validity. *)
From Verif Require Import Base BaseFacts Codec.
Require Import ZifyBool ZifyNat ZifyN.
Set Implicit Arguments.
Ltac Zify.zify_post_hook ::= Z.div_mod_to_equations.
Open Scope N_scope.

(** ** Positional notation *)
Lemma size_nat_div base n : 2 <= base -> n <> 0 -> (N.size_nat (n / base) < N.size_nat n)%nat.
Proof.
  intros Hb Hn.
  assert (n / base <= n / 2) as Hle by (apply N.div_le_compat_l; lia).
  assert (forall a b, a <= b -> (N.size_nat a <= N.size_nat b)%nat) as Hmono.
  { intros a b H. destruct a as [|p], b as [|q]; simpl; try lia.
    revert q H. induction p as [p IH|p IH|]; intros [q|q|] H; simpl; try lia;
      try (apply le_n_S, IH; lia); destruct q; simpl; lia. }
  apply Nat.le_lt_trans with (N.size_nat (n / 2)); [apply Hmono; assumption|].
  rewrite <- N.div2_div. destruct n as [|[p|p|]]; simpl; lia.
Qed.

Lemma value_digits_fuel fuel base n :
  2 <= base -> (N.size_nat n <= fuel)%nat -> value base (digits_fuel fuel base n) = n.
Proof.
  intros Hb. revert n; induction fuel as [|f IH]; intros n Hf.
  - simpl. destruct n as [|[p|p|]]; simpl in Hf; lia.
  - cbn [digits_fuel]. destruct (N.eqb_spec n 0) as [->|Hn]; [reflexivity|].
    cbn [value]. rewrite IH.
    + symmetry. rewrite N.add_comm. apply N.div_mod. lia.
    + pose proof (size_nat_div Hb Hn). lia.
Qed.
Lemma value_digits base n : 2 <= base -> value base (digits base n) = n.
Proof. intros H. apply value_digits_fuel; [assumption|reflexivity]. Qed.

Lemma digits_fuel_lt fuel base n : 2 <= base -> Forall (fun d => d < base) (digits_fuel fuel base n).
Proof.
  intros Hb. revert n; induction fuel as [|f IH]; intros n; cbn [digits_fuel]; [constructor|].
  destruct (n =? 0); constructor; [apply N.mod_lt; lia|apply IH].
Qed.
Lemma digits_lt base n : 2 <= base -> Forall (fun d => d < base) (digits base n).
Proof. apply digits_fuel_lt. Qed.

(** Canonical: the most significant digit is not zero. *)
Definition canonical (ds : list N) : Prop := match rev ds with [] => True | d :: _ => d <> 0 end.

Lemma canonical_cons d ds : ds <> [] -> canonical (d :: ds) <-> canonical ds.
Proof.
  intros H. unfold canonical. simpl. destruct (rev ds) as [|x r] eqn:E; [|reflexivity].
  apply (f_equal (@rev N)) in E. rewrite rev_involutive in E. contradiction.
Qed.

Lemma value_canonical_0 base ds : 2 <= base -> canonical ds -> value base ds = 0 -> ds = [].
Proof.
  intros Hb. induction ds as [|d ds IH]; intros Hc Hv; [reflexivity|].
  cbn [value] in Hv.
  destruct ds as [|e ds].
  - unfold canonical in Hc. simpl in Hc, Hv. lia.
  - apply canonical_cons in Hc; [|discriminate].
    assert (value base (e :: ds) = 0) as H0 by nia.
    specialize (IH Hc H0). discriminate.
Qed.

Lemma digits_value_fuel fuel base ds :
  2 <= base -> Forall (fun d => d < base) ds -> canonical ds ->
  (N.size_nat (value base ds) <= fuel)%nat -> digits_fuel fuel base (value base ds) = ds.
Proof.
  intros Hb. revert fuel. induction ds as [|d ds IH]; intros fuel Hl Hc Hf.
  - destruct fuel; reflexivity.
  - destruct (N.eqb_spec (value base (d :: ds)) 0) as [E|E].
    { apply value_canonical_0 in E; [discriminate|assumption|assumption]. }
    destruct fuel as [|f].
    { destruct (value base (d :: ds)) as [|p]; [congruence|]. destruct p; simpl in Hf; lia. }
    cbn [digits_fuel]. rewrite (proj2 (N.eqb_neq _ _) E).
    pose proof (size_nat_div Hb E) as Hs.
    inversion Hl as [|? ? Hd Hl']; subst.
    assert (value base (d :: ds) mod base = d) as Hm.
    { cbn [value]. rewrite N.mul_comm, N.mod_add by lia. apply N.mod_small. assumption. }
    assert (value base (d :: ds) / base = value base ds) as Hq.
    { cbn [value]. rewrite N.mul_comm, N.div_add by lia. rewrite N.div_small by assumption. reflexivity. }
    rewrite Hm, Hq. f_equal. apply IH; [assumption| |rewrite <- Hq; lia].
    destruct ds as [|e ds]; [exact I|]. apply canonical_cons in Hc; [assumption|discriminate].
Qed.
Lemma digits_value base ds :
  2 <= base -> Forall (fun d => d < base) ds -> canonical ds -> digits base (value base ds) = ds.
Proof. intros. apply digits_value_fuel; auto. Qed.

Lemma digits_fuel_canonical fuel base n :
  2 <= base -> (N.size_nat n <= fuel)%nat -> canonical (digits_fuel fuel base n).
Proof.
  intros Hb. revert n; induction fuel as [|f IH]; intros n Hf; cbn [digits_fuel]; [exact I|].
  destruct (N.eqb_spec n 0) as [->|Hn]; [exact I|].
  pose proof (size_nat_div Hb Hn) as Hs.
  assert (N.size_nat (n / base) <= f)%nat as Hf' by lia.
  specialize (IH _ Hf').
  destruct (digits_fuel f base (n / base)) as [|e ds] eqn:E.
  - unfold canonical. simpl.
    pose proof (@value_digits_fuel f base (n/base) Hb Hf') as Hv.
    rewrite E in Hv. simpl in Hv. 
    pose proof (N.div_mod n base ltac:(lia)) as Hdm. rewrite <- Hv in Hdm. lia.
  - apply canonical_cons; [discriminate|assumption].
Qed.
Lemma digits_canonical base n : 2 <= base -> canonical (digits base n).
Proof. intros. apply digits_fuel_canonical; auto. Qed.

(** ** Base conversion is a bijection *)
Lemma lead_split ds : exists r, ds = repeat 0 (lead ds) ++ r /\ canonical (rev r).
Proof.
  induction ds as [|d ds IH].
  - exists []. split; [reflexivity|exact I].
  - simpl. destruct (N.eqb_spec d 0) as [->|Hd].
    + destruct IH as (r & E & Hc). exists r. split; [simpl; rewrite <- E; reflexivity|assumption].
    + exists (d :: ds). split; [reflexivity|]. unfold canonical. rewrite rev_involutive. assumption.
Qed.
Lemma lead_app z r : canonical (rev r) -> lead (repeat 0 z ++ r) = z.
Proof.
  induction z as [|z IH]; intros Hc; simpl.
  - destruct r as [|d r]; [reflexivity|]. unfold canonical in Hc. rewrite rev_involutive in Hc.
    simpl. destruct (N.eqb_spec d 0); [contradiction|reflexivity].
  - f_equal. apply IH. assumption.
Qed.
Lemma value_app_zeros base r z : value base (r ++ repeat 0 z) = value base r.
Proof.
  induction r as [|d r IH]; simpl.
  - induction z as [|z IHz]; simpl; [reflexivity|]. rewrite IHz. lia.
  - rewrite IH. reflexivity.
Qed.
Lemma rev_repeat {A} (x : A) n : rev (repeat x n) = repeat x n.
Proof.
  induction n as [|n IH]; [reflexivity|]. simpl. rewrite IH.
  clear IH. induction n; simpl; [reflexivity|]. f_equal. assumption.
Qed.

Lemma conv_lt b1 b2 ds : 2 <= b2 -> Forall (fun d => d < b2) (conv b1 b2 ds).
Proof.
  intros H. unfold conv. apply Forall_app. split.
  - apply Forall_forall. intros x Hx. apply repeat_spec in Hx. lia.
  - apply Forall_rev, digits_lt. assumption.
Qed.

Lemma conv_conv b1 b2 ds :
  2 <= b1 -> 2 <= b2 -> Forall (fun d => d < b1) ds -> conv b2 b1 (conv b1 b2 ds) = ds.
Proof.
  intros H1 H2 Hl. destruct (lead_split ds) as (r & E & Hc).
  unfold conv at 2.
  assert (value b1 (rev ds) = value b1 (rev r)) as Hv.
  { rewrite E at 1. rewrite rev_app_distr, rev_repeat. apply value_app_zeros. }
  rewrite Hv. set (n := value b1 (rev r)).
  unfold conv. rewrite lead_app by (rewrite rev_involutive; apply digits_canonical; assumption).
  rewrite rev_app_distr, rev_involutive, rev_repeat, value_app_zeros, value_digits by assumption.
  unfold n. rewrite digits_value; [|assumption| |assumption].
  - rewrite rev_involutive. symmetry. assumption.
  - apply Forall_rev. rewrite E in Hl. apply Forall_app in Hl. apply Hl.
Qed.

(** ** base58btc *)
Lemma map_opt_map {A B} (f : A -> B) (g : B -> option A) l :
  Forall (fun x => g (f x) = Some x) l -> map_opt g (map f l) = Some l.
Proof.
  induction l as [|x l IH]; intros H; [reflexivity|].
  inversion H as [|? ? H1 H2]; subst. simpl. rewrite H1, IH by assumption. reflexivity.
Qed.
Lemma map_opt_inv {A B} (g : B -> option A) (f : A -> B) l r :
  (forall y x, g y = Some x -> f x = y) -> map_opt g l = Some r -> map f r = l.
Proof.
  intros Hgf. revert r; induction l as [|y l IH]; intros r H; simpl in H.
  - injection H as <-. reflexivity.
  - destruct (g y) as [x|] eqn:E; [|discriminate]. destruct (map_opt g l) as [r'|]; [|discriminate].
    injection H as <-. simpl. rewrite (Hgf _ _ E), (IH r' eq_refl). reflexivity.
Qed.
Lemma map_opt_Forall {A B} (g : B -> option A) (P : A -> Prop) l r :
  (forall y x, g y = Some x -> P x) -> map_opt g l = Some r -> Forall P r.
Proof.
  intros Hg. revert r; induction l as [|y l IH]; intros r H; simpl in H.
  - injection H as <-. constructor.
  - destruct (g y) as [x|] eqn:E; [|discriminate]. destruct (map_opt g l) as [r'|]; [|discriminate].
    injection H as <-. constructor; [eapply Hg; eassumption|apply IH; reflexivity].
Qed.

Definition below (n : nat) : list N := map N.of_nat (seq 0 n).
Lemma forall_below n (P : N -> bool) : forallb P (below n) = true -> forall d, d < N.of_nat n -> P d = true.
Proof.
  rewrite forallb_forall. intros H d Hd. apply H. unfold below.
  rewrite <- (N2Nat.id d). apply in_map, in_seq. lia.
Qed.

Lemma val58_char58 d : d < 58 -> val58 (char58 d) = Some d.
Proof.
  intros Hd.
  assert (forallb (fun d => match val58 (char58 d) with Some e => e =? d | None => false end) (below 58) = true)
    as H by (vm_compute; reflexivity).
  pose proof (@forall_below 58 _ H d ltac:(simpl; lia)) as H'. simpl in H'.
  destruct (val58 (char58 d)) as [e|]; [|discriminate]. apply N.eqb_eq in H'. congruence.
Qed.
Lemma char58_val58 c d : val58 c = Some d -> char58 d = c /\ d < 58.
Proof.
  intros Hd.
  assert (forall c, (match val58 c with Some e => beq (char58 e) c && (e <? 58) | None => true end) = true)
    as H by (apply forall_byte; vm_compute; reflexivity).
  specialize (H c). rewrite Hd in H. apply andb_true_iff in H as [H1 H2].
  apply beq_eq in H1. apply N.ltb_lt in H2. split; assumption.
Qed.

Lemma map_to_N_lt s : Forall (fun d => d < 256) (map Byte.to_N s).
Proof. apply Forall_forall. intros x Hx. apply in_map_iff in Hx as (b & <- & _). apply to_N_lt. Qed.

Theorem base58_decode_encode s : base58_decode (base58_encode s) = Some s.
Proof.
  unfold base58_decode, base58_encode.
  rewrite map_opt_map.
  - rewrite conv_conv by (try lia; apply map_to_N_lt).
    rewrite map_map. f_equal. rewrite <- (map_id s) at 2. apply map_ext. apply byte_of_N_to_N.
  - eapply Forall_impl; [|apply conv_lt; lia]. intros d Hd. apply val58_char58. assumption.
Qed.

Theorem base58_encode_decode t s : base58_decode t = Some s -> base58_encode s = t.
Proof.
  unfold base58_decode, base58_encode. destruct (map_opt val58 t) as [ds|] eqn:E; [|discriminate].
  intros H. injection H as <-. rewrite map_map.
  assert (Forall (fun d => d < 256) (conv 58 256 ds)) as Hl by (apply conv_lt; lia).
  replace (map (fun x => Byte.to_N (byte_of_N x)) (conv 58 256 ds)) with (conv 58 256 ds).
  - rewrite conv_conv; [|lia|lia|].
    + eapply map_opt_inv; [|exact E]. intros y x H. apply char58_val58 in H. apply H.
    + eapply map_opt_Forall; [|exact E]. intros y x H. apply char58_val58 in H. apply H.
  - induction Hl as [|d ds' Hd Hl IH]; [reflexivity|]. cbn [map]. rewrite to_N_byte_of_N by assumption.
    f_equal. assumption.
Qed.

Corollary base58_encode_inj a b : base58_encode a = base58_encode b -> a = b.
Proof. intros H. apply (f_equal base58_decode) in H. rewrite !base58_decode_encode in H. congruence. Qed.

Definition is_char58 (c : byte) : bool := mem c alphabet58.
Lemma base58_alphabet s : Forall (fun c => is_char58 c = true) (base58_encode s).
Proof.
  unfold base58_encode. apply Forall_map. eapply Forall_impl; [|apply conv_lt; lia].
  intros d Hd. cbn beta.
  assert (forallb (fun d => is_char58 (char58 d)) (below 58) = true) as H by (vm_compute; reflexivity).
  exact (@forall_below 58 _ H d Hd).
Qed.

(** ** hex *)
Definition is_hex_lower (c : byte) : bool := inr 48 57 c || inr 97 102 c.
Lemma hex_digit_val n : n < 16 -> hex_val (hex_digit n) = Some n /\ hex_val_lower (hex_digit n) = Some n
  /\ is_hex_lower (hex_digit n) = true.
Proof.
  intros Hn.
  assert (forallb (fun n => match hex_val (hex_digit n), hex_val_lower (hex_digit n) with
     Some a, Some b => (a =? n) && (b =? n) && is_hex_lower (hex_digit n) | _, _ => false end) (below 16) = true) as H
   by (vm_compute; reflexivity).
  pose proof (@forall_below 16 _ H n ltac:(simpl; lia)) as H'. simpl in H'.
  destruct (hex_val (hex_digit n)); [|discriminate]. destruct (hex_val_lower (hex_digit n)); [|discriminate].
  apply andb_true_iff in H' as [H' H3]. apply andb_true_iff in H' as [H1 H2].
  apply N.eqb_eq in H1, H2. subst. auto.
Qed.

Lemma hex_byte b : byte_of_N (16 * (Byte.to_N b / 16) + Byte.to_N b mod 16) = b.
Proof. rewrite <- (N.div_mod (Byte.to_N b) 16) by discriminate. apply byte_of_N_to_N. Qed.
Lemma hex_nibbles b : Byte.to_N b / 16 < 16 /\ Byte.to_N b mod 16 < 16.
Proof. pose proof (to_N_lt b). split; [apply N.div_lt_upper_bound; lia|apply N.mod_lt; lia]. Qed.

Lemma hex_decode_encode s : hex_decode (hex_encode s) = Some s.
Proof.
  unfold hex_decode, hex_encode.
  induction s as [|b s IH]; [reflexivity|].
  unfold hex_with in *. cbn [flat_map app hex_decode_with].
  destruct (hex_nibbles b) as [H1 H2].
  rewrite (proj1 (hex_digit_val H1)), (proj1 (hex_digit_val H2)), IH, hex_byte. reflexivity.
Qed.
Lemma hex_lower_decode_encode s : hex_decode_with hex_val_lower (hex_encode s) = Some s.
Proof.
  unfold hex_encode.
  induction s as [|b s IH]; [reflexivity|].
  unfold hex_with in *. cbn [flat_map app hex_decode_with].
  destruct (hex_nibbles b) as [H1 H2].
  rewrite (proj1 (proj2 (hex_digit_val H1))), (proj1 (proj2 (hex_digit_val H2))), IH, hex_byte. reflexivity.
Qed.
Lemma hex_encode_inj a b : hex_encode a = hex_encode b -> a = b.
Proof. intros H. apply (f_equal hex_decode) in H. rewrite !hex_decode_encode in H. congruence. Qed.
Lemma hex_encode_chars s : Forall (fun c => is_hex_lower c = true) (hex_encode s).
Proof.
  induction s as [|b s IH]; [constructor|].
  unfold hex_encode, hex_with in *. cbn [flat_map app]. destruct (hex_nibbles b) as [H1 H2].
  constructor; [apply (hex_digit_val H1)|]. constructor; [apply (hex_digit_val H2)|assumption].
Qed.
Lemma hex_encode_length s : length (hex_encode s) = (2 * length s)%nat.
Proof.
  induction s as [|b s IH]; [reflexivity|]. unfold hex_encode, hex_with in *. simpl. rewrite IH. lia.
Qed.

(** ** UTF-8 *)
Definition is_ascii (c : byte) : bool := inr 0 127 c.
Lemma utf8_ascii s : Forall (fun c => is_ascii c = true) s -> utf8_valid s = true.
Proof. unfold is_ascii. induction 1 as [|c s Hc _ IH]; [reflexivity|]. cbn [utf8_valid]. rewrite Hc. assumption. Qed.

Lemma utf8_app_aux n s t : (length s <= n)%nat -> utf8_valid s = true -> utf8_valid t = true -> utf8_valid (s ++ t) = true.
Proof.
  revert s; induction n as [|n IH]; intros s Hn Hs Ht.
  - destruct s; [assumption|simpl in Hn; lia].
  - destruct s as [|a s]; [assumption|]. cbn [utf8_valid app] in *. simpl in Hn.
    destruct (inr 0 127 a); [apply IH; [lia|assumption..]|].
    destruct s as [|b s]; [discriminate|]. cbn [app] in *. simpl in Hn.
    destruct (inr 194 223 a).
    { apply andb_true_iff in Hs as [H1 H2]. rewrite H1. apply IH; [lia|assumption..]. }
    destruct s as [|c s]; [discriminate|]. cbn [app] in *. simpl in Hn.
    destruct (inr 224 224 a).
    { apply andb_true_iff in Hs as [H1 H2]. rewrite H1. apply IH; [lia|assumption..]. }
    destruct (inr 225 236 a || inr 238 239 a).
    { apply andb_true_iff in Hs as [H1 H2]. rewrite H1. apply IH; [lia|assumption..]. }
    destruct (inr 237 237 a).
    { apply andb_true_iff in Hs as [H1 H2]. rewrite H1. apply IH; [lia|assumption..]. }
    destruct s as [|d s]; [discriminate|]. cbn [app] in *. simpl in Hn.
    destruct (inr 240 240 a).
    { apply andb_true_iff in Hs as [H1 H2]. rewrite H1. apply IH; [lia|assumption..]. }
    destruct (inr 241 243 a).
    { apply andb_true_iff in Hs as [H1 H2]. rewrite H1. apply IH; [lia|assumption..]. }
    destruct (inr 244 244 a); [|discriminate].
    apply andb_true_iff in Hs as [H1 H2]. rewrite H1. apply IH; [lia|assumption..].
Qed.
Lemma utf8_app s t : utf8_valid s = true -> utf8_valid t = true -> utf8_valid (s ++ t) = true.
Proof. apply (@utf8_app_aux (length s)). reflexivity. Qed.

Lemma byte_impl (P Q : byte -> bool) :
  forallb (fun c => implb (P c) (Q c)) (map byte_of_N (map N.of_nat (seq 0 256))) = true ->
  forall c, P c = true -> Q c = true.
Proof. intros H c. apply implb_true_iff. exact (forall_byte _ H c). Qed.
Lemma hex_ascii c : is_hex_lower c = true -> is_ascii c = true.
Proof.
  apply byte_impl. vm_compute. reflexivity.
Qed.
Lemma char58_ascii c : is_char58 c = true -> is_ascii c = true.
Proof.
  apply byte_impl. vm_compute. reflexivity.
Qed.
Lemma utf8_hex s : utf8_valid (hex_encode s) = true.
Proof. apply utf8_ascii. eapply Forall_impl; [|apply hex_encode_chars]. intros c. apply hex_ascii. Qed.
Lemma utf8_mb58 s : utf8_valid (mb_encode58 s) = true.
Proof.
  apply utf8_ascii. constructor; [reflexivity|].
  eapply Forall_impl; [|apply base58_alphabet]. intros c. apply char58_ascii.
Qed.

(** ** multibase *)
Lemma mb_decode_encode58 other s : mb_decode other (mb_encode58 s) = Some (Base58Btc, s).
Proof. unfold mb_decode, mb_encode58. rewrite beq_refl, base58_decode_encode. reflexivity. Qed.
Lemma mb_decode_encode16 other s : mb_decode other (mb_encode16 s) = Some (Base16Lower, s).
Proof.
  unfold mb_decode, mb_encode16. replace (beq char_f char_z) with false by reflexivity.
  rewrite beq_refl, hex_lower_decode_encode. reflexivity.
Qed.
Lemma mb_decode_58_inv other t s : mb_decode other t = Some (Base58Btc, s) -> t = mb_encode58 s.
Proof.
  unfold mb_decode. destruct t as [|c r]; [discriminate|].
  destruct (beq c char_z) eqn:Ez.
  - apply beq_eq in Ez. subst. destruct (base58_decode r) as [b|] eqn:E; [|discriminate].
    simpl. intros H. injection H as <-. unfold mb_encode58. f_equal. symmetry.
    apply base58_encode_decode. assumption.
  - destruct (beq c char_f); [destruct (hex_decode_with hex_val_lower r); discriminate|].
    destruct (beq c char_F); [destruct (hex_decode_with hex_val_upper r); discriminate|].
    destruct (beq c x00); [discriminate|].
    destruct (other (c :: r)) as [[n b]|]; discriminate.
Qed.
Lemma mb_encode58_inj a b : mb_encode58 a = mb_encode58 b -> a = b.
Proof. intros H. injection H as H. apply base58_encode_inj. assumption. Qed.

Lemma mbase_eqb_eq a b : mbase_eqb a b = true <-> a = b.
Proof.
  destruct a, b; simpl; split; intros H; try congruence.
  - apply N.eqb_eq in H. congruence.
  - injection H as ->. apply N.eqb_refl.
Qed.
