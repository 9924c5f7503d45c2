(** Proofs for C39-C42. *)
From Verif Require Import Base BaseFacts Codec CodecFacts Json JsonParse Deps Types Hashlink UserConnection Spec JsonSpec
  JsonFacts JsonParseFacts SchemaFacts ParseFacts DidFacts MiscSpec.
From Coq Require Import Lia ZifyBool ZifyNat ZifyN.
Set Implicit Arguments.
Unset Strict Implicit.
Local Open Scope N_scope.
Ltac divmod := Z.to_euclidean_division_equations; lia.

(** ** UTF-8 *)
Lemma cons_eq {A} (x y : A) l m : x = y -> l = m -> x :: l = y :: m. Proof. intros -> ->. reflexivity. Qed.
Lemma char_bytes_len n : (1 <= length (char_bytes n))%nat.
Proof. unfold char_bytes. repeat (match goal with |- context [if ?c then _ else _] => destruct c end); cbn; lia. Qed.

Lemma is_text_char n s t : scalar n -> map Byte.to_N s = char_bytes n -> is_text t -> is_text (s ++ t).
Proof.
  intros Hn E (ns & F & E'). exists (n :: ns). split; [constructor; assumption|].
  rewrite map_app, E, E'. reflexivity.
Qed.

Lemma valid_is_text k : forall s, (length s <= k)%nat -> utf8_valid s = true -> is_text s.
Proof.
  induction k as [|k IH]; intros s L H.
  { destruct s; [exists []; split; [constructor|reflexivity] | cbn in L; lia]. }
  destruct s as [|a s]; [exists []; split; [constructor|reflexivity]|].
  cbn [utf8_valid] in H. cbn [length] in L. unfold cont, inr in H.
  pose proof (to_N_lt a) as La.
  destruct ((0 <=? Byte.to_N a) && (Byte.to_N a <=? 127)) eqn:Ea.
  { change (a :: s) with ([a] ++ s). apply (is_text_char (n := Byte.to_N a)); [unfold scalar; lia| |apply IH; [lia|exact H]].
    unfold char_bytes. replace (Byte.to_N a <? 128) with true by lia. reflexivity. }
  destruct s as [|b s]; [discriminate|]. cbn [length] in L. pose proof (to_N_lt b) as Lb.
  destruct ((194 <=? Byte.to_N a) && (Byte.to_N a <=? 223)) eqn:E2.
  { apply andb_prop in H. destruct H as [Hb H].
    set (n := (Byte.to_N a - 192) * 64 + (Byte.to_N b - 128)).
    change (a :: b :: s) with ([a; b] ++ s). apply (is_text_char (n := n)); [unfold scalar; lia| |apply IH; [lia|exact H]].
    unfold char_bytes. replace (n <? 128) with false by lia. replace (n <? 2048) with true by lia. cbn [map].
    repeat (apply cons_eq; [subst n; divmod|]). reflexivity. }
  destruct s as [|c s]; [discriminate|]. cbn [length] in L. pose proof (to_N_lt c) as Lc.
  set (n3 := (Byte.to_N a - 224) * 4096 + (Byte.to_N b - 128) * 64 + (Byte.to_N c - 128)).
  assert (T3 : 224 <= Byte.to_N a -> 128 <= Byte.to_N b < 192 -> 128 <= Byte.to_N c < 192 -> 2048 <= n3 -> scalar n3 -> n3 < 65536 ->
               utf8_valid s = true -> is_text (a :: b :: c :: s)).
  { intros Ha Hb Hc Hn Hs Hn' Hv. change (a :: b :: c :: s) with ([a; b; c] ++ s).
    apply (is_text_char (n := n3)); [exact Hs| |apply IH; [lia|exact Hv]].
    unfold char_bytes. replace (n3 <? 128) with false by lia. replace (n3 <? 2048) with false by lia.
    replace (n3 <? 65536) with true by lia. cbn [map].
    repeat (apply cons_eq; [subst n3; divmod|]). reflexivity. }
  destruct ((224 <=? Byte.to_N a) && (Byte.to_N a <=? 224)) eqn:E3.
  { apply T3; try (unfold scalar); try lia. }
  destruct (((225 <=? Byte.to_N a) && (Byte.to_N a <=? 236)) || ((238 <=? Byte.to_N a) && (Byte.to_N a <=? 239))) eqn:E4.
  { apply T3; try (unfold scalar); try lia. }
  destruct ((237 <=? Byte.to_N a) && (Byte.to_N a <=? 237)) eqn:E5.
  { apply T3; try (unfold scalar); try lia. }
  clear T3. destruct s as [|d s]; [discriminate|]. cbn [length] in L. pose proof (to_N_lt d) as Ld.
  set (n4 := (Byte.to_N a - 240) * 262144 + (Byte.to_N b - 128) * 4096 + (Byte.to_N c - 128) * 64 + (Byte.to_N d - 128)).
  assert (T4 : 240 <= Byte.to_N a -> 128 <= Byte.to_N b < 192 -> 128 <= Byte.to_N c < 192 -> 128 <= Byte.to_N d < 192 ->
               65536 <= n4 -> n4 < 1114112 -> utf8_valid s = true -> is_text (a :: b :: c :: d :: s)).
  { intros Ha Hb Hc Hd Hn Hs Hv. change (a :: b :: c :: d :: s) with ([a; b; c; d] ++ s).
    apply (is_text_char (n := n4)); [unfold scalar; lia| |apply IH; [lia|exact Hv]].
    unfold char_bytes. replace (n4 <? 128) with false by lia. replace (n4 <? 2048) with false by lia.
    replace (n4 <? 65536) with false by lia. cbn [map].
    repeat (apply cons_eq; [subst n4; divmod|]). reflexivity. }
  destruct ((240 <=? Byte.to_N a) && (Byte.to_N a <=? 240)) eqn:E6; [apply T4; lia|].
  destruct ((241 <=? Byte.to_N a) && (Byte.to_N a <=? 243)) eqn:E7; [apply T4; lia|].
  destruct ((244 <=? Byte.to_N a) && (Byte.to_N a <=? 244)) eqn:E8; [apply T4; lia|].
  discriminate.
Qed.

Lemma map_cons_inv s x l : map Byte.to_N s = x :: l -> exists b s', s = b :: s' /\ Byte.to_N b = x /\ map Byte.to_N s' = l.
Proof. destruct s as [|b s]; [discriminate|]. cbn [map]. intros E. injection E as E1 E2. eauto. Qed.

Lemma text_is_valid ns : Forall scalar ns -> forall s, map Byte.to_N s = flat_map char_bytes ns -> utf8_valid s = true.
Proof.
  induction 1 as [|n ns Hn F IH]; intros s E.
  { apply map_eq_nil in E. subst. reflexivity. }
  cbn [flat_map] in E. unfold char_bytes in E at 1. unfold scalar in Hn.
  destruct (n <? 128) eqn:C1; [|destruct (n <? 2048) eqn:C2; [|destruct (n <? 65536) eqn:C3]]; cbn [app] in E;
    repeat (apply map_cons_inv in E; let b := fresh "b" in let s' := fresh "s" in let V := fresh "V" in
            destruct E as (b & s' & -> & V & E); pose proof (to_N_lt b));
    apply IH in E; cbn [utf8_valid]; unfold cont, inr; rewrite ?V, ?V0, ?V1, ?V2.
  - replace ((0 <=? n) && (n <=? 127)) with true by lia. exact E.
  - replace ((0 <=? 192 + n / 64) && (192 + n / 64 <=? 127)) with false by divmod.
    replace ((194 <=? 192 + n / 64) && (192 + n / 64 <=? 223)) with true by divmod.
    rewrite E, andb_true_r. divmod.
  - rewrite E, !andb_true_r.
    assert (Q : n = n / 4096 * 4096 + n / 64 mod 64 * 64 + n mod 64) by divmod.
    assert (R1 : n / 64 mod 64 < 64) by divmod. assert (R2 : n mod 64 < 64) by divmod.
    generalize dependent (n / 4096). generalize dependent (n / 64 mod 64). generalize dependent (n mod 64). intros x y z. intros.
    repeat match goal with |- context [if ?c then _ else _] => destruct c eqn:? end; lia.
  - rewrite E, !andb_true_r.
    assert (Q : n = n / 262144 * 262144 + n / 4096 mod 64 * 4096 + n / 64 mod 64 * 64 + n mod 64) by divmod.
    assert (R0 : n / 4096 mod 64 < 64) by divmod.
    assert (R1 : n / 64 mod 64 < 64) by divmod. assert (R2 : n mod 64 < 64) by divmod.
    generalize dependent (n / 262144). generalize dependent (n / 4096 mod 64). generalize dependent (n / 64 mod 64). generalize dependent (n mod 64).
    intros x y z w. intros.
    repeat match goal with |- context [if ?c then _ else _] => destruct c eqn:? end; lia.
Qed.
Theorem utf8_valid_iff s : utf8_valid s = true <-> is_text s.
Proof. split; [apply valid_is_text with (length s); lia | intros (ns & F & E); eapply text_is_valid; eauto]. Qed.

(** ** JSONValue *)
Theorem jv_try_iff D s v : jv_try_from D s = Ok v <-> is_text s /\ jv_to_bytes v = s /\ jv_to_string v = s.
Proof.
  unfold jv_try_from. rewrite <- utf8_valid_iff. destruct (utf8_valid s); cbn [bind]; split.
  - intros E. apply ok_inj in E. subst. auto.
  - intros (_ & E & _). destruct v. cbn in E. subst. reflexivity.
  - discriminate.
  - intros (E & _). discriminate.
Qed.
Theorem jv_try_error D s e : jv_try_from D s = Err e -> ~ is_text s /\ exists m, e = InvalidJSONBytes m.
Proof.
  unfold jv_try_from. rewrite <- utf8_valid_iff. destruct (utf8_valid s); cbn [bind]; intros E; [discriminate|].
  split; [discriminate|]. injection E as <-. eauto.
Qed.
Theorem jv_round D v : is_text (jv_to_bytes v) -> jv_try_from D (jv_to_bytes v) = Ok v.
Proof. intros H. apply jv_try_iff. destruct v. auto. Qed.
Theorem jv_mime v : jv_mime_type v = B "application/json". Proof. reflexivity. Qed.

(** ** Hashlinks *)
Section Hashlinks.
  Variable D : deps.
  Hypothesis Hsize : blake3_size D.
  Lemma wrap_ok mk s : wrap_multihash D mk (blake3 D s) = Ok (30, blake3 D s).
  Proof. unfold wrap_multihash, multihash_wrap. rewrite Hsize. reflexivity. Qed.
  Lemma mh_bytes s : multihash_bytes (30, blake3 D s) = x1e :: x20 :: blake3 D s.
  Proof. unfold multihash_bytes. cbn [fst snd]. rewrite Hsize. reflexivity. Qed.

  Theorem hl_layout s : generate_from_json D (Ok (JSONValue s)) = Ok (B "z" ++ base58_encode (x1e :: x20 :: blake3 D s)).
  Proof. unfold generate_from_json. cbn [bind jv_to_string]. rewrite wrap_ok. cbn [bind]. rewrite mh_bytes. reflexivity. Qed.
  Theorem hl_exact data t : verify_from_json D data t = Ok tt <-> generate_from_json D data = Ok t.
  Proof.
    destruct data as [[s]|e]; [|split; discriminate]. rewrite hl_layout. unfold verify_from_json. cbn [bind jv_to_string].
    destruct (mb_decode (mb_other D) t) as [[b x]|] eqn:E; cbn [ok_or bind].
    - destruct (mbase_eqb b Base58Btc) eqn:Eb; cbn [negb].
      + apply mbase_eqb_eq in Eb. subst b. apply mb_decode_58_inv in E. subst t. rewrite wrap_ok. cbn [bind]. rewrite mh_bytes.
        destruct (bytes_eqb x (x1e :: x20 :: blake3 D s)) eqn:Ex; cbn [negb].
        * apply bytes_eqb_eq in Ex. subst. split; reflexivity.
        * apply bytes_eqb_neq in Ex. split; [discriminate|]. intros E. exfalso. apply Ex. apply ok_inj in E.
          symmetry. apply mb_encode58_inj. exact E.
      + split; [discriminate|]. intros H. exfalso. apply ok_inj in H. subst t.
        change (mb_decode (mb_other D) (mb_encode58 (x1e :: x20 :: blake3 D s)) = Some (b, x)) in E.
        rewrite mb_decode_encode58 in E. apply some_inj in E. injection E as <- <-. discriminate.
    - split; [discriminate|]. intros H. exfalso. apply ok_inj in H. subst t.
      change (mb_decode (mb_other D) (mb_encode58 (x1e :: x20 :: blake3 D s)) = None) in E.
      rewrite mb_decode_encode58 in E. discriminate.
  Qed.
  Theorem hl_generated data t : generate_from_json D data = Ok t -> verify_from_json D data t = Ok tt.
  Proof. apply hl_exact. Qed.
  Theorem hl_rejected s t : generate_from_json D (Ok (JSONValue s)) <> Ok t ->
    exists m, verify_from_json D (Ok (JSONValue s)) t = Err (HashLinkError m).
  Proof.
    intros H. rewrite <- hl_exact in H. revert H. unfold verify_from_json. cbn [bind jv_to_string].
    destruct (mb_decode (mb_other D) t) as [[b x]|]; cbn [ok_or bind]; [|eauto].
    destruct (negb (mbase_eqb b Base58Btc)); [eauto|]. rewrite wrap_ok. cbn [bind].
    destruct (negb _); [eauto|]. intros H. destruct H. reflexivity.
  Qed.
  Theorem hl_binds s1 s2 t : verify_from_json D (Ok (JSONValue s1)) t = Ok tt -> verify_from_json D (Ok (JSONValue s2)) t = Ok tt ->
    s1 = s2 \/ collision (blake3 D) s1 s2.
  Proof.
    rewrite !hl_exact, !hl_layout. intros E1 E2. rewrite <- E2 in E1. apply ok_inj in E1.
    change (mb_encode58 (x1e :: x20 :: blake3 D s1) = mb_encode58 (x1e :: x20 :: blake3 D s2)) in E1. apply mb_encode58_inj in E1.
    assert (E : blake3 D s1 = blake3 D s2) by congruence.
    destruct (bytes_dec s1 s2); [left; assumption | right; split; assumption].
  Qed.
End Hashlinks.
Theorem hl_error D e t : generate_from_json D (Err e) = Err e /\ verify_from_json D (Err e) t = Err e.
Proof. split; reflexivity. Qed.

(** ** User connection credentials *)
Definition uc_of (a d : bytes) : uc_credential :=
  {| user_connection_credential := {| uc_ctx := {| user_agent_address := a; user_did := d |} |} |}.
Theorem uc_text D c : uc_to_json D c = Ok (JSONValue (json_text (serde_number (f64_text D))
  (uc_json (user_agent_address (uc_ctx (user_connection_credential c))) (user_did (uc_ctx (user_connection_credential c)))))).
Proof. reflexivity. Qed.
Theorem uc_round D c : utf8 (user_agent_address (uc_ctx (user_connection_credential c))) ->
  utf8 (user_did (uc_ctx (user_connection_credential c))) ->
  exists t, uc_to_json D c = Ok (JSONValue t) /\ uc_from_slice D t = Some c.
Proof.
  destruct c as [[[a d]]]. cbn [user_agent_address user_did uc_ctx user_connection_credential]. intros Ha Hd.
  eexists. split; [reflexivity|]. unfold uc_from_slice, to_json_text.
  rewrite (@from_slice_ser (f64_text D) (f64_parse D)); [reflexivity|reflexivity|]. cbn. auto.
Qed.
(** What is read back is exactly the two texts. *)
Theorem uc_read D s c : uc_from_slice D s = Some c ->
  utf8 (user_agent_address (uc_ctx (user_connection_credential c))) /\ utf8 (user_did (uc_ctx (user_connection_credential c))).
Proof.
  unfold uc_from_slice. destruct (from_slice _ _ _) as [x|] eqn:E; [|discriminate].
  apply (from_slice_ok (nok := fun _ => True)) in E; [|intros ? ? ?; exact I | repeat split].
  destruct E as [E _]. intros H. revert E.
  destruct x as [| | | | | |[|[| | | | | |[|[| | | | | |[|[a| | | | | |] [|[b| | | | | |] [|? ?]]]] [|? ?]]] [|? ?]]]; cbn in H; try discriminate.
  apply some_inj in H. subst c. cbn. tauto.
Qed.
