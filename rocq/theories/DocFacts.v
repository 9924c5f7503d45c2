(** DID documents: builders, validation, JSON, key decoding (C17-C20). *)
From Verif Require Import Base BaseFacts Codec CodecFacts Json JsonParse Deps Types Did Keys Doc Identity
  UserConnection Proof Vc JsonFacts JsonParseFacts SchemaFacts Spec JsonSpec IdentitySpec DidFacts IdentityFacts ShapeFacts.
Set Implicit Arguments.
Unset Strict Implicit.

Lemma err_inj {A E} (x y : E) : @Err A E x = Err y -> x = y.
Proof. congruence. Qed.
Lemma added_app {C A} (pick : C -> option A) cs c : added pick (cs ++ [c]) = added pick cs ++ match pick c with Some x => [x] | None => [] end.
Proof. unfold added. rewrite flat_map_app. cbn. rewrite app_nil_r. reflexivity. Qed.
Lemma push_any {A} (l : list A) x : push_opt (some_if_any l) x = some_if_any (l ++ [x]).
Proof. destruct l; reflexivity. Qed.
Lemma last_set_app {C A} (pick : C -> option A) cs : forall i c,
  last_set pick i (cs ++ [c]) = match pick c with Some x => x | None => last_set pick i cs end.
Proof. induction cs; intros; cbn; [reflexivity | apply IHcs]. Qed.

(** ** C17 *)
Theorem doc_builder did cs :
  doc_run (doc_generate did) cs =
  {| doc_context := B "https://www.w3.org/ns/did/v1" :: added as_context cs; doc_id := did;
     doc_authentication := some_if_any (added as_authentication cs);
     doc_cap_invoke := some_if_any (added as_cap_invoke cs);
     doc_cap_delegate := some_if_any (added as_cap_delegate cs);
     doc_assertion := some_if_any (added as_assertion cs) |}.
Proof.
  induction cs as [|c cs IH] using rev_ind; [reflexivity|].
  unfold doc_run in *. rewrite fold_left_app. cbn [fold_left]. rewrite IH. rewrite !added_app.
  destruct c; cbn [as_context as_authentication as_cap_invoke as_cap_delegate as_assertion doc_step];
    unfold doc_add_context, doc_add_assertion, doc_add_authentication, doc_add_cap_delegate, doc_add_cap_invoke;
    cbn [doc_context doc_id doc_authentication doc_cap_invoke doc_cap_delegate doc_assertion];
    rewrite ?push_any, ?app_nil_r; reflexivity.
Qed.
(** From any document: a present list is extended at its end. *)
Theorem doc_builder_from d cs :
  let grow o l := match o with Some l0 => Some (l0 ++ l) | None => some_if_any l end in
  doc_run d cs =
  {| doc_context := doc_context d ++ added as_context cs; doc_id := doc_id d;
     doc_authentication := grow (doc_authentication d) (added as_authentication cs);
     doc_cap_invoke := grow (doc_cap_invoke d) (added as_cap_invoke cs);
     doc_cap_delegate := grow (doc_cap_delegate d) (added as_cap_delegate cs);
     doc_assertion := grow (doc_assertion d) (added as_assertion cs) |}.
Proof.
  intros grow.
  assert (G : forall o l x, push_opt (grow o l) x = grow o (l ++ [x])).
  { intros [l0|] l x; cbn; [rewrite app_assoc; reflexivity | apply push_any]. }
  induction cs as [|c cs IH] using rev_ind.
  - destruct d as [c i [?|] [?|] [?|] [?|]]; cbn; rewrite ?app_nil_r; reflexivity.
  - unfold doc_run in *. rewrite fold_left_app. cbn [fold_left]. rewrite IH. rewrite !added_app.
    destruct c; cbn [as_context as_authentication as_cap_invoke as_cap_delegate as_assertion doc_step];
      unfold doc_add_context, doc_add_assertion, doc_add_authentication, doc_add_cap_delegate, doc_add_cap_invoke;
      cbn [doc_context doc_id doc_authentication doc_cap_invoke doc_cap_delegate doc_assertion];
      rewrite ?G, ?app_nil_r, ?app_assoc; reflexivity.
Qed.

(** ** C18 *)
Theorem doc_valid_iff d : doc_validate d = Ok tt <-> doc_id d <> [] /\ doc_context d <> [].
Proof. unfold doc_validate. destruct (doc_id d), (doc_context d); cbn; intuition (try discriminate; congruence). Qed.
Theorem doc_invalid d e : doc_validate d = Err e <->
  (doc_id d = [] /\ e = ValidateError (B "[doc]: missing id")) \/
  (doc_id d <> [] /\ doc_context d = [] /\ e = ValidateError (B "[doc]: at least one context must be filled")).
Proof.
  unfold doc_validate. destruct (doc_id d), (doc_context d); cbn [is_empty]; split; intros H;
    try discriminate; try (apply err_inj in H; subst; auto; right; repeat split; auto; discriminate);
    destruct H as [[? ->]|(? & ? & ->)]; congruence || reflexivity.
Qed.
Theorem identity_doc_valid D v (cs : list (icall D)) :
  doc_validate (to_doc (irun (identity_new D v) cs)) = Ok tt <-> v <> [].
Proof. rewrite to_doc_shape, doc_valid_iff. cbn [doc_id doc_context]. intuition discriminate. Qed.

(** ** C19 *)
Theorem doc_json_text D d :
  doc_to_json D d = Ok (JSONValue (json_text (serde_number (f64_text D)) (doc_json d))).
Proof. unfold doc_to_json, to_json_text, jv_from. rewrite ser_doc. reflexivity. Qed.
Theorem doc_round_trip D d : doc_wf d ->
  exists t, doc_to_json D d = Ok (JSONValue t) /\ doc_from_slice D t = Some d.
Proof.
  intros W. eexists. split; [reflexivity|]. unfold doc_from_slice, to_json_text.
  rewrite (@from_slice_ser _ _ _ _ (proj1 schemas_ok) (ok_doc D W)).
  rewrite ser_doc. pose proof (depth_doc d) as H.
  replace (depth (doc_json d) <=? 127)%nat with true by (symmetry; apply Nat.leb_le; lia).
  apply data_doc_inv.
Qed.
Theorem doc_text_inj D d1 d2 : doc_wf d1 -> doc_wf d2 -> doc_to_json D d1 = doc_to_json D d2 -> d1 = d2.
Proof.
  intros W1 W2 E. destruct (doc_round_trip D W1) as (t1 & E1 & P1), (doc_round_trip D W2) as (t2 & E2 & P2).
  rewrite E1, E2 in E. apply ok_inj in E. injection E as ->. congruence.
Qed.
(** Every document an identity publishes is well formed, hence round trips. *)
Theorem identity_doc_wf D v (cs : list (icall D)) : utf8 v -> doc_wf (to_doc (irun (identity_new D v) cs)).
Proof.
  intros Hv. rewrite to_doc_shape. 
  assert (HB : forall x, utf8 (mb_encode58 x)) by (intros; apply utf8_mb58).
  assert (HE : forall a b k, utf8 a -> utf8 b -> Forall primary_wf (@entries D v a b k)).
  { intros a b k Ha Hb. unfold entries. repeat apply Forall_cons; auto; repeat split; cbn [pr_id pr_controller pr_type pr_multibase]; auto;
      try (apply utf8_app; assumption); reflexivity. }
  repeat split; cbn [doc_context doc_id doc_authentication doc_cap_invoke doc_cap_delegate doc_assertion opt_all]; auto.
  - repeat constructor.
  - destruct (first_auth cs); cbn; auto. apply HE; reflexivity.
  - destruct (first_assertion cs); cbn; auto. apply HE; reflexivity.
Qed.

(** ** C20 *)
Section Decode.
  Variable D : deps.
  Theorem decode_eddsa_iff p k : decode_pub_key D p = Ok (EdDSA D k) <->
    pr_type p = B "Ed25519VerificationKey2020" /\
    exists b h, mb_decode (mb_other D) (pr_multibase p) = Some (b, h) /\ utf8_valid h = true /\ ed_pub_from_hex D h = Some k.
  Proof.
    unfold decode_pub_key, decode_pub_key_verification, decode_pub_key_agreement, VERIFICATION_TYPE_ED25519, VERIFICATION_TYPE_X25519.
    destruct (bytes_eqb (pr_type p) (B "Ed25519VerificationKey2020")) eqn:E1.
    - apply bytes_eqb_eq in E1. rewrite E1. destruct (mb_decode _ _) as [[b h]|]; cbn.
      + destruct (utf8_valid h) eqn:U; cbn; [destruct (ed_pub_from_hex D h) eqn:P; cbn|].
        * split; [intros [= ->]; eauto 10 | intros (_ & b' & h' & [= <- <-] & _ & Hk); congruence].
        * split; [discriminate | intros (_ & b' & h' & [= <- <-] & _ & Hk); congruence].
        * split; [discriminate | intros (_ & b' & h' & [= <- <-] & Hk & _); congruence].
      + split; [discriminate | intros (_ & b' & h' & ? & _); discriminate].
    - destruct (bytes_eqb (pr_type p) (B "X25519KeyAgreementKey2020")) eqn:E2.
      + apply bytes_eqb_eq in E2. split.
        * destruct (mb_decode _ _) as [[b h]|]; cbn; [|discriminate]. destruct (utf8_valid h); cbn; [|discriminate].
          destruct (dh_pub_from_hex D h); cbn; discriminate.
        * intros [H _]. rewrite H in E2. discriminate.
      + split; [discriminate|]. intros [H _]. rewrite H, bytes_eqb_refl in E1. discriminate.
  Qed.
  Theorem decode_ecdh_iff p k : decode_pub_key D p = Ok (ECDH D k) <->
    pr_type p = B "X25519KeyAgreementKey2020" /\
    exists b h, mb_decode (mb_other D) (pr_multibase p) = Some (b, h) /\ utf8_valid h = true /\ dh_pub_from_hex D h = Some k.
  Proof.
    unfold decode_pub_key, decode_pub_key_verification, decode_pub_key_agreement, VERIFICATION_TYPE_ED25519, VERIFICATION_TYPE_X25519.
    destruct (bytes_eqb (pr_type p) (B "Ed25519VerificationKey2020")) eqn:E1.
    - apply bytes_eqb_eq in E1. rewrite E1. split; [|intros [H _]; discriminate].
      destruct (mb_decode _ _) as [[b h]|]; cbn; [|discriminate]. destruct (utf8_valid h); cbn; [|discriminate].
      destruct (ed_pub_from_hex D h); cbn; discriminate.
    - destruct (bytes_eqb (pr_type p) (B "X25519KeyAgreementKey2020")) eqn:E2.
      + apply bytes_eqb_eq in E2. rewrite E2. destruct (mb_decode _ _) as [[b h]|]; cbn.
        * destruct (utf8_valid h) eqn:U; cbn; [destruct (dh_pub_from_hex D h) eqn:P; cbn|].
          -- split; [intros [= ->]; eauto 10 | intros (_ & b' & h' & [= <- <-] & _ & Hk); congruence].
          -- split; [discriminate | intros (_ & b' & h' & [= <- <-] & _ & Hk); congruence].
          -- split; [discriminate | intros (_ & b' & h' & [= <- <-] & Hk & _); congruence].
        * split; [discriminate | intros (_ & b' & h' & ? & _); discriminate].
      + split; [discriminate|]. intros [H _]. rewrite H, bytes_eqb_refl in E2. discriminate.
  Qed.
  Theorem decode_error p e : decode_pub_key D p = Err e -> exists m, e = DecodePubKeyError m.
  Proof.
    unfold decode_pub_key, decode_pub_key_verification, decode_pub_key_agreement.
    destruct (bytes_eqb _ _); [|destruct (bytes_eqb _ _); [|intros [= <-]; eauto]];
    (destruct (mb_decode _ _) as [[b h]|]; cbn; [|intros [= <-]; eauto]);
    (destruct (utf8_valid h); cbn; [|intros [= <-]; eauto]).
    - destruct (ed_pub_from_hex D h); cbn; [discriminate|]. intros [= <-]; eauto.
    - destruct (dh_pub_from_hex D h); cbn; [discriminate|]. intros [= <-]; eauto.
  Qed.
End Decode.
