(** Signing and verification (C29-C38, C45). *)
From Verif Require Import Base BaseFacts Codec CodecFacts Json JsonParse Deps Types Proof Vc Suite
  JsonFacts JsonParseFacts SchemaFacts ParseFacts Spec JsonSpec VcSpec SuiteSpec DidFacts ShapeFacts ReadFacts DocFacts VcFacts.
Set Implicit Arguments.
Unset Strict Implicit.

Section Generic.
  Variable D : deps.
  Variable T : Type.
  Variable P : proofable T.

  (** ** C45 *)
  Lemma proof_valid_iff p : proof_validate p = Ok tt <-> p_typ p <> [] /\ p_purpose p <> Unknown.
  Proof.
    unfold proof_validate. destruct (p_typ p); cbn [is_empty].
    - split; [discriminate | intros [H _]; congruence].
    - destruct (p_purpose p); split; intros H; try discriminate; try (split; discriminate); try reflexivity. destruct H; congruence.
  Qed.
  Lemma purpose_eqb_eq a b : purpose_eqb a b = true <-> a = b.
  Proof. destruct a, b; cbn; split; congruence. Qed.
  Theorem integrity_add (cs : cryptosuite D T) kp doc opts doc' :
    integrity_add_proof P cs kp doc opts = Ok doc' <->
    exists p, cs_create_proof cs kp doc opts = Ok p /\ p_typ p <> [] /\ p_purpose p <> Unknown /\ doc' = pf_setup_proof P doc p.
  Proof.
    unfold integrity_add_proof. destruct (cs_create_proof cs kp doc opts) as [p|e]; cbn.
    - destruct (proof_validate p) as [[]|e] eqn:E; cbn.
      + apply proof_valid_iff in E. split; [intros H; apply ok_inj in H; subst; exists p; tauto | intros (q & H & _ & _ & ->); apply ok_inj in H; subst; reflexivity].
      + split; [discriminate|]. intros (q & H & H1 & H2 & _). apply ok_inj in H. subst. assert (proof_validate q = Ok tt) by (apply proof_valid_iff; auto). congruence.
    - split; [discriminate | intros (q & H & _); discriminate].
  Qed.
  Definition admitted (bytes : bytes) (expected : purpose) (doc : T) : Prop :=
    exists p, pf_parse_json_bytes P bytes = Ok doc /\ pf_get_proof P doc = Some p /\
      p_typ p <> [] /\ p_purpose p <> Unknown /\ p_purpose p = expected.
  Theorem integrity_verify_pass (cs : cryptosuite D T) pk bytes expected doc : admitted bytes expected doc ->
    integrity_verify_proof P cs pk bytes expected = cs_verify_proof cs pk doc.
  Proof.
    intros (p & H1 & H2 & H3 & H4 & H5). unfold integrity_verify_proof. rewrite H1. cbn. rewrite H2. cbn.
    assert (E : proof_validate p = Ok tt) by (apply proof_valid_iff; auto). rewrite E. cbn.
    replace (purpose_eqb (p_purpose p) expected) with true by (symmetry; apply purpose_eqb_eq; auto). reflexivity.
  Qed.
  Theorem integrity_verify_refuse bytes expected : (forall doc, ~ admitted bytes expected doc) ->
    exists e, forall (cs : cryptosuite D T) pk, integrity_verify_proof P cs pk bytes expected = Err e.
  Proof.
    intros H. unfold integrity_verify_proof. destruct (pf_parse_json_bytes P bytes) as [doc|e] eqn:E1; cbn; [|eauto].
    destruct (pf_get_proof P doc) as [p|] eqn:E2; cbn; [|eauto].
    destruct (proof_validate p) as [[]|e] eqn:E3; cbn; [|eauto].
    destruct (purpose_eqb (p_purpose p) expected) eqn:E4; cbn; [|eauto].
    exfalso. apply (H doc). exists p. apply proof_valid_iff in E3. apply purpose_eqb_eq in E4. tauto.
  Qed.

  Theorem integrity_verify_ask (cs : cryptosuite D T) pk s e v p :
    pf_parse_json_bytes P s = Ok v -> pf_get_proof P v = Some p -> p_typ p <> [] -> p_purpose p <> Unknown -> p_purpose p = e ->
    integrity_verify_proof P cs pk s e = cs_verify_proof cs pk v.
  Proof. intros. apply integrity_verify_pass. exists p. auto. Qed.
  Theorem integrity_verify_not_ask s e :
    (forall v p, ~ (pf_parse_json_bytes P s = Ok v /\ pf_get_proof P v = Some p /\ p_typ p <> [] /\ p_purpose p <> Unknown /\ p_purpose p = e)) ->
    exists err, forall (cs : cryptosuite D T) pk, integrity_verify_proof P cs pk s e = Err err.
  Proof. intros H. apply integrity_verify_refuse. intros v (p & Hp). exact (H v p Hp). Qed.

  (** ** Options *)
  Lemma type_ok o : validate_type o = Ok tt <-> p_typ o = B "DataIntegrityProof".
  Proof.
    unfold validate_type, DEFAULT_PROOF_TYPE. destruct (bytes_eqb (p_typ o) (B "DataIntegrityProof")) eqn:E; cbn [negb].
    - apply bytes_eqb_eq in E. tauto.
    - split; [discriminate|]. intros H. rewrite H, bytes_eqb_refl in E. discriminate.
  Qed.
  Lemma suite_ok o : validate_cryptosuite o = Ok tt <-> p_cryptosuite o = Some (B "eddsa-jcs-2022").
  Proof.
    unfold validate_cryptosuite, DEFAULT_PROOF_CRYPTOSUITE. destruct (p_cryptosuite o) as [s|]; [|split; discriminate].
    destruct (bytes_eqb s (B "eddsa-jcs-2022")) eqn:E; cbn [negb].
    - apply bytes_eqb_eq in E. subst. tauto.
    - split; [discriminate|]. intros H. apply some_inj in H. rewrite H, bytes_eqb_refl in E. discriminate.
  Qed.
  Lemma created_ok o : validate_created D o = Ok tt <-> exists c z, p_created o = Some c /\ datetime D c = Ok z.
  Proof.
    unfold validate_created. destruct (p_created o) as [c|]; [|split; [discriminate | intros (c & z & H & _); discriminate]].
    destruct (datetime D c) as [z|e] eqn:E; cbn.
    - split; [intros _; eauto | reflexivity].
    - split; [discriminate | intros (c' & z & H & H'); apply some_inj in H; subst; congruence].
  Qed.
  Lemma unit_ok {E} (r : result unit E) : (exists u, r = Ok u) <-> r = Ok tt.
  Proof. split; [intros [[] ->]; reflexivity | eauto]. Qed.
  Lemma config_ok o t : generate_proof_config D o = Ok t <-> options_ok D o /\ t = canonical D (proof_json o).
  Proof.
    unfold generate_proof_config, options_ok. rewrite <- type_ok, <- suite_ok, <- created_ok.
    destruct (validate_type o) as [[]|]; cbn [bind]; [|split; [discriminate | intros [[H _] _]; discriminate]].
    destruct (validate_cryptosuite o) as [[]|]; cbn [bind]; [|split; [discriminate | intros [(_ & H & _) _]; discriminate]].
    destruct (validate_created D o) as [[]|]; cbn [bind]; [|split; [discriminate | intros [(_ & _ & H) _]; discriminate]].
    rewrite proof_jcs_text. cbn [map_err bind]. split; [intros H; apply ok_inj in H; auto | intros [_ ->]; reflexivity].
  Qed.
  Lemma transform_ok doc o t : transform_document P doc o = Ok t <->
    p_typ o = B "DataIntegrityProof" /\ p_cryptosuite o = Some (B "eddsa-jcs-2022") /\ pf_to_jcs P doc = Ok t.
  Proof.
    unfold transform_document. rewrite <- type_ok, <- suite_ok.
    destruct (validate_type o) as [[]|]; cbn [bind]; [|split; [discriminate | intros (H & _ & _); discriminate]].
    destruct (validate_cryptosuite o) as [[]|]; cbn [bind]; [|split; [discriminate | intros (_ & H & _); discriminate]].
    destruct (pf_to_jcs P doc) as [x|x]; cbn [bind map_err]; (split; intros H; [|destruct H as (_ & _ & H)]); try discriminate; apply ok_inj in H; subst; auto.
  Qed.

  Definition gen_message (o : proof) (t : bytes) : bytes := sha256 D (canonical D (proof_json o)) ++ sha256 D t.
  Theorem add_proof_iff kp doc opts doc' :
    add_proof D P kp doc opts = Ok doc' <->
    options_ok D opts /\ p_purpose opts <> Unknown /\
    exists t, pf_to_jcs P doc = Ok t /\
      doc' = pf_setup_proof P doc (with_value opts (mb_encode58 (ed_sign D kp (gen_message opts t)))).
  Proof.
    unfold add_proof. rewrite integrity_add. cbn [cs_create_proof eddsa_jcs_2022]. unfold eddsa_create_proof. split.
    - intros (p & H & _ & Hp & ->). destruct (generate_proof_config D opts) as [c|] eqn:E1; cbn in H; [|discriminate].
      apply config_ok in E1 as [O ->]. destruct (transform_document P doc opts) as [t|] eqn:E2; cbn in H; [|discriminate].
      apply transform_ok in E2 as (_ & _ & E2). apply ok_inj in H. subst p. split; [exact O|]. split; [exact Hp|].
      exists t. split; [exact E2 | reflexivity].
    - intros (O & Hp & t & E & ->). exists (with_value opts (mb_encode58 (ed_sign D kp (gen_message opts t)))).
      assert (E1 : generate_proof_config D opts = Ok (canonical D (proof_json opts))) by (apply config_ok; auto).
      assert (E2 : transform_document P doc opts = Ok t) by (destruct O as (O1 & O2 & _); apply transform_ok; auto).
      rewrite E1. cbn [bind]. rewrite E2. split; [reflexivity|]. cbn [p_typ p_purpose with_value]. destruct O as (O1 & _). rewrite O1.
      split; [discriminate|]. auto.
  Qed.
  Theorem add_proof_error kp doc opts e : add_proof D P kp doc opts = Err e -> exists m, e = ProofGenerationError m.
  Proof.
    unfold add_proof, integrity_add_proof, eddsa_jcs_2022, cs_create_proof, eddsa_create_proof, generate_proof_config, transform_document,
      validate_type, validate_cryptosuite, validate_created.
    destruct (bytes_eqb (p_typ opts) _); cbn; [|intros [= <-]; eauto].
    destruct (p_cryptosuite opts) as [s|]; cbn; [|intros [= <-]; eauto].
    destruct (bytes_eqb s _); cbn; [|intros [= <-]; eauto].
    destruct (p_created opts) as [c|]; cbn; [|intros [= <-]; eauto].
    destruct (datetime D c); cbn; [|intros [= <-]; eauto].
    destruct (pf_to_jcs P doc); cbn; [|intros [= <-]; eauto].
    destruct (proof_validate _); cbn; [discriminate | intros [= <-]; eauto].
  Qed.

  Definition accepts (pk : ed_pub D) (bytes : bytes) (expected : purpose) (r : bool) (doc : T) : Prop :=
    exists p b sig t,
      pf_parse_json_bytes P bytes = Ok doc /\ pf_get_proof P doc = Some p /\ options_ok D p /\
      p_purpose p = expected /\ expected <> Unknown /\
      pf_to_jcs P (pf_remove_proof P doc) = Ok t /\
      mb_decode (mb_other D) (p_value p) = Some (b, sig) /\
      ed_verify D pk (gen_message (with_value p []) t) (hex_encode sig) = Ok r.
  Lemma options_ok_value p s : options_ok D (with_value p s) <-> options_ok D p. Proof. reflexivity. Qed.
  Theorem verify_ok_iff pk bytes expected r :
    verify_proof D P pk bytes expected = Ok r <->
    exists doc b, accepts pk bytes expected b doc /\
      r = {| verified := b; document := if b then Some (pf_remove_proof P doc) else None |}.
  Proof.
    split.
    - unfold verify_proof, integrity_verify_proof. destruct (pf_parse_json_bytes P bytes) as [doc|] eqn:E1; cbn; [|discriminate].
      destruct (pf_get_proof P doc) as [p|] eqn:E2; cbn; [|discriminate].
      destruct (proof_validate p) as [[]|] eqn:E3; cbn; [|discriminate].
      destruct (purpose_eqb (p_purpose p) expected) eqn:E4; cbn; [|discriminate].
      unfold eddsa_verify_proof. rewrite E2. cbn. destruct (mb_decode (mb_other D) (p_value p)) as [[b sig]|] eqn:E5; cbn; [|discriminate].
      destruct (transform_document P (pf_remove_proof P doc) (remove_proof_value p)) as [t|] eqn:E6; cbn; [|discriminate].
      destruct (generate_proof_config D (remove_proof_value p)) as [c|] eqn:E7; cbn; [|discriminate].
      unfold verify_signature, proof_byte_to_hex.
      destruct (ed_verify D pk (sha256 D c ++ sha256 D t) (hex_encode sig)) as [x|] eqn:E8; cbn; [|discriminate].
      intros H. apply ok_inj in H. apply proof_valid_iff in E3. apply purpose_eqb_eq in E4.
      apply transform_ok in E6 as (_ & _ & E6). apply config_ok in E7 as [O ->].
      exists doc, x. split.
      + exists p, b, sig, t. destruct E3 as [E3 E3']. subst expected. repeat (split; [first [assumption | reflexivity]|]). exact E8.
      + subst r. unfold verification_of. destruct x; reflexivity.
    - intros (doc & x & (p & b & sig & t & E1 & E2 & O & E4 & E3 & E6 & E5 & E8) & ->).
      assert (A : admitted bytes expected doc).
      { exists p. subst expected. destruct O as (O & _). repeat split; auto. rewrite O. discriminate. }
      unfold verify_proof. rewrite (integrity_verify_pass _ _ A). cbn [cs_verify_proof eddsa_jcs_2022].
      unfold eddsa_verify_proof. rewrite E2. cbn [ok_or bind]. rewrite E5. cbn [ok_or bind].
      assert (E7 : generate_proof_config D (remove_proof_value p) = Ok (canonical D (proof_json (with_value p [])))).
      { apply config_ok. split; [exact O | reflexivity]. }
      assert (E6' : transform_document P (pf_remove_proof P doc) (remove_proof_value p) = Ok t).
      { destruct O as (O1 & O2 & _). apply transform_ok. auto. }
      rewrite E6', E7. cbn [bind]. unfold generate_hash, hash_text. cbn [map_err bind]. unfold verify_signature, proof_byte_to_hex.
      unfold gen_message in E8. rewrite E8. cbn. destruct x; reflexivity.
  Qed.
End Generic.

(** ** Credentials and presentations *)
Lemma app_eq_length {A} (a b c d : list A) : a ++ b = c ++ d -> length a = length c -> a = c /\ b = d.
Proof.
  revert c; induction a as [|x a IH]; intros [|y c] H E; try discriminate E; [auto|].
  cbn in H. injection H as -> H. injection E as E. destruct (IH _ H E) as [-> ->]. auto.
Qed.
Section Doc.
  Variable D : deps.
  Notation text := (json_text (serde_number (f64_text D))).
  Notation canon := (canonical D).
  Variable T : Type.
  Variable P : proofable T.
  Variable J : T -> json.
  Variable W : T -> option proof -> T.
  Variables (complete wf fits unique : T -> Prop).
  Record doc_laws : Prop := {
    l_jcs : forall v t, pf_to_jcs P v = Ok t <-> complete v /\ t = canon (J v);
    l_json : forall v t, pf_to_json P v = Ok t <-> complete v /\ t = JSONValue (text (J v));
    l_set : forall v p, pf_setup_proof P v p = W v (Some p);
    l_rem : forall v, pf_remove_proof P v = W v None;
    l_get : forall v p, pf_get_proof P (W v p) = p;
    l_self : forall v, W v (pf_get_proof P v) = v;
    l_twice : forall v p q, W (W v p) q = W v q;
    l_complete : forall v p, complete (W v p) <-> complete v;
    l_wf : forall v, wf v <-> wf (W v None) /\ opt_all proof_wf (pf_get_proof P v);
    l_fits : forall v p, fits (W v p) <-> fits v;
    l_read : forall v, wf v -> fits v -> pf_parse_json_bytes P (text (J v)) = Ok v;
    l_parsed : forall s v, pf_parse_json_bytes P s = Ok v -> fits v /\ unique v /\ opt_all proof_wf (pf_get_proof P v);
    l_unique : forall v p, unique (W v p) <-> unique v;
    l_proof : jcs_numbers D -> forall v p q, canon (J (W v p)) = canon (J (W v q)) -> p = q
  }.
  Hypothesis L : doc_laws.

  (** *** C29 *)
  Theorem doc_add_proof kp v o v' :
    add_proof D P kp v o = Ok v' <->
    options_ok D o /\ p_purpose o <> Unknown /\ complete v /\
    v' = W v (Some (with_value o (mb_encode58 (ed_sign D kp (message D o (J v)))))).
  Proof.
    rewrite add_proof_iff. split.
    - intros (H1 & H2 & t & H3 & ->). apply (l_jcs L) in H3 as [H3 ->]. rewrite (l_set L). auto.
    - intros (H1 & H2 & H3 & ->). repeat (split; [assumption|]). exists (canon (J v)). rewrite (l_set L).
      split; [apply (l_jcs L); auto | reflexivity].
  Qed.

  (** *** C32 *)
  Theorem doc_verify pk s e r :
    verify_proof D P pk s e = Ok r <->
    exists v p b sig x,
      pf_parse_json_bytes P s = Ok v /\ pf_get_proof P v = Some p /\ options_ok D p /\
      p_purpose p = e /\ e <> Unknown /\ complete v /\
      mb_decode (mb_other D) (p_value p) = Some (b, sig) /\
      ed_verify D pk (message D (with_value p []) (J (W v None))) (hex_encode sig) = Ok x /\
      r = {| verified := x; document := if x then Some (W v None) else None |}.
  Proof.
    rewrite verify_ok_iff. split.
    - intros (v & x & (p & b & sig & t & H1 & H2 & H3 & H4 & H5 & H6 & H7 & H8) & ->). rewrite (l_rem L) in *.
      apply (l_jcs L) in H6 as [H6 ->]. apply (l_complete L) in H6. exists v, p, b, sig, x. repeat (split; [assumption|]). auto.
    - intros (v & p & b & sig & x & H1 & H2 & H3 & H4 & H5 & H6 & H7 & H8 & ->). exists v, x. rewrite (l_rem L). split; [|reflexivity].
      exists p, b, sig, (canon (J (W v None))). repeat (split; [assumption|]). rewrite (l_rem L). split; [apply (l_jcs L); split; [apply (l_complete L); auto | reflexivity]|].
      auto.
  Qed.

  (** *** C30 *)
  Lemma mb58_reads x : mb_decode (mb_other D) (mb_encode58 x) = Some (Base58Btc, x).
  Proof. apply mb_decode_encode58. Qed.
  Lemma value_wf o s : proof_wf o -> utf8 s -> proof_wf (with_value o s).
  Proof. intros (H1 & H2 & H3 & H4 & H5 & H6 & H7) Hs. repeat split; auto. Qed.
  Lemma none_self v : pf_get_proof P v = None -> W v None = v.
  Proof. intros H. rewrite <- (l_self L v) at 2. rewrite H. reflexivity. Qed.
  Lemma signed_wf v p : wf v -> proof_wf p -> wf (W v (Some p)).
  Proof. intros Hv Hp. apply (l_wf L). rewrite (l_twice L), (l_get L). split; [apply (l_wf L) in Hv; tauto | exact Hp]. Qed.
  Theorem doc_transport kp v o v' :
    ed_correct D -> wf v -> proof_wf o -> fits v -> pf_get_proof P v = None -> p_value o = [] ->
    add_proof D P kp v o = Ok v' ->
    exists t, pf_to_json P v' = Ok (JSONValue t) /\
      verify_proof D P (ed_pub_key D kp) t (p_purpose o) = Ok {| verified := true; document := Some v |}.
  Proof.
    intros Hed Hwf Ho Hfit Hnone Hval H. apply doc_add_proof in H as (H1 & H2 & H3 & ->).
    set (sig := ed_sign D kp (message D o (J v))). set (p := with_value o (mb_encode58 sig)).
    exists (text (J (W v (Some p)))). split; [apply (l_json L); split; [apply (l_complete L); auto | reflexivity]|].
    apply doc_verify. exists (W v (Some p)), p, Base58Btc, sig, true.
    rewrite (l_get L), (l_twice L), (none_self Hnone).
    split. { apply (l_read L); [apply signed_wf; auto; apply value_wf; auto; apply utf8_mb58 | apply (l_fits L); auto]. }
    split; [reflexivity|]. split; [exact H1|]. split; [reflexivity|]. split; [exact H2|]. split; [apply (l_complete L); auto|].
    split; [apply mb58_reads|]. split; [|reflexivity].
    replace (with_value p []) with o; [apply Hed|]. destruct o; cbn in *; subst; reflexivity.
  Qed.

  (** *** C31 *)
  Theorem doc_resigning kp v o v' t e r :
    sha256_size D -> jcs_numbers D ->
    wf v -> proof_wf o -> fits v -> (pf_get_proof P v <> None \/ p_value o <> []) ->
    add_proof D P kp v o = Ok v' -> pf_to_json P v' = Ok (JSONValue t) ->
    verify_proof D P (ed_pub_key D kp) t e = Ok r -> verified r = true ->
    let m1 := message D o (J v) in
    let m2 := message D (with_value o []) (J (W v None)) in
    (m1 <> m2 /\ ed_verify D (ed_pub_key D kp) m2 (hex_encode (ed_sign D kp m1)) = Ok true) \/
    collision (sha256 D) (canon (proof_json o)) (canon (proof_json (with_value o []))) \/
    collision (sha256 D) (canon (J v)) (canon (J (W v None))).
  Proof.
    intros Hsz Hn Hwf Ho Hfit Hne H Ht Hv Hr m1 m2. apply doc_add_proof in H as (H1 & H2 & H3 & ->).
    fold m1 in Ht. set (sig := ed_sign D kp m1) in *. set (p := with_value o (mb_encode58 sig)) in *.
    apply (l_json L) in Ht as [_ Ht]. apply jv_inj in Ht. subst t.
    apply doc_verify in Hv as (v2 & p2 & b & sig2 & x & V1 & V2 & V3 & V4 & V5 & V6 & V7 & V8 & ->). cbn in Hr. subst x.
    rewrite (l_read L) in V1; [|apply signed_wf; auto; apply value_wf; auto; apply utf8_mb58 | apply (l_fits L); auto].
    apply ok_inj in V1. subst v2. rewrite (l_get L) in V2. apply some_inj in V2. subst p2.
    unfold p in V7. cbn [p_value with_value] in V7. rewrite mb58_reads in V7. injection V7 as <- <-.
    rewrite (l_twice L) in V8. change (with_value p []) with (with_value o []) in V8. fold m2 in V8.
    destruct (list_eq_dec Byte.byte_eq_dec m1 m2) as [E|E]; [right | left; auto].
    unfold m1, m2, message in E. apply app_eq_length in E as [E1 E2]; [|rewrite !Hsz; reflexivity].
    destruct (list_eq_dec Byte.byte_eq_dec (canon (proof_json o)) (canon (proof_json (with_value o [])))) as [F|F]; [|left; split; auto].
    right. split; [|exact E2]. intros G. rewrite <- (l_self L v) in G at 1. apply (l_proof L Hn) in G.
    apply (proof_canonical Hn) in F. destruct Hne as [Hne|Hne]; [auto|]. apply Hne. rewrite F. reflexivity.
  Qed.

  (** *** C34 *)
  Theorem doc_result pk s e r : verify_proof D P pk s e = Ok r ->
    (verified r = true <-> document r <> None) /\
    (forall d, document r = Some d ->
       exists v p, pf_parse_json_bytes P s = Ok v /\ d = W v None /\ complete d /\ pf_get_proof P v = Some p /\
         forall kp, exists d', add_proof D P kp d (with_value p []) = Ok d').
  Proof.
    intros H. apply doc_verify in H as (v & p & b & sig & x & H1 & H2 & H3 & H4 & H5 & H6 & H7 & H8 & ->). cbn [verified document]. split.
    - destruct x; split; congruence.
    - destruct x; [|discriminate]. intros d Hd. apply some_inj in Hd. subst d. exists v, p.
      split; [exact H1|]. split; [reflexivity|]. split; [apply (l_complete L); auto|]. split; [exact H2|].
      intros kp. eexists. apply doc_add_proof. split; [exact H3|]. split; [subst; exact H5|]. split; [apply (l_complete L); auto | reflexivity].
  Qed.

  (** *** C37 *)
  Theorem doc_reencoded pk s e d v p b sig u b' :
    verify_proof D P pk s e = Ok {| verified := true; document := d |} ->
    pf_parse_json_bytes P s = Ok v -> wf v -> pf_get_proof P v = Some p ->
    mb_decode (mb_other D) (p_value p) = Some (b, sig) ->
    utf8 u -> mb_decode (mb_other D) u = Some (b', sig) ->
    exists t, pf_to_json P (W v (Some (with_value p u))) = Ok (JSONValue t) /\
      verify_proof D P pk t e = Ok {| verified := true; document := d |}.
  Proof.
    intros H Hs Hwf Hp Hb Hu Hb'. apply doc_verify in H as (v2 & p2 & b2 & sig2 & x & H1 & H2 & H3 & H4 & H5 & H6 & H7 & H8 & H9).
    rewrite Hs in H1. apply ok_inj in H1. subst v2. rewrite Hp in H2. apply some_inj in H2. subst p2. rewrite Hb in H7. injection H7 as <- <-.
    exists (text (J (W v (Some (with_value p u))))). split; [apply (l_json L); split; [apply (l_complete L); auto | reflexivity]|].
    apply doc_verify. exists (W v (Some (with_value p u))), (with_value p u), b', sig, x.
    rewrite (l_get L), (l_twice L). destruct (l_parsed L Hs) as (Hfit & _ & Hpw). rewrite Hp in Hpw.
    split. { apply (l_read L); [apply signed_wf; auto; apply value_wf; auto | apply (l_fits L); auto]. }
    repeat (split; [first [assumption | reflexivity | apply (l_complete L); assumption]|]). exact H9.
  Qed.

  (** *** C35 *)
  Theorem doc_purpose e p : p_purpose p <> e \/ p_purpose p = Unknown ->
    exists m, forall pk s v u, pf_parse_json_bytes P s = Ok v -> pf_get_proof P v = Some (with_value p u) ->
      verify_proof D P pk s e = Err (ProofVerificationError m).
  Proof.
    intros H3.
    assert (E : forall u, proof_validate (with_value p u) = proof_validate p) by reflexivity.
    destruct (proof_validate p) as [[]|err] eqn:V; eexists; intros pk s v u H1 H2; unfold verify_proof, integrity_verify_proof; rewrite H1; cbn [bind];
      rewrite H2; cbn [ok_or bind]; rewrite E; cbn [bind map_err]; [|reflexivity].
    apply proof_valid_iff in V as [_ V]. change (p_purpose (with_value p u)) with (p_purpose p).
    destruct (purpose_eqb (p_purpose p) e) eqn:E4; cbn [negb]; [|reflexivity]. apply purpose_eqb_eq in E4. destruct H3; congruence.
  Qed.
  Theorem doc_unknown pk s r : verify_proof D P pk s Unknown <> Ok r.
  Proof. intros H. apply doc_verify in H as (v & p & b & sig & x & _ & _ & _ & _ & H & _). congruence. Qed.
End Doc.

(** ** Instances *)
Section Instances.
  Variable D : deps.
  Lemma vc_doc_laws : doc_laws D (vc_proofable D) vc_json vc_with_proof vc_complete (vc_wf D) (fun v => (depth (vc_subject v) <= 126)%nat) vc_unique.
  Proof.
    constructor.
    - intros v t. apply vc_to_jcs_spec.
    - intros v t. apply vc_to_json_spec.
    - reflexivity.
    - reflexivity.
    - reflexivity.
    - intros []; reflexivity.
    - reflexivity.
    - reflexivity.
    - intros v. unfold vc_wf. cbn. tauto.
    - reflexivity.
    - intros v Hw Hd. cbn [pf_parse_json_bytes vc_proofable]. rewrite vc_reads by assumption. apply Nat.leb_le in Hd. rewrite Hd. reflexivity.
    - intros s v H. apply (@vc_parsed D (fun _ => True)) in H as [(_ & _ & H1 & H2 & _) H3]; [|split; auto|split; auto].
      split; [exact H3|]. split; [exact (val_ok_unique H1) | exact H2].
    - reflexivity.
    - intros Hn v p q H. apply (@jcs_inj _ _ Hn) in H. apply same_vc_json in H as (_ & _ & _ & H & _). exact H.
  Qed.
  Lemma vp_doc_laws : doc_laws D (vp_proofable D) vp_json vp_with_proof vp_complete (vp_wf D)
    (fun v => Forall (fun c => (depth (vc_subject c) <= 124)%nat) (vp_credentials v)) vp_unique.
  Proof.
    constructor.
    - intros v t. apply vp_to_jcs_spec.
    - intros v t. apply vp_to_json_spec.
    - reflexivity.
    - reflexivity.
    - reflexivity.
    - intros []; reflexivity.
    - reflexivity.
    - reflexivity.
    - intros v. unfold vp_wf. cbn. tauto.
    - reflexivity.
    - intros v Hw Hd. apply vp_reads; assumption.
    - intros s v H. apply (@vp_parsed D (fun _ => True)) in H as [(_ & _ & H1 & H2 & _) H3]; [|split; auto|split; auto].
      split; [exact H3|]. split; [|exact H2]. eapply Forall_impl; [|exact H1]. intros c (_ & _ & Hc & _). exact (val_ok_unique Hc).
    - reflexivity.
    - intros Hn v p q H. apply (@jcs_inj _ _ Hn) in H. apply same_vp_json in H as (_ & _ & _ & H & _). exact H.
  Qed.

  (** ** C33 *)
  Hypothesis Hsz : sha256_size D.
  Hypothesis Hn : jcs_numbers D.
  Lemma vc_vp_differ a b : ~ same (jcs_number D) (vp_json a) (vc_json b).
  Proof.
    intros H. edestruct (@same_member D) with (k := "verifiableCredential"%string) as (x & Hx & _);
      [reflexivity | reflexivity | apply (vc_json_names b) | exact H | apply (vp_lookup a) |].
    revert Hx. unfold vc_json. destruct (vc_proof b); vm_compute; discriminate.
  Qed.
  Lemma vp_vc_differ a b : ~ same (jcs_number D) (vc_json a) (vp_json b).
  Proof.
    intros H. edestruct (@same_member D) with (k := "credentialSubject"%string) as (x & Hx & _);
      [reflexivity | reflexivity | apply (vp_json_names b) | exact H | apply (vc_lookup a) |].
    revert Hx. unfold vp_json. destruct (vp_proof b), (vp_holder b); vm_compute; discriminate.
  Qed.

  (** A signed message that equals the accepted one: same options and same data, or a collision. *)
  Lemma message_match s o j : signing_message D s = message D o j ->
    (signing_options s = o /\ same (jcs_number D) (signing_json s) j) \/
    collision (sha256 D) (canonical D (proof_json (signing_options s))) (canonical D (proof_json o)) \/
    collision (sha256 D) (canonical D (signing_json s)) (canonical D j).
  Proof.
    intros H. unfold signing_message, message in H. apply app_eq_length in H as [H1 H2]; [|rewrite !Hsz; reflexivity].
    destruct (list_eq_dec Byte.byte_eq_dec (canonical D (proof_json (signing_options s))) (canonical D (proof_json o))) as [E|E];
      [|right; left; split; auto].
    destruct (list_eq_dec Byte.byte_eq_dec (canonical D (signing_json s)) (canonical D j)) as [F|F];
      [|right; right; split; auto].
    left. split; [apply (proof_canonical Hn); exact E | exact (@jcs_inj _ _ Hn _ _ F)].
  Qed.
  Lemma accepted_message pk history o j sig : ed_verify D pk (message D o j) (hex_encode sig) = Ok true ->
    (exists s, In s history /\ signing_options s = o /\ same (jcs_number D) (signing_json s) j) \/
    forgery D pk history (message D o j) sig \/ text_collision D history o j.
  Proof.
    intros H. destruct (in_dec (list_eq_dec Byte.byte_eq_dec) (message D o j) (map (signing_message D) history)) as [I|I].
    - apply in_map_iff in I as (s & E & I). apply message_match in E as [[E1 E2]|E]; [left; eauto | right; right; exists s; auto].
    - right; left. split; auto.
  Qed.
  Theorem vc_tamper pk history s e r : verify_proof D (vc_proofable D) pk s e = Ok r -> verified r = true ->
    exists v p b sig, vc_parse_json_bytes D s = Ok v /\ vc_proof v = Some p /\ mb_decode (mb_other D) (p_value p) = Some (b, sig) /\
      document r = Some (vc_with_proof v None) /\ p_purpose p = e /\ vc_unique v /\
      ((exists v0, In (SignVc v0 (with_value p [])) history /\ same_vc D v0 (vc_with_proof v None)) \/
       forgery D pk history (message D (with_value p []) (vc_json (vc_with_proof v None))) sig \/
       text_collision D history (with_value p []) (vc_json (vc_with_proof v None))).
  Proof.
    intros H Hr. apply (doc_verify vc_doc_laws) in H as (v & p & b & sig & x & H1 & H2 & H3 & H4 & H5 & H6 & H7 & H8 & ->).
    cbn in Hr. subst x. exists v, p, b, sig. destruct (l_parsed vc_doc_laws H1) as (_ & U & _).
    repeat (split; [assumption|]). split; [reflexivity|]. split; [exact H4|]. split; [exact U|].
    destruct (accepted_message history H8) as [([v0 o|v0 o] & I & E & S)|[F|C]]; [| |right; left; exact F | right; right; exact C].
    - left. cbn in E, S. subst o. exists v0. split; [exact I | apply same_vc_json; exact S].
    - exfalso. exact (vc_vp_differ S).
  Qed.
  Theorem vp_tamper pk history s e r : verify_proof D (vp_proofable D) pk s e = Ok r -> verified r = true ->
    exists v p b sig, vp_parse_json_bytes D s = Ok v /\ vp_proof v = Some p /\ mb_decode (mb_other D) (p_value p) = Some (b, sig) /\
      document r = Some (vp_with_proof v None) /\ p_purpose p = e /\ vp_unique v /\
      ((exists v0, In (SignVp v0 (with_value p [])) history /\ same_vp D v0 (vp_with_proof v None)) \/
       forgery D pk history (message D (with_value p []) (vp_json (vp_with_proof v None))) sig \/
       text_collision D history (with_value p []) (vp_json (vp_with_proof v None))).
  Proof.
    intros H Hr. apply (doc_verify vp_doc_laws) in H as (v & p & b & sig & x & H1 & H2 & H3 & H4 & H5 & H6 & H7 & H8 & ->).
    cbn in Hr. subst x. exists v, p, b, sig. destruct (l_parsed vp_doc_laws H1) as (_ & U & _).
    repeat (split; [assumption|]). split; [reflexivity|]. split; [exact H4|]. split; [exact U|].
    destruct (accepted_message history H8) as [([v0 o|v0 o] & I & E & S)|[F|C]]; [| |right; left; exact F | right; right; exact C].
    - exfalso. exact (vp_vc_differ S).
    - left. cbn in E, S. subst o. exists v0. split; [exact I | apply same_vp_json; exact S].
  Qed.

  (** ** C35, C38 *)
  Theorem purpose_message o j j' u : u <> p_purpose o -> message D o j = message D (with_purpose o u) j' ->
    collision (sha256 D) (canonical D (proof_json o)) (canonical D (proof_json (with_purpose o u))).
  Proof.
    intros H E. apply app_eq_length in E as [E _]; [|rewrite !Hsz; reflexivity]. split; [|exact E].
    intros F. apply (proof_canonical Hn) in F. apply H. rewrite F. reflexivity.
  Qed.
  Theorem hash_layout t c : exists m, generate_hash D t c = Ok m /\
    length m = 64%nat /\ firstn 32 m = sha256 D c /\ skipn 32 m = sha256 D t.
  Proof.
    exists (sha256 D c ++ sha256 D t). split; [reflexivity|]. rewrite app_length, !Hsz. split; [reflexivity|].
    split; [rewrite <- (Hsz c) at 1; rewrite firstn_app, Nat.sub_diag, firstn_all, app_nil_r; reflexivity |
            rewrite <- (Hsz c) at 1; rewrite skipn_app, Nat.sub_diag, skipn_all; reflexivity].
  Qed.
  Theorem hash_split t c t' c' m : generate_hash D t c = Ok m -> generate_hash D t' c' = Ok m ->
    (t = t' \/ collision (sha256 D) t t') /\ (c = c' \/ collision (sha256 D) c c').
  Proof.
    intros H1 H2. apply ok_inj in H1, H2. rewrite <- H2 in H1. apply app_eq_length in H1 as [H3 H4]; [|rewrite !Hsz; reflexivity].
    split; [destruct (list_eq_dec Byte.byte_eq_dec t t') | destruct (list_eq_dec Byte.byte_eq_dec c c')]; auto; right; split; auto.
  Qed.
End Instances.

(** ** C36 *)
Section Expiry.
  Variable D : deps.
  Lemma expiry_wf o x : proof_wf o -> opt_all utf8 x -> proof_wf (with_expiry o x).
  Proof. intros (H1 & H2 & H3 & H4 & H5 & H6 & H7) Hs. repeat split; auto. Qed.
  Theorem vc_expiry kp v o x : ed_correct D -> vc_wf D v -> (depth (vc_subject v) <= 126)%nat -> vc_complete v -> vc_proof v = None ->
    proof_wf o -> p_value o = [] -> options_ok D o -> p_purpose o <> Unknown -> opt_all utf8 x ->
    exists v' t, add_proof D (vc_proofable D) kp v (with_expiry o x) = Ok v' /\ vc_to_json D v' = Ok (JSONValue t) /\
      verify_proof D (vc_proofable D) (ed_pub_key D kp) t (p_purpose o) = Ok {| verified := true; document := Some v |}.
  Proof.
    intros Hed W Hd C Hp Wo Hv O U X.
    assert (A : exists v', add_proof D (vc_proofable D) kp v (with_expiry o x) = Ok v').
    { eexists. apply (doc_add_proof (vc_doc_laws D)). split; [exact O|]. split; [exact U|]. split; [exact C | reflexivity]. }
    destruct A as [v' A]. exists v'. destruct (doc_transport (vc_doc_laws D) Hed W (expiry_wf Wo X) Hd Hp Hv A) as (t & H1 & H2).
    exists t. auto.
  Qed.
  Theorem vp_expiry kp v o x : ed_correct D -> vp_wf D v -> Forall (fun c => (depth (vc_subject c) <= 124)%nat) (vp_credentials v) ->
    vp_complete v -> vp_proof v = None ->
    proof_wf o -> p_value o = [] -> options_ok D o -> p_purpose o <> Unknown -> opt_all utf8 x ->
    exists v' t, add_proof D (vp_proofable D) kp v (with_expiry o x) = Ok v' /\ vp_to_json D v' = Ok (JSONValue t) /\
      verify_proof D (vp_proofable D) (ed_pub_key D kp) t (p_purpose o) = Ok {| verified := true; document := Some v |}.
  Proof.
    intros Hed W Hd C Hp Wo Hv O U X.
    assert (A : exists v', add_proof D (vp_proofable D) kp v (with_expiry o x) = Ok v').
    { eexists. apply (doc_add_proof (vp_doc_laws D)). split; [exact O|]. split; [exact U|]. split; [exact C | reflexivity]. }
    destruct A as [v' A]. exists v'. destruct (doc_transport (vp_doc_laws D) Hed W (expiry_wf Wo X) Hd Hp Hv A) as (t & H1 & H2).
    exists t. auto.
  Qed.
End Expiry.

(** ** C46, C47 *)
Section Unlinked.
  Variable D : deps.
  Lemma doc_round {T} P J W complete wf fits unique (L : @doc_laws D T P J W complete wf fits unique) kp v o :
    ed_correct D -> wf v -> fits v -> complete v -> pf_get_proof P v = None ->
    proof_wf o -> p_value o = [] -> options_ok D o -> p_purpose o <> Unknown ->
    exists v' t, add_proof D P kp v o = Ok v' /\ pf_to_json P v' = Ok (JSONValue t) /\
      verify_proof D P (ed_pub_key D kp) t (p_purpose o) = Ok {| verified := true; document := Some v |}.
  Proof.
    intros Hed Hw Hd C Hp Wo Hv O U.
    assert (A : exists v', add_proof D P kp v o = Ok v') by (eexists; apply (doc_add_proof L); repeat (split; [assumption|]); reflexivity).
    destruct A as [v' A]. exists v'. destruct (doc_transport L Hed Hw Wo Hd Hp Hv A) as (t & H1 & H2). exists t. auto.
  Qed.
  Theorem vp_unverified_credential kp v c o : ed_correct D -> vp_wf D v -> vp_contexts v <> [] -> vp_types v <> [] -> vp_proof v = None ->
    Forall (fun c => (depth (vc_subject c) <= 124)%nat) (vp_credentials v) ->
    vc_wf D c -> (depth (vc_subject c) <= 124)%nat ->
    proof_wf o -> p_value o = [] -> options_ok D o -> p_purpose o <> Unknown ->
    exists v' t, add_proof D (vp_proofable D) kp (vp_add_credential v c) o = Ok v' /\ vp_to_json D v' = Ok (JSONValue t) /\
      verify_proof D (vp_proofable D) (ed_pub_key D kp) t (p_purpose o) =
      Ok {| verified := true; document := Some (vp_add_credential v c) |}.
  Proof.
    intros Hed (W1 & W2 & W3 & W4 & W5) C1 C2 Hp F Wc Fc Wo Hv O U.
    apply (doc_round (vp_doc_laws D)); auto.
    - repeat split; auto. apply Forall_app. split; auto.
    - apply Forall_app. split; auto.
    - split; [exact C1|]. split; [exact C2|]. cbn. destruct (vp_credentials v); discriminate.
  Qed.
  Theorem vc_any_issuer kp v o method issuer : ed_correct D -> vc_wf D v -> (depth (vc_subject v) <= 126)%nat -> vc_complete v -> vc_proof v = None ->
    proof_wf o -> p_value o = [] -> options_ok D o -> p_purpose o <> Unknown -> utf8 method -> utf8 issuer ->
    let claimed := {| vc_contexts := vc_contexts v; vc_types := vc_types v; vc_subject := vc_subject v; vc_proof := None;
                      vc_id := vc_id v; vc_issuer := issuer |} in
    exists v' t, add_proof D (vc_proofable D) kp claimed (proof_method o method) = Ok v' /\ vc_to_json D v' = Ok (JSONValue t) /\
      verify_proof D (vc_proofable D) (ed_pub_key D kp) t (p_purpose o) = Ok {| verified := true; document := Some claimed |}.
  Proof.
    intros Hed (W1 & W2 & W3 & W4 & W5 & W6) Hd (C1 & C2 & C3) Hp (P1 & P2 & P3 & P4 & P5 & P6 & P7) Hv O U M I claimed.
    apply (doc_round (vc_doc_laws D) kp (v := claimed) (o := proof_method o method)); auto.
    - repeat split; auto.
    - repeat split; auto.
    - repeat split; auto.
  Qed.
  Theorem vp_any_holder kp v o method holder : ed_correct D -> vp_wf D v -> Forall (fun c => (depth (vc_subject c) <= 124)%nat) (vp_credentials v) ->
    vp_complete v -> vp_proof v = None ->
    proof_wf o -> p_value o = [] -> options_ok D o -> p_purpose o <> Unknown -> utf8 method -> opt_all utf8 holder ->
    let claimed := {| vp_contexts := vp_contexts v; vp_types := vp_types v; vp_credentials := vp_credentials v; vp_proof := None; vp_holder := holder |} in
    exists v' t, add_proof D (vp_proofable D) kp claimed (proof_method o method) = Ok v' /\ vp_to_json D v' = Ok (JSONValue t) /\
      verify_proof D (vp_proofable D) (ed_pub_key D kp) t (p_purpose o) = Ok {| verified := true; document := Some claimed |}.
  Proof.
    intros Hed (W1 & W2 & W3 & W4 & W5) Hd (C1 & C2 & C3) Hp (P1 & P2 & P3 & P4 & P5 & P6 & P7) Hv O U M I claimed.
    apply (doc_round (vp_doc_laws D) kp (v := claimed) (o := proof_method o method)); auto.
    - repeat split; auto.
    - repeat split; auto.
    - repeat split; auto.
  Qed.
End Unlinked.

(** ** C37 *)
Lemma val58_text t : base58_text t -> exists ds, map_opt val58 t = Some ds.
Proof.
  induction 1 as [|c t Hc F (ds & IH)]; [exists []; reflexivity|].
  assert (H : exists d, val58 c = Some d).
  { revert c Hc. apply Forall_forall. repeat (apply Forall_cons; [eexists; vm_compute; reflexivity|]). apply Forall_nil. }
  destruct H as [d Hd]. exists (d :: ds). cbn [map_opt]. rewrite Hd, IH. reflexivity.
Qed.
Theorem base58_bijection : (forall x, base58_text (base58_encode x)) /\ (forall x y, base58_encode x = base58_encode y -> x = y) /\
  (forall t, base58_text t -> exists x, base58_encode x = t).
Proof.
  split; [exact base58_text_encode|]. split; [exact base58_encode_inj|].
  intros t H. destruct (val58_text H) as (ds & E). eexists. apply base58_encode_decode. unfold base58_decode. rewrite E. reflexivity.
Qed.
Theorem proof_value_unique D t sig : mb_decode (mb_other D) t = Some (Base58Btc, sig) <-> t = proof_byte_encode sig.
Proof. split; [apply mb_decode_58_inv | intros ->; apply mb_decode_encode58]. Qed.
