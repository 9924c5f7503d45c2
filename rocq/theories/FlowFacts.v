(** Proofs for C48-C62. *)
From Coq Require Import Permutation.
From Verif Require Import Base BaseFacts Codec CodecFacts Json JsonParse Deps Types Did Keys KeyStore Doc Identity Hashlink UserConnection
  Proof Vc Suite JsonFacts JsonParseFacts SchemaFacts ParseFacts JsonSpec Spec IdentitySpec DidFacts IdentityFacts ShapeFacts ReadFacts DocFacts
  VcSpec VcFacts SuiteSpec SuiteFacts MiscSpec MiscFacts Grammar GrammarFacts TextSpec TextFacts FlowSpec DocTextFacts.
Set Implicit Arguments.
Unset Strict Implicit.

(** ** C52: parameters as JSON *)
Section Params.
  Variable D : deps.
  Theorem params_text p : params_to_json D p = JSONValue (json_text (serde_number (f64_text D)) (params_json p)).
  Proof. unfold params_to_json, to_json_text, jv_from. rewrite ser_params. reflexivity. Qed.
  Lemma depth_params p : (depth (params_json p) <= 127)%nat.
  Proof. destruct p as [[?|] [?|]]; cbn; lia. Qed.
  Theorem params_round_trip p : params_wf p ->
    exists t, params_to_json D p = JSONValue t /\ params_from_slice D t = Some p.
  Proof.
    intros W. eexists. split; [reflexivity|]. unfold params_from_slice, to_json_text.
    rewrite (@from_slice_ser _ _ params_schema _ eq_refl (ok_params D W)), ser_params.
    rewrite (proj2 (Nat.leb_le _ _) (depth_params p)). apply data_params_inv.
  Qed.
  Theorem params_text_inj p q : params_wf p -> params_wf q -> params_to_json D p = params_to_json D q -> p = q.
  Proof.
    intros W1 W2 E. destruct (params_round_trip W1) as (t1 & E1 & P1), (params_round_trip W2) as (t2 & E2 & P2).
    rewrite E1, E2 in E. apply jv_inj in E. subst t2. congruence.
  Qed.
  Theorem params_read s p : params_from_slice D s = Some p -> params_wf p.
  Proof.
    unfold params_from_slice. destruct (from_slice _ _ _) as [x|] eqn:E; [|discriminate].
    apply (from_slice_ok (nok := fun _ => True)) in E; [|intros ? ? ?; exact I | repeat split].
    destruct E as [E _]. apply rd_params in E as (q & -> & W). rewrite data_params_inv. intros H. apply some_inj in H. subst. exact W.
  Qed.
End Params.

(** ** C53: stored keys as JSON *)
Section Store.
  Variable D : deps.
  Variable ks_json : keysecure -> json.
  Variable json_ks : json -> option keysecure.
  Lemma ser_pairs p : ser pairs_schema (pairs_data ks_json p) = pairs_json ks_json p. Proof. reflexivity. Qed.
  Lemma ser_ipk k : ser ipk_schema (ipk_data ks_json k) = ipk_json ks_json k.
  Proof. destruct k as [i [a|] [b|]]; reflexivity. Qed.
  Theorem ipk_text k : ipk_to_json ks_json D k = Ok (JSONValue (json_text (serde_number (f64_text D)) (ipk_json ks_json k))).
  Proof. unfold ipk_to_json, to_json_text, jv_from. rewrite ser_ipk. reflexivity. Qed.
  Hypothesis L : ks_json_law D ks_json json_ks.
  Lemma data_pairs_inv p : pairs_wf p -> data_pairs json_ks (pairs_data ks_json p) = Some p.
  Proof. destruct p as [v a]. intros [H1 H2]. cbn in *. rewrite (proj1 (L H1)), (proj1 (L H2)). reflexivity. Qed.
  Lemma opt_pairs_inv o : opt_all pairs_wf o -> data_opt (data_pairs json_ks) (opt_data (pairs_data ks_json) o) = Some o.
  Proof. destruct o as [p|]; [|reflexivity]. intros H. cbn [data_opt opt_data]. rewrite (data_pairs_inv H). reflexivity. Qed.
  Lemma data_ipk_inv k : ipk_wf k -> data_ipk json_ks (ipk_data ks_json k) = Some k.
  Proof.
    destruct k as [i a b]. intros (_ & H1 & H2). unfold data_ipk, ipk_data. cbn [ipk_identity ipk_authentication ipk_assertion] in *.
    rewrite (opt_pairs_inv H1), (opt_pairs_inv H2). reflexivity.
  Qed.
  Lemma ok_pairs p : pairs_wf p -> data_ok (f64_text D) (f64_parse D) pairs_schema (pairs_data ks_json p).
  Proof. destruct p as [v a]. intros [H1 H2]. apply data_ok_struct. cbn [fields_ok snd]. repeat split; [apply (L H1)|apply (L H2)]. Qed.
  Lemma ok_ipk k : ipk_wf k -> data_ok (f64_text D) (f64_parse D) ipk_schema (ipk_data ks_json k).
  Proof.
    intros (U & H1 & H2). apply data_ok_struct. cbn [fields_ok snd].
    repeat split; auto; apply ok_opt with (P := pairs_wf); auto using ok_pairs.
  Qed.
  Lemma depth_pairs p : pairs_wf p -> (depth (pairs_json ks_json p) <= 126)%nat.
  Proof. intros [H1 H2]. apply depth_members. repeat (apply Forall_cons || apply Forall_nil); cbn [snd]; [apply (L H1)|apply (L H2)]. Qed.
  Lemma depth_ipk k : ipk_wf k -> (depth (ipk_json ks_json k) <= 127)%nat.
  Proof.
    intros (_ & H1 & H2). apply depth_members. pose proof depth_pairs as P.
    destruct k as [i [a|] [b|]]; cbn [app opt_member option_map ipk_identity ipk_authentication ipk_assertion opt_all] in *;
      repeat (apply Forall_cons || apply Forall_nil); cbn [snd]; auto; cbn [depth]; lia.
  Qed.
  Theorem ipk_round_trip k : ipk_wf k ->
    exists t, ipk_to_json ks_json D k = Ok (JSONValue t) /\ ipk_from_slice json_ks D t = Some k.
  Proof.
    intros U. eexists. split; [reflexivity|]. unfold ipk_from_slice, to_json_text.
    rewrite (@from_slice_ser _ _ ipk_schema _ eq_refl (ok_ipk U)), ser_ipk.
    rewrite (proj2 (Nat.leb_le _ _) (depth_ipk U)). apply (data_ipk_inv U).
  Qed.
End Store.

(** ** C54-C56: URIs *)
Theorem uri_rebuilt D (d : did D) i uri p uri' : did_identity d = Ok i ->
  parse_uri uri = Ret (Ok (id_value i, p)) ->
  build_uri d (match address p, hl p with None, None => None | _, _ => Some p end) = Ok uri' ->
  parse_uri uri' = parse_uri uri.
Proof.
  intros I P Bd. rewrite P. apply parse_uri_meaning in P as (_ & A & H). apply param_of_clean in A, H.
  destruct p as [a h]. cbn [address hl] in *.
  assert (G : forall o, build_uri d o = Ok uri' -> o = Some {| address := a; hl := h |} -> parse_uri uri' = Ret (Ok (id_value i, {| address := a; hl := h |}))).
  { intros o E ->. apply (uri_round_trip I E). auto. }
  destruct a as [a|]; [eapply G; [exact Bd|reflexivity]|]. destruct h as [h|]; [eapply G; [exact Bd|reflexivity]|].
  apply uri_round_trip_bare with (1 := I) (2 := Bd).
Qed.
Theorem uri_parsed_clean uri did p : parse_uri uri = Ret (Ok (did, p)) -> clean (address p) /\ clean (hl p).
Proof. intros P. apply parse_uri_meaning in P as (_ & A & H). apply param_of_clean in A, H. auto. Qed.

Lemma mb58_clean x : clean (Some (mb_encode58 x)).
Proof.
  assert (N : forall c, mem c (B "z") = false -> mem c alphabet58 = false -> ~ In c (mb_encode58 x)).
  { intros c Hz Ha [E|H]; [subst c; discriminate|]. exact (base58_text_no Ha (base58_text_encode x) H). }
  repeat split; apply N; reflexivity.
Qed.
Section Link.
  Variable D : deps.
  Hypothesis Bs : blake3_size D.
  Theorem uri_hashlink (d : did D) i a dc h uri : did_identity d = Ok i -> clean a ->
    generate_from_json D (doc_to_json D dc) = Ok h -> build_uri d (Some {| address := a; hl := Some h |}) = Ok uri ->
    parse_uri uri = Ret (Ok (id_value i, {| address := a; hl := Some h |})) /\
    forall dc', doc_wf dc -> doc_wf dc' ->
      (dc' = dc -> verify_from_json D (doc_to_json D dc') h = Ok tt) /\
      (verify_from_json D (doc_to_json D dc') h = Ok tt ->
       dc' = dc \/ collision (blake3 D) (json_text (serde_number (f64_text D)) (doc_json dc')) (json_text (serde_number (f64_text D)) (doc_json dc))).
  Proof.
    intros I C G Bd. split.
    - apply (uri_round_trip I Bd). split; [exact C|]. cbn [hl]. rewrite doc_json_text, (hl_layout Bs) in G. apply ok_inj in G. subst h. apply mb58_clean.
    - intros dc' W W'. split; [intros ->; apply (hl_generated Bs), G|]. intros V. apply (hl_generated Bs) in G.
      rewrite doc_json_text in V, G. destruct (hl_binds Bs V G) as [E|E]; [left|right; exact E].
      apply (@doc_text_inj D); auto. rewrite !doc_json_text, E. reflexivity.
  Qed.
End Link.
Theorem multiaddr_outcomes D p :
  (forall r, parse_multiaddr D p = Ok r <->
     match r with None => address p = None | Some a => exists s, address p = Some s /\ multiaddr D s = Ok a end) /\
  (forall e, parse_multiaddr D p = Err e <-> exists s m, address p = Some s /\ multiaddr D s = Err m /\ e = GenerateMultiAddrError m).
Proof.
  unfold parse_multiaddr. destruct (address p) as [s|]; cbn.
  - destruct (multiaddr D s) as [a|m] eqn:E; cbn; split.
    + intros [b|]; split; [intros H; apply ok_inj in H; exists s; split; congruence | intros (s' & H & H'); congruence | discriminate | discriminate].
    + intros e; split; [discriminate | intros (s' & m & H & H' & _); congruence].
    + intros [b|]; split; [discriminate | intros (s' & H & H'); congruence | discriminate | discriminate].
    + intros e; split; [intros H; apply err_inj in H; exists s, m; auto | intros (s' & m' & H & H' & ->); congruence].
  - split.
    + intros [b|]; split; [discriminate | intros (s' & H & H'); congruence | reflexivity | reflexivity].
    + intros e; split; [discriminate | intros (s' & m & H & _); congruence].
Qed.
Theorem uri_multiaddr D (d : did D) i s h uri : did_identity d = Ok i -> clean (Some s) -> clean h ->
  build_uri d (Some {| address := Some s; hl := h |}) = Ok uri ->
  exists p, parse_uri uri = Ret (Ok (id_value i, p)) /\
    parse_multiaddr D p = match multiaddr D s with Ok a => Ok (Some a) | Err m => Err (GenerateMultiAddrError m) end.
Proof.
  intros I C1 C2 Bd. eexists. split; [apply (uri_round_trip I Bd); auto|]. unfold parse_multiaddr. cbn [address].
  destruct (multiaddr D s); reflexivity.
Qed.

(** ** C57: a document is not tied to the identity it names *)
Theorem doc_unbound D v (ed : ed_pair D) (dh : dh_pair D) : ed_hex_law D -> utf8 v -> v <> [] ->
  exists dc t e1 e2, doc_id dc = v /\ doc_validate dc = Ok tt /\ doc_to_json D dc = Ok (JSONValue t) /\ doc_from_slice D t = Some dc /\
    doc_assertion dc = Some [e1; e2] /\ pr_controller e1 = v /\ decode_pub_key D e1 = Ok (EdDSA D (ed_pub_key D ed)).
Proof.
  intros H U N. set (cs := [CallAssertion ed dh] : list (icall D)).
  destruct (doc_round_trip D (identity_doc_wf cs U)) as (t & E & P).
  exists (to_doc (irun (identity_new D v) cs)), t. rewrite to_doc_shape in *. cbn [cs first_auth first_assertion option_map entries doc_id doc_assertion] in *.
  eexists _, _. split; [reflexivity|]. split; [apply doc_valid_iff; split; [exact N|discriminate]|]. split; [exact E|]. split; [exact P|].
  split; [reflexivity|]. split; [reflexivity|]. apply decode_eddsa_iff. split; [reflexivity|]. cbn [pr_multibase fst].
  exists Base58Btc, (ed_pub_to_hex D (ed_pub_key D ed)). split; [apply mb_decode_encode58|]. apply H.
Qed.

(** ** C60: restored accounts sign *)
Theorem restored_signs D (a : account D) pem m : ed_correct D -> pem_law D -> build_pem a = Ok pem ->
  exists a', account_from_pem D pem = Ok a' /\ ed_verify D (account_pubkey a) m (hex_encode (account_sign a' m)) = Ok true.
Proof. intros C L E. exists a. split; [apply (pem_restores L E)|]. apply C. Qed.

(** ** C49 *)
Section Reread.
  Variable D : deps.
  Definition shaped (n : number) : Prop := match n with Float _ => True | n => number_ok (f64_text D) (f64_parse D) n end.
  Lemma shaped_floats : floats_ok shaped (f64_parse D). Proof. intros t b _. exact I. Qed.
  Lemma shaped_ints : ints_ok shaped. Proof. split; cbn; auto. Qed.
  Lemma shaped_value j : val_ok shaped j -> all_numbers (rereads D) j -> value_ok (f64_text D) (f64_parse D) j.
  Proof.
    induction j as [|b|n|s|l IH|m IH] using json_ind'; intros V A; auto.
    - destruct n; auto.
    - rewrite val_ok_arr in V. apply value_ok_arr. cbn [all_numbers] in A. induction IH as [|x l Hx F IHl]; [constructor|].
      inversion V; subst. cbn in A. destruct A as [A1 A2]. constructor; auto.
    - rewrite val_ok_obj in V. apply value_ok_obj. destruct V as [V1 V2]. split; [exact V1|]. clear V1. cbn [all_numbers] in A.
      induction IH as [|x l Hx F IHl]; [constructor|].
      inversion V2 as [|? ? [U V] V3]; subst. cbn in A. destruct A as [A1 A2]. constructor; auto.
  Qed.
  Lemma vc_shape_wf v : vc_shape shaped v -> vc_rereads D v -> vc_wf D v.
  Proof. intros (H1 & H2 & H3 & H4) R. split; [exact H1|]. split; [exact H2|]. split; [|exact H4]. apply shaped_value; assumption. Qed.
  Lemma vp_shape_wf v : vp_shape shaped v -> vp_rereads D v -> vp_wf D v.
  Proof.
    intros (H1 & H2 & H3 & H4) R. split; [exact H1|]. split; [exact H2|]. split; [|exact H4].
    unfold vp_rereads in R. induction H3; inversion R; subst; constructor; auto using vc_shape_wf.
  Qed.
  Lemma verify_parse {T} (P : proofable T) pk s t e : pf_parse_json_bytes P s = pf_parse_json_bytes P t ->
    verify_proof D P pk s e = verify_proof D P pk t e.
  Proof. unfold verify_proof, integrity_verify_proof. intros ->. reflexivity. Qed.
  Theorem vc_reserialised s v : vc_parse_json_bytes D s = Ok v -> vc_complete v -> vc_rereads D v ->
    exists t, vc_to_json D v = Ok (JSONValue t) /\ vc_parse_json_bytes D t = Ok v /\
      forall pk e, verify_proof D (vc_proofable D) pk t e = verify_proof D (vc_proofable D) pk s e.
  Proof.
    intros P C R. destruct (vc_parsed shaped_floats shaped_ints P) as [S Dp]. pose proof (vc_shape_wf S R) as W.
    eexists. assert (E : vc_to_json D v = Ok (JSONValue (json_text (serde_number (f64_text D)) (vc_json v)))) by (apply vc_to_json_spec; auto).
    split; [exact E|]. assert (P' := proj1 (vc_round_trip W E) Dp). split; [exact P'|].
    intros pk e. apply verify_parse. cbn [pf_parse_json_bytes vc_proofable]. congruence.
  Qed.
  Theorem vp_reserialised s v : vp_parse_json_bytes D s = Ok v -> vp_complete v -> vp_rereads D v ->
    exists t, vp_to_json D v = Ok (JSONValue t) /\ vp_parse_json_bytes D t = Ok v /\
      forall pk e, verify_proof D (vp_proofable D) pk t e = verify_proof D (vp_proofable D) pk s e.
  Proof.
    intros P C R. destruct (vp_parsed shaped_floats shaped_ints P) as [S Dp]. pose proof (vp_shape_wf S R) as W.
    eexists. assert (E : vp_to_json D v = Ok (JSONValue (json_text (serde_number (f64_text D)) (vp_json v)))) by (apply vp_to_json_spec; auto).
    split; [exact E|]. assert (P' := proj1 (vp_round_trip W E) Dp). split; [exact P'|].
    intros pk e. apply verify_parse. cbn [pf_parse_json_bytes vp_proofable]. congruence.
  Qed.
End Reread.

(** ** C61, C62 *)
Section Chain.
  Context {E : Type}.
  Lemma chain {A C} (r : result A E) (k : A -> result C E) c l e :
    (forall e, r = Err e <-> c e) -> (forall a, r = Ok a -> (k a = Err e <-> first_failure l e)) ->
    bind r k = Err e <-> first_failure (c :: l) e.
  Proof.
    intros Hc Hk. cbn [first_failure]. destruct r as [a|x]; cbn [bind].
    - rewrite (Hk a eq_refl). split; [|intros [H|[_ H]]; [apply Hc in H; discriminate|exact H]].
      intros H. right. split; [intros e' He; apply Hc in He; discriminate|exact H].
    - split; [intros H; left; apply Hc; congruence|]. intros [H|[H _]]; [apply Hc in H; congruence|]. exfalso. apply (H x), Hc. reflexivity.
  Qed.
  Lemma chain_end {C} (x : C) e : Ok x = Err e <-> @first_failure E [] e.
  Proof. split; [discriminate|intros []]. Qed.
End Chain.
Section Errors.
  Variable D : deps.
  Lemma type_err o e : validate_type o = Err e <-> gen (wrong_type o) e.
  Proof.
    unfold validate_type, gen, wrong_type, DEFAULT_PROOF_TYPE. destruct (bytes_eqb (p_typ o) (B "DataIntegrityProof")) eqn:H; cbn [negb].
    - apply bytes_eqb_eq in H. split; [discriminate|]. intros (m & [N _] & _). congruence.
    - apply bytes_eqb_neq in H. split; [intros X; apply err_inj in X; eauto|]. intros (m & [_ ->] & ->). reflexivity.
  Qed.
  Lemma suite_err o e : validate_cryptosuite o = Err e <-> gen (wrong_suite o) e.
  Proof.
    unfold validate_cryptosuite, gen, wrong_suite, DEFAULT_PROOF_CRYPTOSUITE. destruct (p_cryptosuite o) as [s|].
    - destruct (bytes_eqb s (B "eddsa-jcs-2022")) eqn:H; cbn [negb].
      + apply bytes_eqb_eq in H. split; [discriminate|]. intros (m & [[N _]|(s' & Es & N & _)] & _); [discriminate|]. apply some_inj in Es. congruence.
      + apply bytes_eqb_neq in H. split; [intros X; apply err_inj in X; eexists; split; [right; eauto|auto]|].
        intros (m & [[N _]|(s' & Es & N & ->)] & ->); [discriminate|reflexivity].
    - split; [intros X; apply err_inj in X; eexists; split; [left; eauto|auto]|].
      intros (m & [[_ ->]|(s' & Es & _)] & ->); [reflexivity|discriminate].
  Qed.
  Lemma created_err o e : validate_created D o = Err e <-> gen (wrong_created D o) e.
  Proof.
    unfold validate_created, gen, wrong_created. destruct (p_created o) as [c|].
    - destruct (datetime D c) as [z|m] eqn:H; cbn [map_err bind].
      + split; [discriminate|]. intros (m & [[N _]|(s' & Es & N)] & _); [discriminate|]. apply some_inj in Es. congruence.
      + split; [intros X; apply err_inj in X; exists m; split; [right; eauto|auto]|].
        intros (m' & [[N _]|(s' & Es & N)] & ->); [discriminate|]. apply some_inj in Es. congruence.
    - split; [intros X; apply err_inj in X; eexists; split; [left; eauto|auto]|].
      intros (m & [[_ ->]|(s' & Es & _)] & ->); [reflexivity|discriminate].
  Qed.
  Lemma map_err_iff {A E F} (f : E -> F) (r : result A E) e : map_err f r = Err e <-> exists x, r = Err x /\ e = f x.
  Proof. destruct r as [a|x]; cbn; split; [discriminate|intros (y & H & _); discriminate|intros H; apply err_inj in H; eauto|intros (y & H & ->); apply err_inj in H; congruence]. Qed.
  Lemma ok_or_iff {A E} (x : E) (r : option A) e : ok_or x r = Err e <-> r = None /\ e = x.
  Proof. destruct r as [a|]; cbn; split; [discriminate|intros [H _]; discriminate|intros H; apply err_inj in H; auto|intros [_ ->]; reflexivity]. Qed.

  Context {T : Type}.
  Variable P : proofable T.
  Variables (incomplete : T -> bytes -> Prop).
  Hypothesis Hinc : forall v m, incomplete v m <-> exists e, pf_to_jcs P v = Err e /\ m = did_error_text e.
  Lemma jcs_err v e : map_err (fun x => ProofGenerationError (did_error_text x)) (pf_to_jcs P v) = Err e <-> gen (incomplete v) e.
  Proof.
    rewrite map_err_iff. unfold gen. split.
    - intros (x & H & ->). eexists. split; [apply Hinc; eauto|reflexivity].
    - intros (m & H & ->). apply Hinc in H as (x & H & ->). eauto.
  Qed.
  Theorem add_proof_errors kp v o e : add_proof D P kp v o = Err e <-> first_failure (signing_checks D (incomplete v) o) e.
  Proof.
    assert (Q : add_proof D P kp v o =
      let? _ := validate_type o in let? _ := validate_cryptosuite o in let? _ := validate_created D o in
      let? t := map_err (fun x => ProofGenerationError (did_error_text x)) (pf_to_jcs P v) in
      let p := set_signature_as_string o (proof_byte_encode (ed_sign D kp (sha256 D (canonical D (proof_json o)) ++ sha256 D t))) in
      let? _ := map_err (fun x => ProofGenerationError (did_error_text x)) (proof_validate p) in Ok (pf_setup_proof P v p)).
    { unfold add_proof, integrity_add_proof, eddsa_jcs_2022, cs_create_proof, eddsa_create_proof, generate_proof_config, transform_document.
      destruct (validate_type o) as [[]|]; [|reflexivity]. destruct (validate_cryptosuite o) as [[]|]; [|reflexivity].
      destruct (validate_created D o) as [[]|]; [|reflexivity]. rewrite proof_jcs_text. cbn [bind map_err].
      destruct (pf_to_jcs P v) as [t|]; reflexivity. }
    rewrite Q. clear Q. unfold signing_checks.
    apply chain; [apply type_err|intros [] E1]. apply chain; [apply suite_err|intros [] _]. apply chain; [apply created_err|intros [] _].
    apply chain; [apply jcs_err|intros t _]. cbv zeta. apply chain; [|intros; apply chain_end].
    intros e'. rewrite map_err_iff. unfold gen, unknown_purpose, proof_validate. cbn [p_typ p_purpose set_signature_as_string].
    apply type_ok in E1. rewrite E1. cbn [is_empty B list_byte_of_string app]. split.
    - intros (x & H & ->). destruct (p_purpose o); try discriminate. apply err_inj in H. subst x. eexists. split; [split; reflexivity|reflexivity].
    - intros (m & [H ->] & ->). rewrite H. eexists. split; reflexivity.
  Qed.
  Variable (J : T -> json).
  Hypothesis Hjcs : forall v t, pf_to_jcs P v = Ok t -> t = canonical D (J v).
  Hypothesis Hrem : forall v m, incomplete (pf_remove_proof P v) m <-> incomplete v m.
  Theorem verify_proof_errors pk s x e : verify_proof D P pk s x = Err e <->
    match pf_parse_json_bytes P s with
    | Err e' => e = e'
    | Ok v => first_failure (verification_checks D (incomplete v)
        (match pf_get_proof P v with Some o => message D (with_value o []) (J (pf_remove_proof P v)) | None => [] end) pk x (pf_get_proof P v)) e
    end.
  Proof.
    unfold verify_proof, integrity_verify_proof. destruct (pf_parse_json_bytes P s) as [v|e']; cbn [bind]; [|split; intros H; [apply err_inj in H|]; congruence].
    destruct (pf_get_proof P v) as [o|] eqn:Go; cbn [ok_or bind verification_checks].
    2: { unfold ver. cbn [first_failure]. split; [intros H; apply err_inj in H; left; eauto|]. intros [(m & -> & ->)|[_ []]]. reflexivity. }
    assert (V : proof_validate o = let? _ := (if is_empty (p_typ o) then Err (ValidateError (B "missing type")) else Ok tt) in
                                  let? _ := (if purpose_eqb (p_purpose o) Unknown then Err (ValidateError (B "unknown proof purpose")) else Ok tt) in Ok tt).
    { unfold proof_validate. destruct (is_empty (p_typ o)); [reflexivity|]. destruct (p_purpose o); reflexivity. }
    set (K := fun d : T => eddsa_verify_proof D P pk d).
    assert (Q : (let? _ := map_err (fun err => ProofVerificationError (did_error_text err)) (proof_validate o) in
        if negb (purpose_eqb (p_purpose o) x) then Err (ProofVerificationError (B "mismatch proof purpose"))
        else cs_verify_proof (eddsa_jcs_2022 D P) pk v) =
      let? _ := (if is_empty (p_typ o) then Err (ProofVerificationError (B "validation error: missing type")) else Ok tt) in
      let? _ := (if purpose_eqb (p_purpose o) Unknown then Err (ProofVerificationError (B "validation error: unknown proof purpose")) else Ok tt) in
      let? _ := (if negb (purpose_eqb (p_purpose o) x) then Err (ProofVerificationError (B "mismatch proof purpose")) else Ok tt) in
      let? y := ok_or (ProofVerificationError (mb_error D (p_value o))) (mb_decode (mb_other D) (p_value o)) in
      let? _ := validate_type o in let? _ := validate_cryptosuite o in
      let? t := map_err (fun x => ProofGenerationError (did_error_text x)) (pf_to_jcs P (pf_remove_proof P v)) in
      let? _ := validate_created D o in
      let? z := map_err ProofVerificationError (ed_verify D pk (sha256 D (canonical D (proof_json (with_value o []))) ++ sha256 D t) (hex_encode (snd y))) in
      Ok (verification_of z (pf_remove_proof P v))).
    { rewrite V. destruct (is_empty (p_typ o)); [reflexivity|]. cbn [bind]. destruct (purpose_eqb (p_purpose o) Unknown); [reflexivity|]. cbn [bind map_err].
      destruct (negb (purpose_eqb (p_purpose o) x)); [reflexivity|]. cbn [bind cs_verify_proof eddsa_jcs_2022]. unfold eddsa_verify_proof. rewrite Go. cbn [ok_or bind].
      destruct (mb_decode (mb_other D) (p_value o)) as [[b sig]|]; [|reflexivity]. cbn [ok_or bind snd].
      unfold transform_document, generate_proof_config, verify_signature.
      change (validate_type (remove_proof_value o)) with (validate_type o). change (validate_cryptosuite (remove_proof_value o)) with (validate_cryptosuite o).
      change (validate_created D (remove_proof_value o)) with (validate_created D o).
      destruct (validate_type o) as [[]|]; [|reflexivity]. destruct (validate_cryptosuite o) as [[]|]; [|reflexivity]. cbn [bind].
      destruct (pf_to_jcs P (pf_remove_proof P v)) as [t|]; [|reflexivity]. cbn [bind map_err]. destruct (validate_created D o) as [[]|]; [|reflexivity].
      rewrite proof_jcs_text. unfold generate_hash, hash_text, proof_byte_to_hex, canonical. cbn [bind map_err].
      change (remove_proof_value o) with (with_value o []).
      destruct (ed_verify D pk _ _); reflexivity. }
    rewrite Q. clear Q V K.
    apply chain; [|intros [] _].
    { intros e'. unfold ver. destruct (p_typ o); cbn [is_empty]; split.
      - intros H. apply err_inj in H. eauto.
      - intros (m & [_ ->] & ->). reflexivity.
      - discriminate.
      - intros (m & [H _] & _). discriminate. }
    apply chain; [|intros [] _].
    { intros e'. unfold ver, unknown_purpose. destruct (purpose_eqb (p_purpose o) Unknown) eqn:U; split.
      - apply purpose_eqb_eq in U. intros H. apply err_inj in H. eauto.
      - intros (m & [_ ->] & ->). reflexivity.
      - discriminate.
      - intros (m & [H _] & _). apply purpose_eqb_eq in H. congruence. }
    apply chain; [|intros [] _].
    { intros e'. unfold ver. destruct (purpose_eqb (p_purpose o) x) eqn:U; cbn [negb]; split.
      - discriminate.
      - intros (m & [H _] & _). apply purpose_eqb_eq in U. congruence.
      - intros H. apply err_inj in H. eexists. split; [split; [|reflexivity]|auto]. intros H'. apply purpose_eqb_eq in H'. congruence.
      - intros (m & [_ ->] & ->). reflexivity. }
    apply chain; [|intros [b sig] Emb].
    { intros e'. rewrite ok_or_iff. unfold ver. split; [intros [-> ->]; eauto|intros (m & [H ->] & ->); auto]. }
    apply chain; [apply type_err|intros [] _]. apply chain; [apply suite_err|intros [] _].
    apply chain; [|intros t Et].
    { intros e'. rewrite jcs_err. unfold gen. split; intros (m & H & ->); exists m; split; auto; apply Hrem; exact H. }
    apply chain; [apply created_err|intros [] _].
    apply chain; [|intros; apply chain_end].
    intros e'. rewrite map_err_iff. unfold ver. cbn [snd].
    assert (t = canonical D (J (pf_remove_proof P v))).
    { apply Hjcs. destruct (pf_to_jcs P (pf_remove_proof P v)) eqn:X; cbn in Et; [|discriminate]. apply ok_inj in Et. congruence. }
    subst t. fold (message D (with_value o []) (J (pf_remove_proof P v))).
    assert (Emb' : mb_decode (mb_other D) (p_value o) = Some (b, sig)). { destruct (mb_decode _ _); cbn in Emb; [|discriminate]. apply ok_inj in Emb. congruence. }
    split.
    - intros (m & H & ->). eexists. split; [exists b, sig; eauto|reflexivity].
    - intros (m & (b' & sig' & H1 & H2) & ->). rewrite Emb' in H1. apply some_inj in H1. injection H1 as <- <-. eauto.
  Qed.
End Errors.
Section ErrorsOf.
  Variable D : deps.
  Lemma vc_inc v m : vc_incomplete v m <-> exists e, pf_to_jcs (vc_proofable D) v = Err e /\ m = did_error_text e.
  Proof.
    cbn [pf_to_jcs vc_proofable]. unfold vc_incomplete. split.
    - intros [[H ->]|[(H1 & H2 & ->)|(H1 & H2 & H3 & ->)]]; (eexists; split; [apply vc_to_jcs_spec; unfold vc_missing|]); eauto 10; reflexivity.
    - intros (e & H & ->). apply vc_to_jcs_spec in H as [[H ->]|[(H1 & H2 & ->)|(H1 & H2 & H3 & ->)]]; auto 10.
  Qed.
  Lemma vp_inc v m : vp_incomplete v m <-> exists e, pf_to_jcs (vp_proofable D) v = Err e /\ m = did_error_text e.
  Proof.
    cbn [pf_to_jcs vp_proofable]. unfold vp_incomplete. split.
    - intros [[H ->]|[(H1 & H2 & ->)|(H1 & H2 & H3 & ->)]]; (eexists; split; [apply vp_to_jcs_spec; unfold vp_missing|]); eauto 10; reflexivity.
    - intros (e & H & ->). apply vp_to_jcs_spec in H as [[H ->]|[(H1 & H2 & ->)|(H1 & H2 & H3 & ->)]]; auto 10.
  Qed.
  Theorem vc_signing_errors kp v o e : add_proof D (vc_proofable D) kp v o = Err e <-> first_failure (signing_checks D (vc_incomplete v) o) e.
  Proof. apply add_proof_errors, vc_inc. Qed.
  Theorem vp_signing_errors kp v o e : add_proof D (vp_proofable D) kp v o = Err e <-> first_failure (signing_checks D (vp_incomplete v) o) e.
  Proof. apply add_proof_errors, vp_inc. Qed.
  Theorem vc_verification_errors pk s x e : verify_proof D (vc_proofable D) pk s x = Err e <->
    (vc_parse_json_bytes D s = Err e \/
     exists v, vc_parse_json_bytes D s = Ok v /\
       first_failure (verification_checks D (vc_incomplete v)
         (match vc_proof v with Some o => message D (with_value o []) (vc_json (vc_with_proof v None)) | None => [] end) pk x (vc_proof v)) e).
  Proof.
    rewrite (@verify_proof_errors D vc (vc_proofable D) vc_incomplete vc_inc vc_json); [| |reflexivity].
    - change (pf_parse_json_bytes (vc_proofable D) s) with (vc_parse_json_bytes D s). destruct (vc_parse_json_bytes D s) as [v|e'].
      + split; [intros H; right; exists v; split; [reflexivity|exact H]|]. intros [H|(v' & E & H)]; [discriminate|]. apply ok_inj in E. subst v'. exact H.
      + split; [intros ->; left; reflexivity|]. intros [H|(v' & E & H)]; [apply err_inj in H; congruence|discriminate].
    - intros v t H. apply (proj1 (vc_to_jcs_spec D v)) in H. apply H.
  Qed.
  Theorem vp_verification_errors pk s x e : verify_proof D (vp_proofable D) pk s x = Err e <->
    (vp_parse_json_bytes D s = Err e \/
     exists v, vp_parse_json_bytes D s = Ok v /\
       first_failure (verification_checks D (vp_incomplete v)
         (match vp_proof v with Some o => message D (with_value o []) (vp_json (vp_with_proof v None)) | None => [] end) pk x (vp_proof v)) e).
  Proof.
    rewrite (@verify_proof_errors D vp (vp_proofable D) vp_incomplete vp_inc vp_json); [| |reflexivity].
    - change (pf_parse_json_bytes (vp_proofable D) s) with (vp_parse_json_bytes D s). destruct (vp_parse_json_bytes D s) as [v|e'].
      + split; [intros H; right; exists v; split; [reflexivity|exact H]|]. intros [H|(v' & E & H)]; [discriminate|]. apply ok_inj in E. subst v'. exact H.
      + split; [intros ->; left; reflexivity|]. intros [H|(v' & E & H)]; [apply err_inj in H; congruence|discriminate].
    - intros v t H. apply (proj1 (vp_to_jcs_spec D v)) in H. apply H.
  Qed.
End ErrorsOf.

(** ** C50: texts read both as a credential and as a presentation *)
Section Polyglot.
  Variable D : deps.
  Lemma decodes_fun A f64 sc d (dat : A -> data) P : decodes f64 sc d dat P -> (forall a b, dat a = dat b -> a = b) ->
    forall a b t, P a t -> P b t -> a = b.
  Proof.
    intros H I a b t Ha Hb. apply I. assert (E : decode f64 sc d t = Some (dat a)) by (apply H; eauto).
    assert (E' : decode f64 sc d t = Some (dat b)) by (apply H; eauto). congruence.
  Qed.
  Lemma required_fun n (P Q : tree -> Prop) l : has_member l (required n P) -> has_member l (required n Q) -> exists t, P t /\ Q t.
  Proof.
    unfold has_member, required. intros [[_ []]|(m & E & Hp)] [[_ []]|(m' & E' & Hq)].
    rewrite E in E'. injection E' as <-. eauto.
  Qed.
  Lemma optional_fun A n (P : A -> tree -> Prop) a b l : (forall a b t, is_maybe P a t -> is_maybe P b t -> a = b) ->
    has_member l (optional n P a) -> has_member l (optional n P b) -> a = b.
  Proof.
    unfold has_member, optional. intros F [[E ->]|(m & E & Hp)] [[E' ->]|(m' & E' & Hq)]; try congruence.
    rewrite E in E'. injection E' as <-. eauto.
  Qed.
  Theorem both_same s v w : vc_parse_json_bytes D s = Ok v -> vp_parse_json_bytes D s = Ok w ->
    vc_contexts v = vp_contexts w /\ vc_types v = vp_types w /\ vc_proof v = vp_proof w.
  Proof.
    intros Hv Hw. apply vc_text_iff in Hv as (b & t & b' & B1 & T & B2 & -> & Hv). apply (text_tree_vp T B1 B2) in Hw.
    unfold is_vc in Hv. unfold is_vp in Hw.
    destruct Hv as [(w1 & l1 & -> & _ & Hv)|(w1 & l1 & -> & Hv)].
    - destruct Hw as [(w2 & l2 & E & _ & Hw)|(w2 & l2 & E & Hw)]; [|discriminate]. injection E as <- <-.
      rewrite Forall_forall in Hv, Hw.
      assert (S : forall a b t, is_list is_string a t -> is_list is_string b t -> a = b).
      { apply (decodes_fun (@dec_strings (fun _ => None) 0)). apply vec_inj. exact str_inj. }
      assert (O : forall a b t, is_maybe is_proof a t -> is_maybe is_proof b t -> a = b).
      { apply (decodes_fun (f64 := fun _ => None) (d := 2%nat) (sc := SOption proof_schema) (dat := opt_data proof_data)).
        - apply dec_maybe; [intros p; apply obj_nonnull|apply dec_proof; lia].
        - intros [a|] [b0|]; cbn [opt_data]; try congruence. intros E. f_equal. apply (inv_inj data_proof_inv). revert E. generalize (proof_data a), (proof_data b0). congruence. }
      split; [|split].
      + edestruct required_fun as (t & H1 & H2); [apply Hv; left; reflexivity | apply Hw; left; reflexivity |]. exact (S _ _ _ H1 H2).
      + edestruct required_fun as (t & H1 & H2); [apply Hv; right; left; reflexivity | apply Hw; right; left; reflexivity |]. exact (S _ _ _ H1 H2).
      + eapply optional_fun; [exact O | apply Hv; do 3 right; left; reflexivity | apply Hw; do 3 right; left; reflexivity].
    - exfalso. destruct Hw as [(w2 & l2 & E & _)|(w2 & l2 & E & Hw)]; [discriminate|]. injection E as <- <-.
      assert (L : forall A X (R : A -> X -> Prop) a x, Forall2 R a x -> length a = length x) by (clear; induction 1; cbn; congruence).
      apply L in Hv, Hw. cbn [length] in Hv, Hw. congruence.
  Qed.
  Hypothesis Hsz : sha256_size D.
  Hypothesis Hn : jcs_numbers D.
  Theorem both_verify pk s e e' r r' :
    verify_proof D (vc_proofable D) pk s e = Ok r -> verified r = true ->
    verify_proof D (vp_proofable D) pk s e' = Ok r' -> verified r' = true ->
    e = e' /\
    exists v w p b sig, vc_parse_json_bytes D s = Ok v /\ vp_parse_json_bytes D s = Ok w /\ vc_proof v = Some p /\ vp_proof w = Some p /\
      mb_decode (mb_other D) (p_value p) = Some (b, sig) /\
      let j1 := vc_json (vc_with_proof v None) in let j2 := vp_json (vp_with_proof w None) in
      let m1 := message D (with_value p []) j1 in let m2 := message D (with_value p []) j2 in
      ed_verify D pk m1 (hex_encode sig) = Ok true /\ ed_verify D pk m2 (hex_encode sig) = Ok true /\
      (m1 <> m2 \/ collision (sha256 D) (canonical D j1) (canonical D j2)).
  Proof.
    intros H Hr H' Hr'.
    apply (doc_verify (vc_doc_laws D)) in H as (v & p & b & sig & x & H1 & H2 & H3 & H4 & H5 & H6 & H7 & H8 & ->).
    apply (doc_verify (vp_doc_laws D)) in H' as (w & p' & b' & sig' & x' & H1' & H2' & H3' & H4' & H5' & H6' & H7' & H8' & ->).
    cbn in Hr, Hr'. subst x x'.
    assert (E : p = p'). { destruct (both_same H1 H1') as (_ & _ & E). change (vc_proof v = Some p) in H2. change (vp_proof w = Some p') in H2'. congruence. }
    subst p'. rewrite H7 in H7'. apply some_inj in H7'. injection H7' as <- <-.
    split; [congruence|]. exists v, w, p, b, sig. repeat (split; [assumption|]). cbv zeta.
    destruct (list_eq_dec Byte.byte_eq_dec (message D (with_value p []) (vc_json (vc_with_proof v None))) (message D (with_value p []) (vp_json (vp_with_proof w None)))) as [E|E]; [right|left; exact E].
    apply app_eq_length in E as [_ E]; [|rewrite !Hsz; reflexivity]. split; [|exact E].
    intros F. apply (@jcs_inj _ _ Hn) in F. exact (vp_vc_differ F).
  Qed.
End Polyglot.

(** ** C58: a credential inside a presentation *)
Section Embedded.
  Variable D : deps.
  Theorem embedded_verifies issuer holder c o c' v q v' : ed_correct D ->
    vc_wf D c -> proof_wf o -> (depth (vc_subject c) <= 124)%nat -> vc_proof c = None -> p_value o = [] ->
    add_proof D (vc_proofable D) issuer c o = Ok c' ->
    vp_wf D v -> proof_wf q -> Forall (fun c => (depth (vc_subject c) <= 124)%nat) (vp_credentials v) -> vp_proof v = None -> p_value q = [] ->
    In c' (vp_credentials v) ->
    add_proof D (vp_proofable D) holder v q = Ok v' ->
    exists t d c2 t2, vp_to_json D v' = Ok (JSONValue t) /\
      verify_proof D (vp_proofable D) (ed_pub_key D holder) t (p_purpose q) = Ok {| verified := true; document := Some d |} /\
      In c2 (vp_credentials d) /\ vc_to_json D c2 = Ok (JSONValue t2) /\
      verify_proof D (vc_proofable D) (ed_pub_key D issuer) t2 (p_purpose o) = Ok {| verified := true; document := Some c |}.
  Proof.
    intros C Wc Wo Dc Nc Vo Ac Wv Wq Dv Nv Vq I Av.
    destruct (doc_transport (vp_doc_laws D) C Wv Wq Dv Nv Vq Av) as (t & Et & Vt).
    assert (Dc' : (depth (vc_subject c) <= 126)%nat) by lia.
    destruct (doc_transport (vc_doc_laws D) C Wc Wo Dc' Nc Vo Ac) as (t2 & Et2 & Vt2).
    exists t, v, c', t2. auto.
  Qed.
End Embedded.

(** ** C48 *)
Section Life.
  Variable D : deps.
  Variable ks_json : keysecure -> json.
  Variable json_ks : json -> option keysecure.
  Hypotheses (L : ks_json_law D ks_json json_ks) (Lw : seals_wf D) (Ls : ed_seal_law D) (Ld : dh_seal_law D) (Lp : pem_law D) (Lc : ed_correct D) (Lh : ed_hex_law D) (Lx : dh_hex_law D).
  Variables (v : bytes) (cs : list (icall D)) (pw : bytes) (r1 r2 r3 r4 : ks_rand D) (ks : identity_private_keys).
  Hypothesis Hv : utf8 v.
  Hypothesis Hk : build_private_keys (irun (identity_new D v) cs) pw r1 r2 r3 r4 = Ok ks.
  Lemma build_wf : ipk_wf ks.
  Proof.
    pose proof (proj1 (private_keys_open Ls Ld Hk)) as Hi. apply private_keys_spec in Hk as (_ & H1 & H2).
    assert (X : forall m rv ra o, sealed (D := D) m rv ra pw o -> opt_all pairs_wf o).
    { intros [m|] rv ra [p|]; cbn [sealed opt_all]; try tauto. intros [E1 E2]. exact (conj (proj1 Lw _ _ _ _ E1) (proj2 Lw _ _ _ _ E2)). }
    split; [rewrite Hi; exact Hv|]. split; eapply X; eauto.
  Qed.
  Lemma stored_and_published : exists stored published,
    ipk_to_json ks_json D ks = Ok (JSONValue stored) /\ ipk_from_slice json_ks D stored = Some ks /\
    doc_to_json D (to_doc (irun (identity_new D v) cs)) = Ok (JSONValue published) /\
    doc_from_slice D published = Some (to_doc (irun (identity_new D v) cs)).
  Proof.
    destruct (ipk_round_trip L build_wf) as (st & E1 & E2).
    destruct (doc_round_trip D (identity_doc_wf cs Hv)) as (pu & E3 & E4). exists st, pu. auto.
  Qed.
  Lemma slot_usable o k l : opens_to o pw (Some k) -> @decodes_to D l (Some k) ->
    exists p pem a e1 e2, o = Some p /\ decrypt_verification D p pw = Ok pem /\ account_from_pem D pem = Ok a /\
      l = Some [e1; e2] /\ decode_pub_key D e1 = Ok (EdDSA D (ed_pub_key D (acc_pair a))) /\
      decrypt_agreement D p pw = Ok (dh_to_hex D (snd k)) /\ decode_pub_key D e2 = Ok (ECDH D (dh_pub_key D (snd k))) /\ acc_pair a = fst k.
  Proof.
    destruct k as [ed dh]. destruct o as [p|]; [|intros []]. intros [(pem & E1 & E2) E3].
    destruct l as [[|e1 [|e2 [|]]]|]; try contradiction. intros [F1 F2].
    destruct (Lp E1) as [U P]. exists p, pem, {| acc_pair := ed |}, e1, e2. cbn [acc_pair fst snd]. repeat (split; [auto; fail|]).
    split; [unfold account_from_pem; rewrite P; reflexivity|]. auto 10.
  Qed.
  Theorem life_assertion ed dh : first_assertion cs = Some (ed, dh) ->
    exists stored published ks' d p pem a e1 e2,
      ipk_to_json ks_json D ks = Ok (JSONValue stored) /\ doc_to_json D (to_doc (irun (identity_new D v) cs)) = Ok (JSONValue published) /\
      ipk_from_slice json_ks D stored = Some ks' /\ ipk_assertion ks' = Some p /\ decrypt_verification D p pw = Ok pem /\ account_from_pem D pem = Ok a /\
      doc_from_slice D published = Some d /\ doc_id d = v /\ doc_assertion d = Some [e1; e2] /\
      decrypt_agreement D p pw = Ok (dh_to_hex D dh) /\ decode_pub_key D e2 = Ok (ECDH D (dh_pub_key D dh)) /\
      exists pk, decode_pub_key D e1 = Ok (EdDSA D pk) /\
      forall c o c', vc_wf D c -> proof_wf o -> (depth (vc_subject c) <= 126)%nat -> vc_proof c = None -> p_value o = [] ->
        add_proof D (vc_proofable D) (acc_pair a) c o = Ok c' ->
        exists t, vc_to_json D c' = Ok (JSONValue t) /\
          verify_proof D (vc_proofable D) pk t (p_purpose o) = Ok {| verified := true; document := Some c |}.
  Proof.
    intros F. destruct stored_and_published as (st & pu & E1 & E2 & E3 & E4).
    destruct (private_keys_open Ls Ld Hk) as (_ & _ & O). destruct (published_keys v cs Lh Lx) as [_ P]. rewrite F in O, P.
    destruct (slot_usable O P) as (p & pem & a & e1 & e2 & Q1 & Q2 & Q3 & Q4 & Q5 & Q6 & Q7 & _).
    exists st, pu, ks, (to_doc (irun (identity_new D v) cs)), p, pem, a, e1, e2. repeat (split; [assumption|]).
    split; [rewrite to_doc_shape; reflexivity|]. repeat (split; [assumption|]). exists (ed_pub_key D (acc_pair a)). split; [assumption|].
    intros c o c' W1 W2 W3 W4 W5 W6. exact (doc_transport (vc_doc_laws D) Lc W1 W2 W3 W4 W5 W6).
  Qed.
  Theorem life_authentication ed dh : first_auth cs = Some (ed, dh) ->
    exists stored published ks' d p pem a e1 e2,
      ipk_to_json ks_json D ks = Ok (JSONValue stored) /\ doc_to_json D (to_doc (irun (identity_new D v) cs)) = Ok (JSONValue published) /\
      ipk_from_slice json_ks D stored = Some ks' /\ ipk_authentication ks' = Some p /\ decrypt_verification D p pw = Ok pem /\ account_from_pem D pem = Ok a /\
      doc_from_slice D published = Some d /\ doc_id d = v /\ doc_authentication d = Some [e1; e2] /\
      decrypt_agreement D p pw = Ok (dh_to_hex D dh) /\ decode_pub_key D e2 = Ok (ECDH D (dh_pub_key D dh)) /\
      exists pk, decode_pub_key D e1 = Ok (EdDSA D pk) /\
      forall c o c', vp_wf D c -> proof_wf o -> Forall (fun x => (depth (vc_subject x) <= 124)%nat) (vp_credentials c) -> vp_proof c = None -> p_value o = [] ->
        add_proof D (vp_proofable D) (acc_pair a) c o = Ok c' ->
        exists t, vp_to_json D c' = Ok (JSONValue t) /\
          verify_proof D (vp_proofable D) pk t (p_purpose o) = Ok {| verified := true; document := Some c |}.
  Proof.
    intros F. destruct stored_and_published as (st & pu & E1 & E2 & E3 & E4).
    destruct (private_keys_open Ls Ld Hk) as (_ & O & _). destruct (published_keys v cs Lh Lx) as [P _]. rewrite F in O, P.
    destruct (slot_usable O P) as (p & pem & a & e1 & e2 & Q1 & Q2 & Q3 & Q4 & Q5 & Q6 & Q7 & _).
    exists st, pu, ks, (to_doc (irun (identity_new D v) cs)), p, pem, a, e1, e2. repeat (split; [assumption|]).
    split; [rewrite to_doc_shape; reflexivity|]. repeat (split; [assumption|]). exists (ed_pub_key D (acc_pair a)). split; [assumption|].
    intros c o c' W1 W2 W3 W4 W5 W6. exact (doc_transport (vp_doc_laws D) Lc W1 W2 W3 W4 W5 W6).
  Qed.
End Life.

(** ** C59: the default user connection credential *)
Theorem uc_default_text D :
  uc_to_json D uc_credential_default = uc_to_json D (uc_credential_new (uc_context_new uc_properties_default)) /\
  uc_to_json D uc_credential_default = Ok (JSONValue (json_text (serde_number (f64_text D))
    (uc_json (B "https://schema.org/identifier") (B "https://www.w3.org/2018/credentials/#VerifiableCredential")))) /\
  forall t, uc_to_json D uc_credential_default = Ok (JSONValue t) -> uc_from_slice D t = Some uc_credential_default.
Proof.
  split; [reflexivity|]. split; [reflexivity|]. intros t H.
  destruct (@uc_round D uc_credential_default eq_refl eq_refl) as (t' & E & R). rewrite E in H. apply ok_inj in H. apply jv_inj in H. congruence.
Qed.
