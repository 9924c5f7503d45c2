(** Proofs of C75: from a DID URI to an accepted credential or presentation. *)
From Verif Require Import Base BaseFacts Codec CodecFacts DidFacts Json JsonParse Deps Types Proof Vc Suite Did Doc Hashlink Identity JsonFacts JsonParseFacts ParseFacts
  JsonSpec VcSpec Spec SchemaFacts ShapeFacts ReadFacts VcFacts SuiteSpec SuiteFacts IdentitySpec IdentityFacts DocFacts DocTextFacts FlowSpec FlowFacts
  CanonSpec ConnSpec ConnFacts ChainSpec.
Set Implicit Arguments.
Local Open Scope nat_scope.

Lemma doc_read_wf D s d : doc_from_slice D s = Some d -> doc_wf d.
Proof.
  unfold doc_from_slice. destruct (from_slice (f64_parse D) doc_schema s) as [x|] eqn:E; [|discriminate].
  apply (from_slice_ok (@any_floats D) any_ints) in E as [H1 _]. apply rd_doc in H1 as (d' & -> & W). rewrite data_doc_inv. intros [= <-]. exact W.
Qed.
Lemma identity_text_utf8 D pub : utf8 (@identity_text D pub).
Proof.
  unfold identity_text. apply utf8_ascii. apply Forall_app. split; [repeat constructor|].
  constructor; [reflexivity|]. eapply Forall_impl; [|apply base58_alphabet]. intros c. apply char58_ascii.
Qed.

Section Chain.
  Variable D : deps.
  Hypotheses (Bs : blake3_size D) (Lh : ed_hex_law D) (Lx : dh_hex_law D).
  Variables (d : did D) (i : identity D) (a : option bytes) (cs : list (icall D)) (h uri : bytes).
  Hypotheses (Hi : did_identity d = Ok i) (Ca : clean a).
  Let dc := to_doc (irun i cs).
  Hypotheses (Hh : generate_from_json D (doc_to_json D dc) = Ok h) (Hu : build_uri d (Some {| address := a; hl := Some h |}) = Ok uri).
  Let text (x : doc) := json_text (serde_number (f64_text D)) (doc_json x).

  Lemma dc_wf : doc_wf dc.
  Proof. unfold dc. rewrite did_identity_eq in Hi. apply ok_inj in Hi. rewrite <- Hi. apply identity_doc_wf, identity_text_utf8. Qed.
  Lemma dc_keys : decodes_to (doc_authentication dc) (first_auth cs) /\ decodes_to (doc_assertion dc) (first_assertion cs).
  Proof. unfold dc. rewrite did_identity_eq in Hi. apply ok_inj in Hi. rewrite <- Hi. apply (published_keys _ cs Lh Lx). Qed.
  Lemma dc_id : doc_id dc = id_value i.
  Proof. unfold dc. rewrite did_identity_eq in Hi. apply ok_inj in Hi. rewrite <- Hi. rewrite to_doc_shape. reflexivity. Qed.
  Lemma chain_resolved t v dc' : resolved D uri t v dc' -> v = id_value i /\ (dc' = dc \/ collision (blake3 D) (text dc') (text dc)).
  Proof.
    intros (p & h' & P & Eh & R & V). destruct (uri_hashlink Bs Hi Ca Hh Hu) as [P' L]. rewrite P' in P.
    injection P as E1 E2. subst v p. cbn [hl] in Eh. apply some_inj in Eh. subst h'. split; [reflexivity|].
    exact (proj2 (L dc' dc_wf (doc_read_wf _ _ R)) V).
  Qed.
  Lemma listed_decodes l k pk : decodes_to l k -> listed_key D l pk -> exists ed dh, k = Some (ed, dh) /\ pk = ed_pub_key D ed.
  Proof.
    intros H (es & e & -> & I & K). destruct es as [|e1 [|e2 [|]]], k as [[ed dh]|]; cbn in H; try tauto. destruct H as [H1 H2].
    exists ed, dh. split; [reflexivity|]. destruct I as [<-|[<-|[]]].
    - rewrite H1 in K. apply ok_inj in K. congruence.
    - rewrite H2 in K. apply ok_inj in K. discriminate.
  Qed.
  Theorem vc_chain : sha256_size D -> jcs_numbers D -> forall history, Forall signing_wf history ->
    forall t v dc' pk s e r, resolved D uri t v dc' -> listed_key D (doc_assertion dc') pk ->
    verify_proof D (vc_proofable D) pk s e = Ok r -> verified r = true ->
    collision (blake3 D) (text dc') (text dc) \/
    v = id_value i /\ dc' = dc /\ exists ed dh w o sig, first_assertion cs = Some (ed, dh) /\ pk = ed_pub_key D ed /\ document r = Some w /\
      carried D (vc_proofable D) s o sig /\ p_purpose o = e /\
      ((exists c, In (SignVc c o) history /\ vc_renumbered (equal_canonical D) c w /\ (all_numbers (fun _ => False) (vc_subject c) -> w = c)) \/
       impersonated D (ed_pub_key D ed) history o (vc_json w) sig).
  Proof.
    intros Hs Hn history F t v dc' pk s e r R K V T. destruct (chain_resolved R) as [-> [->|C]]; [right|left; exact C].
    split; [reflexivity|]. split; [reflexivity|]. destruct (@listed_decodes _ _ _ (proj2 dc_keys) K) as (ed & dh & Ef & ->).
    destruct (@vc_accepted D _ _ _ _ _ Hs Hn F V T) as (w & o & sig & X). exists ed, dh, w, o, sig. tauto.
  Qed.
  Theorem vp_chain : sha256_size D -> jcs_numbers D -> forall history, Forall signing_wf history ->
    forall t v dc' pk s e r, resolved D uri t v dc' -> listed_key D (doc_authentication dc') pk ->
    verify_proof D (vp_proofable D) pk s e = Ok r -> verified r = true ->
    collision (blake3 D) (text dc') (text dc) \/
    v = id_value i /\ dc' = dc /\ exists ed dh w o sig, first_auth cs = Some (ed, dh) /\ pk = ed_pub_key D ed /\ document r = Some w /\
      carried D (vp_proofable D) s o sig /\ p_purpose o = e /\
      ((exists c, In (SignVp c o) history /\ vp_renumbered (equal_canonical D) c w /\
          (Forall (fun x => all_numbers (fun _ => False) (vc_subject x)) (vp_credentials c) -> w = c)) \/
       impersonated D (ed_pub_key D ed) history o (vp_json w) sig).
  Proof.
    intros Hs Hn history F t v dc' pk s e r R K V T. destruct (chain_resolved R) as [-> [->|C]]; [right|left; exact C].
    split; [reflexivity|]. split; [reflexivity|]. destruct (@listed_decodes _ _ _ (proj1 dc_keys) K) as (ed & dh & Ef & ->).
    destruct (@vp_accepted D _ _ _ _ _ Hs Hn F V T) as (w & o & sig & X). exists ed, dh, w, o, sig. tauto.
  Qed.

  Lemma listed_of l ed dh : decodes_to l (Some (ed, dh)) -> listed_key D l (ed_pub_key D ed).
  Proof.
    destruct l as [[|e1 [|e2 [|]]]|]; cbn; try tauto. intros [H _]. exists [e1; e2], e1. cbn. auto.
  Qed.
  Theorem chain_honest : ed_correct D ->
    exists t, doc_to_json D dc = Ok (JSONValue t) /\ resolved D uri t (id_value i) dc /\
    (forall ed dh, first_assertion cs = Some (ed, dh) -> listed_key D (doc_assertion dc) (ed_pub_key D ed) /\
       forall c o c', vc_wf D c -> proof_wf o -> depth (vc_subject c) <= 126 -> vc_proof c = None -> p_value o = [] ->
         add_proof D (vc_proofable D) ed c o = Ok c' ->
         exists s, vc_to_json D c' = Ok (JSONValue s) /\
           verify_proof D (vc_proofable D) (ed_pub_key D ed) s (p_purpose o) = Ok {| verified := true; document := Some c |}) /\
    (forall ed dh, first_auth cs = Some (ed, dh) -> listed_key D (doc_authentication dc) (ed_pub_key D ed) /\
       forall c o c', vp_wf D c -> proof_wf o -> Forall (fun x => depth (vc_subject x) <= 124) (vp_credentials c) -> vp_proof c = None -> p_value o = [] ->
         add_proof D (vp_proofable D) ed c o = Ok c' ->
         exists s, vp_to_json D c' = Ok (JSONValue s) /\
           verify_proof D (vp_proofable D) (ed_pub_key D ed) s (p_purpose o) = Ok {| verified := true; document := Some c |}).
  Proof.
    intros Lc. destruct (doc_round_trip D dc_wf) as (t & E & P). exists t. split; [exact E|]. destruct (uri_hashlink Bs Hi Ca Hh Hu) as [P' L]. split; [|split].
    - exists {| address := a; hl := Some h |}, h. split; [exact P'|]. split; [reflexivity|]. split; [exact P|]. exact (proj1 (L dc dc_wf dc_wf) eq_refl).
    - intros ed dh F. pose proof (proj2 dc_keys) as K. rewrite F in K. split; [exact (@listed_of _ _ _ K)|].
      intros c o c' W1 W2 W3 W4 W5 W6. exact (doc_transport (vc_doc_laws D) Lc W1 W2 W3 W4 W5 W6).
    - intros ed dh F. pose proof (proj1 dc_keys) as K. rewrite F in K. split; [exact (@listed_of _ _ _ K)|].
      intros c o c' W1 W2 W3 W4 W5 W6. exact (doc_transport (vp_doc_laws D) Lc W1 W2 W3 W4 W5 W6).
  Qed.
End Chain.
