(** Accepted documents with serde_json's fast numbers, and a float it does not read back. *)
From Verif Require Import Base BaseFacts Codec Json JsonFacts JsonParseFacts ParseFacts JsonParse Deps FlowFacts WorldSpec WorldFacts Types Proof Vc Suite JsonSpec VcSpec Spec VcFacts MiscSpec SuiteSpec SuiteFacts ReadFacts FlowSpec Grammar CanonSpec CanonFacts CanonDemo ConnSpec ConnFacts Demo DemoFacts PropsVc
  Float FloatFacts FloatText FloatSpec FloatLaws FloatWorld FloatDemo Fast FastSpec FastFacts.
Set Implicit Arguments.
Local Open Scope N_scope.

Definition fast_ints : deps := with_numbers rfc ryu_text read_fast exact_number.
Theorem ints_fast : fast fast_ints.
Proof. split; [|reflexivity]. split; [reflexivity|]. split; [reflexivity|]. intros [k|k|b]; [right|right|left]; reflexivity. Qed.
Theorem fast_correct : ed_correct fast_ints. Proof. exact demo_ed_correct. Qed.
Theorem fast_sha256 : sha256_size fast_ints. Proof. exact demo_sha256_size. Qed.
(** 9.301078817733611, read as the next float. *)
Definition drift : N := 4621425659941969488.
Lemma drift_texts : ryu_text drift = B "9.301078817733611" /\ es_text drift = B "9.301078817733611" /\ es_text (drift + 1) = B "9.301078817733613" /\
  read_fast (B "9.301078817733611") = Some (drift + 1) /\ finite drift = true.
Proof. vm_compute. auto. Qed.
Definition nine : int_ok (B "9") /\ frac_ok (B ".301078817733611") /\ exp_ok [] /\ number_text false (B "9") (B ".301078817733611") [] = B "9.301078817733611".
Proof.
  split; [exact (dec_int 9)|]. split; [right; exists (B "301078817733611"); split; [reflexivity|exact (proj1 (dec_int 301078817733611))]|]. split; [left; reflexivity|reflexivity].
Qed.
Theorem drift_read D : fast D -> real (Float drift) /\ json_reads D (Float drift) (Float (drift + 1)) /\ jcs_reads D (Float drift) (Float (drift + 1)) /\
  ~ equal_canonical D (Float drift) (Float (drift + 1)).
Proof.
  intros [(W1 & W2 & _) P]. destruct drift_texts as (T1 & T2 & T3 & R & F). destruct nine as (Ni & Nf & Ne & Nt). split; [split; [exact I|exact F]|].
  split; [|split].
  - exists false, (B "9"), (B ".301078817733611"), []. do 3 (split; [assumption|]). split; [cbn [serde_number]; rewrite W1, T1; reflexivity|]. unfold number_of. cbn [is_empty andb]. rewrite Nt, P, R. reflexivity.
  - exists false, (B "9"), (B ".301078817733611"), []. do 3 (split; [assumption|]). split; [rewrite W2, T2; reflexivity|]. unfold number_of. cbn [is_empty andb]. rewrite Nt, P, R. reflexivity.
  - unfold equal_canonical. rewrite !W2, T2, T3. discriminate.
Qed.

(** ** Accepted documents *)
Section World.
  Variable D : deps.
  Hypothesis W : fast D.
  Let D' : deps := with_numbers D (f64_text D) read_float (jcs_number D).
  Lemma fast_ieee : ieee D'. Proof. split; [exact (proj1 W)|reflexivity]. Qed.
  Lemma fast_floats : floats_ok real (f64_parse D).
  Proof. intros t b. rewrite (proj2 W). intros H. split; [exact I|exact (fast_finite _ H)]. Qed.
  Lemma fast_vc_document pk s e r w : verify_proof D (vc_proofable D) pk s e = Ok r -> document r = Some w -> vc_shape real w.
  Proof.
    intros V E. apply (doc_verify (vc_doc_laws D)) in V as (v & p & b & sig & x & P & _ & _ & _ & _ & _ & _ & _ & ->). cbn [document] in E. destruct x; [|discriminate].
    apply some_inj in E. subst w. destruct (vc_parsed fast_floats real_ints P) as [(S1 & S2 & S3 & S4 & S5) _]. repeat (split; [assumption|]). split; [exact I|exact S5].
  Qed.
  Lemma fast_vp_document pk s e r w : verify_proof D (vp_proofable D) pk s e = Ok r -> document r = Some w -> vp_shape real w.
  Proof.
    intros V E. apply (doc_verify (vp_doc_laws D)) in V as (v & p & b & sig & x & P & _ & _ & _ & _ & _ & _ & _ & ->). cbn [document] in E. destruct x; [|discriminate].
    apply some_inj in E. subst w. destruct (vp_parsed fast_floats real_ints P) as [(S1 & S2 & S3 & S4 & S5) _]. repeat (split; [assumption|]). split; [exact I|exact S5].
  Qed.
  Theorem fast_accepted_vc run : Forall (@real_event D) run -> forall past pk s e future r, sha256_size D ->
    run = past ++ VerifiesVc D pk s e :: future ->
    verify_proof D (vc_proofable D) pk s e = Ok r -> verified r = true ->
    exists w o sig, document r = Some w /\ carried D (vc_proofable D) s o sig /\ p_purpose o = e /\
      ((exists kp v, In (Signs D kp (SignVc v o)) past /\ ed_pub_bytes D (ed_pub_key D kp) = ed_pub_bytes D pk /\
          signs_ok D kp (SignVc v o) = true /\ vc_renumbered same_float v w) \/
       attack D pk past o (vc_json w) sig).
  Proof.
    intros H past pk s e future r Hs E V Y. destruct (@run_vc D run (real_wf H) past pk s e future r Hs (ieee_numbers (proj1 W)) E V Y) as (w & o & sig & Dw & Cw & Pu & [(kp & v & I & K & So & R & _)|A]);
      exists w, o, sig; do 3 (split; [assumption|]); [left|right; exact A]. exists kp, v. do 3 (split; [assumption|]). apply (vc_same fast_ieee); [|exact (fast_vc_document _ _ _ V Dw)|exact R].
    rewrite E in H. apply Forall_app in H as [H _]. rewrite Forall_forall in H. exact (H _ I).
  Qed.
  Theorem fast_accepted_vp run : Forall (@real_event D) run -> forall past pk s e future r, sha256_size D ->
    run = past ++ VerifiesVp D pk s e :: future ->
    verify_proof D (vp_proofable D) pk s e = Ok r -> verified r = true ->
    exists w o sig, document r = Some w /\ carried D (vp_proofable D) s o sig /\ p_purpose o = e /\
      ((exists kp v, In (Signs D kp (SignVp v o)) past /\ ed_pub_bytes D (ed_pub_key D kp) = ed_pub_bytes D pk /\
          signs_ok D kp (SignVp v o) = true /\ vp_renumbered same_float v w) \/
       attack D pk past o (vp_json w) sig).
  Proof.
    intros H past pk s e future r Hs E V Y. destruct (@run_vp D run (real_wf H) past pk s e future r Hs (ieee_numbers (proj1 W)) E V Y) as (w & o & sig & Dw & Cw & Pu & [(kp & v & I & K & So & R & _)|A]);
      exists w, o, sig; do 3 (split; [assumption|]); [left|right; exact A]. exists kp, v. do 3 (split; [assumption|]). apply (vp_same fast_ieee); [|exact (fast_vp_document _ _ _ V Dw)|exact R].
    rewrite E in H. apply Forall_app in H as [H _]. rewrite Forall_forall in H. exact (H _ I).
  Qed.

  (** A credential with the number 9.301078817733611. *)
  Theorem drift_lost kp v o v' t e r x : sha256_size D -> vc_shape real v -> vc_subject v = JObj [(x, JNum (Float drift))] ->
    vc_proof v = None -> proof_wf o -> p_value o = [] ->
    add_proof D (vc_proofable D) kp v o = Ok v' -> vc_to_json D v' = Ok (JSONValue t) ->
    verify_proof D (vc_proofable D) (ed_pub_key D kp) t e = Ok r -> verified r = true ->
    let w := with_subject v (JObj [(x, JNum (Float (drift + 1)))]) in
    impersonated D (ed_pub_key D kp) [SignVc v o] o (vc_json w) (ed_sign D kp (message D o (vc_json v))).
  Proof.
    intros Hs S J Hp Wo Hv A T V Y w. destruct (drift_read W) as (F & R1 & _ & N).
    assert (R : vc_renumbered (json_reads D) v w).
    { exists (JObj [(x, JNum (Float (drift + 1)))]). split; [|reflexivity]. rewrite J. constructor. constructor; [|constructor]. split; [reflexivity|]. constructor. exact R1. }
    assert (Sw : vc_shape (fun _ => True) w).
    { destruct S as (S1 & S2 & S3 & S4 & S5). split; [exact S1|]. split; [exact S2|]. split; [|split; [exact S4|exact S5]]. rewrite J in S3. apply val_ok_obj in S3 as [S3 S3'].
      apply val_ok_obj. split; [exact S3|]. constructor; [|constructor]. inversion S3' as [|? ? [U _]]; subst. split; [exact U|exact I]. }
    refine (@vc_lossy_other D kp v o v' w t e r Hs (ieee_numbers (proj1 W)) (vc_shape_any S) _ Hp Wo Hv A T R _ V Y).
    - rewrite J. cbn. lia.
    - intros Sm. destruct (same_vc_renumbered (vc_shape_any S) Sw Sm) as (j & Rj & E). apply (f_equal vc_subject) in E. cbn [w with_subject vc_subject] in E. subst j. rewrite J in Rj.
      inversion Rj as [| | | | |? ? G]; subst. inversion G as [|? ? ? ? [_ G1]]; subst. cbn [snd] in G1. inversion G1; subst. auto.
  Qed.
End World.

(** ** On concrete dependencies *)
Definition fast_key : ed_pair fast_ints := B "key one".
Definition drift_signed : result vc proof_error := add_proof fast_ints (vc_proofable fast_ints) fast_key (amount_vc (Float drift)) demo_proof.
Definition sent (v : result vc proof_error) : bytes :=
  match v with Ok v => match vc_to_json fast_ints v with Ok (JSONValue t) => t | Err _ => [] end | Err _ => [] end.
Definition sent_canonical (v : result vc proof_error) : bytes :=
  match v with Ok v => match vc_to_jcs fast_ints v with Ok t => t | Err _ => [] end | Err _ => [] end.
Definition refused (t : bytes) : bool :=
  match verify_proof fast_ints (vc_proofable fast_ints) (ed_pub_key fast_ints fast_key) t AssertionMethod with
  | Ok r => negb (verified r) && match document r with None => true | _ => false end
  | Err _ => false
  end.
Lemma refused_ok t : refused t = true ->
  verify_proof fast_ints (vc_proofable fast_ints) (ed_pub_key fast_ints fast_key) t AssertionMethod = Ok {| verified := false; document := None |}.
Proof. unfold refused. destruct verify_proof as [[[|] [d|]]|]; cbn; try discriminate. reflexivity. Qed.
Lemma drift_refused : refused (sent drift_signed) = true /\ refused (sent_canonical drift_signed) = true.
Proof. vm_compute. auto. Qed.
Theorem drift_transport : exists D kp v o v' t c, fast D /\ ed_correct D /\ sha256_size D /\ vc_shape real v /\ proof_wf o /\ vc_proof v = None /\ p_value o = [] /\
  vc_subject v = JObj [(B "amount", JNum (Float drift))] /\
  add_proof D (vc_proofable D) kp v o = Ok v' /\ vc_to_json D v' = Ok (JSONValue t) /\ vc_to_jcs D v' = Ok c /\
  verify_proof D (vc_proofable D) (ed_pub_key D kp) t (p_purpose o) = Ok {| verified := false; document := None |} /\
  verify_proof D (vc_proofable D) (ed_pub_key D kp) c (p_purpose o) = Ok {| verified := false; document := None |}.
Proof.
  destruct drift_refused as [R1 R2]. apply refused_ok in R1, R2. unfold drift_signed, sent, sent_canonical in R1, R2.
  exists fast_ints, fast_key, (amount_vc (Float drift)), demo_proof.
  destruct (add_proof fast_ints (vc_proofable fast_ints) fast_key (amount_vc (Float drift)) demo_proof) as [v'|] eqn:S; [|discriminate (R1 : Err _ = Ok _)].
  exists v'. destruct (vc_to_json fast_ints v') as [[t]|] eqn:T; [|discriminate (R1 : Err _ = Ok _)]. destruct (vc_to_jcs fast_ints v') as [c|] eqn:C; [|discriminate (R2 : Err _ = Ok _)].
  exists t, c. split; [exact ints_fast|]. split; [exact fast_correct|]. split; [exact fast_sha256|].
  split; [exact (@amount_shape (Float drift) (conj I eq_refl))|]. split; [repeat split; vm_compute; auto|]. repeat (split; [reflexivity|]). split; [exact R1|exact R2].
Qed.
(** 19.99, minus zero and 1e22 in a credential. *)
Definition price : N := 4626319902466574909.
Definition large : N := 4936209963552724370.
Definition price_vc : vc :=
  vc_set_credential demo_vc (JObj [(B "price", JNum (Float price)); (B "rest", JArr [JNum (Float minus_zero); JNum (Float large); JNum (PosInt 7)])]).
Lemma price_texts : ryu_text price = B "19.99" /\ ryu_text minus_zero = B "-0.0" /\ ryu_text large = B "1e22". Proof. vm_compute. auto. Qed.
Lemma price_plain : Forall plain [Float price; Float minus_zero; Float large; PosInt 7].
Proof.
  destruct price_texts as (T1 & T2 & T3).
  assert (R : forall b, finite b = true -> real (Float b)) by (intros b F; split; [exact I|exact F]).
  constructor; [split; [apply R; vm_compute; reflexivity|]|constructor; [split; [apply R; vm_compute; reflexivity|]|constructor; [split; [apply R; vm_compute; reflexivity|]|constructor; [|constructor]]]].
  - exists false, (B "19"), (B ".99"), []. split; [|exact T1]. split; [exact (dec_int 19)|]. split; [right; exists (B "99"); split; [reflexivity|exact (proj1 (dec_int 99))]|]. split; [left; reflexivity|]. vm_compute. split; [|split]; discriminate.
  - exists true, (B "0"), (B ".0"), []. split; [|exact T2]. split; [exact (dec_int 0)|]. split; [right; exists (B "0"); split; [reflexivity|exact (proj1 (dec_int 0))]|]. split; [left; reflexivity|]. vm_compute. split; [|split]; discriminate.
  - exists false, (B "1"), [], (B "e22"). split; [|exact T3]. split; [exact (dec_int 1)|]. split; [left; reflexivity|].
    split; [right; exists "e"%byte, [], (B "22"); split; [reflexivity|]; split; [left; reflexivity|]; split; [left; reflexivity|exact (proj1 (dec_int 22))]|].
    vm_compute. split; [|split]; discriminate.
  - split; [|exact I]. split; [vm_compute; reflexivity|exact I].
Qed.
Lemma price_shape : vc_shape plain price_vc.
Proof.
  destruct decimal_shape as (H1 & H2 & _ & H4). split; [exact H1|]. split; [exact H2|]. split; [|exact H4].
  assert (P := price_plain). inversion P as [|? ? P1 Q1]. inversion Q1 as [|? ? P2 Q2]. inversion Q2 as [|? ? P3 Q3]. inversion Q3 as [|? ? P4 Q4]. subst. clear - P1 P2 P3 P4.
  apply val_ok_obj. split; [repeat constructor|]. constructor; [split; [reflexivity|exact P1]|]. constructor; [|constructor]. split; [reflexivity|].
  apply val_ok_arr. constructor; [exact P2|]. constructor; [exact P3|]. constructor; [exact P4|constructor].
Qed.
Definition price_signed : result vc proof_error := add_proof fast_ints (vc_proofable fast_ints) fast_key price_vc demo_proof.
