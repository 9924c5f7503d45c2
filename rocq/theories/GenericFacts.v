(** Documents of any type (C74). *)
From Verif Require Import Base BaseFacts Codec CodecFacts Json Deps Types Proof Suite JsonSpec Spec VcSpec SuiteSpec GenericSpec ParseFacts SchemaFacts DidFacts VcFacts SuiteFacts.
Set Implicit Arguments.
Unset Strict Implicit.

Section Any.
  Variable D : deps.
  Theorem any_add T (P : proofable T) kp v o v' :
    add_proof D P kp v o = Ok v' <->
    options_ok D o /\ p_purpose o <> Unknown /\
    exists t, pf_to_jcs P v = Ok t /\ v' = pf_setup_proof P v (with_value o (mb_encode58 (ed_sign D kp (text_message D o t)))).
  Proof. apply add_proof_iff. Qed.
  Theorem any_verify T (P : proofable T) pk s e r :
    verify_proof D P pk s e = Ok r <->
    exists v p b sig t x, pf_parse_json_bytes P s = Ok v /\ pf_get_proof P v = Some p /\ options_ok D p /\ p_purpose p = e /\ e <> Unknown /\
      pf_to_jcs P (pf_remove_proof P v) = Ok t /\ mb_decode (mb_other D) (p_value p) = Some (b, sig) /\
      ed_verify D pk (text_message D (with_value p []) t) (hex_encode sig) = Ok x /\
      r = {| verified := x; document := if x then Some (pf_remove_proof P v) else None |}.
  Proof.
    rewrite verify_ok_iff. split.
    - intros (v & x & (p & b & sig & t & H) & ->). exists v, p, b, sig, t, x. tauto.
    - intros (v & p & b & sig & t & x & H). exists v, x. split; [|tauto]. exists p, b, sig, t. tauto.
  Qed.
  Theorem any_round T (P : proofable T) kp v o v' s : ed_correct D -> p_value o = [] ->
    (forall p, pf_get_proof P (pf_setup_proof P v p) = Some p) ->
    (forall p, pf_to_jcs P (pf_remove_proof P (pf_setup_proof P v p)) = pf_to_jcs P v) ->
    add_proof D P kp v o = Ok v' -> pf_parse_json_bytes P s = Ok v' ->
    verify_proof D P (ed_pub_key D kp) s (p_purpose o) = Ok {| verified := true; document := Some (pf_remove_proof P v') |}.
  Proof.
    intros Hed Hv Hg Hj A R. apply any_add in A as (O & U & t & Ht & E). apply any_verify.
    exists v', (with_value o (mb_encode58 (ed_sign D kp (text_message D o t)))), Base58Btc, (ed_sign D kp (text_message D o t)), t, true.
    split; [exact R|]. rewrite E. split; [apply Hg|]. split; [exact O|]. split; [reflexivity|]. split; [exact U|].
    split; [rewrite Hj; exact Ht|]. split; [apply mb58_reads|]. split; [|reflexivity].
    replace (with_value _ []) with o; [apply Hed|]. destruct o; cbn in *; subst; reflexivity.
  Qed.
  Theorem any_tamper T (P : proofable T) pk signed s e r : sha256_size D -> jcs_numbers D ->
    verify_proof D P pk s e = Ok r -> verified r = true ->
    exists w t o sig, document r = Some w /\ pf_to_jcs P w = Ok t /\ carried D P s o sig /\ p_purpose o = e /\
      (In (o, t) signed \/ message_forgery D pk signed (text_message D o t) sig \/ message_collision D signed o t).
  Proof.
    intros Hs Hn H Hr. apply any_verify in H as (v & p & b & sig & t & x & H1 & H2 & H3 & H4 & H5 & H6 & H7 & H8 & ->).
    cbn in Hr. subst x. exists (pf_remove_proof P v), t, (with_value p []), sig. split; [reflexivity|]. split; [exact H6|]. split; [exists v, p, b; auto|]. split; [exact H4|].
    destruct (in_dec (list_eq_dec Byte.byte_eq_dec) (text_message D (with_value p []) t) (map (fun x => text_message D (fst x) (snd x)) signed)) as [I|I].
    - apply in_map_iff in I as ([o u] & E & I). cbn [fst snd] in E. apply app_eq_length in E as [E1 E2]; [|rewrite !Hs; reflexivity].
      destruct (list_eq_dec Byte.byte_eq_dec (canonical D (proof_json o)) (canonical D (proof_json (with_value p [])))) as [F|F].
      + destruct (list_eq_dec Byte.byte_eq_dec u t) as [G|G].
        * left. subst u. apply (proof_canonical Hn) in F. rewrite <- F. exact I.
        * right. right. exists (o, u). split; [exact I|]. right. split; assumption.
      + right. right. exists (o, u). split; [exact I|]. left. split; assumption.
    - right. left. split; assumption.
  Qed.
  Lemma suite_sees T T' (P : proofable T) (P' : proofable T') pk v v' :
    pf_get_proof P v = pf_get_proof P' v' -> pf_to_jcs P (pf_remove_proof P v) = pf_to_jcs P' (pf_remove_proof P' v') ->
    answer (eddsa_verify_proof D P pk v) = answer (eddsa_verify_proof D P' pk v').
  Proof.
    intros Hg Hj. unfold eddsa_verify_proof. rewrite <- Hg. destruct (pf_get_proof P v) as [p|]; cbn [ok_or bind]; [|reflexivity].
    destruct (mb_decode (mb_other D) (p_value p)) as [[b sig]|]; cbn [ok_or bind]; [|reflexivity].
    unfold transform_document. destruct (validate_type (remove_proof_value p)); cbn [bind]; [|reflexivity].
    destruct (validate_cryptosuite (remove_proof_value p)); cbn [bind]; [|reflexivity]. rewrite <- Hj.
    destruct (pf_to_jcs P (pf_remove_proof P v)) as [t|]; cbn [bind map_err]; [|reflexivity].
    destruct (generate_proof_config D (remove_proof_value p)) as [c|]; cbn [bind]; [|reflexivity].
    destruct (generate_hash D t c) as [m|]; cbn [bind]; [|reflexivity]. destruct (verify_signature D pk m sig) as [[]|]; reflexivity.
  Qed.
  Theorem any_same T T' (P : proofable T) (P' : proofable T') pk s s' v v' e :
    pf_parse_json_bytes P s = Ok v -> pf_parse_json_bytes P' s' = Ok v' ->
    pf_get_proof P v = pf_get_proof P' v' -> pf_to_jcs P (pf_remove_proof P v) = pf_to_jcs P' (pf_remove_proof P' v') ->
    answer (verify_proof D P pk s e) = answer (verify_proof D P' pk s' e).
  Proof.
    intros H H' Hg Hj. unfold verify_proof, integrity_verify_proof. rewrite H, H'. cbn [bind]. rewrite <- Hg.
    destruct (pf_get_proof P v) as [p|] eqn:Ep; cbn [ok_or bind]; [|reflexivity].
    destruct (proof_validate p); cbn [map_err bind]; [|reflexivity]. destruct (negb _); [reflexivity|].
    apply suite_sees; [congruence|exact Hj].
  Qed.
  (** A type whose [remove_proof] forgets to remove the proof: what it signs is not accepted. *)
  Theorem any_contract T (P : proofable T) kp v o v' s e r t t' : sha256_size D -> p_value o = [] ->
    add_proof D P kp v o = Ok v' -> pf_parse_json_bytes P s = Ok v' -> (forall p, pf_get_proof P (pf_setup_proof P v p) = Some p) ->
    pf_to_jcs P v = Ok t -> pf_to_jcs P (pf_remove_proof P v') = Ok t' -> t <> t' ->
    verify_proof D P (ed_pub_key D kp) s e = Ok r -> verified r = true ->
    collision (sha256 D) t t' \/
    (text_message D o t <> text_message D o t' /\ ed_verify D (ed_pub_key D kp) (text_message D o t') (hex_encode (ed_sign D kp (text_message D o t))) = Ok true).
  Proof.
    intros Hs Hv A R Hg Ht Ht' N H Hr. apply any_add in A as (O & U & u & Hu & E). rewrite Ht in Hu. apply ok_inj in Hu. subst u.
    apply any_verify in H as (w & p & b & sig & u & x & H1 & H2 & H3 & H4 & H5 & H6 & H7 & H8 & ->). cbn in Hr. subst x.
    rewrite R in H1. apply ok_inj in H1. subst w. rewrite Ht' in H6. apply ok_inj in H6. subst u.
    rewrite E, Hg in H2. apply some_inj in H2. subst p. cbn [p_value with_value] in H7. rewrite mb58_reads in H7. injection H7 as <- <-.
    replace (with_value (with_value o _) []) with o in H8 by (destruct o; cbn in *; subst; reflexivity).
    destruct (list_eq_dec Byte.byte_eq_dec (text_message D o t) (text_message D o t')) as [F|F]; [left|right; auto].
    apply app_eq_length in F as [_ F]; [|rewrite !Hs; reflexivity]. split; assumption.
  Qed.
End Any.
