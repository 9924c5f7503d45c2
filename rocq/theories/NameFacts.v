(** Proofs of C106. *)
From Verif Require Import Base BaseFacts Codec CodecFacts Json Deps Types Doc Did Keys Identity JsonSpec Spec IdentitySpec IdentityFacts DidFacts DocFacts NameSpec.
Set Implicit Arguments.
Unset Strict Implicit.

Section Name.
  Variable D : deps.
  Hypotheses (Lh : ed_hex_law D) (Lx : dh_hex_law D).
  Lemma ed_text_inj k k' : mb_encode58 (ed_pub_to_hex D k) = mb_encode58 (ed_pub_to_hex D k') -> k = k'.
  Proof. intros E. apply mb_encode58_inj in E. assert (H := proj2 (Lh k)). rewrite E, (proj2 (Lh k')) in H. congruence. Qed.
  Lemma dh_text_inj k k' : mb_encode58 (dh_pub_to_hex D k) = mb_encode58 (dh_pub_to_hex D k') -> k = k'.
  Proof. intros E. apply mb_encode58_inj in E. assert (H := proj2 (Lx k)). rewrite E, (proj2 (Lx k')) in H. congruence. Qed.
  Lemma entries_same v a b k k' : entries v a b k = entries v a b k' <-> same_public D (Some k) (Some k').
  Proof.
    unfold entries, same_public. destruct k as [ed dh], k' as [ed' dh']. cbn [fst snd option_map]. split.
    - intros E. injection E as E1 E2. apply (f_equal (fun x => char_z :: x)) in E1. apply (f_equal (fun x => char_z :: x)) in E2.
      apply ed_text_inj in E1. apply dh_text_inj in E2. congruence.
    - intros E. injection E as -> ->. reflexivity.
  Qed.
  Lemma slot_same v a b k k' : option_map (entries v a b) k = option_map (entries v a b) k' <-> same_public D k k'.
  Proof.
    destruct k as [k|], k' as [k'|]; cbn [option_map]; [|unfold same_public; cbn; split; discriminate..|unfold same_public; cbn; tauto].
    rewrite <- (entries_same v a b). split; [intros E; apply some_inj in E; exact E|intros ->; reflexivity].
  Qed.
  Theorem doc_same v (cs cs' : list (icall D)) : to_doc (irun (identity_new D v) cs) = to_doc (irun (identity_new D v) cs') <->
    same_public D (first_auth cs) (first_auth cs') /\ same_public D (first_assertion cs) (first_assertion cs').
  Proof.
    rewrite !to_doc_shape. split.
    - intros E. split; eapply slot_same; [exact (f_equal doc_authentication E)|exact (f_equal doc_assertion E)].
    - intros [E1 E2]. apply (slot_same v (B "#key-auth-verification") (B "#key-auth-aggrement")) in E1.
      apply (slot_same v (B "#key-assertion-verification") (B "#key-assertion-aggrement")) in E2. rewrite E1, E2. reflexivity.
  Qed.
  Theorem restored_names (d : did D) i pem d' i' (cs cs' : list (icall D)) ed dh ed' dh' : pem_law D ->
    did_identity d = Ok i -> build_pem (did_account d) = Ok pem -> did_from_pem D pem = Ok d' -> did_identity d' = Ok i' ->
    first_assertion cs = Some (ed, dh) -> first_assertion cs' = Some (ed', dh') ->
    id_value i' = id_value i /\
    exists e f e' f', doc_assertion (to_doc (irun i cs)) = Some [e; f] /\ doc_assertion (to_doc (irun i' cs')) = Some [e'; f'] /\
      pr_id e' = pr_id e /\ pr_controller e' = pr_controller e /\
      decode_pub_key D e = Ok (EdDSA D (ed_pub_key D ed)) /\ decode_pub_key D e' = Ok (EdDSA D (ed_pub_key D ed')) /\
      (e' = e <-> ed_pub_key D ed' = ed_pub_key D ed).
  Proof.
    intros Lp I P R I' F F'. rewrite (proj2 (pem_restores Lp P)) in R. assert (d' = d) as -> by (destruct d; cbn in *; congruence).
    assert (i' = i) as -> by congruence. split; [reflexivity|]. rewrite did_identity_eq in I. apply ok_inj in I. subst i. clear I' R. generalize (identity_text (account_pubkey (did_account d))). intros v.
    destruct (published_keys v cs Lh Lx) as [_ K]. destruct (published_keys v cs' Lh Lx) as [_ K'].
    rewrite F in K. rewrite F' in K'. rewrite to_doc_shape in K, K'. rewrite !to_doc_shape. cbn [doc_assertion] in *. rewrite F in *. rewrite F' in *. cbn [option_map entries decodes_to fst snd] in *.
    do 4 eexists. split; [reflexivity|]. split; [reflexivity|]. split; [reflexivity|]. split; [reflexivity|]. split; [exact (proj1 K)|]. split; [exact (proj1 K')|].
    split; [intros E; apply (f_equal pr_multibase) in E; cbn [pr_multibase] in E; exact (ed_text_inj E)|intros E; cbn [fst snd]; rewrite E; reflexivity].
  Qed.
End Name.
