(** Proofs of C105. *)
From Verif Require Import Base BaseFacts Codec Json Deps Types Doc Did Keys KeyStore Identity Proof Vc Suite JsonSpec Spec IdentitySpec IdentityFacts DocFacts VcSpec SuiteSpec SuiteFacts FlowSpec FlowFacts MoveSpec.
Set Implicit Arguments.
Unset Strict Implicit.

Section Move.
  Variable D : deps.
  Variable ks_json : keysecure -> json.
  Variable json_ks : json -> option keysecure.
  Hypotheses (L : ks_json_law D ks_json json_ks) (Lw : seals_wf D) (Ls : ed_seal_law D) (Ld : dh_seal_law D).
  Theorem moved_turned v (cs : list (icall D)) pw r1 r2 r3 r4 ks : utf8 v -> build_private_keys (irun (identity_new D v) cs) pw r1 r2 r3 r4 = Ok ks ->
    exists t, ipk_to_json ks_json D (turned ks) = Ok (JSONValue t) /\ ipk_from_slice json_ks D t = Some (turned ks) /\
      ipk_identity (turned ks) = v /\ opens_to (ipk_authentication (turned ks)) pw (first_assertion cs) /\ opens_to (ipk_assertion (turned ks)) pw (first_auth cs).
  Proof.
    intros U H. destruct (build_wf Lw Ls Ld U H) as (W1 & W2 & W3). destruct (private_keys_open Ls Ld H) as (I & O1 & O2).
    destruct (@ipk_round_trip D _ _ L (turned ks)) as (t & T1 & T2); [repeat split; assumption|]. exists t. auto.
  Qed.
  Theorem moved_renamed v v' (cs cs' : list (icall D)) pw r1 r2 r3 r4 r1' r2' r3' r4' ks ks' : utf8 v -> utf8 v' ->
    build_private_keys (irun (identity_new D v) cs) pw r1 r2 r3 r4 = Ok ks -> build_private_keys (irun (identity_new D v') cs') pw r1' r2' r3' r4' = Ok ks' ->
    exists t, ipk_to_json ks_json D (renamed ks ks') = Ok (JSONValue t) /\ ipk_from_slice json_ks D t = Some (renamed ks ks') /\
      ipk_identity (renamed ks ks') = v /\ opens_to (ipk_authentication (renamed ks ks')) pw (first_auth cs') /\ opens_to (ipk_assertion (renamed ks ks')) pw (first_assertion cs').
  Proof.
    intros U U' H H'. destruct (build_wf Lw Ls Ld U H) as (W1 & _). destruct (build_wf Lw Ls Ld U' H') as (_ & W2 & W3).
    destruct (private_keys_open Ls Ld H) as (I & _). destruct (private_keys_open Ls Ld H') as (_ & O1 & O2).
    destruct (@ipk_round_trip D _ _ L (renamed ks ks')) as (t & T1 & T2); [repeat split; assumption|]. exists t. auto.
  Qed.
  Theorem moved_crossed v (cs : list (icall D)) pw r1 r2 r3 r4 ks ed dh p : utf8 v -> build_private_keys (irun (identity_new D v) cs) pw r1 r2 r3 r4 = Ok ks ->
    first_assertion cs = Some (ed, dh) -> ipk_assertion ks = Some p ->
    let k := {| ipk_identity := v; ipk_authentication := ipk_authentication ks; ipk_assertion := Some (crossed p) |} in
    exists t, ipk_to_json ks_json D k = Ok (JSONValue t) /\ ipk_from_slice json_ks D t = Some k /\
      decrypt_verification D (crossed p) pw = Ok (dh_to_hex D dh) /\ exists pem, ed_to_pem D (ed_priv_key D ed) = Ok pem /\ decrypt_agreement D (crossed p) pw = Ok pem.
  Proof.
    intros U H F P k. destruct (build_wf Lw Ls Ld U H) as (W1 & W2 & W3). destruct (private_keys_open Ls Ld H) as (I & _ & O). rewrite F, P in O. destruct O as [(pem & E1 & E2) E3].
    rewrite P in W3. destruct W3 as [W3 W4].
    destruct (@ipk_round_trip D _ _ L k) as (t & T1 & T2); [split; [exact U|split; [exact W2|split; assumption]]|]. exists t.
    split; [exact T1|]. split; [exact T2|]. split; [exact E3|]. exists pem. split; [exact E1|exact E2].
  Qed.
  Hypotheses (Lp : pem_law D) (Lc : ed_correct D) (Lh : ed_hex_law D) (Lx : dh_hex_law D).
  Theorem moved_signs v (cs : list (icall D)) pw r1 r2 r3 r4 ks ed dh : utf8 v -> build_private_keys (irun (identity_new D v) cs) pw r1 r2 r3 r4 = Ok ks ->
    first_auth cs = Some (ed, dh) ->
    exists stored ks' p pem a e1 e2,
      ipk_to_json ks_json D (turned ks) = Ok (JSONValue stored) /\ ipk_from_slice json_ks D stored = Some ks' /\ ipk_identity ks' = v /\
      ipk_assertion ks' = Some p /\ decrypt_verification D p pw = Ok pem /\ account_from_pem D pem = Ok a /\
      doc_authentication (to_doc (irun (identity_new D v) cs)) = Some [e1; e2] /\
      exists pk, decode_pub_key D e1 = Ok (EdDSA D pk) /\
      forall c o c', vc_wf D c -> proof_wf o -> (depth (vc_subject c) <= 126)%nat -> vc_proof c = None -> p_value o = [] ->
        add_proof D (vc_proofable D) (acc_pair a) c o = Ok c' ->
        exists t, vc_to_json D c' = Ok (JSONValue t) /\
          verify_proof D (vc_proofable D) pk t (p_purpose o) = Ok {| verified := true; document := Some c |}.
  Proof.
    intros U H F. destruct (moved_turned U H) as (t & T1 & T2 & I & _ & O). destruct (published_keys v cs Lh Lx) as [P _]. rewrite F in O, P.
    destruct (slot_usable Lp O P) as (p & pem & a & e1 & e2 & Q1 & Q2 & Q3 & Q4 & Q5 & _).
    exists t, (turned ks), p, pem, a, e1, e2. repeat (split; [assumption|]). exists (ed_pub_key D (acc_pair a)). split; [assumption|].
    intros c o c' W1 W2 W3 W4 W5 W6. exact (doc_transport (vc_doc_laws D) Lc W1 W2 W3 W4 W5 W6).
  Qed.
End Move.
