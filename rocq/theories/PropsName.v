(** C106: one name, several keys. *)
From Verif Require Import Base Codec Json Deps Types Doc Did Keys Identity JsonSpec Spec IdentitySpec NameSpec NameFacts Demo DemoFacts PropsIdentity.

(** C106. Published documents of one identity value are the same exactly when the public keys in them are. *)
Theorem C106_same_document : forall D, ed_hex_law D -> dh_hex_law D -> forall v (cs cs' : list (icall D)),
  to_doc (irun (identity_new D v) cs) = to_doc (irun (identity_new D v) cs') <->
  same_public D (first_auth cs) (first_auth cs') /\ same_public D (first_assertion cs) (first_assertion cs').
Proof. exact doc_same. Qed.
Print Assumptions C106_same_document.
(** "The name of a verification method stands for one key" is false: a backup restores the account and so the DID, but methods are generated
    anew. The restored identity publishes under the same DID and the same name whatever key is generated for it; the two entries
    are equal only if the two generated keys are. *)
Theorem C106_restored_refuted : forall D, ed_hex_law D -> dh_hex_law D ->
  forall (d : did D) i pem d' i' (cs cs' : list (icall D)) ed dh ed' dh', pem_law D ->
  did_identity d = Ok i -> build_pem (did_account d) = Ok pem -> did_from_pem D pem = Ok d' -> did_identity d' = Ok i' ->
  first_assertion cs = Some (ed, dh) -> first_assertion cs' = Some (ed', dh') ->
  id_value i' = id_value i /\
  exists e f e' f', doc_assertion (to_doc (irun i cs)) = Some [e; f] /\ doc_assertion (to_doc (irun i' cs')) = Some [e'; f'] /\
    pr_id e' = pr_id e /\ pr_controller e' = pr_controller e /\
    decode_pub_key D e = Ok (EdDSA D (ed_pub_key D ed)) /\ decode_pub_key D e' = Ok (EdDSA D (ed_pub_key D ed')) /\
    (e' = e <-> ed_pub_key D ed' = ed_pub_key D ed).
Proof. exact restored_names. Qed.
Print Assumptions C106_restored_refuted.
(** A DID restored from its backup publishes another key under the same name. *)
Definition demo_recalls : list (icall demo) := [ @CallAssertion (ed_pair demo) (dh_pair demo) (B "e5") (B "d5") ].
Definition assertion_of (i : result (identity demo) did_error) (cs : list (icall demo)) : option (bytes * bytes) :=
  match i with Ok i => match doc_assertion (to_doc (irun i cs)) with Some (e :: _) => Some (pr_id e, pr_multibase e) | _ => None end | Err _ => None end.
Example C106_example :
  ed_hex_law demo /\ dh_hex_law demo /\ pem_law demo /\
  first_assertion demo_calls = Some (B "e1", B "d1") /\ first_assertion demo_recalls = Some (B "e5", B "d5") /\
  let d := did_new demo (B "secret") in
  match build_pem (did_account d) with
  | Ok pem =>
    match did_from_pem demo pem with
    | Ok d' =>
      match assertion_of (did_identity d) demo_calls, assertion_of (did_identity d') demo_recalls with
      | Some (n, k), Some (n', k') => n = n' /\ bytes_eqb k k' = false
      | _, _ => False
      end
    | Err _ => False
    end
  | Err _ => False
  end.
Proof.
  split; [exact demo_ed_hex|]. split; [exact demo_dh_hex|]. split; [exact demo_pem_law|]. do 2 (split; [reflexivity|]).
  vm_compute. split; reflexivity.
Qed.
