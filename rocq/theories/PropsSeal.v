(** C81: sealed private keys opened as accounts. *)
From Verif Require Import Base Codec Deps Types Keys Doc Identity Spec IdentitySpec SealSpec SealFacts Demo DemoFacts PropsIdentity.

(** C81. The private key of an account, sealed, opens as that account ... *)
Theorem C81_account : forall D, pem_law D -> ed_seal_form D -> forall (a : account D) rnd pw ks,
  ed_seal D rnd (account_privkey a) pw = Ok ks -> account_from_keysecure D pw ks = Ok a.
Proof. exact account_seal. Qed.
Print Assumptions C81_account.
(** ... still after any number of changes of the password ... *)
Theorem C81_passwords : forall D, pem_law D -> ed_seal_form D -> forall (a : account D) changes rnd pw ks pw' ks',
  ed_seal D rnd (account_privkey a) pw = Ok ks -> resealed D pw ks changes pw' ks' -> account_from_keysecure D pw' ks' = Ok a.
Proof. exact account_reseal. Qed.
Print Assumptions C81_passwords.
(** ... and so do the sealed verification keys of an identity, slot by slot. *)
Theorem C81_slots : forall D, pem_law D -> ed_seal_form D -> forall v (cs : list (icall D)) pw r1 r2 r3 r4 ks,
  build_private_keys (irun (identity_new D v) cs) pw r1 r2 r3 r4 = Ok ks ->
  slot_opens D (ipk_authentication ks) pw (first_auth cs) /\ slot_opens D (ipk_assertion ks) pw (first_assertion cs).
Proof. exact slots_open. Qed.
Print Assumptions C81_slots.
(** Decrypting it to a PEM text and reading that gives the same account. *)
Theorem C81_both_openers : forall D, pem_law D -> forall (a : account D) rnd pw ks, ed_seal_law D ->
  ed_seal D rnd (account_privkey a) pw = Ok ks ->
  exists pem, ks_decrypt D ks pw = Ok pem /\ account_from_pem D pem = Ok a /\ build_pem a = Ok pem.
Proof. exact both_openers. Qed.
Print Assumptions C81_both_openers.
Definition opened (pw : bytes) (r : result keysecure bytes) : option bytes :=
  match r with Ok ks => match account_from_keysecure demo pw ks with Ok a => Some (acc_pair a) | Err _ => None end | Err _ => None end.
Example C81_example :
  let r : ks_rand demo := (B "salt salt", B "nonce of twenty-four byt") in
  let r' : ks_rand demo := (B "other salt", B "short") in
  pem_law demo /\ ed_seal_form demo /\ ed_seal_law demo /\
  opened (B "pw") (ed_seal demo r (account_privkey (account_new demo (B "k1"))) (B "pw")) = Some (B "k1") /\
  opened (B "no") (ed_seal demo r (account_privkey (account_new demo (B "k1"))) (B "pw")) = None /\
  (exists ks, ed_seal demo r (account_privkey (account_new demo (B "k1"))) (B "pw") = Ok ks /\
     exists ks', resealed demo (B "pw") ks [(r', B "p2"); (r, B "p3")] (B "p3") ks') /\
  is_ok (build_private_keys (irun (identity_new demo (B "did:prople:z1")) demo_calls) (B "pw") r r' r r') = true.
Proof.
  cbv zeta. split; [exact demo_pem_law|]. split; [exact demo_seal_form|]. split; [exact demo_ed_seal_law|].
  split; [vm_compute; reflexivity|]. split; [vm_compute; reflexivity|]. split; [|vm_compute; reflexivity].
  assert (S : forall rnd pw, (8 <=? length (hex_encode (fst rnd)))%nat = true -> exists ks, ed_seal demo rnd (account_privkey (account_new demo (B "k1"))) pw = Ok ks).
  { intros rnd pw L. cbn [ed_seal demo]. unfold demo_seal, demo_kdf. apply Nat.leb_le in L.
    destruct (length (hex_encode (fst rnd)) <? 8)%nat eqn:E; [apply Nat.ltb_lt in E; lia|]. eexists. reflexivity. }
  destruct (S (B "salt salt", B "nonce of twenty-four byt") (B "pw") eq_refl) as [ks Hs]. exists ks. split; [exact Hs|].
  destruct (S (B "other salt", B "short") (B "p2") eq_refl) as [k2 H2]. destruct (S (B "salt salt", B "nonce of twenty-four byt") (B "p3") eq_refl) as [k3 H3].
  exists k3. cbn [resealed]. exists (account_new demo (B "k1")), k2.
  split; [exact (account_seal demo_pem_law demo_seal_form Hs)|]. split; [exact H2|].
  exists (account_new demo (B "k1")), k3. split; [exact (account_seal demo_pem_law demo_seal_form H2)|]. split; [exact H3|]. split; reflexivity.
Qed.
