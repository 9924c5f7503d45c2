(** Agreement keys of the crate under RFC 7748, and dependencies that meet it. *)
From Coq Require Import ZArith.
From Verif Require Import Base BaseFacts Codec CodecFacts Json JsonParse Hash Deps Types Keys Doc Identity Spec JsonSpec IdentitySpec IdentityFacts DocFacts Demo DemoFacts
  Ed25519 Ed25519Spec Ed25519World X25519 X25519Spec X25519Facts.
Set Implicit Arguments.
Local Opaque x25519_public x25519.

Section World.
  Variables (D : deps) (secret : dh_pair D -> bytes).
  Hypothesis R : rfc7748 D secret.
  Lemma hex_inj a b : hex_encode a = hex_encode b -> a = b.
  Proof. intros E. apply (f_equal hex_decode) in E. rewrite !hex_decode_encode in E. congruence. Qed.
  Theorem rfc_dh_hex : dh_hex_law D.
  Proof.
    destruct R as (_ & R2 & _ & R4). intros k. destruct (R2 k) as (b & L & E). split; [rewrite E; apply utf8_hex|]. apply R4. exists b. rewrite E, hex_decode_encode. auto.
  Qed.
  Theorem rfc_party v (cs : list (icall D)) w pw r1 r2 r3 r4 ks ed dh : ed_hex_law D -> ed_seal_law D -> dh_seal_law D -> utf8 v ->
    build_private_keys (irun (identity_new D v) cs) pw r1 r2 r3 r4 = Ok ks -> generated w cs = Some (ed, dh) ->
    length (secret dh) = 32%nat /\ party v cs w pw ks (secret dh) (x25519_public (secret dh)).
  Proof.
    intros Lh Ls Ld U Hk G. destruct R as (R1 & _). destruct (R1 dh) as (L & S & P). split; [exact L|].
    destruct (doc_round_trip D (identity_doc_wf cs U)) as (t & E & F).
    destruct (private_keys_open Ls Ld Hk) as (_ & O1 & O2). destruct (published_keys v cs Lh rfc_dh_hex) as [P1 P2].
    assert (X : forall o l, opens_to (D := D) o pw (Some (ed, dh)) -> decodes_to (D := D) l (Some (ed, dh)) ->
      exists x e k p, l = Some [x; e] /\ decode_pub_key D e = Ok (ECDH D k) /\ dh_pub_to_hex D k = hex_encode (x25519_public (secret dh)) /\
        o = Some p /\ decrypt_agreement D p pw = Ok (hex_encode (secret dh))).
    { intros [p|] l; [|intros []]. destruct l as [[|x [|e [|y l]]]|]; unfold opens_to, decodes_to; intros [_ O]; try (intros []; fail). intros [_ Q]. rewrite S in O. exists x, e, (dh_pub_key D dh), p. auto. }
    exists t, (to_doc (irun (identity_new D v) cs)). destruct w; cbn [generated] in G; rewrite G in *.
    - destruct (X _ _ O1 P1) as (x & e & k & p & H1 & H2 & H3 & H4 & H5). exists x, e, k, p. auto 10.
    - destruct (X _ _ O2 P2) as (x & e & k & p & H1 & H2 & H3 & H4 & H5). exists x, e, k, p. auto 10.
  Qed.
  Theorem rfc_agreement : ed_hex_law D -> ed_seal_law D -> dh_seal_law D ->
    forall v (cs : list (icall D)) w pw r1 r2 r3 r4 ks v' (cs' : list (icall D)) w' pw' r1' r2' r3' r4' ks',
    utf8 v -> generated w cs <> None -> build_private_keys (irun (identity_new D v) cs) pw r1 r2 r3 r4 = Ok ks ->
    utf8 v' -> generated w' cs' <> None -> build_private_keys (irun (identity_new D v') cs') pw' r1' r2' r3' r4' = Ok ks' ->
    exists s b s' b' z, party v cs w pw ks s b /\ party v' cs' w' pw' ks' s' b' /\
      public_of s b /\ public_of s' b' /\ (forall x, common s b' x <-> x = z) /\ (forall x, common s' b x <-> x = z) /\ z <> zeros.
  Proof.
    intros Lh Ls Ld v cs w pw r1 r2 r3 r4 ks v' cs' w' pw' r1' r2' r3' r4' ks' U G K U' G' K'.
    destruct (generated w cs) as [[ed dh]|] eqn:E; [clear G|congruence]. destruct (generated w' cs') as [[ed' dh']|] eqn:E'; [clear G'|congruence].
    destruct (@rfc_party v cs w pw r1 r2 r3 r4 ks ed dh Lh Ls Ld U K E) as [L P]. destruct (@rfc_party v' cs' w' pw' r1' r2' r3' r4' ks' ed' dh' Lh Ls Ld U' K' E') as [L' P'].
    exists (secret dh), (x25519_public (secret dh)), (secret dh'), (x25519_public (secret dh')), (x25519 modp (secret dh) (x25519_public (secret dh'))).
    split; [exact P|]. split; [exact P'|]. split; [apply public_iff; auto|]. split; [apply public_iff; auto|].
    destruct (public_names (secret dh)) as [A NA]. destruct (public_names (secret dh')) as [A' NA'].
    split; [|split].
    - intros x. rewrite (common_iff (secret dh) (x25519_public (secret dh')) A' x NA'). tauto.
    - intros x. rewrite (common_iff (secret dh') (x25519_public (secret dh)) A x NA), (common_secret (secret dh) (secret dh')). tauto.
    - apply honest_nonzero.
  Qed.
  Lemma rfc_reads b id c : length b = 32%nat -> exists k,
    decode_pub_key D {| pr_id := id; pr_controller := c; pr_type := B "X25519KeyAgreementKey2020"; pr_multibase := mb_encode58 (hex_encode b) |} = Ok (ECDH D k) /\
    dh_pub_to_hex D k = hex_encode b.
  Proof.
    intros L. destruct R as (_ & _ & R3 & _). destruct (R3 b L) as (k & E). exists k. split; [|exact E]. rewrite <- E. exact (decode_agreement _ _ _ rfc_dh_hex).
  Qed.
  Theorem rfc_weak b id c : weak_agreement_key b -> exists k,
    decode_pub_key D {| pr_id := id; pr_controller := c; pr_type := B "X25519KeyAgreementKey2020"; pr_multibase := mb_encode58 (hex_encode b) |} = Ok (ECDH D k) /\
    dh_pub_to_hex D k = hex_encode b /\ forall s z, length s = 32%nat -> (common s b z <-> z = zeros).
  Proof.
    intros W. destruct (W) as (P & [L _] & _). destruct (rfc_reads b id c L) as (k & H1 & H2). exists k. split; [exact H1|]. split; [exact H2|].
    intros s z. exact (weak_common b s z W).
  Qed.
  Theorem rfc_alias b P id c : names_point b P -> exists b' k k',
    decode_pub_key D {| pr_id := id; pr_controller := c; pr_type := B "X25519KeyAgreementKey2020"; pr_multibase := mb_encode58 (hex_encode b) |} = Ok (ECDH D k) /\
    decode_pub_key D {| pr_id := id; pr_controller := c; pr_type := B "X25519KeyAgreementKey2020"; pr_multibase := mb_encode58 (hex_encode b') |} = Ok (ECDH D k') /\
    dh_pub_to_hex D k = hex_encode b /\ dh_pub_to_hex D k' = hex_encode b' /\ k <> k' /\ forall s z, common s b z <-> common s b' z.
  Proof.
    intros N. destruct (flip_names b P N) as [N' Ne]. destruct (rfc_reads b id c (proj1 N)) as (k & H1 & H2). destruct (rfc_reads (flip b) id c (proj1 N')) as (k' & H1' & H2').
    exists (flip b), k, k'. do 4 (split; [assumption|]). split.
    - intros ->. apply Ne, hex_inj. congruence.
    - intros s z. exact (names_common b (flip b) P s z N N').
  Qed.
End World.

(** Key pairs are secrets of 32 bytes, public keys any 32 bytes. *)
Lemma x25519_length secret : Nat.eqb (length (x25519_public secret)) 32 = true.
Proof. apply Nat.eqb_eq. destruct (public_names secret) as (P & L & _). exact L. Qed.
Definition with_x25519 (D : deps) : deps := {|
  sha256 := sha256 D; sha384 := sha384 D; blake3 := blake3 D;
  ed_pair := ed_pair D; ed_pub := ed_pub D; ed_priv := ed_priv D; ed_pub_key := ed_pub_key D; ed_priv_key := ed_priv_key D;
  ed_sign := ed_sign D; ed_verify := ed_verify D; ed_pub_bytes := ed_pub_bytes D; ed_pub_to_hex := ed_pub_to_hex D;
  ed_pub_from_hex := ed_pub_from_hex D; ed_to_pem := ed_to_pem D; ed_from_pem := ed_from_pem D;
  dh_pair := seed; dh_pub := seed; dh_pub_key := fun k => exist _ (x25519_public (proj1_sig k)) (x25519_length _);
  dh_pub_to_hex := fun k => hex_encode (proj1_sig k);
  dh_pub_from_hex := fun h => match hex_decode h with Some b => to_seed b | None => None end; dh_to_hex := fun k => hex_encode (proj1_sig k);
  kdf := kdf D; aead_decrypt := aead_decrypt D; ks_rand := bytes * bytes;
  ed_seal := fun rnd k pw => match ed_to_pem D k with Ok pem => demo_seal rnd pem pw | Err e => Err e end;
  dh_seal := fun rnd k pw => demo_seal rnd (hex_encode (proj1_sig k)) pw; ks_decrypt := demo_open;
  f64_text := f64_text D; f64_parse := f64_parse D; jcs_number := jcs_number D; jcs_leb := jcs_leb D; mb_other := mb_other D;
  datetime := datetime D; maddr := maddr D; multiaddr := multiaddr D; mb_error := mb_error D; mh_error := mh_error D;
  hex_error := hex_error D; utf8_error := utf8_error D; json_error := json_error D
|}.
Definition seed_bytes (k : seed) : bytes := proj1_sig k.
Lemma seed_length (k : seed) : length (seed_bytes k) = 32%nat.
Proof. destruct k as [s H]. apply Nat.eqb_eq. exact H. Qed.
Theorem with_rfc7748 D : rfc7748 (with_x25519 D) seed_bytes.
Proof.
  split; [intros kp; split; [apply seed_length|]; split; reflexivity|]. split; [intros k; exists (seed_bytes k); split; [apply seed_length|reflexivity]|]. split.
  - intros b L. apply Nat.eqb_eq in L. exists (exist _ b L). reflexivity.
  - intros h k. cbn [dh_pub_from_hex dh_pub_to_hex with_x25519]. split.
    + destruct (hex_decode h) as [b|] eqn:E; [|discriminate]. unfold to_seed. destruct (Bool.bool_dec _ _) as [H|H]; [|discriminate]. intros Q. exists b. split; [reflexivity|].
      split; [apply Nat.eqb_eq; exact H|]. injection Q as Q. subst k. reflexivity.
    + intros (b & -> & L & E). apply hex_inj in E. rewrite <- E. apply to_seed_eq.
Qed.
Theorem with_x_ed_seal D : ed_seal_law (with_x25519 D).
Proof.
  intros rnd sk pw ks. cbn [ed_seal ed_to_pem ks_decrypt with_x25519]. destruct (ed_to_pem D sk) as [pem|]; [|discriminate]. intros H. exists pem. split; [reflexivity|].
  exact (demo_open_seal _ _ _ _ H).
Qed.
Theorem with_x_dh_seal D : dh_seal_law (with_x25519 D).
Proof. intros rnd sk pw ks H. exact (demo_open_seal _ _ _ _ H). Qed.
