(** Consequences of [xchacha] for accounts, and concrete dependencies that seal with XChaCha20-Poly1305. *)
From Coq Require Import Lia.
From Verif Require Import Base BaseFacts Codec CodecFacts Deps Types Keys IdentityFacts SealSpec Demo DemoFacts Hash HashFacts DigestFacts Aead AeadSpec AeadFacts.
Set Implicit Arguments.
Local Open Scope N_scope.

Section World.
  Variable D : deps.
  Hypothesis X : xchacha D.
  Lemma decrypt_sealed key nonce cipher pem : length key = 32%nat -> length nonce = 24%nat ->
    aead_decrypt D key nonce cipher = Ok pem <-> sealed key nonce pem cipher.
  Proof.
    intros K M. rewrite <- (open_iff _ _ K M). pose proof (proj2 X key nonce cipher K M) as H. destruct (xchacha_open key nonce cipher) as [m|].
    - rewrite H. split; [now intros [= ->]|now intros [= ->]].
    - destruct H as [e H]. rewrite H. split; discriminate.
  Qed.
  Theorem opens_sealed pw ks (a : account D) : account_from_keysecure D pw ks = Ok a <->
    exists cipher key nonce pem,
      hex_decode (ks_cipher_text ks) = Some cipher /\ kdf D (ks_kdf_params ks) pw (ks_salt ks) = Ok key /\
      hex_decode (ks_nonce ks) = Some nonce /\ length nonce = 24%nat /\
      sealed key nonce pem cipher /\ utf8_valid pem = true /\ ed_from_pem D pem = Ok (acc_pair a).
  Proof.
    rewrite keysecure_open. split; intros (c & k & n & pem & H1 & H2 & H3 & H4 & H5 & H6); exists c, k, n, pem; repeat (split; [assumption|]);
      (split; [|exact H6]); pose proof (proj1 X _ _ _ _ H2); now apply decrypt_sealed.
  Qed.
  Theorem sealed_form : ed_sealed D -> ed_seal_form D.
  Proof.
    intros S rnd sk pw ks H. destruct (S _ _ _ _ H) as (pem & c & k & n & H1 & H2 & H3 & H4 & H5 & H6). exists pem, c, k, n. repeat (split; [assumption|]).
    apply decrypt_sealed; [exact (proj1 X _ _ _ _ H3)|exact H5|exact H6].
  Qed.
  Lemma opened_authentic pw ks (a : account D) c t key nonce : account_from_keysecure D pw ks = Ok a ->
    kdf D (ks_kdf_params ks) pw (ks_salt ks) = Ok key -> hex_decode (ks_nonce ks) = Some nonce ->
    hex_decode (ks_cipher_text ks) = Some (c ++ t) -> length t = 16%nat ->
    length key = 32%nat /\ length nonce = 24%nat /\ forall rs, onetime_from key nonce rs -> authentic rs c t.
  Proof.
    intros O K N C T. apply opens_sealed in O as (z & k & n & pem & H1 & H2 & H3 & H4 & H5 & _).
    rewrite C in H1. injection H1 as <-. rewrite K in H2. injection H2 as <-. rewrite N in H3. injection H3 as <-.
    pose proof (proj1 X _ _ _ _ K) as LK. split; [exact LK|]. split; [exact H4|]. intros rs R.
    destruct H5 as (c' & t' & rs' & E & _ & R' & A). apply onetime_from_iff in R, R'; try assumption. subst rs rs'.
    assert (T' : length t' = 16%nat) by (destruct A as (d & _ & ps & _ & L & _); exact L).
    assert (L : length c = length c') by (apply (f_equal (@length byte)) in E; rewrite !app_length in E; lia).
    apply app_eq_length in E as [-> ->]; [exact A|exact L].
  Qed.
End World.
Theorem tampered c t c' t' : c <> c' -> N.of_nat (length c) < 2 ^ 64 -> N.of_nat (length c') < 2 ^ 64 -> length t = 16%nat -> length t' = 16%nat ->
  exists keys, (length keys <= 8 * Nat.max (text_blocks c) (text_blocks c'))%nat /\
    forall D pw ks ks' (a a' : account D) key nonce rs, xchacha D -> same_lock ks ks' ->
      hex_decode (ks_cipher_text ks) = Some (c ++ t) -> hex_decode (ks_cipher_text ks') = Some (c' ++ t') ->
      kdf D (ks_kdf_params ks) pw (ks_salt ks) = Ok key -> hex_decode (ks_nonce ks) = Some nonce -> onetime_from key nonce rs ->
      account_from_keysecure D pw ks = Ok a -> account_from_keysecure D pw ks' = Ok a' -> In rs keys.
Proof.
  intros NE L L' T T'. destruct (@authentic_few c t c' t' NE L L') as (keys & B & H). exists keys. split; [exact B|].
  intros D pw ks ks' a a' key nonce rs X (S1 & S2 & S3) C C' K N R O O'. apply H.
  - exact (onetime_from_key _ _ _ R).
  - exact (proj2 (proj2 (@opened_authentic D X _ _ _ _ _ _ _ O K N C T)) rs R).
  - rewrite <- S1, <- S2 in K. rewrite <- S3 in N. exact (proj2 (proj2 (@opened_authentic D X _ _ _ _ _ _ _ O' K N C' T')) rs R).
Qed.
Theorem retagged D pw ks ks' (a : account D) c t t' : xchacha D -> same_lock ks ks' -> t <> t' ->
  hex_decode (ks_cipher_text ks) = Some (c ++ t) -> length t = 16%nat -> hex_decode (ks_cipher_text ks') = Some (c ++ t') -> length t' = 16%nat ->
  account_from_keysecure D pw ks = Ok a -> exists e, account_from_keysecure D pw ks' = Err e.
Proof.
  intros X (S1 & S2 & S3) NE C T C' T' O. destruct (account_from_keysecure D pw ks') as [a'|e] eqn:O'; [|eauto]. destruct NE.
  pose proof O as O0. apply (opens_sealed X) in O0 as (z & key & nonce & pem & _ & K & N & LN & (_ & _ & rs & _ & _ & R & _) & _).
  pose proof (proj2 (proj2 (@opened_authentic D X _ _ _ _ _ _ _ O K N C T)) rs R) as A. rewrite <- S1, <- S2 in K. rewrite <- S3 in N.
  pose proof (proj2 (proj2 (@opened_authentic D X _ _ _ _ _ _ _ O' K N C' T')) rs R) as A'. exact (authentic_one _ _ _ _ A A').
Qed.

(** Dependencies that seal with XChaCha20-Poly1305, under the password hash of [D]. *)
Definition lock (D : deps) (rnd : bytes * bytes) (secret pw : bytes) : result keysecure bytes :=
  let p := {| m_cost := 19456; p_cost := 1; t_cost := 2; output_len := Some 32 |} in
  let salt := hex_encode (fst rnd) in
  match kdf D p pw salt with
  | Ok key => Ok {| ks_cipher_text := hex_encode (xchacha_seal key (nonce24 (snd rnd)) secret);
                    ks_kdf_params := p; ks_salt := salt; ks_nonce := hex_encode (nonce24 (snd rnd));
                    ks_rest := B "xchacha20poly1305" |}
  | Err e => Err e
  end.
Definition unlock (key nonce c : bytes) : result bytes bytes := match xchacha_open key nonce c with Some m => Ok m | None => Err (B "aead") end.
Definition with_xchacha (D : deps) : deps := {|
  sha256 := sha256 D; sha384 := sha384 D; blake3 := blake3 D;
  ed_pair := ed_pair D; ed_pub := ed_pub D; ed_priv := ed_priv D; ed_pub_key := ed_pub_key D; ed_priv_key := ed_priv_key D;
  ed_sign := ed_sign D; ed_verify := ed_verify D; ed_pub_bytes := ed_pub_bytes D; ed_pub_to_hex := ed_pub_to_hex D;
  ed_pub_from_hex := ed_pub_from_hex D; ed_to_pem := ed_to_pem D; ed_from_pem := ed_from_pem D;
  dh_pair := dh_pair D; dh_pub := dh_pub D; dh_pub_key := dh_pub_key D; dh_pub_to_hex := dh_pub_to_hex D;
  dh_pub_from_hex := dh_pub_from_hex D; dh_to_hex := dh_to_hex D;
  kdf := kdf D; aead_decrypt := unlock; ks_rand := bytes * bytes;
  ed_seal := fun rnd k pw => match ed_to_pem D k with Ok pem => lock D rnd pem pw | Err e => Err (B "PEM") end;
  dh_seal := fun rnd k pw => lock D rnd (dh_to_hex D k) pw;
  ks_decrypt := fun ks pw =>
    match kdf D (ks_kdf_params ks) pw (ks_salt ks), hex_decode (ks_nonce ks), hex_decode (ks_cipher_text ks) with
    | Ok key, Some nonce, Some c => unlock key nonce c
    | _, _, _ => Err (B "cannot open")
    end;
  f64_text := f64_text D; f64_parse := f64_parse D; jcs_number := jcs_number D; jcs_leb := jcs_leb D; mb_other := mb_other D;
  datetime := datetime D; maddr := maddr D; multiaddr := multiaddr D; mb_error := mb_error D; mh_error := mh_error D;
  hex_error := hex_error D; utf8_error := utf8_error D; json_error := json_error D
|}.
Lemma nonce24_length s : length (nonce24 s) = 24%nat.
Proof. unfold nonce24. rewrite firstn_length, app_length, repeat_length. lia. Qed.
Section Instance.
  Variable D : deps.
  Hypothesis K : forall kp pw salt k, kdf D kp pw salt = Ok k -> length k = 32%nat.
  Theorem with_xchacha_law : xchacha (with_xchacha D).
  Proof.
    split; [exact K|]. intros key nonce c _ _. cbn [aead_decrypt with_xchacha]. unfold unlock. destruct (xchacha_open key nonce c); eauto.
  Qed.
  Theorem with_xchacha_sealed : ed_sealed (with_xchacha D).
  Proof.
    intros rnd sk pw ks. cbn [ed_seal ed_to_pem kdf with_xchacha]. destruct (ed_to_pem D sk) as [pem|]; [|discriminate]. unfold lock. cbv zeta.
    destruct (kdf D _ pw _) as [key|] eqn:E; [|discriminate]. intros [= <-]. cbn [ks_cipher_text ks_kdf_params ks_salt ks_nonce].
    exists pem, (xchacha_seal key (nonce24 (snd rnd)) pem), key, (nonce24 (snd rnd)). split; [reflexivity|]. rewrite !hex_decode_encode.
    split; [reflexivity|]. split; [exact E|]. split; [reflexivity|]. split; [apply nonce24_length|].
    apply sealed_iff; [exact (K _ _ _ E)|apply nonce24_length|reflexivity].
  Qed.
End Instance.
Definition locked : deps := with_xchacha demo.
Lemma demo_kdf_32 kp pw salt k : kdf demo kp pw salt = Ok k -> length k = 32%nat.
Proof. cbn [kdf demo]. unfold demo_kdf. destruct (_ <? _)%nat; [discriminate|]. intros [= <-]. apply real_sha256_size. Qed.
Theorem locked_xchacha : xchacha locked. Proof. exact (@with_xchacha_law demo demo_kdf_32). Qed.
Theorem locked_sealed : ed_sealed locked. Proof. exact (@with_xchacha_sealed demo demo_kdf_32). Qed.
