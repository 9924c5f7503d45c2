(** Lengths of sealed keys; concrete dependencies with which all laws hold at once. *)
From Coq Require Import ZArith.
From Verif Require Import Base BaseFacts Codec CodecFacts Json JsonParse Deps Types Keys KeyStore Doc Identity Proof Vc Suite JsonSpec Spec VcSpec IdentitySpec SuiteSpec MiscSpec FlowSpec JsonFacts JsonParseFacts FlowFacts DecodeSpec DecodeFacts Grammar CanonSpec CanonDemo Demo DemoFacts FlowDemo
  Float FloatSpec FloatLaws FloatWorld FloatDemo WorldSpec Time TimeSpec TimeDemo Hash HashFacts DigestSpec Bases BasesSpec BasesFacts BasesDemo Aead AeadSpec AeadFacts AeadWorld SealSpec Primes Fp Edwards Ed25519 Ed25519Spec Ed25519World Pem PemSpec PemFacts X25519Spec X25519World Argon2Spec Argon2World.
Local Opaque argon2_kdf.
From Verif Require Addr AddrDemo.
Require Import ZifyBool ZifyNat ZifyN.

Lemma ok_inj {A E} (a b : A) : Ok (E := E) a = Ok b -> a = b. Proof. congruence. Qed.
Lemma hex_length t s : hex_decode t = Some s -> length t = (2 * length s)%nat.
Proof. intros H. apply hex_decode_iff, Forall2_same in H. rewrite H. apply hex_encode_length. Qed.
Theorem sealed_length D : pkcs8 D -> xchacha D -> ed_sealed D -> exists n, (n = 368 \/ n = 376)%nat /\
  forall rnd kp pw ks, ed_seal D rnd (ed_priv_key D kp) pw = Ok ks -> length (ks_cipher_text ks) = n.
Proof.
  intros (secret & eol & Le & K & _ & W & _) X S. exists (2 * (180 + 4 * length eol))%nat. split; [destruct Le as [->| ->]; cbn; lia|]. intros rnd kp pw ks H.
  apply S in H as (pem & z & key & nonce & Tp & Hz & _ & _ & _ & c & t & rs & -> & [Lc _] & _ & d & _ & ps & _ & Lt & _). rewrite W in Tp. destruct (K kp) as [L E].
  assert (Lp : length pem = (164 + 4 * length eol)%nat).
  { rewrite E in Tp. apply (f_equal (fun r => match r with Ok x => length x | Err _ => 0%nat end)) in Tp. rewrite <- Tp. apply text_length; [exact L|apply public_length]. }
  rewrite (hex_length _ _ Hz), app_length, Lc, Lt, Lp. lia.
Qed.

(** ** Ed25519 keys in files *)
Definition lf : bytes := [x0a].
Definition crlf : bytes := [x0d; x0a].
Definition key_text (s : bytes) : bytes := pem_text lf (pkcs8_der s (secret_to_public modp s)).
Definition read_key (t : bytes) : option bytes :=
  match pem_read (secret_to_public modp) lf t with Some s => Some s | None => pem_read (secret_to_public modp) crlf t end.
Lemma other_end eol eol' der t : line_end eol -> line_end eol' -> eol <> eol' -> t = pem_text eol der -> pem_read (secret_to_public modp) eol' t = None.
Proof.
  intros L L' N E. unfold pem_read. cbv zeta. destruct (bits_decode _ _ _) as [d|]; [|reflexivity]. set (s := firstn 32 _). set (p := skipn 51 _). clearbody s p.
  destruct (bytes_eqb t (pem_text eol' (pkcs8_der s p))) eqn:Q; [|rewrite andb_false_r; reflexivity]. exfalso. apply bytes_eqb_eq in Q. rewrite Q in E.
  unfold pem_text in E. apply app_inv_head in E. destruct L as [->| ->], L' as [->| ->]; try congruence; discriminate E.
Qed.
Lemma read_key_text eol s p : line_end eol -> length s = 32%nat -> length p = 32%nat ->
  read_key (pem_text eol (pkcs8_der s p)) = if bytes_eqb p (secret_to_public modp s) then Some s else None.
Proof.
  intros L Ls Lp. unfold read_key. destruct L as [->| ->].
  - fold lf. rewrite read_text by assumption. destruct (bytes_eqb _ _); [reflexivity|]. eapply (other_end lf); [left; reflexivity|right; reflexivity|discriminate|reflexivity].
  - fold crlf. rewrite (other_end crlf lf _ _ (or_intror eq_refl) (or_introl eq_refl) ltac:(discriminate) eq_refl). apply read_text; assumption.
Qed.
Theorem files_pkcs8 D0 : pkcs8 (with_ed25519 D0 key_text read_key).
Proof.
  set (D := with_ed25519 D0 key_text read_key). exists (fun k : ed_pair D => proj1_sig (k : seed)), lf. split; [left; reflexivity|].
  split; [intros [s H]; split; [apply Nat.eqb_eq; exact H|reflexivity]|]. split; [reflexivity|]. split; [reflexivity|]. intros eol s p L Ls Lp.
  unfold D. cbn [ed_from_pem with_ed25519]. rewrite read_key_text by assumption. destruct (bytes_eqb p (secret_to_public modp s)) eqn:Q.
  - apply bytes_eqb_eq in Q. unfold to_seed. destruct (Bool.bool_dec _ _) as [H|H]; [cbn; auto|]. destruct H. apply Nat.eqb_eq. exact Ls.
  - apply bytes_eqb_neq in Q. auto.
Qed.
Lemma key_text_read s : length s = 32%nat -> utf8_valid (key_text s) = true /\ read_key (key_text s) = Some s.
Proof.
  intros L. split.
  - apply utf8_ascii. unfold key_text. destruct (pem_two lf _ (der_length s _ L (public_length s))) as (u1 & u2 & E & _ & _ & ->).
    assert (C : Forall (fun c => is_ascii c = true) (u1 ++ u2)).
    { rewrite <- E. unfold base64. cbv zeta. apply Forall_app. split; [|apply Forall_forall; intros c I; apply repeat_spec in I; subst c; reflexivity].
      eapply Forall_impl; [|exact (chars6 _ _ (encode6 _))]. intros c. apply (proj2 (plain_facts _ alphabet_plain)). }
    apply Forall_app in C as [C1 C2]. repeat (apply Forall_app; split); try exact C1; try exact C2; unfold begin_line, end_line, lf; cbn; repeat constructor.
  - unfold key_text. rewrite read_key_text; [|left; reflexivity|exact L|apply public_length]. rewrite bytes_eqb_refl. reflexivity.
Qed.

(** ** All at once *)
Definition read_stamp (t : bytes) : result Z bytes :=
  match read_time (-262143) 262142 t with Some z => Ok z | None => Err (B "input contains invalid characters") end.
Definition settled : deps := AddrDemo.with_multiaddr (with_datetime ieee_ints read_stamp) AddrDemo.nothing_else.
Definition whole : deps := with_xchacha (with_argon2 (with_x25519 (with_ed25519 (with_bases settled other_bases) key_text read_key))).
Theorem whole_argon2 : argon2 whole. Proof. exact argon2_kdf_law. Qed.
Theorem whole_rfc8032 : rfc8032 whole. Proof. exact (with_rfc8032 (with_bases settled other_bases) key_text read_key). Qed.
Theorem whole_pkcs8 : pkcs8 whole. Proof. exact (files_pkcs8 (with_bases settled other_bases)). Qed.
Theorem whole_correct : ed_correct whole. Proof. exact (rfc_ed_correct whole_rfc8032). Qed.
Theorem whole_hex : ed_hex_law whole. Proof. exact (@with_hex_law (with_bases settled other_bases) key_text read_key). Qed.
Theorem whole_bytes : ed_bytes_inj whole. Proof. exact (@with_bytes_inj (with_bases settled other_bases) key_text read_key). Qed.
Theorem whole_rfc7748 : rfc7748 whole seed_bytes. Proof. exact (with_rfc7748 (with_ed25519 (with_bases settled other_bases) key_text read_key)). Qed.
Theorem whole_dh : dh_hex_law whole. Proof. exact (rfc_dh_hex whole_rfc7748). Qed.
Theorem whole_pem : pem_law whole. Proof. exact (@with_pem_law (with_bases settled other_bases) key_text read_key key_text_read). Qed.
Theorem whole_xchacha : xchacha whole. Proof. apply with_xchacha_law. exact argon2_kdf_32. Qed.
Theorem whole_sealed : ed_sealed whole. Proof. apply with_xchacha_sealed. exact argon2_kdf_32. Qed.
Theorem whole_ieee : ieee whole. Proof. exact ints_ieee. Qed.
Theorem whole_order : jcs_order whole /\ jcs_utf16 whole. Proof. exact rfc_order. Qed.
Theorem whole_chrono : chrono (-262143) 262142 whole.
Proof. intros t. unfold whole, settled. cbn [with_datetime with_xchacha with_argon2 with_x25519 with_ed25519 with_bases AddrDemo.with_multiaddr datetime]. unfold read_stamp. destruct (read_time (-262143) 262142 t); reflexivity. Qed.
Theorem whole_multiaddr : Addr.multiaddr18 AddrDemo.nothing_else whole (fun ps => ps). Proof. exact (AddrDemo.with_multiaddr18 (with_datetime ieee_ints read_stamp) AddrDemo.nothing_else). Qed.
Theorem whole_multibase : multibase09 whole. Proof. intros t _. reflexivity. Qed.
Theorem whole_hashes : real_hashes whole. Proof. repeat split; reflexivity. Qed.
Theorem whole_sizes : sha256_size whole /\ sha384_size whole /\ blake3_size whole.
Proof. split; [exact demo_sha256_size|]. split; [exact demo_sha384_size|exact demo_blake3_size]. Qed.
(** What [lock] seals, [ks_decrypt] opens. *)
Lemma lock_opens D rnd secret pw ks : (forall kp pw salt k, kdf D kp pw salt = Ok k -> length k = 32%nat) -> lock D rnd secret pw = Ok ks ->
  ks_wf ks /\ ks_decrypt (with_xchacha D) ks pw = Ok secret.
Proof.
  intros K. unfold lock. cbv zeta. destruct (kdf D _ pw _) as [key|] eqn:E; [|discriminate]. intros H. apply ok_inj in H. subst ks. split.
  - unfold ks_wf. cbn [ks_cipher_text ks_kdf_params ks_salt ks_nonce ks_rest m_cost p_cost t_cost output_len opt_all]. repeat split; apply utf8_hex.
  - cbn [ks_decrypt with_xchacha ks_cipher_text ks_kdf_params ks_salt ks_nonce]. rewrite E, !hex_decode_encode. unfold unlock.
    rewrite (proj2 (open_iff key (nonce24 (snd rnd)) (K _ _ _ _ E) (nonce24_length _) _ secret)); [reflexivity|]. apply sealed_iff; [exact (K _ _ _ _ E)|apply nonce24_length|reflexivity].
Qed.
(** Sealing with it succeeds. *)
Lemma whole_locks rnd secret pw : (4 <= N.of_nat (length (fst rnd)) < 2 ^ 31)%N -> (N.of_nat (length pw) < 2 ^ 32)%N -> forall D, exists ks, lock (with_argon2 D) rnd secret pw = Ok ks.
Proof.
  intros R P D. unfold lock. cbv zeta. cbn [kdf with_argon2]. set (p := {| m_cost := _; p_cost := _; t_cost := _; output_len := _ |}).
  pose proof (argon2_kdf_law p pw (hex_encode (fst rnd))) as K. destruct (argon2_kdf _ pw _) as [key|e]; [eauto|]. exfalso. apply K.
  unfold costs_ok, p. cbn [m_cost p_cost t_cost output_len]. rewrite hex_encode_length. lia.
Qed.
Theorem whole_ed_seals (rnd : ks_rand whole) (k : ed_pair whole) pw : (4 <= N.of_nat (length (fst (rnd : bytes * bytes))) < 2 ^ 31)%N -> (N.of_nat (length pw) < 2 ^ 32)%N ->
  exists ks, ed_seal whole rnd (ed_priv_key whole k) pw = Ok ks.
Proof. intros R P. exact (whole_locks rnd (key_text (proj1_sig k)) pw R P _). Qed.
Theorem whole_ed_seal : ed_seal_law whole.
Proof.
  intros rnd sk pw ks. unfold whole. cbn [ed_seal ed_to_pem with_xchacha with_argon2 with_x25519 with_ed25519]. intros H. apply lock_opens in H as [_ H]; [|exact argon2_kdf_32]. eexists. split; [reflexivity|exact H].
Qed.
Theorem whole_dh_seal : dh_seal_law whole.
Proof. intros rnd sk pw ks. unfold whole. cbn [dh_seal dh_to_hex with_xchacha with_argon2 with_x25519]. intros H. apply lock_opens in H as [_ H]; [exact H|exact argon2_kdf_32]. Qed.
Theorem whole_seals : seals_wf whole.
Proof.
  split; intros rnd sk pw ks; unfold whole; cbn [ed_seal dh_seal ed_to_pem with_xchacha with_argon2 with_x25519 with_ed25519]; intros H; apply lock_opens in H as [H _]; (exact H || exact argon2_kdf_32).
Qed.
Theorem whole_ks_json : ks_json_law whole demo_ks_json demo_json_ks.
Proof.
  intros k W. destruct (demo_ks_json_law W) as (H1 & _ & H3). split; [exact H1|]. split; [|exact H3]. destruct k as [c [m p t o] s n r]. destruct W as (W1 & W2 & W3 & W4 & W5 & W6 & W7 & W8).
  cbn [ks_cipher_text ks_kdf_params ks_salt ks_nonce ks_rest m_cost p_cost t_cost output_len] in *.
  apply u32_u64 in W5, W6, W7. unfold demo_ks_json. cbn [ks_cipher_text ks_kdf_params ks_salt ks_nonce ks_rest m_cost p_cost t_cost output_len].
  apply value_ok_obj. split; [repeat constructor|]. repeat (apply Forall_cons || apply Forall_nil); cbn [fst snd]; (split; [reflexivity|]); try assumption.
  apply value_ok_obj. split; [repeat constructor|]. repeat (apply Forall_cons || apply Forall_nil); cbn [fst snd]; (split; [reflexivity|]); try assumption.
  destruct o; [exact W8|exact I].
Qed.
