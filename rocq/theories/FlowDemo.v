(** Concrete data for the examples of C48-C62. *)
From Verif Require Import Base BaseFacts Codec CodecFacts Json JsonParse Deps Types Keys JsonSpec FlowSpec JsonFacts JsonParseFacts Hash HashFacts Demo DemoFacts.
From Coq Require Import Lia.
Set Implicit Arguments.

(** A JSON form of a sealed key. *)
Definition demo_ks_json (k : keysecure) : json :=
  let p := ks_kdf_params k in
  JObj [(B "cipher_text", JStr (ks_cipher_text k));
        (B "kdf_params", JObj [(B "m_cost", JNum (PosInt (m_cost p)));
                               (B "output_len", match output_len p with Some n => JNum (PosInt n) | None => JNull end);
                               (B "p_cost", JNum (PosInt (p_cost p))); (B "t_cost", JNum (PosInt (t_cost p)))]);
        (B "nonce", JStr (ks_nonce k)); (B "rest", JStr (ks_rest k)); (B "salt", JStr (ks_salt k))].
Definition demo_json_ks (j : json) : option keysecure :=
  match j with
  | JObj [(_, JStr c); (_, JObj [(_, JNum (PosInt m)); (_, o); (_, JNum (PosInt p)); (_, JNum (PosInt t))]);
          (_, JStr n); (_, JStr r); (_, JStr s)] =>
    let params o' := Some {| ks_cipher_text := c; ks_kdf_params := {| m_cost := m; p_cost := p; t_cost := t; output_len := o' |};
                             ks_salt := s; ks_nonce := n; ks_rest := r |} in
    match o with JNum (PosInt l) => params (Some l) | JNull => params None | _ => None end
  | _ => None
  end.
Lemma u32_u64 n : u32 n -> (n < 2 ^ 64)%N.
Proof. unfold u32. lia. Qed.
Theorem demo_ks_json_law : ks_json_law demo demo_ks_json demo_json_ks.
Proof.
  intros [c [m p t o] s n r] (W1 & W2 & W3 & W4 & W5 & W6 & W7 & W8).
  cbn [ks_cipher_text ks_kdf_params ks_salt ks_nonce ks_rest m_cost p_cost t_cost output_len] in *. split; [destruct o; reflexivity|].
  apply u32_u64 in W5, W6, W7. unfold demo_ks_json. cbn [ks_cipher_text ks_kdf_params ks_salt ks_nonce ks_rest m_cost p_cost t_cost output_len]. split.
  - apply value_ok_obj. split; [repeat constructor|]. repeat (apply Forall_cons || apply Forall_nil); cbn [fst snd]; (split; [reflexivity|]); try assumption.
    apply value_ok_obj. split; [repeat constructor|]. repeat (apply Forall_cons || apply Forall_nil); cbn [fst snd]; (split; [reflexivity|]); try assumption.
    destruct o; [exact W8|exact I].
  - destruct o; cbn; lia.
Qed.
Lemma demo_seal_wf rnd secret pw ks : demo_seal rnd secret pw = Ok ks -> ks_wf ks.
Proof.
  unfold demo_seal. destruct (demo_kdf _ pw _) as [key|]; [|discriminate]. intros [= <-].
  unfold ks_wf. cbn [ks_cipher_text ks_kdf_params ks_salt ks_nonce ks_rest m_cost p_cost t_cost output_len opt_all].
  repeat split; apply utf8_hex.
Qed.
Theorem demo_seals_wf : seals_wf demo.
Proof. split; intros rnd k pw ks; apply demo_seal_wf. Qed.

(** The same instance with another SHA-256. *)
Definition with_sha256 (D : deps) (h : bytes -> bytes) : deps := {|
  sha256 := h; sha384 := sha384 D; blake3 := blake3 D;
  ed_pair := ed_pair D; ed_pub := ed_pub D; ed_priv := ed_priv D; ed_pub_key := ed_pub_key D; ed_priv_key := ed_priv_key D;
  ed_sign := ed_sign D; ed_verify := ed_verify D; ed_pub_bytes := ed_pub_bytes D; ed_pub_to_hex := ed_pub_to_hex D;
  ed_pub_from_hex := ed_pub_from_hex D; ed_to_pem := ed_to_pem D; ed_from_pem := ed_from_pem D;
  dh_pair := dh_pair D; dh_pub := dh_pub D; dh_pub_key := dh_pub_key D; dh_pub_to_hex := dh_pub_to_hex D;
  dh_pub_from_hex := dh_pub_from_hex D; dh_to_hex := dh_to_hex D;
  kdf := kdf D; aead_decrypt := aead_decrypt D; ks_rand := ks_rand D; ed_seal := ed_seal D; dh_seal := dh_seal D; ks_decrypt := ks_decrypt D;
  f64_text := f64_text D; f64_parse := f64_parse D; jcs_number := jcs_number D; jcs_leb := jcs_leb D; mb_other := mb_other D;
  datetime := datetime D; maddr := maddr D; multiaddr := multiaddr D; mb_error := mb_error D; mh_error := mh_error D;
  hex_error := hex_error D; utf8_error := utf8_error D; json_error := json_error D |}.
(** A hash under which every two messages collide. *)
Definition weak : deps := with_sha256 demo (fun _ => repeat x00 32).
Theorem weak_sha256_size : sha256_size weak. Proof. intros m. reflexivity. Qed.
Theorem weak_jcs_numbers : jcs_numbers weak. Proof. exact demo_jcs_numbers. Qed.
