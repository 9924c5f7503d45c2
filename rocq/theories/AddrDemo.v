(** Concrete dependencies for C98. *)
From Verif Require Import Base Deps Demo Addr.

(** [D] with multiaddr's addresses. *)
Definition with_multiaddr (D : deps) (rest : bytes -> reader) : deps := {|
  sha256 := sha256 D; sha384 := sha384 D; blake3 := blake3 D;
  ed_pair := ed_pair D; ed_pub := ed_pub D; ed_priv := ed_priv D; ed_pub_key := ed_pub_key D; ed_priv_key := ed_priv_key D;
  ed_sign := ed_sign D; ed_verify := ed_verify D; ed_pub_bytes := ed_pub_bytes D; ed_pub_to_hex := ed_pub_to_hex D;
  ed_pub_from_hex := ed_pub_from_hex D; ed_to_pem := ed_to_pem D; ed_from_pem := ed_from_pem D;
  dh_pair := dh_pair D; dh_pub := dh_pub D; dh_pub_key := dh_pub_key D; dh_pub_to_hex := dh_pub_to_hex D;
  dh_pub_from_hex := dh_pub_from_hex D; dh_to_hex := dh_to_hex D;
  kdf := kdf D; aead_decrypt := aead_decrypt D; ks_rand := ks_rand D; ed_seal := ed_seal D; dh_seal := dh_seal D; ks_decrypt := ks_decrypt D;
  f64_text := f64_text D; f64_parse := f64_parse D; jcs_number := jcs_number D; jcs_leb := jcs_leb D; mb_other := mb_other D;
  datetime := datetime D; maddr := list protocol;
  multiaddr := fun t => match read_addr rest t with Some ps => Ok ps | None => Err (B "invalid multiaddr") end;
  mb_error := mb_error D; mh_error := mh_error D;
  hex_error := hex_error D; utf8_error := utf8_error D; json_error := json_error D |}.
(** No other protocols. *)
Definition nothing_else (_ : bytes) : reader := Unknown.
Definition placed : deps := with_multiaddr demo nothing_else.
Theorem with_multiaddr18 D rest : multiaddr18 rest (with_multiaddr D rest) (fun ps => ps).
Proof. intros t. cbn [with_multiaddr multiaddr]. destruct (read_addr rest t); reflexivity. Qed.
