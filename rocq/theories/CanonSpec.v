(** Specification vocabulary of C69-C71: what becomes of numbers written in a text, and RFC 8785's member order. *)
From Verif Require Import Base Codec Json Deps Types Proof Vc MiscSpec JsonSpec Grammar SuiteSpec.
Set Implicit Arguments.

(** ** Numbers in texts (C69, C70) *)
(** The text [num n] of a number is a JSON number whose meaning is [n']. *)
Definition reads_as (num : number -> bytes) (f64 : bytes -> option N) (n n' : number) : Prop :=
  exists neg i f e, int_ok i /\ frac_ok f /\ exp_ok e /\ num n = number_text neg i f e /\ number_of f64 neg i f e = Some n'.
(** The same value with other numbers, related by [R]. *)
Inductive renumbered (R : number -> number -> Prop) : json -> json -> Prop :=
| RNull : renumbered R JNull JNull
| RBool b : renumbered R (JBool b) (JBool b)
| RNum n n' : R n n' -> renumbered R (JNum n) (JNum n')
| RStr s : renumbered R (JStr s) (JStr s)
| RArr l l' : Forall2 (renumbered R) l l' -> renumbered R (JArr l) (JArr l')
| RObj m m' : Forall2 (fun kv kv' => fst kv = fst kv' /\ renumbered R (snd kv) (snd kv')) m m' -> renumbered R (JObj m) (JObj m').
(** The same credential or presentation with other numbers in the subjects. *)
Definition with_subject (v : vc) (j : json) : vc :=
  {| vc_contexts := vc_contexts v; vc_types := vc_types v; vc_subject := j; vc_proof := vc_proof v; vc_id := vc_id v; vc_issuer := vc_issuer v |}.
Definition vc_renumbered (R : number -> number -> Prop) (v w : vc) : Prop :=
  exists j, renumbered R (vc_subject v) j /\ w = with_subject v j.
Definition vp_renumbered (R : number -> number -> Prop) (v w : vp) : Prop :=
  exists cs, Forall2 (vc_renumbered R) (vp_credentials v) cs /\
    w = {| vp_contexts := vp_contexts v; vp_types := vp_types v; vp_credentials := cs; vp_proof := vp_proof v; vp_holder := vp_holder v |}.
(** How serde_json's text of a number reads, and how the canonical text does. *)
Definition json_reads (D : deps) : number -> number -> Prop := reads_as (serde_number (f64_text D)) (f64_parse D).
Definition jcs_reads (D : deps) : number -> number -> Prop := reads_as (jcs_number D) (f64_parse D).
(** Every float is written as a number the parser accepts; which number is another matter. *)
Definition floats_written (D : deps) : Prop := forall b, exists n, json_reads D (Float b) n.
(** Integers of the Rust types; any float. *)
Definition in_range (n : number) : Prop :=
  match n with PosInt n => (n < 2 ^ 64)%N | NegInt m => m <> 0%N /\ (m <= 2 ^ 63)%N | Float _ => True end.
(** Canonical number texts are JSON numbers, and the number read has the same canonical text. *)
Definition jcs_stable (D : deps) : Prop :=
  forall n, in_range n -> exists n', jcs_reads D n n' /\ jcs_number D n' = jcs_number D n.

(** ** RFC 8785's member order (C71) *)
(** UTF-16 code units of a character (RFC 2781, section 2.1), and of a text. *)
Definition code_units (c : N) : list N :=
  (if c <? 65536 then [c] else [55296 + (c - 65536) / 1024; 56320 + (c - 65536) mod 1024])%N.
Definition utf16 (s : bytes) (u : list N) : Prop :=
  exists cs, Forall scalar cs /\ map Byte.to_N s = flat_map char_bytes cs /\ u = flat_map code_units cs.
Fixpoint lex_le (a b : list N) : Prop :=
  match a, b with
  | [], _ => True
  | _, [] => False
  | x :: a', y :: b' => (x < y)%N \/ (x = y /\ lex_le a' b')
  end.
(** Names in the order of their code units (RFC 8785, section 3.2.3). *)
Definition name_le (a b : bytes) : Prop := exists ua ub, utf16 a ua /\ utf16 b ub /\ lex_le ua ub.
Definition jcs_utf16 (D : deps) : Prop := forall a b, utf8 a -> utf8 b -> (jcs_leb D a b = true <-> name_le a b).
(** The dependencies with another float parser, other canonical number texts and another member order. *)
Definition with_texts (D : deps) (parse : bytes -> option N) (num : number -> bytes) (leb : bytes -> bytes -> bool) : deps := {|
  sha256 := sha256 D; sha384 := sha384 D; blake3 := blake3 D;
  ed_pair := ed_pair D; ed_pub := ed_pub D; ed_priv := ed_priv D; ed_pub_key := ed_pub_key D; ed_priv_key := ed_priv_key D;
  ed_sign := ed_sign D; ed_verify := ed_verify D; ed_pub_bytes := ed_pub_bytes D; ed_pub_to_hex := ed_pub_to_hex D;
  ed_pub_from_hex := ed_pub_from_hex D; ed_to_pem := ed_to_pem D; ed_from_pem := ed_from_pem D;
  dh_pair := dh_pair D; dh_pub := dh_pub D; dh_pub_key := dh_pub_key D; dh_pub_to_hex := dh_pub_to_hex D;
  dh_pub_from_hex := dh_pub_from_hex D; dh_to_hex := dh_to_hex D;
  kdf := kdf D; aead_decrypt := aead_decrypt D; ks_rand := ks_rand D; ed_seal := ed_seal D; dh_seal := dh_seal D; ks_decrypt := ks_decrypt D;
  f64_text := f64_text D; f64_parse := parse; jcs_number := num; jcs_leb := leb; mb_other := mb_other D;
  datetime := datetime D; maddr := maddr D; multiaddr := multiaddr D; mb_error := mb_error D; mh_error := mh_error D;
  hex_error := hex_error D; utf8_error := utf8_error D; json_error := json_error D |}.

(** The canonical texts of proofs, credentials and presentations, written out in that order. *)
Definition object_text (l : list (string * bytes)) : bytes :=
  B "{" ++ join (B ",") (map (fun kv => B """" ++ B (fst kv) ++ B """:" ++ snd kv) l) ++ B "}".
Definition array_text (l : list bytes) : bytes := B "[" ++ join (B ",") l ++ B "]".
Definition maybe (n : string) (o : option bytes) : list (string * bytes) := match o with Some t => [(n, t)] | None => [] end.
Definition proof_canonical_text (p : proof) : bytes :=
  object_text (maybe "created" (option_map quote (p_created p)) ++ maybe "cryptosuite" (option_map quote (p_cryptosuite p))
    ++ maybe "expires" (option_map quote (p_expires p))
    ++ [("id"%string, quote (p_id p)); ("proofPurpose"%string, quote (purpose_name (p_purpose p))); ("proofValue"%string, quote (p_value p));
        ("type"%string, quote (p_typ p)); ("verificationMethod"%string, quote (p_method p))]).
Definition vc_canonical_text (D : deps) (v : vc) : bytes :=
  object_text ([("@context"%string, array_text (map quote (vc_contexts v))); ("credentialSubject"%string, canonical D (vc_subject v));
                ("id"%string, quote (vc_id v)); ("issuer"%string, quote (vc_issuer v))]
    ++ maybe "proof" (option_map proof_canonical_text (vc_proof v)) ++ [("type"%string, array_text (map quote (vc_types v)))]).
Definition vp_canonical_text (D : deps) (v : vp) : bytes :=
  object_text ([("@context"%string, array_text (map quote (vp_contexts v)))] ++ maybe "holder" (option_map quote (vp_holder v))
    ++ maybe "proof" (option_map proof_canonical_text (vp_proof v))
    ++ [("type"%string, array_text (map quote (vp_types v))); ("verifiableCredential"%string, array_text (map (vc_canonical_text D) (vp_credentials v)))]).
