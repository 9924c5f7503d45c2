(** Specification vocabulary of C63-C68. *)
From Verif Require Import Base Codec Json Deps Types Keys Doc Hashlink JsonSpec Spec FlowSpec.
Set Implicit Arguments.

(** ** Opening a sealed account key (C63): what is checked, in order. *)
Section Opening.
  Variable D : deps.
  Variables (pw : bytes) (ks : keysecure).
  Definition undecodable (P : bytes -> Prop) (e : account_error) : Prop := exists m, P m /\ e = DecodeError m.
  Definition is_cipher (c : bytes) : Prop := hex_decode (ks_cipher_text ks) = Some c.
  Definition is_key (k : bytes) : Prop := kdf D (ks_kdf_params ks) pw (ks_salt ks) = Ok k.
  Definition is_nonce (n : bytes) : Prop := hex_decode (ks_nonce ks) = Some n.
  Definition is_opened (r : result bytes bytes) : Prop :=
    exists c k n, is_cipher c /\ is_key k /\ is_nonce n /\ aead_decrypt D k n c = r.
  Definition opening_checks : list (account_error -> Prop) :=
    [undecodable (fun m => (forall c, ~ is_cipher c) /\ m = hex_error D (ks_cipher_text ks));
     undecodable (fun m => kdf D (ks_kdf_params ks) pw (ks_salt ks) = Err m);
     undecodable (fun m => (forall n, ~ is_nonce n) /\ m = hex_error D (ks_nonce ks));
     undecodable (fun m => exists n, is_nonce n /\ length n <> 24%nat /\ m = B "unable to decode nonce");
     undecodable (fun m => is_opened (Err m));
     undecodable (fun m => exists t, is_opened (Ok t) /\ ~ utf8 t /\ m = utf8_error D t);
     fun e => exists t m, is_opened (Ok t) /\ ed_from_pem D t = Err m /\ e = DecodePEMError m].
End Opening.

(** ** Public key texts (C64): multibase text of a hex text of a key. *)
Definition key_text {K} (D : deps) (from_hex : bytes -> option K) (t : bytes) (k : K) : Prop :=
  exists b h, mb_decode (mb_other D) t = Some (b, h) /\ utf8 h /\ from_hex h = Some k.
Definition key_text_checks {K} (D : deps) (kind : string) (from_hex : bytes -> option K) (t : bytes) : list (did_error -> Prop) :=
  [fun e => mb_decode (mb_other D) t = None /\ e = DecodePubKeyError (B ("unable to decode encoded multibase to " ++ kind ++ " public key"));
   fun e => (exists b h, mb_decode (mb_other D) t = Some (b, h) /\ ~ utf8 h) /\ e = DecodePubKeyError (B "unable convert public key to string");
   fun e => (forall k, ~ key_text D from_hex t k) /\ e = DecodePubKeyError (B "unable to restore public key")].

(** ** Checking a hashlink (C66) *)
Definition hashlink_checks (D : deps) (s link : bytes) : list (did_error -> Prop) :=
  [fun e => mb_decode (mb_other D) link = None /\ e = HashLinkError (mb_error D link);
   fun e => (forall d, mb_decode (mb_other D) link <> Some (Base58Btc, d)) /\ e = HashLinkError (B "unknown base encoded type");
   fun e => mb_decode (mb_other D) link <> Some (Base58Btc, x1e :: x20 :: blake3 D s) /\ e = HashLinkError (B "invalid hashlink")].

(** ** Numbers written as texts (C67) *)
Open Scope N_scope.
Fixpoint position (c : byte) (l : bytes) : N :=
  match l with [] => 0 | x :: l' => if beq x c then 0 else 1 + position c l' end.
Definition number_in (base : N) (digit : byte -> N) (s : bytes) : N := fold_left (fun n c => base * n + digit c) s 0.
Definition number256 : bytes -> N := number_in 256 Byte.to_N.
Definition number58 : bytes -> N :=
  number_in 58 (fun c => position c (B "123456789ABCDEFGHJKLMNPQRSTUVWXYZabcdefghijkmnopqrstuvwxyz")).
Definition number16 : bytes -> N := number_in 16 (fun c => position c (B "0123456789abcdef")).
(** How often [c] occurs at the start of [s]. *)
Fixpoint leading (c : byte) (s : bytes) : nat :=
  match s with x :: s' => if beq x c then S (leading c s') else O | [] => O end.
Definition hex_text (t : bytes) : Prop := Forall (fun c => In c (B "0123456789abcdef")) t.
