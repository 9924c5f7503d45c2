(** Display texts of errors that no other part of the model uses. *)
From Verif Require Import Base Keys.

(** core/src/keys/secure.rs:11-27 *)
Definition keysecure_error_text (e : keysecure_error) : bytes :=
  match e with
  | BuildKeySecureError => B "keysecure error"
  | BuildIdentityPrivateKeysError => B "keysecure error: unable to build identity private keys"
  | BuildJSONError => B "keysecure error: unable to build JSON"
  | StorageError => B "keysecure error: storage error"
  | DecryptError m => B "keysecure error: decrypt error: " ++ m
  end.
