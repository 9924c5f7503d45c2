(** core/src/hashlink.rs *)
From Verif Require Import Base Codec Json JsonParse Deps Types.
Set Implicit Arguments.

Section Hashlink.
  Variable D : deps.
  (** The data argument is an [impl ToJSON]; only the result of its [to_json] is used. *)
  Definition to_json_result := result json_value did_error.

  (** core/src/hashlink.rs:15-16, 41-42 *)
  Definition wrap_multihash (mk : bytes -> did_error) (digest : bytes) : result (N * bytes) did_error :=
    match multihash_wrap BLAKE3_HASH_CODE digest with
    | Some m => Ok m
    | None => Err (mk (mh_error D digest))
    end.

  (** core/src/hashlink.rs:12-20 *)
  Definition generate_from_json (data : to_json_result) : result bytes did_error :=
    let? jsondata := data in
    let hashed_json := blake3 D (jv_to_string jsondata) in
    let? output_hash := wrap_multihash GenerateHashLinkError hashed_json in
    Ok (mb_encode58 (multihash_bytes output_hash)).

  (** core/src/hashlink.rs:28-49 *)
  Definition verify_from_json (data : to_json_result) (encoded : bytes) : result unit did_error :=
    let? jsondata := data in
    let hashed_json := blake3 D (jv_to_string jsondata) in
    let? (decoded_base, decoded_bytes) :=
      ok_or (HashLinkError (mb_error D encoded)) (mb_decode (mb_other D) encoded) in
    if negb (mbase_eqb decoded_base Base58Btc) then Err (HashLinkError (B "unknown base encoded type"))
    else
      let? calculate_multihash := wrap_multihash HashLinkError hashed_json in
      if negb (bytes_eqb decoded_bytes (multihash_bytes calculate_multihash))
      then Err (HashLinkError (B "invalid hashlink"))
      else Ok tt.
End Hashlink.
