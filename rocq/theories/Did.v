(** core/src/did/query.rs and core/src/did/mod.rs (URIs). *)
From Verif Require Import Base Codec Json JsonParse Deps Types.
Set Implicit Arguments.

(** core/src/did/query.rs:6-11 *)
Record params := { address : option bytes; hl : option bytes }.
(** [Params::default()] (derived, core/src/did/query.rs:6) *)
Definition params_default : params := {| address := None; hl := None |}.

(** core/src/did/query.rs:14-25 *)
Definition parse_multiaddr (D : deps) (p : params) : result (option (maddr D)) did_error :=
  match address p with
  | Some addr =>
    let? a := map_err GenerateMultiAddrError (multiaddr D addr) in
    Ok (Some a)
  | None => Ok None
  end.

(** core/src/did/query.rs:27-43 *)
Definition build_query (p : params) : option bytes :=
  let q0 := [] in
  let q1 := match address p with Some addr => q0 ++ [B "address=" ++ addr] | None => q0 end in
  let q2 := match hl p with Some h => q1 ++ [B "hl=" ++ h] | None => q1 end in
  if is_empty q2 then None else Some (join (B "&") q2).

(** core/src/did/mod.rs:80-91, given the identity value computed by [self.identity()] (which always
    succeeds, see [Identity.v]). *)
Definition build_uri_of (primary : bytes) (ps : option params) : result bytes did_error :=
  match ps with
  | Some query_params =>
    ok_or BuildURIError (option_map (fun val => primary ++ B "?" ++ val) (build_query query_params))
  | None => Ok primary
  end.

(** core/src/did/mod.rs:104-117, the loop over the query items. *)
Fixpoint parse_items (queries : list bytes) (ps : params) : outcome params :=
  match queries with
  | [] => Ret ps
  | query :: rest =>
    let splitted_param := split "="%byte query in
    if (length splitted_param <=? 1)%nat then parse_items rest ps
    else
      let! n0 := index splitted_param 0 in
      let! ps1 := (if bytes_eqb n0 (B "address")
                   then let! v := index splitted_param 1 in Ret {| address := Some v; hl := hl ps |}
                   else Ret ps) in
      let! n1 := index splitted_param 0 in
      let! ps2 := (if bytes_eqb n1 (B "hl")
                   then let! v := index splitted_param 1 in Ret {| address := address ps1; hl := Some v |}
                   else Ret ps1) in
      parse_items rest ps2
  end.

(** core/src/did/mod.rs:93-121 *)
Definition parse_uri (uri : bytes) : outcome (result (bytes * params) did_error) :=
  let splitted := split "?"%byte uri in
  if is_empty splitted then Ret (Err (ParseURIError (B "invalid given uri")))
  else
    let! did := index splitted 0 in
    let! ps := (if (1 <? length splitted)%nat
                then let! q := index splitted 1 in parse_items (split "&"%byte q) params_default
                else Ret params_default) in
    Ret (Ok (did, ps)).

(** Derived Serialize/Deserialize of [Params] (core/src/did/query.rs:6-11; no field is skipped). *)
Definition params_schema : schema :=
  SStruct [(B "address", false, SOption SString); (B "hl", false, SOption SString)].
Definition params_data (p : params) : data := DStruct [opt_data DStr (address p); opt_data DStr (hl p)].
Definition data_params (x : data) : option params :=
  match x with
  | DStruct [a; h] =>
    match data_opt data_str a, data_opt data_str h with
    | Some a', Some h' => Some {| address := a'; hl := h' |}
    | _, _ => None
    end
  | _ => None
  end.
(** core/src/did/query.rs:6-11: the derived [Serialize] and [Deserialize], with [serde_json::to_string] and
    [serde_json::from_slice] *)
Definition params_to_json (D : deps) (p : params) : json_value := jv_from (to_json_text D params_schema (params_data p)).
Definition params_from_slice (D : deps) (s : bytes) : option params :=
  match from_slice (f64_parse D) params_schema s with Some x => data_params x | None => None end.
