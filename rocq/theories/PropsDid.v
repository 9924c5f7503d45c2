(** C01-C08: DID URIs and identity values. *)
From Verif Require Import Base Codec Deps Types Did Keys Identity Spec DidFacts Hash Demo.

(** A DID of the concrete instance, for the examples. *)
Definition demo_did : did demo := did_new demo (B "a secret key of some account....").

(** C01. Parsing what [build_uri] produced gives back the DID and the parameters exactly when no value
    contains '?', '&' or '='. *)
Theorem C01_uri_round_trip : forall D (d : did D) i p uri,
  did_identity d = Ok i -> build_uri d (Some p) = Ok uri ->
  (parse_uri uri = Ret (Ok (id_value i, p)) <-> clean (address p) /\ clean (hl p)).
Proof. exact uri_round_trip. Qed.
Print Assumptions C01_uri_round_trip.
Theorem C01_uri_round_trip_bare : forall D (d : did D) i uri,
  did_identity d = Ok i -> build_uri d None = Ok uri ->
  parse_uri uri = Ret (Ok (id_value i, {| address := None; hl := None |})).
Proof. exact uri_round_trip_bare. Qed.
Print Assumptions C01_uri_round_trip_bare.
Example C01_example :
  let p := {| address := Some (B "/ip4/1.2.3.4/tcp/80"); hl := Some (B "zQm") |} in
  clean (address p) /\ clean (hl p) /\
  match build_uri demo_did (Some p), did_identity demo_did with
  | Ok uri, Ok i => parse_uri uri = Ret (Ok (id_value i, p))
  | _, _ => False
  end.
Proof. vm_compute. intuition discriminate. Qed.

(** C02. [parse_uri] is total; the DID it returns is the text before the first '?'. *)
Theorem C02_parse_uri_total : forall uri, exists did p,
  parse_uri uri = Ret (Ok (did, p)) /\ before "?"%byte uri did.
Proof. exact parse_uri_total. Qed.
Print Assumptions C02_parse_uri_total.
Example C02_example : parse_uri (B "??&=&==?") = Ret (Ok ([], {| address := None; hl := None |})).
Proof. reflexivity. Qed.

(** C03. The parameters [parse_uri] returns are those of [param_of]: the last binding item between the
    first and second '?'. *)
Theorem C03_parse_uri_meaning : forall uri did p,
  parse_uri uri = Ret (Ok (did, p)) <->
  before "?"%byte uri did /\ param_of uri (B "address") (address p) /\ param_of uri (B "hl") (hl p).
Proof. exact parse_uri_meaning. Qed.
Print Assumptions C03_parse_uri_meaning.
Example C03_example :
  parse_uri (B "did:prople:z1?hl=a&address=x=y&foo=1&hl=b=c&hl&bar?address=q") =
  Ret (Ok (B "did:prople:z1", {| address := Some (B "x"); hl := Some (B "b") |})).
Proof. reflexivity. Qed.

(** C04. Every outcome of [build_uri]. *)
Theorem C04_build_uri_outcomes : forall D (d : did D) i o,
  did_identity d = Ok i ->
  build_uri d o =
  match o with
  | None => Ok (id_value i)
  | Some p => match query_text (address p) (hl p) with
              | None => Err BuildURIError
              | Some q => Ok (id_value i ++ B "?" ++ q)
              end
  end.
Proof.
  exact (fun D d i o H => eq_trans (build_uri_eq d o)
    (f_equal (fun r => match r with
       | Ok i => match o with
                 | None => Ok (id_value i)
                 | Some p => match query_text (address p) (hl p) with
                             | None => Err BuildURIError
                             | Some q => Ok (id_value i ++ B "?" ++ q) end end
       | Err e => Err e end) H)).
Qed.
Print Assumptions C04_build_uri_outcomes.
Theorem C04_build_uri_fails_iff : forall D (d : did D) o e,
  build_uri d o = Err e <->
  e = BuildURIError /\ exists p, o = Some p /\ address p = None /\ hl p = None.
Proof. exact build_uri_fails. Qed.
Print Assumptions C04_build_uri_fails_iff.
Example C04_example :
  build_uri demo_did (Some {| address := None; hl := None |}) = Err BuildURIError /\
  match did_identity demo_did with
  | Ok i => build_uri demo_did (Some {| address := Some (B "a"); hl := Some (B "h") |}) =
            Ok (id_value i ++ B "?address=a&hl=h")
  | Err _ => False
  end.
Proof. vm_compute. split; reflexivity. Qed.

(** C05. A built URI determines the identity value and the parameters when addresses contain no '&' ... *)
Theorem C05_no_parameter_confusion : forall D (d1 d2 : did D) o1 o2 uri i1 i2,
  did_identity d1 = Ok i1 -> did_identity d2 = Ok i2 ->
  (forall p v, o1 = Some p -> address p = Some v -> ~ In "&"%byte v) ->
  (forall p v, o2 = Some p -> address p = Some v -> ~ In "&"%byte v) ->
  build_uri d1 o1 = Ok uri -> build_uri d2 o2 = Ok uri ->
  id_value i1 = id_value i2 /\ o1 = o2.
Proof. exact build_uri_inj. Qed.
Print Assumptions C05_no_parameter_confusion.
(** ... and not without that restriction: any [x], [y] give two parameter sets with the same URI. *)
Theorem C05_parameter_injection_refuted : forall D (d : did D) x y,
  let honest := {| address := Some x; hl := Some y |} in
  let forged := {| address := Some (x ++ B "&hl=" ++ y); hl := None |} in
  honest <> forged /\ build_uri d (Some honest) = build_uri d (Some forged).
Proof. exact parameter_injection. Qed.
Print Assumptions C05_parameter_injection_refuted.
Example C05_example :
  let p := {| address := Some (B "/ip4/1.2.3.4"); hl := Some (B "a&b") |} in
  (forall v, address p = Some v -> ~ In "&"%byte v) /\ exists uri, build_uri demo_did (Some p) = Ok uri.
Proof. split; [intros v [= <-]; vm_compute; intuition discriminate | eexists; vm_compute; reflexivity]. Qed.

(** C06. The shape of a generated DID. *)
Theorem C06_identity_shape : forall D (d : did D), exists i t,
  did_identity d = Ok i /\ id_value i = B "did:prople:z" ++ t /\ base58_text t /\
  identity_account i = Ok (B "z" ++ t) /\
  mb_decode (mb_other D) (B "z" ++ t) =
    Some (Base58Btc, hex_encode (blake3 D (sha384 D (ed_pub_bytes D (ed_pub_key D (acc_pair (did_account d))))))).
Proof. exact identity_shape. Qed.
Print Assumptions C06_identity_shape.
Theorem C06_identity_segments : forall D (d : did D) i,
  did_identity d = Ok i -> occurrences ":"%byte (id_value i) = 2%nat.
Proof. exact identity_segments. Qed.
Print Assumptions C06_identity_segments.
Definition did_value {D} (d : did D) : bytes := match did_identity d with Ok i => id_value i | Err _ => [] end.
Example C06_example : did_value demo_did =
  B "did:prople:z2wi8huxyA4drkURymZW2BSnTqxAUmCdeHphieTHts2WBz9QqsTuY48CMMTpPyY4jwYqDRdNyyDVXXXSZVX81VzJP".
Proof. vm_compute. reflexivity. Qed.
(** The DID printed in core/README.md:32 has this shape: it decodes to 64 hex digits. *)
Example C06_readme :
  match mb_decode (fun _ => None) (B "z2xrsP3ExuJQMydq7hPg2d9ti3BKNoRSXE2b634vcdh9LKKujaBWLsPHoRgKcRCJ1ck7N5YcoU8ZmPwVqp5Hfnayj") with
  | Some (Base58Btc, h) => length h = 64%nat /\ match hex_decode h with Some k => hex_encode k = h | None => False end
  | _ => False
  end.
Proof. vm_compute. split; reflexivity. Qed.

(** C07. Equal identity values belong to equal keys, up to a hash collision; equal keys have equal
    values. *)
Theorem C07_identity_binds_key : forall D (d1 d2 : did D) i1 i2,
  did_identity d1 = Ok i1 -> did_identity d2 = Ok i2 -> id_value i1 = id_value i2 ->
  let k1 := ed_pub_bytes D (account_pubkey (did_account d1)) in
  let k2 := ed_pub_bytes D (account_pubkey (did_account d2)) in
  k1 = k2 \/ collision (sha384 D) k1 k2 \/ collision (blake3 D) (sha384 D k1) (sha384 D k2).
Proof. exact identity_same_key. Qed.
Print Assumptions C07_identity_binds_key.
Theorem C07_identity_hash : forall D (d1 d2 : did D) i1 i2,
  did_identity d1 = Ok i1 -> did_identity d2 = Ok i2 ->
  (id_value i1 = id_value i2 <->
   blake3 D (sha384 D (ed_pub_bytes D (account_pubkey (did_account d1)))) = blake3 D (sha384 D (ed_pub_bytes D (account_pubkey (did_account d2))))).
Proof. exact identity_same_hash. Qed.
Print Assumptions C07_identity_hash.
Theorem C07_identity_of_key : forall D (d1 d2 : did D),
  account_pubkey (did_account d1) = account_pubkey (did_account d2) -> did_identity d1 = did_identity d2.
Proof. exact identity_of_key. Qed.
Print Assumptions C07_identity_of_key.
Example C07_example : bytes_eqb (did_value demo_did) (did_value (did_new demo (B "another key"))) = false.
Proof. vm_compute. reflexivity. Qed.

(** C08. [Identity::account] on any string. *)
Theorem C08_account_ok : forall D s a,
  identity_account (identity_new D s) = Ok a <->
  ~ In ":"%byte a /\ exists p m, s = p ++ ":"%byte :: m ++ ":"%byte :: a.
Proof. exact account_spec. Qed.
Print Assumptions C08_account_ok.
Theorem C08_account_error : forall D s e,
  identity_account (identity_new D s) = Err e <-> e = InvalidDID /\ (occurrences ":"%byte s < 2)%nat.
Proof. exact account_error. Qed.
Print Assumptions C08_account_error.
Example C08_example :
  (identity_account (identity_new demo (B "did:prople:x:zAbc")) = Ok (B "zAbc")) /\
  (identity_account (identity_new demo (B "did::")) = Ok []) /\
  (identity_account (identity_new demo (B "did:zAbc")) = Err InvalidDID).
Proof. repeat split. Qed.
