(** C77: which texts decode, and to what. *)
From Verif Require Import Base Codec Deps Spec DecodeSpec DecodeFacts Demo.

(** C77. A text decodes as hex to [s] exactly when it is the hex text of [s], its letters in either case ... *)
Theorem C77_hex : forall t s, hex_decode t = Some s <-> Forall2 same_digit t (hex_encode s).
Proof. exact hex_decode_iff. Qed.
Print Assumptions C77_hex.
(** ... and as multibase in base [b] to [s] exactly when it is the letter of the base and the text of [s]; the two hex bases
    accept one case only. *)
Theorem C77_multibase : forall other t b s, mb_decode other t = Some (b, s) <-> multibase_text other t b s.
Proof. exact multibase_iff. Qed.
Print Assumptions C77_multibase.
Example C77_example :
  hex_decode (B "0aFf") = Some [x0a; xff] /\ Forall2 same_digit (B "0aFf") (hex_encode [x0a; xff]) /\ hex_decode (B "0g") = None /\ hex_decode (B "0aF") = None /\
  mb_decode (fun _ => None) (B "F0AFF") = Some (Base16Upper, [x0a; xff]) /\ mb_decode (fun _ => None) (B "f0AFF") = None /\
  mb_decode (fun _ => None) (B "z11") = Some (Base58Btc, [x00; x00]) /\ mb_decode (fun _ => Some (32%N, [x01])) (B "bae") = Some (OtherBase 32%N, [x01]).
Proof.
  split; [reflexivity|]. split; [change (hex_encode [x0a; xff]) with (B "0aff"); repeat constructor; cbn; tauto|]. repeat split; reflexivity.
Qed.
