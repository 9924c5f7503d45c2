(** Text codecs the crate gets from its dependencies: UTF-8 ([String::from_utf8]), the [hex] crate,
    the [multibase] crate (base58btc, base16, identity) and [multihash]/[unsigned-varint].
    These crates are not in /repo (see core/Cargo.toml:18-24); the definitions follow their public
    specifications. *)
From Verif Require Import Base.
Open Scope N_scope.

(** [lo <= b <= hi]. *)
Definition inr (lo hi : N) (b : byte) : bool := (lo <=? Byte.to_N b) && (Byte.to_N b <=? hi).

(** UTF-8 validity as checked by [String::from_utf8] / [str::from_utf8] (no overlong forms, no
    surrogates, at most U+10FFFF). *)
Definition cont (b : byte) : bool := inr 128 191 b.
Fixpoint utf8_valid (s : bytes) : bool :=
  match s with
  | [] => true
  | a :: s1 =>
    if inr 0 127 a then utf8_valid s1
    else match s1 with
    | [] => false
    | b :: s2 =>
      if inr 194 223 a then cont b && utf8_valid s2
      else match s2 with
      | [] => false
      | c :: s3 =>
        if inr 224 224 a then inr 160 191 b && cont c && utf8_valid s3
        else if inr 225 236 a || inr 238 239 a then cont b && cont c && utf8_valid s3
        else if inr 237 237 a then inr 128 159 b && cont c && utf8_valid s3
        else match s3 with
        | [] => false
        | d :: s4 =>
          if inr 240 240 a then inr 144 191 b && cont c && cont d && utf8_valid s4
          else if inr 241 243 a then cont b && cont c && cont d && utf8_valid s4
          else if inr 244 244 a then inr 128 143 b && cont c && cont d && utf8_valid s4
          else false
        end
      end
    end
  end.

(** [hex::encode]: two lowercase digits per byte. *)
Definition hex_digit (n : N) : byte :=
  if n <? 10 then byte_of_N (48 + n) else byte_of_N (87 + n).
Definition hex_with (dig : N -> byte) (s : bytes) : bytes :=
  flat_map (fun b => [dig (Byte.to_N b / 16); dig (Byte.to_N b mod 16)]) s.
Definition hex_encode : bytes -> bytes := hex_with hex_digit.

(** Value of one hex digit. *)
Definition hex_val_lower (c : byte) : option N :=
  if inr 48 57 c then Some (Byte.to_N c - 48)
  else if inr 97 102 c then Some (Byte.to_N c - 87)
  else None.
Definition hex_val_upper (c : byte) : option N :=
  if inr 48 57 c then Some (Byte.to_N c - 48)
  else if inr 65 70 c then Some (Byte.to_N c - 55)
  else None.
Definition hex_val (c : byte) : option N :=
  if inr 97 102 c then Some (Byte.to_N c - 87) else hex_val_upper c.

Fixpoint hex_decode_with (val : byte -> option N) (s : bytes) : option bytes :=
  match s with
  | [] => Some []
  | [_] => None
  | h :: l :: s' =>
    match val h, val l, hex_decode_with val s' with
    | Some a, Some b, Some r => Some (byte_of_N (16 * a + b) :: r)
    | _, _, _ => None
    end
  end.
(** [hex::decode]: even length, digits of either case. *)
Definition hex_decode : bytes -> option bytes := hex_decode_with hex_val.

(** Positional notation, least significant digit first. *)
Fixpoint value (base : N) (ds : list N) : N :=
  match ds with [] => 0 | d :: ds' => d + base * value base ds' end.
Fixpoint digits_fuel (fuel : nat) (base n : N) : list N :=
  match fuel with
  | O => []
  | S f => if n =? 0 then [] else n mod base :: digits_fuel f base (n / base)
  end.
(** The canonical digits of [n] (no leading zero; the fuel always suffices for [base >= 2]). *)
Definition digits (base n : N) : list N := digits_fuel (N.size_nat n) base n.

(** Number of leading zeros. *)
Fixpoint lead (ds : list N) : nat :=
  match ds with d :: ds' => if d =? 0 then S (lead ds') else O | [] => O end.

(** Base conversion of the [base-x] crate used by multibase: big-endian digits, each leading zero
    digit is kept as one zero digit. *)
Definition conv (b1 b2 : N) (ds : list N) : list N :=
  repeat 0 (lead ds) ++ rev (digits b2 (value b1 (rev ds))).

(** The bitcoin base58 alphabet. *)
Definition alphabet58 : bytes := B "123456789ABCDEFGHJKLMNPQRSTUVWXYZabcdefghijkmnopqrstuvwxyz".
Definition char58 (d : N) : byte := nth (N.to_nat d) alphabet58 x00.
Fixpoint find_index (c : byte) (l : bytes) (i : N) : option N :=
  match l with [] => None | x :: l' => if beq x c then Some i else find_index c l' (i + 1) end.
Definition val58 (c : byte) : option N := find_index c alphabet58 0.

Fixpoint map_opt {A B} (f : A -> option B) (l : list A) : option (list B) :=
  match l with
  | [] => Some []
  | x :: l' => match f x, map_opt f l' with Some y, Some r => Some (y :: r) | _, _ => None end
  end.

(** [Base::Base58Btc.encode] / [.decode]. *)
Definition base58_encode (s : bytes) : bytes := map char58 (conv 256 58 (map Byte.to_N s)).
Definition base58_decode (t : bytes) : option bytes :=
  match map_opt val58 t with
  | Some ds => Some (map byte_of_N (conv 58 256 ds))
  | None => None
  end.

(** The bases of the multibase crate: the four modelled concretely, and all others by number. *)
Inductive mbase := Base58Btc | Base16Lower | Base16Upper | IdentityBase | OtherBase (n : N).
Definition mbase_eqb (a b : mbase) : bool :=
  match a, b with
  | Base58Btc, Base58Btc | Base16Lower, Base16Lower
  | Base16Upper, Base16Upper | IdentityBase, IdentityBase => true
  | OtherBase n, OtherBase m => n =? m
  | _, _ => false
  end.

Definition char_z : byte := "z"%byte.
Definition char_f : byte := "f"%byte.
Definition char_F : byte := "F"%byte.

(** [multibase::encode(Base58Btc, bytes)]: code character followed by the encoded bytes. *)
Definition mb_encode58 (s : bytes) : bytes := char_z :: base58_encode s.
(** [multibase::encode(Base16Lower, bytes)] (the crate never calls it; used to describe texts). *)
Definition mb_encode16 (s : bytes) : bytes := char_f :: hex_encode s.

(** [multibase::decode(text)]: the first character selects the base. [other] stands for the bases
    not modelled concretely (and for unknown codes). *)
Definition mb_decode (other : bytes -> option (N * bytes)) (t : bytes) : option (mbase * bytes) :=
  match t with
  | [] => None
  | c :: r =>
    if beq c char_z then option_map (pair Base58Btc) (base58_decode r)
    else if beq c char_f then option_map (pair Base16Lower) (hex_decode_with hex_val_lower r)
    else if beq c char_F then option_map (pair Base16Upper) (hex_decode_with hex_val_upper r)
    else if beq c x00 then Some (IdentityBase, r)
    else option_map (fun '(n, b) => (OtherBase n, b)) (other t)
  end.

(** unsigned varint (seven bits per byte, least significant group first). *)
Fixpoint varint_fuel (fuel : nat) (n : N) : bytes :=
  match fuel with
  | O => []
  | S f => if n <? 128 then [byte_of_N n] else byte_of_N (n mod 128 + 128) :: varint_fuel f (n / 128)
  end.
Definition varint (n : N) : bytes := varint_fuel (S (N.size_nat n)) n.

(** [Multihash::<32>::wrap(code, digest)]: the digest must fit in 32 bytes. *)
Definition multihash_wrap (code : N) (digest : bytes) : option (N * bytes) :=
  if (length digest <=? 32)%nat then Some (code, digest) else None.
(** [Multihash::to_bytes]. *)
Definition multihash_bytes (m : N * bytes) : bytes :=
  varint (fst m) ++ varint (N.of_nat (length (snd m))) ++ snd m.
