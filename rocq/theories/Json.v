(** JSON values, [serde_json::to_string] and [serde_jcs::to_string].
    The two crates are dependencies (core/Cargo.toml:18-19, used at core/src/verifiable/vc.rs:76,90,
    core/src/verifiable/vp.rs:81,94, core/src/verifiable/proof/mod.rs:205, core/src/doc/mod.rs:206,
    core/src/keys/secure.rs:95, core/src/context/ext/user_connection.rs:61); their sources are not in
    /repo, the definitions follow serde_json 1.0 and RFC 8785. *)
From Verif Require Import Base Codec.
Set Implicit Arguments.

(** [serde_json::Number]: u64, negative i64 ([NegInt m] is -m), or finite f64 given by its 64 bits. *)
Inductive number := PosInt (n : N) | NegInt (m : N) | Float (bits : N).

(** [serde_json::Value]. A [Value::Object] is a BTreeMap, i.e. a member list strictly sorted by key
    (evidence that the feature preserve_order is off: the expected text in
    core/src/verifiable/vc.rs:187). The same type is used for the tree a [Serialize]
    implementation walks over (members then in struct order). *)
Inductive json :=
| JNull
| JBool (b : bool)
| JNum (n : number)
| JStr (s : bytes)
| JArr (l : list json)
| JObj (m : list (bytes * json)).

(** Byte-wise lexicographic order: [Ord for String]. *)
Fixpoint bytes_compare (a b : bytes) : comparison :=
  match a, b with
  | [], [] => Eq
  | [], _ :: _ => Lt
  | _ :: _, [] => Gt
  | x :: a', y :: b' =>
    match N.compare (Byte.to_N x) (Byte.to_N y) with
    | Eq => bytes_compare a' b'
    | c => c
    end
  end.

(** [BTreeMap::insert]. *)
Fixpoint obj_insert {A} (k : bytes) (v : A) (m : list (bytes * A)) : list (bytes * A) :=
  match m with
  | [] => [(k, v)]
  | (k', v') :: m' =>
    match bytes_compare k k' with
    | Lt => (k, v) :: m
    | Eq => (k, v) :: m'
    | Gt => (k', v') :: obj_insert k v m'
    end
  end.

(** ** Printing *)
Definition q_quote : byte := x22.    (* the double quote *)
Definition q_bslash : byte := x5c.   (* the backslash *)

(** Decimal digits of an integer. *)
Definition dec (n : N) : bytes :=
  if N.eqb n 0 then B "0" else map (fun d => byte_of_N (48 + d)) (rev (digits 10 n)).

(** serde_json's [format_escaped_str_contents], one byte: the short escapes, [\u00xy] with lowercase
    hex for the other control characters, everything else unchanged. *)
Definition escape_byte (c : byte) : bytes :=
  if beq c q_quote then [q_bslash; q_quote]
  else if beq c q_bslash then [q_bslash; q_bslash]
  else if beq c x08 then [q_bslash; "b"%byte]
  else if beq c x09 then [q_bslash; "t"%byte]
  else if beq c x0a then [q_bslash; "n"%byte]
  else if beq c x0c then [q_bslash; "f"%byte]
  else if beq c x0d then [q_bslash; "r"%byte]
  else if inr 0 31 c then
    q_bslash :: "u"%byte :: "0"%byte :: "0"%byte
      :: hex_digit (Byte.to_N c / 16) :: [hex_digit (Byte.to_N c mod 16)]
  else [c].
Definition escape (s : bytes) : bytes := flat_map escape_byte s.
Definition quote (s : bytes) : bytes := q_quote :: escape s ++ [q_quote].

(** One member text, [key:value] with the key quoted. *)
Definition member_text (kt : bytes * bytes) : bytes := quote (fst kt) ++ B ":" ++ snd kt.

Definition bool_text (b : bool) : bytes := if b then B "true" else B "false".

(** [serde_json::to_string] (compact formatter), given the text of numbers. *)
Fixpoint json_text (num : number -> bytes) (j : json) : bytes :=
  match j with
  | JNull => B "null"
  | JBool b => bool_text b
  | JNum n => num n
  | JStr s => quote s
  | JArr l => B "[" ++ join (B ",") (map (json_text num) l) ++ B "]"
  | JObj m => B "{" ++ join (B ",") (map (fun kv => member_text (fst kv, json_text num (snd kv))) m) ++ B "}"
  end.

(** serde_json's number text: itoa for integers, [f64] (ryu) for floats. *)
Definition serde_number (f64 : N -> bytes) (n : number) : bytes :=
  match n with
  | PosInt n => dec n
  | NegInt m => B "-" ++ dec m
  | Float b => f64 b
  end.

(** Sorting by key, for an arbitrary order on keys. *)
Fixpoint insert_by {A} (leb : bytes -> bytes -> bool) (x : bytes * A) (l : list (bytes * A)) : list (bytes * A) :=
  match l with
  | [] => [x]
  | y :: l' => if leb (fst x) (fst y) then x :: l else y :: insert_by leb x l'
  end.
Fixpoint sort_by {A} (leb : bytes -> bytes -> bool) (l : list (bytes * A)) : list (bytes * A) :=
  match l with [] => [] | x :: l' => insert_by leb x (sort_by leb l') end.

(** [serde_jcs::to_string]: every object's members are collected with their canonical value texts and
    written in key order; [leb] is that order and [num] the canonical number text. (Simplification: a
    BTreeMap would drop a duplicate key; the trees serialized by this crate have none.) *)
Fixpoint jcs_text (leb : bytes -> bytes -> bool) (num : number -> bytes) (j : json) : bytes :=
  match j with
  | JNull => B "null"
  | JBool b => bool_text b
  | JNum n => num n
  | JStr s => quote s
  | JArr l => B "[" ++ join (B ",") (map (jcs_text leb num) l) ++ B "]"
  | JObj m =>
    B "{" ++ join (B ",") (map member_text (sort_by leb (map (fun kv => (fst kv, jcs_text leb num (snd kv))) m)))
          ++ B "}"
  end.

(** Nesting depth: number of enclosing brackets of the innermost value. *)
Fixpoint depth (j : json) : nat :=
  match j with
  | JArr l => S (fold_right (fun x n => Nat.max (depth x) n) O l)
  | JObj m => S (fold_right (fun kv n => Nat.max (depth (snd kv)) n) O m)
  | _ => O
  end.
