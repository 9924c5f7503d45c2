(** Specification of JSON texts (RFC 8259) as concrete syntax trees: a tree fixes a text down to blanks and
    escapes ([render]); [value_of] and [decode] give its meaning as a [serde_json::Value] and as a value of one
    of the crate's types. Nothing here mentions the parser. *)
From Verif Require Import Base Codec Json JsonParse MiscSpec.
Set Implicit Arguments.
Local Open Scope N_scope.

(** ** Lexical elements *)
Definition blank (w : bytes) : Prop := Forall (fun c => In c [x20; x09; x0a; x0d]) w.

(** A character of a string: as itself, as a two-character escape, or as [\uXXXX]. *)
Inductive schar := Plain (c : byte) | Short (e : byte) | Uni (a b c d : byte).
Definition char_text (x : schar) : bytes :=
  match x with
  | Plain c => [c]
  | Short e => [q_bslash; e]
  | Uni a b c d => [q_bslash; "u"%byte; a; b; c; d]
  end.
Definition string_text (cs : list schar) : bytes := q_quote :: flat_map char_text cs ++ [q_quote].

Definition assoc {A} (c : byte) (l : list (byte * A)) : option A := option_map snd (find (fun p => beq c (fst p)) l).
Definition escapes : list (byte * byte) :=
  [(q_quote, q_quote); (q_bslash, q_bslash); ("/"%byte, "/"%byte); ("b"%byte, x08); ("f"%byte, x0c); ("n"%byte, x0a);
   ("r"%byte, x0d); ("t"%byte, x09)].
Definition hex_digits : list (byte * N) :=
  combine (B "0123456789abcdefABCDEF") [0; 1; 2; 3; 4; 5; 6; 7; 8; 9; 10; 11; 12; 13; 14; 15; 10; 11; 12; 13; 14; 15].
Definition code_unit (a b c d : byte) : option N :=
  match assoc a hex_digits, assoc b hex_digits, assoc c hex_digits, assoc d hex_digits with
  | Some x, Some y, Some z, Some w => Some (x * 4096 + y * 256 + z * 16 + w)
  | _, _, _, _ => None
  end.
Definition char_ok (x : schar) : Prop :=
  match x with
  | Plain c => c <> q_quote /\ c <> q_bslash /\ 32 <= Byte.to_N c
  | Short e => assoc e escapes <> None
  | Uni a b c d => code_unit a b c d <> None
  end.

(** The bytes a string stands for: UTF-16 surrogates must come in pairs, and the result must be UTF-8. *)
Definition code_point (n : N) : bytes := map byte_of_N (char_bytes n).
Fixpoint chars (cs : list schar) : option bytes :=
  match cs with
  | [] => Some []
  | Plain c :: r => option_map (cons c) (chars r)
  | Short e :: r => match assoc e escapes with Some x => option_map (cons x) (chars r) | None => None end
  | Uni a b c d :: r =>
    match code_unit a b c d with
    | None => None
    | Some n =>
      if (n <? 0xD800) || (0xDFFF <? n) then option_map (app (code_point n)) (chars r)
      else if 0xDC00 <=? n then None
      else match r with
           | Uni a' b' c' d' :: r' =>
             match code_unit a' b' c' d' with
             | None => None
             | Some m =>
               if (0xDC00 <=? m) && (m <=? 0xDFFF)
               then option_map (app (code_point (0x10000 + (n - 0xD800) * 0x400 + (m - 0xDC00)))) (chars r')
               else None
             end
           | _ => None
           end
    end
  end.
Definition string_of (cs : list schar) : option bytes :=
  match chars cs with Some t => if utf8_valid t then Some t else None | None => None end.

(** Numbers: integer part, fraction with its dot, exponent with its letter. *)
Definition digit (c : byte) : Prop := 48 <= Byte.to_N c <= 57.
Definition digits1 (ds : bytes) : Prop := ds <> [] /\ Forall digit ds.
Definition int_ok (i : bytes) : Prop := digits1 i /\ (hd x31 i = "0"%byte -> i = B "0").
Definition frac_ok (f : bytes) : Prop := f = [] \/ exists ds, f = "."%byte :: ds /\ digits1 ds.
Definition exp_ok (e : bytes) : Prop :=
  e = [] \/ exists l sg ds, e = l :: sg ++ ds /\ In l (B "eE") /\ In sg [[]; B "+"; B "-"] /\ digits1 ds.
Definition number_text (neg : bool) (i f e : bytes) : bytes := (if neg then B "-" else []) ++ i ++ f ++ e.
(** Integers in range stay integers; everything else (also -0) is converted to the f64 the oracle gives. *)
Definition number_of (f64 : bytes -> option N) (neg : bool) (i f e : bytes) : option number :=
  if is_empty f && is_empty e && negb neg && (dec_value i <? 2 ^ 64) then Some (PosInt (dec_value i))
  else if is_empty f && is_empty e && neg && (0 <? dec_value i) && (dec_value i <=? 2 ^ 63) then Some (NegInt (dec_value i))
  else option_map Float (f64 (number_text neg i f e)).

(** ** Trees *)
(** An array element with the blanks around it; an object member
    [w1 "key" w2 : w3 value w4]. *)
Record item (T : Type) := Item { i_before : bytes; i_value : T; i_after : bytes }.
Record member (T : Type) :=
  Member { m_before : bytes; m_key : list schar; m_mid1 : bytes; m_mid2 : bytes; m_value : T; m_after : bytes }.
Inductive tree :=
| TNull
| TBool (b : bool)
| TNum (neg : bool) (i f e : bytes)
| TStr (cs : list schar)
| TArr (w : bytes) (l : list (item tree))
| TObj (w : bytes) (l : list (member tree)).

Fixpoint render (t : tree) : bytes :=
  match t with
  | TNull => B "null"
  | TBool b => if b then B "true" else B "false"
  | TNum neg i f e => number_text neg i f e
  | TStr cs => string_text cs
  | TArr w l => B "[" ++ w ++ join (B ",") (map (fun x => i_before x ++ render (i_value x) ++ i_after x) l) ++ B "]"
  | TObj w l =>
    B "{" ++ w ++
    join (B ",") (map (fun m => m_before m ++ string_text (m_key m) ++ m_mid1 m ++ B ":" ++ m_mid2 m ++ render (m_value m) ++ m_after m) l)
    ++ B "}"
  end.
Fixpoint tree_ok (t : tree) : Prop :=
  match t with
  | TNull | TBool _ => True
  | TNum _ i f e => int_ok i /\ frac_ok f /\ exp_ok e
  | TStr cs => Forall char_ok cs
  | TArr w l =>
    blank w /\
    fold_right (fun x P => (blank (i_before x) /\ tree_ok (i_value x) /\ blank (i_after x)) /\ P) True l
  | TObj w l =>
    blank w /\
    fold_right (fun m P => (blank (m_before m) /\ Forall char_ok (m_key m) /\ blank (m_mid1 m) /\ blank (m_mid2 m) /\
                            tree_ok (m_value m) /\ blank (m_after m)) /\ P) True l
  end.
(** Number of brackets around the innermost value. *)
Fixpoint tree_depth (t : tree) : nat :=
  match t with
  | TArr _ l => S (fold_right (fun x n => Nat.max (tree_depth (i_value x)) n) O l)
  | TObj _ l => S (fold_right (fun m n => Nat.max (tree_depth (m_value m)) n) O l)
  | _ => O
  end.

(** ** Meaning *)
Section Traverse.
  Context {A C : Type}.
  Variable f : A -> option C.
  Fixpoint traverse (l : list A) : option (list C) :=
    match l with
    | [] => Some []
    | x :: l' => match f x, traverse l' with Some y, Some ys => Some (y :: ys) | _, _ => None end
    end.
End Traverse.

(** An object as a map: of several members with one name the last counts. *)
Definition object_of (kvs : list (bytes * json)) : list (bytes * json) :=
  fold_left (fun m kv => obj_insert (fst kv) (snd kv) m) kvs [].
Fixpoint value_of (f64 : bytes -> option N) (t : tree) : option json :=
  match t with
  | TNull => Some JNull
  | TBool b => Some (JBool b)
  | TNum neg i f e => option_map JNum (number_of f64 neg i f e)
  | TStr cs => option_map JStr (string_of cs)
  | TArr _ l => option_map JArr (traverse (fun x => value_of f64 (i_value x)) l)
  | TObj _ l =>
    option_map (fun kvs => JObj (object_of kvs))
      (traverse (fun m => match string_of (m_key m), value_of f64 (m_value m) with
                          | Some k, Some v => Some (k, v) | _, _ => None end) l)
  end.

Definition named (n : bytes) (m : member tree) : bool :=
  match string_of (m_key m) with Some k => bytes_eqb k n | None => false end.

(** The meaning of a tree as a value of a type of the crate, with at most [d] nested brackets. A struct is an
    object with exactly one member per field (none is allowed for an Option) and any other members, or the
    array of its fields. *)
Fixpoint decode (f64 : bytes -> option N) (sc : schema) (d : nat) (t : tree) {struct sc} : option data :=
  match sc with
  | SString => match t with TStr cs => option_map DStr (string_of cs) | _ => None end
  | SValue => if (tree_depth t <=? d)%nat then option_map DVal (value_of f64 t) else None
  | SOption sc' => match t with TNull => Some DNone | _ => option_map DSome (decode f64 sc' d t) end
  | SVec sc' =>
    match d, t with
    | S d', TArr _ l => option_map DVec (traverse (fun x => decode f64 sc' d' (i_value x)) l)
    | _, _ => None
    end
  | SEnum names =>
    let variant cs := match string_of cs with Some n => if known_name names n then Some (DEnum n) else None | None => None end in
    match d, t with
    | _, TStr cs => variant cs
    | S _, TObj _ [m] => match m_value m with TNull => variant (m_key m) | _ => None end
    | _, _ => None
    end
  | SStruct fs =>
    match d, t with
    | S d', TObj _ l =>
      if forallb (fun m => match string_of (m_key m) with Some _ => true | None => false end) l then
        option_map DStruct
          (traverse (fun f => match filter (named (fst (fst f))) l with
                              | [] => if is_option (snd f) then Some DNone else None
                              | [m] => decode f64 (snd f) d' (m_value m)
                              | _ => None
                              end) fs)
      else None
    | S d', TArr _ l =>
      option_map DStruct
        ((fix fields (fs : list (bytes * bool * schema)) (l : list (item tree)) : option (list data) :=
            match fs, l with
            | [], [] => Some []
            | f :: fs', x :: l' =>
              match decode f64 (snd f) d' (i_value x), fields fs' l' with
              | Some y, Some ys => Some (y :: ys)
              | _, _ => None
              end
            | _, _ => None
            end) fs l)
    | _, _ => None
    end
  end.
