(** * Model of the JSON serialization of the constraints manager
    (/repo/src/cognitivefactory/interactive_clustering/constraints/binary.py:754-830)
    and of the part of Python's [json] module it uses.

    The text is a list of characters (code points).  The encoder escapes everything
    outside printable ASCII (json.dump defaults), so the text is plain ASCII and
    file encoding/newline translation do not matter.  Simplifications:
    - a JSON number is kept as its text (the loader never reads numbers);
    - on a document that has not the expected shape (a list of strings and a list of
      records with three string fields) the loader model raises TypeError or
      KeyError; what Python does with, e.g., a string in place of the list of IDs is
      not modelled. *)

From Coq Require Import List Bool Arith NArith QArith String.
From Verif Require Import Base Manager.
Import ListNotations.
Open Scope nat_scope.
Open Scope py_scope.

Inductive json :=
| JStr (s : pystr)
| JNum (lexeme : pystr)
| JConst (name : pystr)                  (* null, true, false, NaN, Infinity, -Infinity *)
| JArr (l : list json)
| JObj (l : list (pystr * json)).

Local Open Scope N_scope.

(** ** Encoder (json.encoder.py_encode_basestring_ascii, JSONEncoder with indent=1). *)
Definition hexdig (d : N) : N := if d <? 10 then 48 + d else 87 + d.
Definition hex4 (n : N) : pystr :=
  [hexdig (n / 4096); hexdig (n / 256 mod 16); hexdig (n / 16 mod 16); hexdig (n mod 16)].

Definition enc_char (c : N) : pystr :=
  if c =? 34 then [92; 34]
  else if c =? 92 then [92; 92]
  else if c =? 10 then [92; 110]
  else if c =? 13 then [92; 114]
  else if c =? 9 then [92; 116]
  else if c =? 12 then [92; 102]
  else if c =? 8 then [92; 98]
  else if (32 <=? c) && (c <=? 126) then [c]
  else if c <? 65536 then 92 :: 117 :: hex4 c
  else let v := c - 65536 in
       (92 :: 117 :: hex4 (55296 + v / 1024)) ++ (92 :: 117 :: hex4 (56320 + v mod 1024)).

Definition enc_string (s : pystr) : pystr := 34 :: flat_map enc_char s ++ [34].

(** newline followed by [level] spaces (indent=1). *)
Definition newline_indent (level : nat) : pystr := 10 :: repeat 32 level.

Fixpoint join (sep : pystr) (l : list pystr) : pystr :=
  match l with
  | [] => []
  | [x] => x
  | x :: l' => x ++ sep ++ join sep l'
  end.

(** [_iterencode] with item separator [","] and key separator [": "]. *)
Fixpoint dump (level : nat) (v : json) : pystr :=
  match v with
  | JStr s => enc_string s
  | JNum l => l
  | JConst n => n
  | JArr [] => [91; 93]
  | JArr l =>
      [91] ++ newline_indent (S level)
      ++ join (44 :: newline_indent (S level)) (map (dump (S level)) l)
      ++ newline_indent level ++ [93]
  | JObj [] => [123; 125]
  | JObj l =>
      [123] ++ newline_indent (S level)
      ++ join (44 :: newline_indent (S level))
              (map (fun kv => enc_string (fst kv) ++ [58; 32] ++ dump (S level) (snd kv)) l)
      ++ newline_indent level ++ [125]
  end.

(** ** Decoder (json.decoder). *)
Definition is_ws (c : N) : bool := (c =? 32) || (c =? 9) || (c =? 10) || (c =? 13).

Fixpoint skip_ws (s : pystr) : pystr :=
  match s with
  | c :: s' => if is_ws c then skip_ws s' else s
  | [] => []
  end.

Definition unhex (c : N) : option N :=
  if (48 <=? c) && (c <=? 57) then Some (c - 48)
  else if (97 <=? c) && (c <=? 102) then Some (c - 87)
  else if (65 <=? c) && (c <=? 70) then Some (c - 55)
  else None.

Definition unhex4 (a b c d : N) : option N :=
  match unhex a, unhex b, unhex c, unhex d with
  | Some a, Some b, Some c, Some d => Some (a * 4096 + b * 256 + c * 16 + d)
  | _, _, _, _ => None
  end.

Definition is_high (u : N) : bool := (55296 <=? u) && (u <=? 56319).
Definition is_low (u : N) : bool := (56320 <=? u) && (u <=? 57343).

(** One-character escapes. *)
Definition unescape (e : N) : option N :=
  if e =? 34 then Some 34 else if e =? 92 then Some 92 else if e =? 47 then Some 47
  else if e =? 98 then Some 8 else if e =? 102 then Some 12 else if e =? 110 then Some 10
  else if e =? 114 then Some 13 else if e =? 116 then Some 9 else None.

Definition pcons (c : N) (r : res (pystr * pystr)) : res (pystr * pystr) :=
  x <-- r ;;; Ok (c :: fst x, snd x).

(** [py_scanstring]: after the opening quote; returns the string and the rest. *)
Fixpoint scan_string (s : pystr) : res (pystr * pystr) :=
  match s with
  | [] => Raise JSONDecodeError
  | c :: s1 =>
      if c =? 34 then Ok ([], s1)
      else if c <? 32 then Raise JSONDecodeError
      else if c =? 92 then
        match s1 with
        | [] => Raise JSONDecodeError
        | e :: s2 =>
            if e =? 117 then
              match s2 with
              | h1 :: h2 :: h3 :: h4 :: s3 =>
                  match unhex4 h1 h2 h3 h4 with
                  | None => Raise JSONDecodeError
                  | Some u =>
                      if is_high u then
                        match s3 with
                        | b :: w :: s4 =>
                            if (b =? 92) && (w =? 117) then
                              match s4 with
                              | g1 :: g2 :: g3 :: g4 :: s5 =>
                                  match unhex4 g1 g2 g3 g4 with
                                  | None => Raise JSONDecodeError
                                  | Some u2 =>
                                      if is_low u2
                                      then pcons (65536 + (u - 55296) * 1024 + (u2 - 56320)) (scan_string s5)
                                      else pcons u (scan_string s3)
                                  end
                              | _ => Raise JSONDecodeError
                              end
                            else pcons u (scan_string s3)
                        | _ => pcons u (scan_string s3)
                        end
                      else pcons u (scan_string s3)
                  end
              | _ => Raise JSONDecodeError
              end
            else match unescape e with
                 | Some x => pcons x (scan_string s2)
                 | None => Raise JSONDecodeError
                 end
        end
      else pcons c (scan_string s1)
  end.

Definition is_digit (c : N) : bool := (48 <=? c) && (c <=? 57).

Fixpoint span_digits (s : pystr) : pystr * pystr :=
  match s with
  | c :: s' => if is_digit c then let (d, r) := span_digits s' in (c :: d, r) else ([], s)
  | [] => ([], [])
  end.

Definition scan_frac (s : pystr) : pystr * pystr :=
  match s with
  | c :: s1 => if c =? 46 then
                 match span_digits s1 with
                 | ([], _) => ([], s)
                 | (d, r) => (c :: d, r)
                 end
               else ([], s)
  | [] => ([], s)
  end.

Definition scan_sign (s : pystr) : pystr * pystr :=
  match s with
  | c :: s1 => if (c =? 43) || (c =? 45) then ([c], s1) else ([], s)
  | [] => ([], s)
  end.

Definition scan_exp (s : pystr) : pystr * pystr :=
  match s with
  | c :: s1 => if (c =? 101) || (c =? 69) then
                 let (sg, s2) := scan_sign s1 in
                 match span_digits s2 with
                 | ([], _) => ([], s)
                 | (d, r) => (c :: sg ++ d, r)
                 end
               else ([], s)
  | [] => ([], s)
  end.

Definition scan_int (s : pystr) : option (pystr * pystr) :=
  match s with
  | c :: s1 => if c =? 48 then Some ([c], s1)
               else if is_digit c then let (d, r) := span_digits s1 in Some (c :: d, r)
               else None
  | [] => None
  end.

Definition scan_minus (s : pystr) : pystr * pystr :=
  match s with
  | c :: s1 => if c =? 45 then ([c], s1) else ([], s)
  | [] => ([], s)
  end.

(** The regular expression NUMBER_RE: optional minus; 0 or a non-zero digit and
    digits; optional dot and digits; optional e or E, optional sign and digits. *)
Definition scan_number (s : pystr) : option (pystr * pystr) :=
  let (m, s1) := scan_minus s in
  match scan_int s1 with
  | None => None
  | Some (i, s2) =>
      let (f, s3) := scan_frac s2 in
      let (e, s4) := scan_exp s3 in
      Some (m ++ i ++ f ++ e, s4)
  end.

Fixpoint strip_prefix (p s : pystr) : option pystr :=
  match p, s with
  | [], _ => Some s
  | c :: p', d :: s' => if c =? d then strip_prefix p' s' else None
  | _, [] => None
  end.

Definition json_literals : list pystr :=
  [str "null"; str "true"; str "false"; str "NaN"; str "Infinity"; str "-Infinity"].

Fixpoint scan_literal (ls : list pystr) (s : pystr) : option (pystr * pystr) :=
  match ls with
  | [] => None
  | l :: ls' => match strip_prefix l s with Some r => Some (l, r) | None => scan_literal ls' s end
  end.

(** [scan_once], [JSONArray], [JSONObject] (json.scanner, json.decoder).  Fuel is an
    artefact: [loads] gives enough of it (proved). *)
Fixpoint parse_value (fuel : nat) (s : pystr) : res (json * pystr) :=
  match fuel with
  | O => Raise OutOfFuel
  | S n =>
      match s with
      | [] => Raise JSONDecodeError
      | c :: s1 =>
          if c =? 34 then x <-- scan_string s1 ;;; Ok (JStr (fst x), snd x)
          else if c =? 123 then
            match skip_ws s1 with
            | [] => Raise JSONDecodeError
            | d :: s2 =>
                if d =? 125 then Ok (JObj [], s2)
                else x <-- parse_members n (d :: s2) ;;; Ok (JObj (fst x), snd x)
            end
          else if c =? 91 then
            match skip_ws s1 with
            | [] => Raise JSONDecodeError
            | d :: s2 =>
                if d =? 93 then Ok (JArr [], s2)
                else x <-- parse_elems n (d :: s2) ;;; Ok (JArr (fst x), snd x)
            end
          else
            match scan_literal json_literals s with
            | Some (l, r) => Ok (JConst l, r)
            | None => match scan_number s with
                      | Some (l, r) => Ok (JNum l, r)
                      | None => Raise JSONDecodeError
                      end
            end
      end
  end
with parse_elems (fuel : nat) (s : pystr) : res (list json * pystr) :=
  match fuel with
  | O => Raise OutOfFuel
  | S n =>
      x <-- parse_value n s ;;;
      match skip_ws (snd x) with
      | [] => Raise JSONDecodeError
      | d :: s2 =>
          if d =? 93 then Ok ([fst x], s2)
          else if d =? 44 then
            y <-- parse_elems n (skip_ws s2) ;;; Ok (fst x :: fst y, snd y)
          else Raise JSONDecodeError
      end
  end
with parse_members (fuel : nat) (s : pystr) : res (list (pystr * json) * pystr) :=
  match fuel with
  | O => Raise OutOfFuel
  | S n =>
      match s with
      | [] => Raise JSONDecodeError
      | q :: s0 =>
          if q =? 34 then
            k <-- scan_string s0 ;;;
            match skip_ws (snd k) with
            | [] => Raise JSONDecodeError
            | c :: s1 =>
                if c =? 58 then
                  x <-- parse_value n (skip_ws s1) ;;;
                  match skip_ws (snd x) with
                  | [] => Raise JSONDecodeError
                  | d :: s2 =>
                      if d =? 125 then Ok ([(fst k, fst x)], s2)
                      else if d =? 44 then
                        y <-- parse_members n (skip_ws s2) ;;; Ok ((fst k, fst x) :: fst y, snd y)
                      else Raise JSONDecodeError
                  end
                else Raise JSONDecodeError
            end
          else Raise JSONDecodeError
      end
  end.

(** [json.loads] / [JSONDecoder.decode]: a byte order mark or trailing text is an error. *)
Definition loads (s : pystr) : res json :=
  if match s with c :: _ => c =? 65279 | [] => false end then Raise JSONDecodeError
  else
    x <-- parse_value (S (2 * List.length s)) (skip_ws s) ;;;
    match skip_ws (snd x) with
    | [] => Ok (fst x)
    | _ => Raise JSONDecodeError
    end.

(** ** [to_json] (754-790). *)
Definition record_of (a b t : pystr) : json :=
  JObj [(str "data_ID1", JStr a); (str "data_ID2", JStr b);
        (str "constraint_type", JStr t); (str "constraints_value", JNum (str "1.0"))].

Definition stored_list (m : mgr) : list (pystr * pystr * pystr) :=
  flat_map (fun row => flat_map (fun e => match snd e with
                                          | Some c => [(fst row, fst e, fst c)]
                                          | None => []
                                          end) (snd row)) (cdict m).

Definition document (ids : list pystr) (l : list (pystr * pystr * pystr)) : json :=
  JObj [(str "list_of_managed_data_IDs", JArr (map JStr ids));
        (str "list_of_added_constraints", JArr (map (fun c => record_of (fst (fst c)) (snd (fst c)) (snd c)) l))].

Definition to_json_text (m : mgr) : pystr := dump 0 (document (keys (cdict m)) (stored_list m)).

(** ** [load_constraints_manager_from_json] (796-830). *)
(** [v[key]] on a decoded object (a dictionary: the last binding of a key wins). *)
Definition getitem (k : pystr) (v : json) : res json :=
  match v with
  | JObj l => match dget k (fold_left (fun d kv => dset (fst kv) (snd kv) d) l []) with
              | Some x => Ok x
              | None => Raise KeyError
              end
  | _ => Raise TypeError
  end.

Definition as_str (v : json) : res pystr := match v with JStr s => Ok s | _ => Raise TypeError end.
Definition as_list (v : json) : res (list json) := match v with JArr l => Ok l | _ => Raise TypeError end.

Definition load_record (v : json) : M mgr unit :=
  d1 <- lift (x <-- getitem (str "data_ID1") v ;;; as_str x) ;;
  d2 <- lift (x <-- getitem (str "data_ID2") v ;;; as_str x) ;;
  t <- lift (x <-- getitem (str "constraint_type") v ;;; as_str x) ;;
  add_constraint d1 d2 t 1%Q ;; ret tt.

Definition load_value (v : json) : res mgr :=
  ids <-- (x <-- getitem (str "list_of_managed_data_IDs") v ;;; l <-- as_list x ;;; rmap as_str l) ;;;
  l <-- (x <-- getitem (str "list_of_added_constraints") v ;;; as_list x) ;;;
  let (m, r) := for_ l load_record (init ids) in
  _ <-- r ;;; Ok m.

Definition load_text (s : pystr) : res mgr := v <-- loads s ;;; load_value v.

(** ** The file on disk.
    [to_json] opens the file with mode "w" (truncating it) and writes the text.  A crash
    leaves the previous content (before the open) or some prefix of the text. *)
Inductive after_crash (old : option pystr) (text : pystr) : option pystr -> Prop :=
| crash_before : after_crash old text old
| crash_during : forall p q, text = p ++ q -> after_crash old text (Some p).

Definition load_file (f : option pystr) : res mgr :=
  match f with Some s => load_text s | None => Raise FileNotFoundError end.
