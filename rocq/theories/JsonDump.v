(** * JsonDump: the json formatter.
    Models ttp/formatters/json_formatter.py 4-8: [dumps(data, sort_keys=True, indent=4, separators=(",", ": "))], and what
    json.encoder of the standard library does with these arguments.

    Simplifications: an object that is none of None, bool, int, str, list, dict is not serializable (TypeError); a
    dictionary's boolean key is the number it is equal to; no limit on the depth.  Every error is a TypeError, so the order in
    which values and keys fail does not matter. *)
From Verif Require Import PyBase Results Outputs.
Local Open Scope string_scope.
Local Open Scope list_scope.

(** json.encoder.py_encode_basestring_ascii: ESCAPE_ASCII and ESCAPE_DCT *)
Definition json_char (c : ascii) : str :=
  if Ascii.eqb c dquote then ["\"%char; dquote]
  else if Ascii.eqb c "\" then $"\\"
  else if Ascii.eqb c nl then $"\n"
  else if N.eqb (code c) 13 then $"\r"
  else if Ascii.eqb c tab then $"\t"
  else if N.eqb (code c) 12 then $"\f"
  else if N.eqb (code c) 8 then $"\b"
  else if between 32 126 c then [c]
  else $"\u00" ++ [hexdigit (N.div (code c) 16); hexdigit (N.modulo (code c) 16)].
Definition json_quoted (s : str) : str := dquote :: flat_map json_char s ++ [dquote].
(** _iterencode_dict: what a key that is no string becomes *)
Definition json_key (k : key) : str := match k with KS s => s | KI z => str_of_Z z | KNone => $"null" end.
(** [sorted(dct.items())]; the keys are different, so that values are not compared *)
Fixpoint insert_item {A} (x : key * A) (l : list (key * A)) : res (list (key * A)) :=
  match l with
  | [] => Ok [x]
  | y :: t => do b <- key_lt (fst x) (fst y); if b then Ok (x :: l) else do t' <- insert_item x t; Ok (y :: t')
  end.
Definition sort_items {A} (l : list (key * A)) : res (list (key * A)) := rfold (fun acc x => insert_item x acc) l [].
(** _make_iterencode with an indent of 4 at level [n] *)
Definition line_break (n : nat) : str := nl :: repeat space (4 * n).
Definition enclosed (n : nat) (o c : ascii) (items : list str) : str :=
  match items with
  | [] => [o; c]
  | _ => [o] ++ line_break (S n) ++ join ($"," ++ line_break (S n)) items ++ line_break n ++ [c]
  end.
Fixpoint json_dumps (n : nat) (v : val) : res str :=
  match v with
  | VNone => Ok $"null"
  | VBool b => Ok (if b then $"true" else $"false")
  | VInt z => Ok (str_of_Z z)
  | VStr s => Ok (json_quoted s)
  | VList l =>
      do ts <- (fix each (l : list val) : res (list str) :=
                  match l with [] => Ok [] | x :: l => do t <- json_dumps (S n) x; do ts <- each l; Ok (t :: ts) end) l;
      Ok (enclosed n "[" "]" ts)
  | VDict d =>
      do ts <- (fix each (d : dict) : res (list (key * str)) :=
                  match d with [] => Ok [] | (k, x) :: d => do t <- json_dumps (S n) x; do ts <- each d; Ok ((k, t) :: ts) end) d;
      do ts <- sort_items ts;
      Ok (enclosed n "{" "}" (map (fun kt => json_quoted (json_key (fst kt)) ++ $": " ++ snd kt) ts))
  | VObj _ => Raise TypeError
  end.
Definition json_formatter (data : val) : res val := do t <- json_dumps 0 data; Ok (VStr t).
