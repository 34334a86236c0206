(** * Attributes: the functions of a match variable or of a chain, read from text.
    Models ttp/utils/get_attributes.py.

    Simplification: [eval] is modelled on literals only (names, strings, integers,
    True/False/None, lists, dictionaries, keyword arguments).  Expressions outside
    of this fragment (operators other than a minus before an integer, calls,
    tuples, floats, bytes and format strings, \N and \u escapes, non-ASCII
    identifiers, comprehensions) are treated like syntax errors: SystemExit. *)
From Verif Require Import PyBase Regex.
Local Open Scope string_scope.
Local Open Scope list_scope.

(** ** tokens of a Python expression *)
Inductive token := TName (s : str) | TStr (s : str) | TInt (z : Z) | TOp (c : ascii).

Definition name_start (c : ascii) : bool := (is_ascii_letter c || Ascii.eqb c "_")%bool.
Definition name_char (c : ascii) : bool := (name_start c || is_dec c)%bool.
Fixpoint span_of (p : ascii -> bool) (s : str) : str * str :=
  match s with
  | c :: t => if p c then let '(a, b) := span_of p t in (c :: a, b) else ([], s)
  | [] => ([], [])
  end.
Definition hexval (c : ascii) : option N :=
  if is_dec c then Some (code c - 48)%N
  else if between 97 102 c then Some (code c - 87)%N
  else if between 65 70 c then Some (code c - 55)%N else None.
Definition oct (c : ascii) : bool := between 48 55 c.
Definition one_escape (c : ascii) : option ascii :=
  if Ascii.eqb c "n" then Some nl else if Ascii.eqb c "t" then Some tab else if Ascii.eqb c "r" then Some (chr 13)
  else if Ascii.eqb c "a" then Some (chr 7) else if Ascii.eqb c "b" then Some (chr 8) else if Ascii.eqb c "f" then Some (chr 12)
  else if Ascii.eqb c "v" then Some (chr 11)
  else if (Ascii.eqb c "\" || Ascii.eqb c "'" || Ascii.eqb c """")%bool then Some c else None.

(** the rest of a string literal after its opening quote [q]: CPython's tokenizer and
    Objects/unicodeobject.c _PyUnicode_DecodeUnicodeEscape *)
Fixpoint string_lit (fuel : nat) (raw : bool) (q : ascii) (s : str) : option (str * str) :=
  match fuel with
  | O => None
  | S f =>
    let keep c r := match r with Some (a, b) => Some (c ++ a, b) | None => None end in
    match s with
    | [] => None
    | c :: t =>
        if Ascii.eqb c q then Some ([], t)
        else if Ascii.eqb c nl then None
        else if negb (Ascii.eqb c "\") then keep [c] (string_lit f raw q t)
        else match t with
             | [] => None
             | e :: t1 =>
                 if raw then keep [c; e] (string_lit f raw q t1)
                 else match one_escape e with
                 | Some x => keep [x] (string_lit f raw q t1)
                 | None =>
                     if oct e then
                       match t1 with
                       | d1 :: t2 =>
                           if oct d1 then
                             match t2 with
                             | d2 :: t3 =>
                                 if oct d2 then
                                   let n := ((code e - 48) * 64 + (code d1 - 48) * 8 + (code d2 - 48))%N in
                                   if N.leb n 255 then keep [chr n] (string_lit f raw q t3) else None
                                 else keep [chr ((code e - 48) * 8 + (code d1 - 48))%N] (string_lit f raw q t2)
                             | [] => None
                             end
                           else keep [chr (code e - 48)%N] (string_lit f raw q t1)
                       | [] => None
                       end
                     else if Ascii.eqb e "x" then
                       match t1 with
                       | h1 :: h2 :: t3 =>
                           match hexval h1, hexval h2 with
                           | Some a, Some b => keep [chr (a * 16 + b)%N] (string_lit f raw q t3)
                           | _, _ => None
                           end
                       | _ => None
                       end
                     else if (Ascii.eqb e "N" || Ascii.eqb e "u" || Ascii.eqb e "U" || Ascii.eqb e nl)%bool then None
                     else keep [c; e] (string_lit f raw q t1)
                 end
             end
    end
  end.
Definition quote (c : ascii) : bool := (Ascii.eqb c """" || Ascii.eqb c "'")%bool.
(** after the opening quote; triple quoted strings are outside of the fragment *)
Definition open_string (raw : bool) (q : ascii) (s : str) : option (str * str) :=
  if prefixb [q; q] s then None else string_lit (S (length s)) raw q s.
(** "0", "00" or a number that does not begin with 0, not followed by a letter or a point *)
Definition int_token (ds rest : str) : option Z :=
  let ok := match ds with d :: _ :: _ => if Ascii.eqb d "0" then forallb (fun c => Ascii.eqb c "0") ds else true | _ => true end in
  let sep := match rest with c :: _ => negb (name_start c || Ascii.eqb c ".")%bool | [] => true end in
  if (ok && sep)%bool then Some (Z.of_N (digits_val ds 0)) else None.
Fixpoint lex (fuel : nat) (s : str) : option (list token) :=
  match fuel with
  | O => None
  | S f =>
    let cont t r := match lex f r with Some l => Some (t :: l) | None => None end in
    match s with
    | [] => Some []
    | c :: t =>
        if (Ascii.eqb c space || Ascii.eqb c tab || Ascii.eqb c (chr 12))%bool then lex f t
        else if existsb (Ascii.eqb c) $",=:[]{}()-" then cont (TOp c) t
        else if quote c then match open_string false c t with Some (v, r) => cont (TStr v) r | None => None end
        else if name_start c then
          let '(n, r) := span_of name_char s in
          match r with
          | q :: r' =>
              if quote q then
                if existsb (str_eqb n) [$"r"; $"R"] then match open_string true q r' with Some (v, r2) => cont (TStr v) r2 | None => None end
                else if existsb (str_eqb n) [$"u"; $"U"] then match open_string false q r' with Some (v, r2) => cont (TStr v) r2 | None => None end
                else None
              else cont (TName n) r
          | [] => cont (TName n) r
          end
        else if is_dec c then
          let '(ds, r) := span_of is_dec s in
          match int_token ds r with Some z => cont (TInt z) r | None => None end
        else None
    end
  end.

(** ** expressions *)
(** words that are not names: Lib/keyword.py *)
Definition keywords : list str :=
  [$"and"; $"as"; $"assert"; $"async"; $"await"; $"break"; $"class"; $"continue"; $"def"; $"del"; $"elif"; $"else"; $"except"; $"finally";
   $"for"; $"from"; $"global"; $"if"; $"import"; $"in"; $"is"; $"lambda"; $"nonlocal"; $"not"; $"or"; $"pass"; $"raise"; $"return"; $"try";
   $"while"; $"with"; $"yield"].
(** the names defined in get_attributes.py itself, its imports and what ttp puts there; the value of such a
    name is an object.  Simplification: also for __name__ and the like, which are strings *)
Definition module_names : list str :=
  [$"re"; $"sys"; $"traceback"; $"logging"; $"log"; $"_UndefSubst"; $"_get_args_kwargs"; $"get_attributes"; $"_ttp_";
   $"__name__"; $"__doc__"; $"__package__"; $"__loader__"; $"__spec__"; $"__file__"; $"__cached__"; $"__builtins__"].
Fixpoint index_of (s : str) (l : list str) : option nat :=
  match l with [] => None | x :: t => if str_eqb s x then Some 0 else option_map S (index_of s t) end.
(** get_attributes.py 9-22; True, False and None are constants *)
Definition name_value (n : str) : option val :=
  match index_of n module_names with
  | Some i => Some (VObj i)
  | None =>
      if existsb (str_eqb n) keywords then None
      else Some (if str_eqb (lower n) $"false" then VBool false
                 else if str_eqb (lower n) $"true" then VBool true
                 else if str_eqb (lower n) $"none" then VNone else VStr n)
  end.
Definition key_lit (v : val) : option key :=
  match v with VStr s => Some (KS s) | VInt z => Some (KI z) | VNone => Some KNone | _ => None end.
(** the string literals after a string literal: they are concatenated *)
Fixpoint more_strings (ts : list token) : str * list token :=
  match ts with TStr s :: t => let '(a, r) := more_strings t in (s ++ a, r) | _ => ([], ts) end.
Definition is_op (c : ascii) (t : token) : bool := match t with TOp d => Ascii.eqb c d | _ => false end.
Fixpoint expr (fuel : nat) (ts : list token) : option (val * list token) :=
  match fuel with
  | O => None
  | S f =>
    match ts with
    | TName n :: t => match name_value n with Some v => Some (v, t) | None => None end
    | TInt z :: t => Some (VInt z, t)
    | TStr s :: t => let '(a, r) := more_strings t in Some (VStr (s ++ a), r)
    | TOp c :: t =>
        if Ascii.eqb c "-" then match t with TInt z :: r => Some (VInt (- z), r) | _ => None end
        else if Ascii.eqb c "[" then list_items f t []
        else if Ascii.eqb c "{" then dict_items f t []
        else if Ascii.eqb c "(" then
          match expr f t with Some (v, r :: rest) => if is_op ")" r then Some (v, rest) else None | _ => None end
        else None
    | [] => None
    end
  end
with list_items (fuel : nat) (ts : list token) (acc : list val) : option (val * list token) :=
  match fuel with
  | O => None
  | S f =>
    match ts with
    | TOp c :: r => if Ascii.eqb c "]" then Some (VList (rev acc), r) else list_item f ts acc
    | _ => list_item f ts acc
    end
  end
with list_item (fuel : nat) (ts : list token) (acc : list val) : option (val * list token) :=
  match fuel with
  | O => None
  | S f =>
    match expr f ts with
    | Some (v, TOp c :: r) =>
        if Ascii.eqb c "," then list_items f r (v :: acc)
        else if Ascii.eqb c "]" then Some (VList (rev (v :: acc)), r) else None
    | _ => None
    end
  end
with dict_items (fuel : nat) (ts : list token) (acc : dict) : option (val * list token) :=
  match fuel with
  | O => None
  | S f =>
    match ts with
    | TOp c :: r => if Ascii.eqb c "}" then Some (VDict acc, r) else dict_item f ts acc
    | _ => dict_item f ts acc
    end
  end
with dict_item (fuel : nat) (ts : list token) (acc : dict) : option (val * list token) :=
  match fuel with
  | O => None
  | S f =>
    match expr f ts with
    | Some (k, TOp c :: r) =>
        match Ascii.eqb c ":", key_lit k with
        | true, Some k' =>
            match expr f r with
            | Some (v, TOp d :: r') =>
                if Ascii.eqb d "," then dict_items f r' (dset acc k' v)
                else if Ascii.eqb d "}" then Some (VDict (dset acc k' v), r') else None
            | _ => None
            end
        | _, _ => None
        end
    | _ => None
    end
  end.

(** the arguments of a call: [_get_args_kwargs(...)].  Positional arguments come before keyword
    arguments, keywords are different *)
Record call_args := { ca_args : list val; ca_kwargs : dict }.
Definition no_args : call_args := {| ca_args := []; ca_kwargs := [] |}.
Definition nonempty {A} (l : list A) : bool := match l with [] => false | _ => true end.
Fixpoint arguments (fuel : nat) (ts : list token) (a : call_args) : option call_args :=
  match fuel with
  | O => None
  | S f =>
    let next a r := match r with
                    | [] => Some a
                    | t :: r' => if is_op "," t then arguments f r' a else None
                    end in
    match ts with
    | [] => Some a
    | TName n :: TOp "="%char :: t =>
        if (existsb (str_eqb n) ([$"True"; $"False"; $"None"] ++ keywords) || match dget (ca_kwargs a) (KS n) with Some _ => true | None => false end)%bool then None
        else match expr (S (4 * length t)) t with
             | Some (v, r) => next {| ca_args := ca_args a; ca_kwargs := dset (ca_kwargs a) (KS n) v |} r
             | None => None
             end
    | _ =>
        if nonempty (ca_kwargs a) then None
        else match expr (S (4 * length ts)) ts with
             | Some (v, r) => next {| ca_args := ca_args a ++ [v]; ca_kwargs := ca_kwargs a |} r
             | None => None
             end
    end
  end.
Definition eval_args (options : str) : option call_args :=
  match lex (S (length options)) options with
  | Some ts => arguments (S (length ts)) ts no_args
  | None => None
  end.

(** ** get_attributes: get_attributes.py 25-78 *)
Record attribute := { at_name : str; at_args : list val; at_kwargs : dict }.
Definition at_end : re := RAhead true (RSet true []).
(** the regular expression of get_attributes.py 45; the item has no trailing line break, so a dollar is the end *)
Definition item_re : re :=
  RSeq (RGroup $"name" (rplus_lazy rS))
    (RSeq (ropt rs) (RSeq (ropt (RSeq (rchar "(") (RSeq (RGroup $"options" (RStar true RAny)) (rchar ")")))) at_end)).
Fixpoint cap (n : str) (c : caps) : option str :=
  match c with [] => None | (m, v) :: t => if str_eqb n m then Some v else cap n t end.
Definition get_item (item : str) : res attribute :=
  match rmatch item_re item with
  | None => Raise SystemExit
  | Some (_, c) =>
      let name := match cap $"name" c with Some n => n | None => [] end in
      match cap $"options" c with
      | None | Some [] => Ok {| at_name := name; at_args := []; at_kwargs := [] |}
      | Some o => match eval_args o with
                  | Some a => Ok {| at_name := name; at_args := ca_args a; at_kwargs := ca_kwargs a |}
                  | None => Raise SystemExit
                  end
      end
  end.
Definition bar : str := $"|".
Definition items_in (line : str) : list str := filter nonempty (map strip (split bar line)).
Definition get_attributes (line : str) : res (list attribute) := rmap get_item (items_in line).

(** the examples of the documentation and of the tests *)
Definition shown (r : res (list attribute)) : res (list (str * list val * dict)) :=
  do l <- r; Ok (map (fun a => (at_name a, at_args a, at_kwargs a)) l).
Example attributes_ex1 : shown (get_attributes $" interface | contains('vlan', Lo) | upper | split('.') ") =
  Ok [($"interface", [], []); ($"contains", [VStr $"vlan"; VStr $"Lo"], []); ($"upper", [], []); ($"split", [VStr $"."], [])].
Proof. vm_compute. reflexivity. Qed.
Example attributes_ex2 : shown (get_attributes $"a | lookup('x.y', add_field=""b"") | default([]) | set({""t"": False}) | item(-1) | re(r""\d+"") | re(""\\s"")") =
  Ok [($"a", [], []); ($"lookup", [VStr $"x.y"], [(KS $"add_field", VStr $"b")]); ($"default", [VList []], []);
      ($"set", [VDict [(KS $"t", VBool false)]], []); ($"item", [VInt (-1)], []); ($"re", [VStr $"\d+"], []); ($"re", [VStr $"\s"], [])].
Proof. vm_compute. reflexivity. Qed.
Example attributes_ex3 : get_attributes $"a b" = Raise SystemExit /\ get_attributes $"exclude(-VM-)" = Raise SystemExit /\
  shown (get_attributes $"f([[a],[1,[]],]) | copy(re) | set (True) | upper()") = Ok [($"f", [VList [VList [VStr $"a"]; VList [VInt 1; VList []]]], []); ($"copy", [VObj 0], []); ($"set", [VBool true], []); ($"upper", [], [])].
Proof. vm_compute. repeat split. Qed.
