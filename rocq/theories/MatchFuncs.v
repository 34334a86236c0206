(** * MatchFuncs: the built-in match variable functions of /repo/ttp/match/*.py.

    Every function receives the match value [data] and returns the pair
    (new value, flag); the flag is None, a boolean, or {"new_field": {...}}
    (see Parser.v, /repo/ttp/ttp.py 2441-2560, for how it is used).  Functions
    that use the shared [_ttp_] dictionary also take and return the part of it
    they use.

    Not modelled: sformat (str.format), sprint (prints), to_float, to_unicode,
    ip.py except to_cidr, dns_lookups.py, geoip_lookup.py. *)
From Verif Require Import PyBase.
Local Open Scope string_scope.
Local Open Scope list_scope.

Inductive mflag :=
| FNone
| FBool (b : bool)
| FNew (fields : dict).

Notation mres := (res (val * mflag)).

(** the part of [_ttp_] used by match functions: [vars] and [global_vars] *)
Record menv := { m_vars : dict; m_gvars : dict }.

(** ** /repo/ttp/match/string.py *)

(** [pattern in data] for a string pattern: PyBase.py_in.
    string.py 4-7 *)
Definition f_exclude (data : val) (pattern : str) : mres :=
  do b <- py_in pattern data;
  if negb b then Ok (data, FBool true) else Ok (data, FBool false).

(** string.py 10-11 *)
Definition f_equal (data value : val) : mres := Ok (data, FBool (py_eq data value)).
(** string.py 14-15 *)
Definition f_notequal (data value : val) : mres := Ok (data, FBool (negb (py_eq data value))).

(** string.py 18-22 *)
Fixpoint f_contains (data : val) (patterns : list str) : mres :=
  match patterns with
  | [] => Ok (data, FBool false)
  | p :: ps => do b <- py_in p data; if b then Ok (data, FBool true) else f_contains data ps
  end.

(** [data.strip()]: AttributeError unless [data] is a string *)
Definition py_strip (v : val) : res str :=
  match v with VStr s => Ok (strip s) | _ => Raise AttributeError end.
(** [int(s)] for a string *)
Definition int_of (s : str) : res Z :=
  match py_int s with Some z => Ok z | None => Raise ValueError end.

(** string.py 30-31 *)
Definition f_isdigit (data : val) : mres := do s <- py_strip data; Ok (data, FBool (isdigit s)).
(** string.py 34-37 *)
Definition f_notdigit (data : val) : mres :=
  do s <- py_strip data; if negb (isdigit s) then Ok (data, FBool true) else Ok (data, FBool false).

(** string.py 40-44.  [value] is evaluated only if [data] is digits *)
Definition f_greaterthan (data value : val) : mres :=
  do s <- py_strip data;
  if isdigit s then
    do v <- py_strip value;
    if isdigit v then
      do a <- int_of s; do b <- int_of v;
      if Z.ltb b a then Ok (data, FBool true) else Ok (data, FBool false)
    else Ok (data, FBool false)
  else Ok (data, FBool false).
(** string.py 47-51 *)
Definition f_lessthan (data value : val) : mres :=
  do s <- py_strip data;
  if isdigit s then
    do v <- py_strip value;
    if isdigit v then
      do a <- int_of s; do b <- int_of v;
      if Z.ltb a b then Ok (data, FBool true) else Ok (data, FBool false)
    else Ok (data, FBool false)
  else Ok (data, FBool false).

(** string.py 54-58; a non-string item raises TypeError *)
Definition as_str (v : val) : res str := match v with VStr s => Ok s | _ => Raise TypeError end.
Definition f_join (data : val) (char : str) : mres :=
  match data with
  | VList l => do ss <- rmap as_str l; Ok (VStr (join char ss), FNone)
  | _ => Ok (data, FNone)
  end.

(** [vars.get(char, char)] *)
Definition get_or_self (vars : dict) (char : str) : val :=
  match dget vars (KS char) with Some v => v | None => VStr char end.

(** string.py 61-72.  The value found in [global_vars] on line 63 is overwritten
    on line 65.  [data + char_value] with a non-string raises TypeError. *)
Definition f_append (env : menv) (data : val) (char : str) : mres :=
  let char_value := get_or_self (m_gvars env) char in
  let char_value := get_or_self (m_vars env) char in
  match data with
  | VStr s => do c <- as_str char_value; Ok (VStr (s ++ c), FNone)
  | VList l => Ok (VList (l ++ [char_value]), FNone)
  | _ => Ok (data, FNone)
  end.
(** string.py 75-86 *)
Definition f_prepend (env : menv) (data : val) (char : str) : mres :=
  let char_value := get_or_self (m_gvars env) char in
  let char_value := get_or_self (m_vars env) char in
  match data with
  | VStr s => do c <- as_str char_value; Ok (VStr (c ++ s), FNone)
  | VList l => Ok (VList (char_value :: l), FNone)
  | _ => Ok (data, FNone)
  end.

(** [data = data.replace(old, new)]: [data] is a string here (a non-string
    raises AttributeError as soon as a replacement is attempted; the model
    takes a string).  [new] must be a string: TypeError otherwise. *)
Definition key_str (k : key) : res str := match k with KS s => Ok s | _ => Raise TypeError end.
(** string.py 109-111: the items of a list that are strings *)
Definition replace_list (new : key) (l : list val) (s : str) : res str :=
  rfold (fun s o => match o with
                    | VStr old => do n <- key_str new; Ok (replace_all old n s)
                    | _ => Ok s end) l s.
(** string.py 106-113 *)
Definition replace_dict (d : dict) (s : str) : res str :=
  rfold (fun s kv => match snd kv with
                     | VList l => replace_list (fst kv) l s
                     | VStr old => do n <- key_str (fst kv); Ok (replace_all old n s)
                     | _ => Ok s end) d s.
(** string.py 100-115, one iteration of the loop *)
Definition replace_arg (vars : dict) (new : str) (s : str) (old : str) : res str :=
  match dget vars (KS old) with
  | Some (VList l) => replace_list (KS new) l s
  | Some (VDict d) => replace_dict d s
  | Some _ => Ok s
  | None => Ok (replace_all old new s)
  end.
(** string.py 94-116 *)
Definition f_replaceall (vars : dict) (data : str) (args : list str) : mres :=
  let '(new, olds) := match args with
                      | new :: old :: rest => (new, old :: rest)
                      | _ => ([], args)
                      end in
  do s <- rfold (replace_arg vars new) olds data; Ok (VStr s, FNone).

(** [l[0:n]] *)
Definition slice_to {A} (n : Z) (l : list A) : list A :=
  if Z.ltb n 0 then firstn (Z.to_nat (Z.of_nat (length l) + n)) l else firstn (Z.to_nat n) l.
(** string.py 119-123; [n] is an integer (a string raises TypeError) *)
Definition f_truncate (data : val) (n : Z) : mres :=
  match data with
  | VStr s =>
      let d_split := split $" " s in
      if Z.leb n (Z.of_nat (length d_split))
      then Ok (VStr (join $" " (slice_to n d_split)), FNone)
      else Ok (data, FNone)
  | _ => Raise AttributeError
  end.

(** ** /repo/ttp/match/unrange.py *)

Definition ne (s : str) : bool := match s with [] => false | _ => true end.
(** [range(a, b)] *)
Definition zrange (a b : Z) : list Z := map (fun i => (a + Z.of_nat i)%Z) (seq 0 (Z.to_nat (b - a))).

(** unrange.py 18-35: the loop; [None] is the "return data" of line 31 *)
Fixpoint unrange_loop (joinchar : str) (items : list str) (result : list str) : res (option (list str)) :=
  match items with
  | [] => Ok (Some result)
  | item :: rest =>
      let item_split := filter ne (split joinchar item) in
      match opt_last result with
      | Some last =>
          do start_int <- int_of last;
          match item_split with
          | [] => Raise IndexError
          | e :: _ =>
              match py_int e with
              | None => Ok None
              | Some end_int =>
                  unrange_loop joinchar rest
                    (result ++ tl (map str_of_Z (zrange start_int end_int)) ++ item_split)
              end
          end
      | None => unrange_loop joinchar rest item_split
      end
  end.
(** unrange.py 6-37, [data] a string.  Splitting at an empty rangechar or joinchar
    is a ValueError (empty separator); the first item is split at the joinchar before
    anything else happens. *)
Definition f_unrange (data : str) (rangechar joinchar : str) : mres :=
  if containsb rangechar data then
    if negb (ne rangechar && ne joinchar) then Raise ValueError else
    do r <- unrange_loop joinchar (split rangechar data) [];
    match r with
    | Some l => Ok (VStr (join joinchar l), FNone)
    | None => Ok (VStr data, FNone)
    end
  else Ok (VStr data, FNone).

(** ** /repo/ttp/match/mac_eui.py *)

(** [.:-] on line 15 *)
Definition mac_delim (c : ascii) : bool :=
  (Ascii.eqb c "." || Ascii.eqb c ":" || Ascii.eqb c "-")%bool.
(** [[mac[i : i + 2] for i, j in enumerate(mac) if not (i % 2)]] on line 25 *)
Fixpoint pairs (s : str) : list str :=
  match s with
  | a :: b :: t => [a; b] :: pairs t
  | [a] => [[a]]
  | [] => []
  end.
(** mac_eui.py 12-26 *)
Definition f_mac_eui (data : val) : mres :=
  let mac := lower (filter (fun c => negb (mac_delim c)) (py_str data)) in
  if isalnum mac then
    let mac := if Nat.eqb (length mac) 12 then mac else mac ++ repeat "0"%char (12 - length mac) in
    Ok (VStr (join $":" (pairs mac)), FNone)
  else Ok (data, FNone).

(** ** /repo/ttp/match/ip.py 51-62 *)

(** [bin(z).count("1")]: the sign is the character '-', so the count is that of |z| *)
Fixpoint pos_ones (p : positive) : nat :=
  match p with xH => 1 | xO p => pos_ones p | xI p => S (pos_ones p) end.
Definition bin_ones (z : Z) : nat :=
  match z with Z0 => 0 | Zpos p | Zneg p => pos_ones p end.
Fixpoint sum_ones (l : list str) : option nat :=
  match l with
  | [] => Some 0
  | x :: t => match py_int x, sum_ones t with
              | Some z, Some n => Some (bin_ones z + n)%nat
              | _, _ => None end
  end.
(** the bare [except:] covers any data type *)
Definition f_to_cidr (data : val) : mres :=
  match data with
  | VStr s => match sum_ones (split $"." s) with
              | Some n => Ok (VInt (Z.of_nat n), FNone)
              | None => Ok (data, FNone)
              end
  | _ => Ok (data, FNone)
  end.

(** ** /repo/ttp/match/item.py *)

(** [len(data)] *)
Definition py_len (v : val) : res Z :=
  match v with
  | VStr s => Ok (Z.of_nat (length s))
  | VList l => Ok (Z.of_nat (length l))
  | VDict d => Ok (Z.of_nat (length d))
  | _ => Raise TypeError
  end.
(** position [i] of a sequence of length [n], negative from the end *)
Definition py_pos (n : nat) (i : Z) : option nat :=
  if Z.ltb i 0
  then if Z.leb 0 (Z.of_nat n + i) then Some (Z.to_nat (Z.of_nat n + i)) else None
  else if Z.ltb i (Z.of_nat n) then Some (Z.to_nat i) else None.
(** [data[i]] *)
Definition py_index (v : val) (i : Z) : res val :=
  match v with
  | VStr s => match py_pos (length s) i with
              | Some n => match nth_error s n with Some c => Ok (VStr [c]) | None => Raise IndexError end
              | None => Raise IndexError end
  | VList l => match py_pos (length l) i with
               | Some n => match nth_error l n with Some x => Ok x | None => Raise IndexError end
               | None => Raise IndexError end
  | VDict d => match dget d (KI i) with Some x => Ok x | None => Raise KeyError end
  | _ => Raise TypeError
  end.
(** item.py 1-15; [i] is [int(item_index)] *)
Definition f_item (data : val) (i : Z) : mres :=
  do n <- py_len data;
  if (Z.leb 0 i && Z.leb i (n - 1))%bool then do x <- py_index data i; Ok (x, FNone)
  else if (Z.leb 0 i && Z.leb (n - 1) i)%bool then do x <- py_index data (-1); Ok (x, FNone)
  else if (Z.leb i 0 && Z.leb (Z.abs i) (n - 1))%bool then do x <- py_index data i; Ok (x, FNone)
  else if (Z.leb i 0 && Z.leb n (Z.abs i))%bool then do x <- py_index data 0; Ok (x, FNone)
  else Raise TypeError. (* falls through: returns None, which the caller cannot unpack *)

(** ** /repo/ttp/match/to.py *)

(** to.py 6-11 *)
Definition f_to_str (data : val) : mres := Ok (VStr (py_str data), FNone).
Definition f_to_list (data : val) : mres := Ok (VList [data], FNone).
(** to.py 14-23: only ValueError is caught; [int] of None, a list or a
    dictionary is a TypeError.  Simplification: [int] of an opaque object too. *)
Definition f_to_int (data : val) : mres :=
  match data with
  | VStr s => match py_int s with Some z => Ok (VInt z, FNone) | None => Ok (data, FNone) end
  | VInt z => Ok (VInt z, FNone)
  | VBool b => Ok (VInt (if b then 1 else 0), FNone)
  | _ => Raise TypeError
  end.

(** ** /repo/ttp/match/lookup.py *)

(** [[i.strip() for i in name.split(".")]] *)
Definition dotted (name : str) : list str := map strip (split $"." name).

(** [for i in path: v = v.get(i, {})]: AttributeError if [v] is not a dictionary *)
Fixpoint walk_get (path : list str) (v : val) : res val :=
  match path with
  | [] => Ok v
  | i :: t => match v with
              | VDict d => walk_get t (match dget d (KS i) with Some x => x | None => VDict [] end)
              | _ => Raise AttributeError
              end
  end.

(** True and False index and hash as 1 and 0 *)
Definition bool_number (v : val) : val := match v with VBool b => VInt (if b then 1 else 0) | _ => v end.
(** [lookup_data[data]] with KeyError as [None] *)
Definition subscript (table data : val) : res (option val) :=
  let data := bool_number data in
  match table with
  | VDict d => do k <- key_of data; Ok (dget d k)
  | VList l => match data with
               | VInt i => do x <- py_index table i; Ok (Some x)
               | _ => Raise TypeError end
  | VStr s => match data with
              | VInt i => do x <- py_index table i; Ok (Some x)
              | _ => Raise TypeError end
  | _ => Raise TypeError
  end.

(** what a lookup returns: lines 44-48, 68-74, 114-120 *)
Definition answer (add_field : option key) (data found : val) : val * mflag :=
  match add_field with
  | Some f => (data, FNew [(f, found)])
  | None => (found, FNone)
  end.

(** where the table comes from: lines 10-33.  [lookups] is the parser's lookups
    dictionary, [templates] the ttp object's (name, results) in order,
    [results] the current template's results. *)
Inductive source := ByName (s : str) | ByTemplate (s : str) | ByGroup (s : str) | NoSource.

Fixpoint find_template (n : str) (ts : list (str * val)) : option val :=
  match ts with
  | [] => None
  | (m, r) :: t => if str_eqb m n then Some r else find_template n t
  end.
(** line 29-32: iteration over a list, or over the keys of a dictionary *)
Fixpoint find_group (n : str) (rs : list val) : res val :=
  match rs with
  | [] => Ok (VDict [])
  | r :: t =>
      do b <- py_in n r;
      if b then match r with
                | VDict d => match dget d (KS n) with Some v => Ok v | None => Raise KeyError end
                | _ => Raise TypeError
                end
      else find_group n t
  end.
Definition key_val (k : key) : val := match k with KS s => VStr s | KI z => VInt z | KNone => VNone end.
Definition iter (v : val) : res (list val) :=
  match v with
  | VList l => Ok l
  | VDict d => Ok (map (fun kv => key_val (fst kv)) d)
  | VStr s => Ok (map (fun c => VStr [c]) s)
  | _ => Raise TypeError
  end.

Definition lookup_source (lookups : val) (templates : list (str * val)) (results : val) (src : source)
  : res (option (val * list str)) :=
  match src with
  | ByName s => Ok (Some (lookups, dotted s))
  | ByTemplate s =>
      let path := dotted s in
      match find_template (hd [] path) templates with
      | Some (VList l) => match l with [] => Raise IndexError | r :: _ => Ok (Some (r, tl path)) end
      | Some r => Ok (Some (r, tl path))
      | None => Ok (Some (VDict [], path))
      end
  | ByGroup s =>
      let path := dotted s in
      do rs <- iter results;
      do t <- find_group (hd [] path) rs; Ok (Some (t, tl path))
  | NoSource => Ok None
  end.
(** lookup.py 6-48 *)
Definition f_lookup (lookups : val) (templates : list (str * val)) (results : val)
  (data : val) (src : source) (add_field : option key) : mres :=
  do s <- lookup_source lookups templates results src;
  match s with
  | None => Ok (data, FNone)
  | Some (t, path) =>
      do table <- walk_get path t;
      do found <- subscript table data;
      match found with
      | None => Ok (data, FNone)
      | Some v => Ok (answer add_field data v)
      end
  end.

(** lookup.py 64-67: [key in data] needs a string key for string data
    (TypeError otherwise) *)
Fixpoint rfind (data : str) (d : dict) : res (option val) :=
  match d with
  | [] => Ok None
  | (KS k, v) :: t => if containsb k data then Ok (Some v) else rfind data t
  | _ :: _ => Raise TypeError
  end.
(** lookup.py 51-74, [data] a string *)
Definition f_rlookup (lookups : val) (data : str) (name : str) (add_field : option key) : mres :=
  do t <- walk_get (dotted name) lookups;
  match t with
  | VDict d =>
      do found <- rfind data d;
      match found with
      | None | Some VNone => Ok (VStr data, FNone)
      | Some v => Ok (answer add_field (VStr data) v)
      end
  | _ => Ok (VStr data, FNone)
  end.

Section Gpv.
(** [fnmatch.fnmatch], arbitrary *)
Variable fnmatch : str -> str -> bool.
(** iterating over [patterns]; a non-string pattern raises TypeError; a string
    is iterated by characters *)
Definition pattern_list (v : val) : res (list str) := do l <- iter v; rmap as_str l.
(** lookup.py 98-105 *)
Fixpoint gpv_first (data : str) (d : dict) : res (list key) :=
  match d with
  | [] => Ok []
  | (k, v) :: t => do ps <- pattern_list v;
                   if existsb (fnmatch data) ps then Ok [k] else gpv_first data t
  end.
(** lookup.py 107-109 *)
Fixpoint gpv_all (data : str) (d : dict) : res (list key) :=
  match d with
  | [] => Ok []
  | (k, v) :: t => do ps <- pattern_list v;
                   do r <- gpv_all data t;
                   Ok (map (fun _ => k) (filter (fnmatch data) ps) ++ r)
  end.
(** lookup.py 77-120, [data] a string, [record]: [None] is False *)
Definition f_gpvlookup (lookups : val) (env : menv) (data : str) (name : str)
  (add_field : option key) (record : option key) (multimatch : bool) : res (menv * (val * mflag)) :=
  do t <- walk_get (dotted name) lookups;
  match t with
  | VDict d =>
      do ks <- (if multimatch then gpv_all data d else gpv_first data d);
      let found := VList (map key_val ks) in
      let env' := match record with
                  | Some r => {| m_vars := dset (m_vars env) r found; m_gvars := dset (m_gvars env) r found |}
                  | None => env end in
      match ks with
      | [] => Ok (env', (VStr data, FNone))
      | _ => Ok (env', answer add_field (VStr data) found)
      end
  | _ => Ok (env, (VStr data, FNone))
  end.
End Gpv.

(** ** count.py, record.py, set_.py, let.py, copy_.py, void.py, macro.py, joinmatches.py *)

(** [d[var] += 1] with the KeyError handler.  A non-numeric value raises TypeError. *)
Definition incr (d : dict) (k : key) : res dict :=
  match dget d k with
  | None => Ok (dset d k (VInt 1))
  | Some (VInt z) => Ok (dset d k (VInt (z + 1)))
  | Some (VBool b) => Ok (dset d k (VInt ((if b then 1 else 0) + 1)))
  | Some _ => Raise TypeError
  end.
(** count.py 1-14; an absent or empty name is [None] *)
Definition f_count (env : menv) (data : val) (var globvar : option key) : res (menv * (val * mflag)) :=
  do vs <- (match var with Some v => incr (m_vars env) v | None => Ok (m_vars env) end);
  do gs <- (match globvar with Some v => incr (m_gvars env) v | None => Ok (m_gvars env) end);
  Ok ({| m_vars := vs; m_gvars := gs |}, (data, FNone)).

(** record.py 1-4 *)
Definition f_record (env : menv) (data : val) (name : key) : menv * (val * mflag) :=
  ({| m_vars := dupdate (m_vars env) [(name, data)]; m_gvars := dupdate (m_gvars env) [(name, data)] |},
   (data, FNone)).

(** set_.py 4-14 *)
Definition f_set (env : menv) (data : val) (value : val) (match_line : str) : mres :=
  match data with
  | VStr s =>
      if str_eqb (rstrip s) match_line then
        match value with
        | VStr v => match dget (m_vars env) (KS v) with
                    | Some x => Ok (x, FNone)
                    | None => match dget (m_gvars env) (KS v) with
                              | Some x => Ok (x, FNone)
                              | None => Ok (value, FNone)
                              end
                    end
        | _ => Ok (value, FNone)
        end
      else Ok (data, FBool false)
  | _ => Raise AttributeError
  end.

(** let.py 1-6; [None] is the undefined second argument.  Simplification: the
    literal string "__Undefined_Var_Value__" as second argument is [None]. *)
Definition f_let (data : val) (name_or_value : val) (var_value : option val) : mres :=
  match var_value with
  | None => Ok (name_or_value, FNone)
  | Some v => do k <- key_of name_or_value; Ok (data, FNew [(k, v)])
  end.
(** copy_.py 6-7; values are immutable, so deepcopy is the identity *)
Definition f_copy (data : val) (name : key) : mres := Ok (data, FNew [(name, data)]).
(** void.py 1-3 *)
Definition f_void (data : val) : mres := Ok (data, FBool false).
(** joinmatches.py 1-2 *)
Definition f_joinmatches (data : val) : mres := Ok (data, FNone).

(** what a macro can return *)
Inductive mret :=
| MVal (v : val)                 (* anything that is not a tuple *)
| MTuple (l : list val).         (* a tuple *)
(** macro.py 1-16.  [macros] maps a name to a function of the data; the
    simplification is that a tuple that is not (value, dict) is kept as an
    opaque object. *)
Definition f_macro (macros : list (str * (val -> res mret))) (data : val) (name : str) : mres :=
  do result <- (match find (fun m => str_eqb (fst m) name) macros with
                | Some (_, f) => f data
                | None => Ok (MVal VNone)
                end);
  match result with
  | MVal (VBool true) => Ok (data, FBool true)
  | MVal (VBool false) => Ok (data, FBool false)
  | MVal VNone => Ok (data, FNone)
  | MTuple [v; VDict d] => Ok (v, FNew d)
  | MVal v => Ok (v, FNone)
  | MTuple _ => Ok (VObj 0, FNone)
  end.

(** ** re_.py *)
Section Re.
(** [re.search(pattern, data)] is not None; [re.sub(pattern, new, data, count)];
    [re.escape].  Arbitrary functions, [Raise] being re.error. *)
Variable search : str -> str -> res bool.
Variable sub : str -> str -> str -> nat -> res str.
Variable escape : str -> str.

(** re_.py 4-37, [data] a string *)
Definition yes (b : res bool) (data : str) : mres :=
  do x <- b; if x then Ok (VStr data, FBool true) else Ok (VStr data, FBool false).
Definition no (b : res bool) (data : str) : mres :=
  do x <- b; if negb x then Ok (VStr data, FBool true) else Ok (VStr data, FBool false).
Definition f_startswith_re (data p : str) : mres := yes (search ($"^" ++ p) data) data.
Definition f_endswith_re (data p : str) : mres := yes (search (p ++ $"$") data) data.
Definition f_contains_re (data p : str) : mres := yes (search p data) data.
Definition f_notstartswith_re (data p : str) : mres := no (search ($"^" ++ p) data) data.
Definition f_notendswith_re (data p : str) : mres := no (search (p ++ $"$") data) data.
Definition f_exclude_re (data p : str) : mres := no (search p data) data.

(** re_.py 40-44; [vars[old]] must be a string for re.escape *)
Definition f_resub (vars : dict) (data old new : str) (count : nat) : mres :=
  match dget vars (KS old) with
  | Some v => do o <- as_str v; do r <- sub (escape o) new data count; Ok (VStr r, FNone)
  | None => do r <- sub old new data count; Ok (VStr r, FNone)
  end.
(** re_.py 47-71; count 0 means all *)
Definition resub_list (new : key) (l : list val) (s : str) : res str :=
  rfold (fun s o => match o with
                    | VStr old => do n <- key_str new; sub old n s 0
                    | _ => Ok s end) l s.
Definition resub_dict (d : dict) (s : str) : res str :=
  rfold (fun s kv => match snd kv with
                     | VList l => resub_list (fst kv) l s
                     | VStr old => do n <- key_str (fst kv); sub old n s 0
                     | _ => Ok s end) d s.
Definition resub_arg (vars : dict) (new : str) (s : str) (old : str) : res str :=
  match dget vars (KS old) with
  | Some (VList l) => resub_list (KS new) l s
  | Some (VDict d) => resub_dict d s
  | Some (VStr o) => sub (escape o) new s 0
  | Some _ => Ok s
  | None => sub old new s 0
  end.
Definition f_resuball (vars : dict) (data : str) (args : list str) : mres :=
  let '(new, olds) := match args with
                      | new :: old :: rest => (new, old :: rest)
                      | _ => ([], args)
                      end in
  do s <- rfold (resub_arg vars new) olds data; Ok (VStr s, FNone).
End Re.
