(** * MatchVar: match variables.
    Models _variable_class (ttp/ttp.py 1960-2336): what the text between {{ and }} means - the variable's
    name, its functions, its regular expressions, the save action, the default value - and its part of
    the line's regular expression, including _headers_ (2240-2310).

    Simplification: the values that get_pattern.py's own names (get, _ttp_, __name__, ...) have are objects. *)
From Verif Require Import PyBase Regex Results Template Attributes FormRegex.
Local Open Scope string_scope.
Local Open Scope list_scope.

(** [d.get(v)] for any value: TypeError for lists and dictionaries *)
Definition get_any (d : dict) (v : val) : res (option val) :=
  match v with
  | VStr s => Ok (dget d (KS s))
  | VInt z => Ok (dget d (KI z))
  | VBool b => Ok (dget d (KI (if b then 1 else 0)))
  | VNone => Ok (dget d KNone)
  | VObj _ => Ok None
  | VList _ | VDict _ => Raise TypeError
  end.
(** [_ttp_["patterns"]["get"](name)]: patterns/get_pattern.py 14-19; [None] is False *)
Definition pattern_module_names : list str :=
  [$"get"; $"_ttp_"; $"__name__"; $"__package__"; $"__loader__"; $"__spec__"; $"__file__"; $"__cached__"; $"__builtins__"].
Fixpoint assoc_str {A} (n : str) (l : list (str * A)) : option A :=
  match l with [] => None | (m, a) :: t => if str_eqb n m then Some a else assoc_str n t end.
Definition pattern_get (v : val) : res (option val) :=
  match v with
  | VStr s => Ok (match assoc_str s patterns with
                  | Some p => Some (VStr p)
                  | None => if in_strs s pattern_module_names then Some (VObj 0) else None
                  end)
  | VList _ | VDict _ => Raise TypeError
  | _ => Ok None
  end.
(** a regex given by name or directly: ttp.py 2086-2099, 2208-2225 *)
Definition resolve_re (vars : dict) (v : val) : res val :=
  do a <- get_any vars v;
  do b <- pattern_get v;
  Ok (match a with
      | Some x => if truthy x then x else match b with Some p => p | None => v end
      | None => match b with Some p => p | None => v end
      end).

(** ** extract_functions: ttp.py 2013-2155 *)
Record vstate := {
  v_funcs : list attribute;      (* self.functions *)
  v_action : action;             (* self.SAVEACTION *)
  v_isline : bool;               (* self.IS_LINE *)
  v_skipvar : bool;              (* self.skip_variable_dict *)
  v_skipre : bool;               (* self.skip_regex_dict *)
  v_res : list val;              (* self.var_res *)
  v_defaults : dict }.           (* self.group.defaults *)
Definition add_func (st : vstate) (a : attribute) : vstate :=
  {| v_funcs := v_funcs st ++ [a]; v_action := v_action st; v_isline := v_isline st; v_skipvar := v_skipvar st;
     v_skipre := v_skipre st; v_res := v_res st; v_defaults := v_defaults st |}.
Definition set_action (st : vstate) (x : action) : vstate :=
  {| v_funcs := v_funcs st; v_action := x; v_isline := v_isline st; v_skipvar := v_skipvar st;
     v_skipre := v_skipre st; v_res := v_res st; v_defaults := v_defaults st |}.
Definition set_isline (st : vstate) : vstate :=
  {| v_funcs := v_funcs st; v_action := v_action st; v_isline := true; v_skipvar := v_skipvar st;
     v_skipre := v_skipre st; v_res := v_res st; v_defaults := v_defaults st |}.
Definition set_skipvar (st : vstate) : vstate :=
  {| v_funcs := v_funcs st; v_action := v_action st; v_isline := v_isline st; v_skipvar := true;
     v_skipre := v_skipre st; v_res := v_res st; v_defaults := v_defaults st |}.
Definition set_skipre (st : vstate) : vstate :=
  {| v_funcs := v_funcs st; v_action := v_action st; v_isline := v_isline st; v_skipvar := v_skipvar st;
     v_skipre := true; v_res := v_res st; v_defaults := v_defaults st |}.
Definition add_re (st : vstate) (v : val) : vstate :=
  {| v_funcs := v_funcs st; v_action := v_action st; v_isline := v_isline st; v_skipvar := v_skipvar st;
     v_skipre := v_skipre st; v_res := v_res st ++ [v]; v_defaults := v_defaults st |}.
Definition set_default (st : vstate) (n : str) (v : val) : vstate :=
  {| v_funcs := v_funcs st; v_action := v_action st; v_isline := v_isline st; v_skipvar := v_skipvar st;
     v_skipre := v_skipre st; v_res := v_res st; v_defaults := dset (v_defaults st) (KS n) v |}.
Definition no_default : list str := [$"_end_"; $"_line_"; $"ignore"; $"_start_"].

Section Extract.
Variable vars : dict.                  (* the template's variables *)
Variables (name orig line : str).      (* self.var_name, self.var_name_original, self.LINE *)

(** ttp.py 2086-2099 *)
Definition extract_re (st : vstate) (a : attribute) : res vstate :=
  do r <- resolve_re vars (match at_args a with x :: _ => x | [] => VStr (at_name a) end);
  Ok (add_re st r).
(** ttp.py 2019-2032 *)
Definition extract_set (st : vstate) (a : attribute) : res vstate :=
  match rstrip (without_vars line) with
  | [] => match at_args a with
          | v :: _ => Ok (set_skipre (set_default st orig v))
          | [] => Raise IndexError
          end
  | ml => Ok (add_func st {| at_name := at_name a; at_args := at_args a; at_kwargs := dset (at_kwargs a) (KS $"match_line") (VStr (nl :: ml)) |})
  end.
(** ttp.py 2034-2040 *)
Definition extract_default (st : vstate) (a : attribute) : vstate :=
  if in_strs orig no_default then st
  else set_default st orig (match at_args a with [v] => v | _ => VStr $"None" end).
(** ttp.py 2101-2110 *)
Definition var_or_arg (v : val) : res val := do x <- get_any vars v; Ok (match x with Some y => y | None => v end).
Definition arg_from_vars (st : vstate) (a : attribute) : res vstate :=
  do l <- rmap var_or_arg (at_args a);
  Ok (add_func st {| at_name := at_name a; at_args := l; at_kwargs := at_kwargs a |}).
Definition from_vars : list str :=
  [$"contains_re"; $"startswith_re"; $"endswith_re"; $"notstartswith_re"; $"notendswith_re"; $"exclude_re"; $"exclude"; $"contains"; $"equal"; $"notequal"; $"sformat"].
(** the texts of a chain variable: ttp.py 2056-2070 *)
Definition chain_texts (v : val) : res (list attribute) :=
  match v with
  | VStr s => get_attributes s
  | VList l => do ls <- rmap (fun x => match x with VStr s => get_attributes s | _ => Raise AttributeError end) l; Ok (concat ls)
  | _ => Raise UnboundLocalError
  end.
(** one function of the variable: the loop bodies of ttp.py 2071-2078 and 2147-2155.  [key] is the name that is looked up in
    extract_funcs.  A chain that contains itself recurses forever: RecursionError, here RuntimeError (fuel: no chain of
    different variables is longer than the number of variables) *)
Fixpoint extract (fuel : nat) (key : str) (st : vstate) (a : attribute) : res vstate :=
  match fuel with
  | O => Raise RuntimeError
  | S f =>
    let one (st : vstate) (a : attribute) : res vstate := extract f (at_name a) st a in
    if str_eqb key $"ignore" then Ok (set_skipvar st)
    else if str_eqb key $"_start_" then Ok (set_action st (if str_eqb name $"_start_" then AStartEmpty else AStart))
    else if str_eqb key $"_end_" then Ok (set_action st AEnd)
    else if str_eqb key $"_line_" then extract_re (set_isline (set_action st AJoin)) a
    else if str_eqb key $"_headers_" then Ok (set_action st AStart)
    else if in_strs key [$"_exact_"; $"_exact_space_"; $"columns"] then Ok st
    else if str_eqb key $"chain" then
      match at_args a with
      | [] => Raise IndexError
      | v :: _ =>
          do x <- get_any vars v;
          match x with
          | None | Some VNone => Ok st
          | Some c => do l <- chain_texts c; rfold one l st
          end
      end
    else if str_eqb key $"set" then extract_set st a
    else if str_eqb key $"default" then Ok (extract_default st a)
    else if str_eqb key $"joinmatches" then Ok (set_action (add_func st a) AJoin)
    else if str_eqb key $"re" then extract_re st a
    else if in_strs key from_vars then arg_from_vars st a
    else do p <- pattern_get (VStr key);
         match p with Some _ => extract_re st a | None => Ok (add_func st a) end
  end.
(** the names that have a meaning of their own for the variable itself: ttp.py 2115-2144 *)
Definition special_names : list str :=
  [$"ignore"; $"_start_"; $"_end_"; $"_line_"; $"_exact_"; $"_exact_space_"; $"_headers_"; $"columns"; $"chain"; $"set"; $"default"; $"joinmatches"; $"re"] ++ from_vars.
End Extract.

(** ** the variable object: ttp.py 1965-2011 *)
Record varobj := { vo_text : str; vo_name : str; vo_orig : str; vo_dict : attribute; vo_attrs : list attribute; vo_st : vstate }.
(** [gdefault]: the value of the group's default attribute, if it is a string *)
Definition new_variable (vars : dict) (gdefault : option str) (text line : str) (defaults : dict) : res varobj :=
  do l <- get_attributes text;
  match l with
  | [] => Raise IndexError
  | a :: attrs =>
      let orig := at_name a in
      let name := sanitize orig in
      let d1 := match gdefault with
                | Some g => match dget defaults (KS orig) with
                            | None => if in_strs orig no_default then defaults else dset defaults (KS orig) (VStr g)
                            | Some _ => defaults
                            end
                | None => defaults
                end in
      let st0 := {| v_funcs := []; v_action := AAdd; v_isline := false; v_skipvar := false; v_skipre := false; v_res := []; v_defaults := d1 |} in
      let fuel := S (S (length vars)) in
      do st1 <- (if in_strs name special_names then extract vars name orig line fuel name st0 a else Ok st0);
      do st2 <- rfold (fun st x => extract vars name orig line fuel (at_name x) st x) attrs st1;
      Ok {| vo_text := text; vo_name := name; vo_orig := orig; vo_dict := a; vo_attrs := attrs; vo_st := st2 |}
  end.

(** ** form_regex: ttp.py 2157-2336 *)
(** [re.findall(r"(\S+\s+|\S+)", s)] *)
Fixpoint take_headers (fuel : nat) (s : str) : list str :=
  match fuel with
  | O => []
  | S f =>
      match lstrip s with
      | [] => []
      | t => let '(w, r) := span_of (fun c => negb (is_space c)) t in
             let '(b, r') := span_of is_space r in (w ++ b) :: take_headers f r'
      end
  end.
(** [l[:z]] *)
Definition upto {A} (z : Z) (l : list A) : list A :=
  firstn (Z.to_nat (if Z.ltb z 0 then Z.of_nat (length l) + z else z)) l.
(** [l[z:]] *)
Definition from_z {A} (z : Z) (l : list A) : list A :=
  skipn (Z.to_nat (if Z.ltb z 0 then Z.max 0 (Z.of_nat (length l) + z) else z)) l.
Definition nth_z {A} (z : Z) (l : list A) : option A :=
  let i := if Z.ltb z 0 then (Z.of_nat (length l) + z)%Z else z in
  if Z.ltb i 0 then None else nth_error l (Z.to_nat i).
Definition int_arg (v : val) : res Z :=
  match v with
  | VInt z => Ok z
  | VBool b => Ok (if b then 1 else 0)%Z
  | VStr s => match py_int s with Some z => Ok z | None => Raise ValueError end
  | _ => Raise TypeError
  end.
(** ttp.py 2256-2260 *)
Fixpoint columns_of (attrs : list attribute) (n : Z) (c : Z) : res Z :=
  match attrs with
  | [] => Ok c
  | a :: t =>
      if str_eqb (at_name a) $"columns" then
        match at_args a with
        | v :: _ => do z <- int_arg v; columns_of t n (Z.min (Z.max 1 z) n)
        | [] => Raise IndexError
        end
      else columns_of t n c
  end.
(** [re.sub(r"\t", "    ", s)] *)
Definition untab (s : str) : str := flat_map (fun c => if Ascii.eqb c tab then repeat space 4 else [c]) s.
Definition cell (h q : str) : str := $"(?P<" ++ strip h ++ $">." ++ q ++ $")".
Definition len_str (s : str) : str := str_of_N (N.of_nat (length s)).
(** the regular expressions of the columns: ttp.py 2268-2297 *)
Definition header_cells (columns : Z) (hs : list str) : res (list str) :=
  match nth_z (columns - 1) hs, opt_last hs with
  | Some h, Some hl =>
      let row := map (fun h => cell h ($"{" ++ len_str h ++ $"}")) (upto (columns - 1) hs)
                 ++ [cell h ($"{1," ++ len_str h ++ $"}")]
                 ++ map (fun h => cell h ($"{0," ++ len_str h ++ $"}")) (from_z columns hs) in
      Ok (removelast row ++ [if Z.leb (Z.of_nat (length hs)) columns then cell hl $"{1,}" else cell hl $"*"])
  | _, _ => Raise IndexError
  end.
(** a name that [re] accepts for a group *)
Definition identifier (s : str) : bool :=
  match s with c :: _ => (negb (is_dec c) && forallb is_word s)%bool | [] => false end.
(** ttp.py 2240-2310: the regex and the texts of the variables of the columns *)
Definition headers_regex (v : varobj) (line : str) : res (str * list str) :=
  let line1 := rstrip (match find_at (brace (vo_text v)) line with Some i => firstn i line | None => removelast line end) in
  let hs := take_headers (S (length line1)) line1 in
  do columns <- columns_of (vo_attrs v) (Z.of_nat (length hs)) (Z.of_nat (length hs) - 2);
  match hs with
  | [] => Raise IndexError
  | h0 :: t =>
      let l2 := untab line1 in
      let hs' := (repeat space (length l2 - length (lstrip l2)) ++ h0) :: t in
      do cells <- header_cells columns hs';
      if forallb (fun h => identifier (strip h)) hs'
      then Ok ($"\n" ++ concat cells ++ $"(?=\n|\r\n)", map strip hs')
      else Raise ReError
  end.

(** the parts of the variable that the regex of the line is made of *)
Definition is_set (a : attribute) : bool := str_eqb (at_name a) $"set".
Definition re_texts (l : list val) : res (list str) :=
  rmap (fun v => match v with VStr s => Ok s | _ => Raise TypeError end) l.
(** [str.format] of a pattern; other values than strings are outside of the model *)
Definition info_of (vars : dict) (v : varobj) : res vinfo :=
  do rs <- re_texts (v_res (vo_st v));
  do ig <- (if str_eqb (vo_name v) $"ignore" then
              match at_args (vo_dict v) with
              | [x] => do p <- resolve_re vars x; match p with VStr s => Ok (Some s) | _ => Raise RuntimeError end
              | _ => Ok None
              end
            else Ok None);
  Ok {| vi_name := vo_name v; vi_ignore := ig; vi_set := existsb is_set (v_funcs (vo_st v)); vi_res := rs |}.
(** [sub_variables]: ttp.py 2300-2310; the group's defaults go through them *)
Fixpoint sub_variables (vars : dict) (gdefault : option str) (hs : list str) (defaults : dict) : res (list (str * varobj) * dict) :=
  match hs with
  | [] => Ok ([], defaults)
  | h :: t =>
      do v <- new_variable vars gdefault (h ++ $" | strip | exclude(" ++ h ++ $")") [] defaults;
      do (l, d) <- sub_variables vars gdefault t (v_defaults (vo_st v));
      Ok ((h, v) :: l, d)
  end.
(** an [ignore] with more than one argument leaves the variable in the regex: ttp.py 2204-2225 *)
Definition ignore_many (v : varobj) : bool :=
  (str_eqb (vo_name v) $"ignore" && match at_args (vo_dict v) with _ :: _ :: _ => true | _ => false end)%bool.
Definition variable_regex (vars : dict) (gdefault : option str) (v : varobj) (line regex : str) (defaults : dict)
  : res (str * list (str * varobj) * dict) :=
  if str_eqb (vo_name v) $"_headers_" then
    do (r, hs) <- headers_regex v line;
    do (l, d) <- sub_variables vars gdefault hs defaults;
    Ok (r, l, d)
  else
    do i <- info_of vars v;
    Ok (if ignore_many v then match regex with [] => base_regex line | _ => regex end else form_regex i (vo_text v) line regex, [], defaults).

(** examples *)
Definition show_var (r : res varobj) :=
  do v <- r; Ok (vo_name v, map at_name (v_funcs (vo_st v)), v_res (vo_st v), v_action (vo_st v), v_defaults (vo_st v)).
Example variable_ex : show_var (new_variable [(KS $"v1", VStr $"upper | PHRASE")] None $" my-name | chain(v1) | default(0) | joinmatches("","") " $"x {{ my-name }}" [])
  = Ok ($"my_name", [$"upper"; $"joinmatches"], [VStr $"(\S+ {1})+?\S+"], AJoin, [(KS $"my-name", VInt 0)]).
Proof. vm_compute. reflexivity. Qed.
Example variable_cycle : show_var (new_variable [(KS $"v1", VStr $"chain(v1)")] None $"x | chain(v1)" $"{{ x }}" []) = Raise RuntimeError.
Proof. vm_compute. reflexivity. Qed.
Definition xheaders (line : str) : res str :=
  do v <- new_variable [] None $" _headers_ " line []; do (r, _, _) <- variable_regex [] None v line [] []; Ok r.
Example headers_ex : xheaders $" Port      Name  Status   Vlan {{ _headers_ }}" = Ok $"\n(?P<Port>.{11})(?P<Name>.{1,6})(?P<Status>.{0,9})(?P<Vlan>.*)(?=\n|\r\n)".
Proof. vm_compute. reflexivity. Qed.
