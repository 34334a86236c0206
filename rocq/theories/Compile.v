(** * Compile: from the template's XML tree to the groups that parse.
    Models _group_class (ttp/ttp.py 1639-1949) completely: attributes, the regexes of the group's
    lines, default values, children; and what check_matches (2440-2523) takes from a regex dictionary.

    Simplifications: a regular expression outside of FormRegex's syntax is re.error; a joinmatches
    separator that is not a string is outside of the model (RuntimeError). *)
From Verif Require Import PyBase Regex Results Template Attributes FormRegex MatchVar MatchFuncs Parser.
Local Open Scope string_scope.
Local Open Scope list_scope.

(** [d[n] = a] on an ordered dictionary with string keys *)
Fixpoint put {A} (n : str) (a : A) (l : list (str * A)) : list (str * A) :=
  match l with
  | [] => [(n, a)]
  | (m, b) :: t => if str_eqb n m then (m, a) :: t else (m, b) :: put n a t
  end.

Section C.
Variable vars : dict.                    (* the template's variables *)

(** ** one line: ttp.py 1818-1858 *)
Record lstate := {
  ls_regex : str; ls_vars : list (str * varobj); ls_action : action; ls_isline : bool; ls_skip : bool; ls_defaults : dict }.
Definition compile_variable (gdefault : option str) (line : str) (st : lstate) (text : str) : res lstate :=
  do v <- new_variable vars gdefault text line (ls_defaults st);
  let vs := vo_st v in
  if v_skipre vs then
    Ok {| ls_regex := ls_regex st; ls_vars := ls_vars st; ls_action := ls_action st; ls_isline := ls_isline st;
          ls_skip := true; ls_defaults := v_defaults vs |}
  else
    let own := if v_skipvar vs then ls_vars st else put (vo_orig v) v (put (vo_name v) v (ls_vars st)) in
    do (regex, subs, d) <- variable_regex vars gdefault v line (ls_regex st) (v_defaults vs);
    Ok {| ls_regex := regex;
          ls_vars := fold_left (fun l nv => put (fst nv) (snd nv) l) subs own;
          ls_isline := if ls_isline st then true else v_isline vs;
          ls_action := if is_start (ls_action st) then ls_action st
                       else if str_eqb (vo_name v) $"ignore" then ls_action st else v_action vs;
          ls_skip := ls_skip st; ls_defaults := d |}.
(** a regex dictionary *)
Record crex := { x_text : str; x_re : re; x_vars : list (str * varobj); x_action : action; x_isline : bool }.
Definition compile_line (gdefault : option str) (line : str) (defaults : dict) : res (option crex * dict) :=
  do st <- rfold (compile_variable gdefault line) (vars_in line)
             {| ls_regex := []; ls_vars := []; ls_action := AAdd; ls_isline := false; ls_skip := false; ls_defaults := defaults |};
  if ls_skip st then Ok (None, ls_defaults st)
  else match re_compile (ls_regex st) with
       | None => Raise ReError
       | Some r => Ok (Some {| x_text := ls_regex st; x_re := r; x_vars := ls_vars st; x_action := ls_action st; x_isline := ls_isline st |},
                       ls_defaults st)
       end.
Fixpoint compile_lines (gdefault : option str) (lines : list str) (defaults : dict) : res (list crex * dict) :=
  match lines with
  | [] => Ok ([], defaults)
  | l :: t =>
      do (x, d) <- compile_line gdefault l defaults;
      do (xs, d') <- compile_lines gdefault t d;
      Ok (match x with Some r => r :: xs | None => xs end, d')
  end.

(** ** start, end and normal regexes, defaults: ttp.py 1859-1894 *)
Record gstate := { gs_start : list crex; gs_end : list crex; gs_re : list crex; gs_defaults : dict; gs_hasdef : bool }.
Definition start_of (x : crex) : crex :=
  if is_start (x_action x) then x
  else {| x_text := x_text x; x_re := x_re x; x_vars := x_vars x; x_action := AStart; x_isline := x_isline x |}.
Definition put_start (s : gstate) (x : crex) : gstate :=
  {| gs_start := gs_start s ++ [x]; gs_end := gs_end s; gs_re := gs_re s; gs_defaults := gs_defaults s; gs_hasdef := gs_hasdef s |}.
Definition put_end (s : gstate) (x : crex) : gstate :=
  {| gs_start := gs_start s; gs_end := gs_end s ++ [x]; gs_re := gs_re s; gs_defaults := gs_defaults s; gs_hasdef := gs_hasdef s |}.
Definition put_re (s : gstate) (x : crex) : gstate :=
  {| gs_start := gs_start s; gs_end := gs_end s; gs_re := gs_re s ++ [x]; gs_defaults := gs_defaults s; gs_hasdef := gs_hasdef s |}.
Definition place (method : str) (tail : bool) (index : nat) (s : gstate) (x : crex) : gstate :=
  if is_end (x_action x) then put_end s x
  else if tail then put_re s x
  else if Nat.eqb index 0 then put_start s (start_of x)
  else if str_eqb method $"table" then put_start s (start_of x)
  else if is_start (x_action x) then put_start s x
  else put_re s x.
Fixpoint place_all (method : str) (tail : bool) (index : nat) (xs : list crex) (s : gstate) : gstate :=
  match xs with [] => s | x :: t => place_all method tail (S index) t (place method tail index s x) end.
(** the value of the group's default attribute, as a string: ttp.py 2000; "_Not_Given_" is the same as none *)
Definition default_text (d : option val) : option str :=
  match d with Some (VStr s) => if str_eqb s $"_Not_Given_" then None else Some s | _ => None end.
Definition is_nil {A} (l : list A) : bool := match l with [] => true | _ => false end.
Definition has_default_var (d : dict) (x : crex) : bool := existsb (fun nv => dmem d (KS (fst nv))) (x_vars x).
Definition settle_defaults (default : option val) (s : gstate) : gstate :=
  let s1 := match default with
            | Some (VDict d) => {| gs_start := gs_start s; gs_end := gs_end s; gs_re := gs_re s; gs_defaults := dupdate (gs_defaults s) d;
                                   gs_hasdef := if is_nil (gs_start s) then true else gs_hasdef s |}
            | _ => s
            end in
  {| gs_start := gs_start s1; gs_end := gs_end s1; gs_re := gs_re s1; gs_defaults := gs_defaults s1;
     gs_hasdef := (gs_hasdef s1 || existsb (has_default_var (gs_defaults s1)) (gs_start s1))%bool |}.
(** get_regexes: ttp.py 1798-1894 *)
Definition regexes (default : option val) (method : str) (tail : bool) (data : str) (s : gstate) : res gstate :=
  do (xs, d) <- compile_lines (default_text default) (used_lines data) (gs_defaults s);
  Ok (settle_defaults default (place_all method tail 0 xs
        {| gs_start := gs_start s; gs_end := gs_end s; gs_re := gs_re s; gs_defaults := d; gs_hasdef := gs_hasdef s |})).

(** ** attributes of the group: ttp.py 1704-1796.  Name, method, input and output are in Template.attributes *)
Variable group_names : list str.         (* the keys of _ttp_["group"] *)
Record fattrs := { fa_default : option val; fa_funcs : list attribute }.
(** a function found in a chain: ttp.py 1750-1770.  The extractors of the other attributes are
    called with a dictionary: AttributeError or TypeError *)
Definition chain_func (top : bool) (fs : list attribute) (a : attribute) : res (list attribute) :=
  let n := at_name a in
  if in_strs n [$"method"; $"name"] then Raise AttributeError
  else if in_strs n [$"input"; $"output"] then (if top then Raise AttributeError else Ok fs)
  else if in_strs n [$"default"; $"chain"; $"functions"] then Raise TypeError
  else if in_strs n group_names then Ok (fs ++ [a]) else Ok fs.
Definition one_fattr (top : bool) (a : fattrs) (kv : str * str) : res fattrs :=
  let n := lower (fst kv) in let o := snd kv in
  if in_strs n [$"method"; $"input"; $"output"; $"name"] then Ok a
  else if str_eqb n $"default" then
    Ok {| fa_default := Some (match dget vars (KS o) with Some v => v | None => VStr o end); fa_funcs := fa_funcs a |}
  else if in_strs n [$"chain"; $"functions"] then
    do l <- chain_texts (match dget vars (KS o) with Some v => v | None => VStr o end);
    do fs <- rfold (chain_func top) l (fa_funcs a);
    Ok {| fa_default := fa_default a; fa_funcs := fs |}
  else
    do l <- get_attributes (fst kv ++ $"(" ++ o ++ $")");
    match l with
    | x :: _ => Ok {| fa_default := fa_default a; fa_funcs := fa_funcs a ++ [x] |}
    | [] => Raise IndexError
    end.
Definition func_attributes (top : bool) (l : list (str * str)) : res fattrs :=
  rfold (one_fattr top) l {| fa_default := None; fa_funcs := [] |}.

(** ** the group object: ttp.py 1639-1695, 1895-1918 *)
(** the text of an element is None when there is none (here the empty string), and None has no [splitlines] or [strip] *)
Definition with_text {A} (text : str) (f : str -> A -> res A) (x : A) : res A :=
  match text with [] => Raise AttributeError | _ => f text x end.
Inductive cgroup :=
| CG (id : gid) (parent : option gid) (path : list str) (at_ : gattrs) (funcs : list attribute) (st : gstate) (children : list cgroup).
Fixpoint compile_group (pathchar : str) (top : bool) (path : list str) (idx : nat) (parent : option gid) (e : elem) : res cgroup :=
  match e with
  | Elem _ attrs text cs _ =>
      do fa <- func_attributes top attrs;
      let a := attributes pathchar top path idx attrs in
      let id := match ga_id a with Some i => i | None => ([], 0) end in
      do s0 <- with_text text (fun text => regexes (fa_default fa) (ga_method a) false text)
                 {| gs_start := []; gs_end := []; gs_re := []; gs_defaults := []; gs_hasdef := false |};
      do (kids, s) <-
        (fix go (i : nat) (cs : list elem) (s : gstate) : res (list cgroup * gstate) :=
           match cs with
           | [] => Ok ([], s)
           | c :: cs =>
               do k <- compile_group pathchar false (ga_path a) i (Some id) c;
               do s1 <- with_text (e_tail c) (fun tail s => match strip tail with [] => Ok s | _ => regexes (fa_default fa) (ga_method a) true tail s end) s;
               do (ks, s2) <- go (S i) cs s1;
               Ok (k :: ks, s2)
           end) 0 cs s0;
      Ok (CG id parent (ga_path a) a (fa_funcs fa) s kids)
  end.
Fixpoint compile_all (pathchar : str) (i : nat) (es : list elem) : res (list cgroup) :=
  match es with
  | [] => Ok []
  | e :: t => do g <- compile_group pathchar true [] i None e; do gs <- compile_all pathchar (S i) t; Ok (g :: gs)
  end.

(** ** the groups as the parser uses them *)
(** a call of a function of a match variable *)
Variable match_func : attribute -> mfunc.
Definition pvar_of (v : varobj) : pvar := {| pv_orig := KS (vo_orig v); pv_funcs := map match_func (v_funcs (vo_st v)) |}.
(** [match.groupdict()]: the groups in the order of their definition, None for one without a match *)
Definition pmatch_of (names : list str) (m : rmatch_t) : pmatch :=
  {| pm_start := m_start m; pm_end := m_end m; pm_text := m_text m;
     pm_groups := map (fun n => (n, match cap n (m_caps m) with Some v => VStr v | None => VNone end)) names |}.
(** the separator of joinmatches: ttp.py 3149-3155 *)
Definition join_sep (v : varobj) : option (option str) :=
  match find (fun a => str_eqb (at_name a) $"joinmatches") (v_funcs (vo_st v)) with
  | Some a => match at_args a with VStr s :: _ => Some (Some s) | _ => Some None end
  | None => None
  end.
Definition joins_of (vs : list (str * varobj)) : list (key * option str) :=
  flat_map (fun nv => match join_sep (snd nv) with Some s => [(KS (fst nv), s)] | None => [] end) vs.
Definition to_pregex (g : group attribute) (x : crex) : pregex attribute :=
  let names := rev (re_groups (x_text x)) in
  {| p_re := {| r_action := x_action x; r_isline := x_isline x; r_group := g; r_joins := joins_of (x_vars x) |};
     p_find := fun text => map (pmatch_of names) (finditer (x_re x) text);
     p_vars := map (fun nv => (fst nv, pvar_of (snd nv))) (x_vars x) |}.
Fixpoint to_pgroup (c : cgroup) : pgroup attribute :=
  match c with
  | CG id parent path _ funcs s kids =>
      let g := {| g_id := id; g_parent := parent; g_path := path; g_runs := gs_defaults s; g_funcs := funcs |} in
      PG attribute g (map (to_pregex g) (gs_start s)) (map (to_pregex g) (gs_end s)) (map (to_pregex g) (gs_re s)) (gs_hasdef s)
        (map to_pgroup kids)
  end.
End C.
