(** * FuncTable: calling a function by its name.
    Models how check_matches (ttp/ttp.py 2457-2492) and processgrp (3251-3261) call the functions of
    ttp/match/*.py and ttp/group/*.py: the table of names (with the [_name_map_]s), Python's binding
    of positional and keyword arguments to the parameters, and the methods of the data that are tried
    when there is no match function of that name.

    Simplifications.  Outside of the model, and given as RuntimeError: a known function that MatchFuncs.v or
    GroupFuncs.v do not model; arguments of other types than those functions take there (for instance a
    number where a string is expected); methods of values other than the string methods below; format strings
    with more than {} or {name} fields; replacement texts with references to groups of the regular expression; regular expressions that FormRegex.v does not read, with ^ or $ inside, or next to a top level |;
    fnmatch patterns with [.  str.upper leaves U+00B5 and U+00FF alone (their upper case is not Latin-1). *)
From Verif Require Import PyBase Regex Results Template FormRegex Attributes MatchFuncs GroupFuncs Parser.
From Verif Require Ip Uptime.
Local Open Scope string_scope.
Local Open Scope list_scope.

Definition out_of_model {A} : res A := Raise RuntimeError.

(** ** arguments *)
(** a signature: the parameters after [data], with their defaults; [*args]; keyword-only parameters; [**kwargs] *)
Record signature := { sg_params : list (str * option val); sg_star : bool; sg_kwonly : list (str * val); sg_kwargs : bool }.
(** what the parameters get: one value per parameter, the rest of the positional arguments, the keyword-only ones *)
Record bound := { b_params : list val; b_star : list val; b_kwonly : list val }.
Definition kw (d : dict) (n : str) : option val := dget d (KS n).
Fixpoint bind_params (ps : list (str * option val)) (args : list val) (kws : dict) : res (list val * list val) :=
  match ps with
  | [] => Ok ([], args)
  | (n, dflt) :: t =>
      match args, kw kws n with
      | _ :: _, Some _ => Raise TypeError
      | a :: args, None => do (l, r) <- bind_params t args kws; Ok (a :: l, r)
      | [], Some v => do (l, r) <- bind_params t [] kws; Ok (v :: l, r)
      | [], None => match dflt with
                    | Some v => do (l, r) <- bind_params t [] kws; Ok (v :: l, r)
                    | None => Raise TypeError
                    end
      end
  end.
Definition known_kw (s : signature) (k : key) : bool :=
  match k with
  | KS n => (in_strs n (map fst (sg_params s)) || in_strs n (map fst (sg_kwonly s)) || (sg_kwargs s && negb (str_eqb n $"data")))%bool
  | _ => false
  end.
Definition bind (s : signature) (args : list val) (kws : dict) : res bound :=
  if negb (forallb (fun kv => known_kw s (fst kv)) kws) then Raise TypeError
  else
    do (l, r) <- bind_params (sg_params s) args kws;
    match r with
    | _ :: _ => if sg_star s then Ok {| b_params := l; b_star := r; b_kwonly := map (fun nd => match kw kws (fst nd) with Some v => v | None => snd nd end) (sg_kwonly s) |}
                else Raise TypeError
    | [] => Ok {| b_params := l; b_star := []; b_kwonly := map (fun nd => match kw kws (fst nd) with Some v => v | None => snd nd end) (sg_kwonly s) |}
    end.
Definition sig (ps : list (str * option val)) : signature := {| sg_params := ps; sg_star := false; sg_kwonly := []; sg_kwargs := false |}.
Definition sig_star : signature := {| sg_params := []; sg_star := true; sg_kwonly := []; sg_kwargs := false |}.
Definition req (n : str) : str * option val := (n, None).
Definition opt (n : str) (v : val) : str * option val := (n, Some v).

(** arguments as the modelled functions take them *)
Definition s_arg (v : val) : res str := match v with VStr s => Ok s | _ => out_of_model end.
Definition z_arg (v : val) : res Z := match v with VInt z => Ok z | VBool b => Ok (if b then 1 else 0)%Z | _ => out_of_model end.
Definition data_str (v : val) : res str := match v with VStr s => Ok s | _ => out_of_model end.
(** a dictionary key (booleans, which are the keys 0 and 1 under another name, are outside of the model); or nothing for a falsy value *)
Definition key_param (v : val) : res key := match v with VBool _ => out_of_model | _ => key_of v end.
Definition key_arg (v : val) : res (option key) := if truthy v then do k <- key_param v; Ok (Some k) else Ok None.

(** ** regular expressions of match functions *)
Definition top_alts (t : str) : bool := match prun t pst0 with Some s => match p_alts s with [] => false | _ => true end | None => false end.
Definition dollar_at_end (p : str) : bool :=
  match rev p with c :: d :: _ => (Ascii.eqb c "$" && negb (Ascii.eqb d "\"))%bool | [c] => Ascii.eqb c "$" | [] => false end.
Definition before_end : re := RAhead false (RSeq (ropt (rchar nl)) at_end).
Definition found (r : re) (s : str) : bool := match finditer r s with [] => false | _ => true end.
(** ^ at the beginning of a pattern, $ at its end, and the pattern between them *)
Definition anchors (p : str) : bool * bool * str :=
  let b := match p with c :: _ => Ascii.eqb c "^" | [] => false end in
  let p1 := if b then tl p else p in
  let e := dollar_at_end p1 in
  (b, e, if e then removelast p1 else p1).
(** the expression of a pattern, and whether it matches at the beginning only; what FormRegex does not read is outside *)
Definition anchored_re (p : str) : res (bool * re) :=
  let '(b, e, p2) := anchors p in
  match re_compile p2 with
  | None => out_of_model
  | Some r => if ((b || e) && top_alts p2)%bool then out_of_model else Ok (b, if e then RSeq r before_end else r)
  end.
(** [re.search(p, s)] is not None *)
Definition re_search (p s : str) : res bool :=
  do (b, r) <- anchored_re p;
  Ok (if b then match rmatch r s with Some _ => true | None => false end else found r s).
(** the match that the engine prefers; after an empty match ([adv]) among those that are not empty *)
Definition rmatch_adv (adv : bool) (r : re) (s : str) : option (str * caps) :=
  mt r s [] (fun s' c => if (adv && Nat.leb (length s) (length s'))%bool then None else Some (s', c)).
(** [re.sub(p, template, s, count)], count 0 for all.  After an empty match the next one at the same place ([adv]) must not
    be empty.  With ^ ([b]) there are no matches after the beginning *)
Fixpoint subn_go (fuel : nat) (count : option nat) (b adv : bool) (r : re) (tp : list (option ascii)) (s : str) : str :=
  match fuel, count with
  | O, _ => s
  | _, Some O => s
  | S f, _ =>
      let less := option_map Nat.pred count in
      match rmatch_adv adv r s with
      | Some (s', _) =>
          let n := length s - length s' in
          match n with
          | O => expand_template tp [] ++ subn_go f less b true r tp s
          | _ => expand_template tp (firstn n s) ++ (if b then s' else subn_go f less b false r tp s')
          end
      | None => if b then s else match s with [] => [] | x :: t => x :: subn_go f count b false r tp t end
      end
  end.
Definition re_subn (p template s : str) (count : nat) : res str :=
  do (b, r) <- anchored_re p;
  do tp <- (match parse_template (S (length template)) template with
            | Raise _ as e => if existsb (Ascii.eqb "(") p then out_of_model else e
            | ok => ok
            end);
  Ok (subn_go (S (S (2 * length s))) (match count with O => None | _ => Some count end) b false r tp s).

(** ** str.format: {} takes the next positional argument, {name} a keyword argument *)
Fixpoint format_go (fuel : nat) (pos : list str) (kws : dict) (s : str) : res str :=
  match fuel with
  | O => Ok []
  | S f =>
    match s with
    | [] => Ok []
    | c :: t =>
        if Ascii.eqb c "{" then
          match t with
          | d :: t1 =>
              if Ascii.eqb d "{" then do r <- format_go f pos kws t1; Ok (c :: r)
              else
                let '(name, rest) := span_of (fun x => negb (Ascii.eqb x "}" || Ascii.eqb x "{")%bool) t in
                match rest with
                | e :: r' =>
                    if Ascii.eqb e "{" then out_of_model
                    else match name with
                    | [] => match pos with
                            | v :: pos' => do r <- format_go f pos' kws r'; Ok (v ++ r)
                            | [] => Raise IndexError
                            end
                    | _ => if (forallb is_word name && negb (forallb is_dec name))%bool then
                             match dget kws (KS name) with
                             | Some v => do r <- format_go f pos kws r'; Ok (py_str v ++ r)
                             | None => Raise KeyError
                             end
                           else out_of_model
                    end
                | [] => Raise ValueError
                end
          | [] => Raise ValueError
          end
        else if Ascii.eqb c "}" then
          match t with
          | d :: t1 => if Ascii.eqb d "}" then do r <- format_go f pos kws t1; Ok (c :: r) else Raise ValueError
          | [] => Raise ValueError
          end
        else do r <- format_go f pos kws t; Ok (c :: r)
    end
  end.
Definition format_str (pos : list str) (s : str) (kws : dict) : res str := format_go (S (length s)) pos kws s.

(** fnmatch for patterns of literal characters, * and ? (POSIX: no case folding); [ is outside *)
Fixpoint fn_re (p : str) : re :=
  match p with
  | [] => at_end
  | c :: t => if Ascii.eqb c "*" then RSeq (RStar true any_char) (fn_re t)
              else if Ascii.eqb c "?" then RSeq any_char (fn_re t) else RSeq (rchar c) (fn_re t)
  end.
Definition fnmatch (s p : str) : bool := match rmatch (fn_re p) s with Some _ => true | None => false end.

(** ** the match functions, ttp/match/*.py *)
Definition keep_env (env : menv) (r : res (val * mflag)) : res (menv * (val * mflag)) := do x <- r; Ok (env, x).
Section M.
Variable macros : list (str * (val -> res mret)).
Variable lookups : val.
Variable templates : list (str * val).
Variable results : val.

Definition yes_no (f : str -> str -> res (val * mflag)) (data p : val) : res (val * mflag) :=
  do d <- data_str data; do x <- s_arg p; f d x.
Definition p1 (b : bound) : val := match b_params b with x :: _ => x | [] => VNone end.
Definition p2 (b : bound) : val := match b_params b with _ :: x :: _ => x | _ => VNone end.
Definition p3 (b : bound) : val := match b_params b with _ :: _ :: x :: _ => x | _ => VNone end.
Definition p4 (b : bound) : val := match b_params b with _ :: _ :: _ :: x :: _ => x | _ => VNone end.
Definition p5 (b : bound) : val := match b_params b with _ :: _ :: _ :: _ :: x :: _ => x | _ => VNone end.
Definition p6 (b : bound) : val := match b_params b with _ :: _ :: _ :: _ :: _ :: x :: _ => x | _ => VNone end.
Definition p7 (b : bound) : val := match b_params b with _ :: _ :: _ :: _ :: _ :: _ :: x :: _ => x | _ => VNone end.
Definition undefined : val := VStr $"__Undefined_Var_Value__".
Definition source_of (name template group : val) : res source :=
  if truthy name then do s <- s_arg name; Ok (ByName s)
  else if truthy template then do s <- s_arg template; Ok (ByTemplate s)
  else if truthy group then do s <- s_arg group; Ok (ByGroup s)
  else Ok NoSource.

(** name, signature and body *)
Definition mentry := (str * (signature * (menv -> val -> bound -> res (menv * (val * mflag)))))%type.
Definition pure (f : val -> bound -> res (val * mflag)) : menv -> val -> bound -> res (menv * (val * mflag)) :=
  fun env d b => keep_env env (f d b).
Definition match_table : list mentry :=
  [ ($"copy", (sig [req $"name"], pure (fun d b => do k <- key_param (p1 b); f_copy d k)));
    ($"count", (sig [opt $"var" VNone; opt $"globvar" VNone],
                fun env d b => do v <- key_arg (p1 b); do g <- key_arg (p2 b); f_count env d v g));
    ($"item", (sig [req $"item_index"], pure (fun d b =>
                match p1 b with
                | VInt z => f_item d z
                | VBool x => f_item d (if x then 1 else 0)
                | VStr s => do z <- int_of s; f_item d z
                | _ => Raise TypeError
                end)));
    ($"joinmatches", ({| sg_params := []; sg_star := true; sg_kwonly := []; sg_kwargs := true |}, pure (fun d _ => f_joinmatches d)));
    ($"let", (sig [req $"name_or_value"; opt $"var_value" undefined], pure (fun d b =>
                f_let d (p1 b) (if py_eq (p2 b) undefined then None else Some (p2 b)))));
    ($"lookup", (sig [opt $"name" VNone; opt $"template" VNone; opt $"group" VNone; opt $"add_field" (VBool false)], pure (fun d b =>
                do s <- source_of (p1 b) (p2 b) (p3 b); do a <- key_arg (p4 b); f_lookup lookups templates results d s a)));
    ($"rlookup", (sig [req $"name"; opt $"add_field" (VBool false)], pure (fun d b =>
                do x <- data_str d; do n <- s_arg (p1 b); do a <- key_arg (p2 b); f_rlookup lookups x n a)));
    ($"gpvlookup", (sig [req $"name"; opt $"add_field" (VBool false); opt $"record" (VBool false); opt $"multimatch" (VBool false)],
                fun env d b => do x <- data_str d; do n <- s_arg (p1 b); do a <- key_arg (p2 b); do r <- key_arg (p3 b);
                               f_gpvlookup fnmatch lookups env x n a r (truthy (p4 b))));
    ($"mac_eui", (sig [], pure (fun d _ => f_mac_eui d)));
    ($"macro", (sig [req $"macro_name"], pure (fun d b => do n <- s_arg (p1 b); f_macro macros d n)));
    ($"raise", (sig [opt $"message" (VStr [])], fun _ _ _ => Raise RuntimeError));
    ($"startswith_re", (sig [req $"pattern"], pure (fun d b => yes_no (f_startswith_re re_search) d (p1 b))));
    ($"endswith_re", (sig [req $"pattern"], pure (fun d b => yes_no (f_endswith_re re_search) d (p1 b))));
    ($"contains_re", (sig [req $"pattern"], pure (fun d b => yes_no (f_contains_re re_search) d (p1 b))));
    ($"notstartswith_re", (sig [req $"pattern"], pure (fun d b => yes_no (f_notstartswith_re re_search) d (p1 b))));
    ($"notendswith_re", (sig [req $"pattern"], pure (fun d b => yes_no (f_notendswith_re re_search) d (p1 b))));
    ($"exclude_re", (sig [req $"pattern"], pure (fun d b => yes_no (f_exclude_re re_search) d (p1 b))));
    ($"resub", (sig [req $"old"; req $"new"; opt $"count" (VInt 1)], fun env d b =>
                keep_env env (do x <- data_str d; do o <- s_arg (p1 b); do n <- s_arg (p2 b); do c <- z_arg (p3 b);
                              if Z.ltb c 0 then out_of_model else f_resub re_subn re_escape (m_vars env) x o n (Z.to_nat c))));
    ($"resuball", (sig_star, fun env d b =>
                keep_env env (do x <- data_str d; do l <- rmap s_arg (b_star b); f_resuball re_subn re_escape (m_vars env) x l)));
    ($"record", (sig [req $"record"], fun env d b => do k <- key_param (p1 b); Ok (f_record env d k)));
    ($"set", (sig [req $"value"; req $"match_line"], fun env d b => keep_env env (do l <- s_arg (p2 b); f_set env d (p1 b) l)));
    ($"exclude", (sig [req $"pattern"], pure (fun d b => do p <- s_arg (p1 b); f_exclude d p)));
    ($"equal", (sig [req $"value"], pure (fun d b => f_equal d (p1 b))));
    ($"notequal", (sig [req $"value"], pure (fun d b => f_notequal d (p1 b))));
    ($"contains", (sig_star, pure (fun d b => do l <- rmap s_arg (b_star b); f_contains d l)));
    ($"sformat", (sig [req $"string"], pure (fun d b => do s <- s_arg (p1 b); do r <- format_str [py_str d] s []; Ok (VStr r, FNone))));
    ($"isdigit", (sig [], pure (fun d _ => f_isdigit d)));
    ($"notdigit", (sig [], pure (fun d _ => f_notdigit d)));
    ($"greaterthan", (sig [req $"value"], pure (fun d b => f_greaterthan d (p1 b))));
    ($"lessthan", (sig [req $"value"], pure (fun d b => f_lessthan d (p1 b))));
    ($"join", (sig [req $"char"], pure (fun d b => match d with VList _ => do c <- s_arg (p1 b); f_join d c | _ => f_join d [] end)));
    ($"append", (sig [req $"char"], fun env d b => keep_env env (do c <- s_arg (p1 b); f_append env d c)));
    ($"prepend", (sig [req $"char"], fun env d b => keep_env env (do c <- s_arg (p1 b); f_prepend env d c)));
    ($"print", (sig [], pure (fun d _ => Ok (d, FNone))));
    ($"replaceall", (sig_star, fun env d b =>
                keep_env env (do x <- data_str d; do l <- rmap s_arg (b_star b); f_replaceall (m_vars env) x l)));
    ($"truncate", (sig [req $"truncate"], pure (fun d b => do z <- z_arg (p1 b); f_truncate d z)));
    ($"to_str", (sig [], pure (fun d _ => f_to_str d)));
    ($"to_list", (sig [], pure (fun d _ => f_to_list d)));
    ($"to_int", (sig [], pure (fun d _ => f_to_int d)));
    ($"to_unicode", (sig [], pure (fun d _ => Ok (d, FNone))));
    ($"to_cidr", (sig [], pure (fun d _ => f_to_cidr d)));
    ($"unrange", (sig [req $"rangechar"; req $"joinchar"], pure (fun d b =>
                do x <- data_str d; do r <- s_arg (p1 b); do j <- s_arg (p2 b); f_unrange x r j)));
    ($"void", (sig [], pure (fun d _ => f_void d)));
    ($"is_ip", (sig_star, pure (fun d b => Ip.f_is_ip d (b_star b))));
    ($"cidr_match", (sig [req $"prefix"], fun env d b => keep_env env (do p <- s_arg (p1 b); Ip.f_cidr_match (m_vars env) d p)));
    ($"uptimeparse", (sig [opt $"format" (VStr $"seconds")], pure (fun d b => Uptime.f_uptimeparse d (p1 b)))) ].
(** the match functions that are not modelled *)
Definition match_others : list str :=
  [$"dns"; $"rdns"; $"geoip_lookup"; $"to_ip"; $"to_net"; $"ip_info"; $"to_float"].
Fixpoint lookup_entry {A} (n : str) (l : list (str * A)) : option A :=
  match l with [] => None | (m, a) :: t => if str_eqb n m then Some a else lookup_entry n t end.
(** [_ttp_["match"][name](data, *args, **kwargs)] *)
Definition call_match (a : attribute) (env : menv) (d : val) : res (menv * (val * mflag)) :=
  match lookup_entry (at_name a) match_table with
  | Some (s, f) => do b <- bind s (at_args a) (at_kwargs a); f env d b
  | None => if in_strs (at_name a) match_others then out_of_model else Raise KeyError
  end.

(** ** methods of strings *)
Definition upper_c (c : ascii) : str :=
  if (between 97 122 c || (between 224 254 c && negb (N.eqb (code c) 247)))%bool then [chr (code c - 32)]
  else if N.eqb (code c) 223 then $"SS" else [c].
Definition upper (s : str) : str := flat_map upper_c s.
(** [s.split()] *)
Fixpoint words_go (fuel : nat) (s : str) : list str :=
  match fuel with
  | O => []
  | S f => match lstrip s with
           | [] => []
           | t => let '(w, r) := span_of (fun c => negb (is_space c)) t in w :: words_go f r
           end
  end.
Definition words (s : str) : list str := words_go (S (length s)) s.
Definition in_chars (cs : str) (c : ascii) : bool := existsb (Ascii.eqb c) cs.
Definition suffixb (p s : str) : bool := prefixb (rev p) (rev s).
Definition str_methods : list str :=
  [$"capitalize"; $"casefold"; $"center"; $"encode"; $"expandtabs"; $"find"; $"format"; $"format_map"; $"index"; $"isalpha"; $"isalnum"; $"isascii";
   $"isdecimal"; $"isidentifier"; $"islower"; $"isnumeric"; $"isprintable"; $"isspace"; $"istitle"; $"isupper"; $"ljust"; $"maketrans";
   $"partition"; $"removeprefix"; $"removesuffix"; $"rfind"; $"rindex"; $"rjust"; $"rpartition"; $"rsplit"; $"splitlines"; $"swapcase";
   $"title"; $"translate"; $"zfill"].
(** [getattr(data, name)], called with the arguments; methods take no keyword arguments here *)
Definition str_method (n : str) (args : list val) (s : str) : res val :=
  if str_eqb n $"upper" then match args with [] => Ok (VStr (upper s)) | _ => Raise TypeError end
  else if str_eqb n $"lower" then match args with [] => Ok (VStr (lower s)) | _ => Raise TypeError end
  else if str_eqb n $"strip" then
    match args with [] | [VNone] => Ok (VStr (strip s)) | [VStr c] => Ok (VStr (lstrip_p (in_chars c) (rstrip_p (in_chars c) s))) | _ => Raise TypeError end
  else if str_eqb n $"lstrip" then
    match args with [] | [VNone] => Ok (VStr (lstrip s)) | [VStr c] => Ok (VStr (lstrip_p (in_chars c) s)) | _ => Raise TypeError end
  else if str_eqb n $"rstrip" then
    match args with [] | [VNone] => Ok (VStr (rstrip s)) | [VStr c] => Ok (VStr (rstrip_p (in_chars c) s)) | _ => Raise TypeError end
  else if str_eqb n $"split" then
    match args with
    | [] | [VNone] => Ok (VList (map VStr (words s)))
    | [VStr []] => Raise ValueError
    | [VStr c] => Ok (VList (map VStr (split c s)))
    | _ => out_of_model
    end
  else if str_eqb n $"replace" then
    match args with [VStr a; VStr b] => Ok (VStr (replace_all a b s)) | [_; _; _] => out_of_model | _ => Raise TypeError end
  else if str_eqb n $"startswith" then match args with [VStr p] => Ok (VBool (prefixb p s)) | _ => out_of_model end
  else if str_eqb n $"endswith" then match args with [VStr p] => Ok (VBool (suffixb p s)) | _ => out_of_model end
  else if in_strs n str_methods then out_of_model
  else if prefixb $"__" n then out_of_model
  else Raise AttributeError.
Definition other_methods : list str :=
  [$"clear"; $"extend"; $"index"; $"insert"; $"pop"; $"remove"; $"reverse"; $"sort"; $"fromkeys"; $"get"; $"items"; $"keys"; $"popitem";
   $"setdefault"; $"update"; $"values"; $"as_integer_ratio"; $"bit_length"; $"bit_count"; $"conjugate"; $"denominator"; $"from_bytes"; $"imag";
   $"numerator"; $"real"; $"to_bytes"].
Definition data_method (a : attribute) (d : val) : res val :=
  match d with
  | VStr s => match at_kwargs a with [] => str_method (at_name a) (at_args a) s | _ => out_of_model end
  | VNone => if prefixb $"__" (at_name a) then out_of_model else Raise AttributeError
  | _ => if (in_strs (at_name a) other_methods || prefixb $"__" (at_name a))%bool then out_of_model else Raise AttributeError
  end.
Definition match_func (a : attribute) : mfunc := {| mf_call := call_match a; mf_attr := data_method a |}.
End M.

(** ** the group functions, ttp/group/*.py *)
Definition is_nil_ {A} (l : list A) : bool := match l with [] => true | _ => false end.
Section G.
Variable gmacros : list (str * (val -> res gmret)).
Variable lookups : val.
Variable templates : list (str * val).
Variable main : val.
Variable results : val.
Variable k2i : bool.
Definition gentry := (str * (signature * (fstate -> bound -> res (fstate * bool))))%type.
Definition target_arg (v : val) : res (option str) :=
  do s <- s_arg v; Ok (if str_eqb s $"_use_source_" then None else Some s).
(** floating point numbers are outside of the model; the texts that [float] takes *)
Fixpoint digit_part (prev : bool) (s : str) : str * bool :=       (* digits, with single underscores between them: rest, anything read *)
  match s with
  | c :: t => if is_dec c then (fst (digit_part true t), true)
              else if (Ascii.eqb c "_" && prev)%bool
                   then match t with d :: _ => if is_dec d then (fst (digit_part false t), true) else (s, false) | [] => (s, false) end
                   else (s, false)
  | [] => (s, false)
  end.
Definition after_sign (s : str) : str := match s with c :: t => if in_chars $"+-" c then t else s | [] => s end.
Definition float_exponent (s : str) : bool :=
  match s with
  | [] => true
  | c :: t => (in_chars $"eE" c && (let '(r, ok) := digit_part false (after_sign t) in (ok && is_nil_ r)))%bool
  end.
Definition maybe_float (s : str) : bool :=
  let t := after_sign (strip s) in
  (existsb (fun w => str_eqb (lower t) w) [$"nan"; $"inf"; $"infinity"] ||
   (let '(r, a) := digit_part false t in
    match r with
    | "."%char :: r' => let '(q, b) := digit_part false r' in ((a || b) && float_exponent q)%bool
    | _ => (a && float_exponent r)%bool
    end))%bool.
Fixpoint float_risk (v : val) : bool :=
  match v with
  | VStr s => match py_int s with Some _ => false | None => maybe_float s end
  | VObj _ => true
  | VList l => existsb float_risk l
  | _ => false
  end.
Definition group_table : list gentry :=
  [ ($"contains", (sig_star, fun st b => do l <- rmap s_arg (b_star b); g_contains l st));
    ($"contains_val", (sig [req $"key"; req $"value"], fun st b => do k <- s_arg (p1 b); g_contains_val k (p2 b) st));
    ($"containsall", (sig_star, fun st b => do l <- rmap s_arg (b_star b); g_containsall l st));
    ($"del", (sig_star, fun st b => do l <- rmap s_arg (b_star b); g_del l st));
    ($"equal", (sig [req $"key"; req $"value"], fun st b => do k <- s_arg (p1 b); g_equal k (p2 b) st));
    ($"exclude", (sig_star, fun st b => do l <- rmap s_arg (b_star b); g_exclude l st));
    ($"exclude_val", (sig [req $"key"; req $"value"], fun st b => do k <- s_arg (p1 b); g_exclude_val k (p2 b) st));
    ($"excludeall", (sig_star, fun st b => do l <- rmap s_arg (b_star b); g_excludeall l st));
    ($"expand", (sig [], fun st _ => g_expand st));
    ($"itemize", (sig [req $"key"; opt $"path" (VStr [])], fun st b => do k <- s_arg (p1 b); do p <- s_arg (p2 b); g_itemize k2i k p st));
    ($"items2dict", (sig [req $"key_name"; req $"value_name"], fun st b => do k <- s_arg (p1 b); do v <- s_arg (p2 b); g_items2dict k v st));
    ($"lookup", (sig [req $"key"; opt $"name" VNone; opt $"template" VNone; opt $"group" VNone; opt $"add_field" (VBool false);
                      opt $"replace" (VBool true); opt $"update" (VBool false)],
                 fun st b => do k <- s_arg (p1 b); do s <- source_of (p2 b) (p3 b) (p4 b);
                             do a <- (if truthy (p5 b) then do f <- s_arg (p5 b); Ok (Some f) else Ok None);
                             g_lookup lookups templates main results s k a (truthy (p6 b)) (match p7 b with VBool true => true | _ => false end) st));
    ($"macro", (sig_star, fun st b => do l <- rmap s_arg (b_star b); g_macro gmacros l st));
    ($"record", (sig [req $"source"; opt $"target" (VStr $"_use_source_")], fun st b => do s <- s_arg (p1 b); do t <- target_arg (p2 b); g_record s t st));
    ($"set", (sig [req $"source"; opt $"target" (VStr $"_use_source_"); opt $"default" (VStr $"_no_default_value_")],
              fun st b => do s <- s_arg (p1 b); do t <- target_arg (p2 b);
                          g_set s t (if py_eq (p3 b) (VStr $"_no_default_value_") then None else Some (p3 b)) st));
    ($"sformat", (sig [req $"string"; req $"add_field"], fun st b => do s <- s_arg (p1 b); do a <- s_arg (p2 b); g_sformat (fun s kws => format_str [] s kws) s a st));
    ($"str_to_unicode", (sig [], fun st _ => g_str_to_unicode st));
    ($"to_int", ({| sg_params := []; sg_star := true; sg_kwonly := [($"intlist", VBool false)]; sg_kwargs := false |},
                 fun st b => do l <- rmap s_arg (b_star b);
                             match fs_data st with
                             | VDict d => if existsb (fun kv => ((is_nil_ l || existsb (fun k => key_eqb (KS k) (fst kv)) l) && float_risk (snd kv))%bool) d then out_of_model
                                          else g_to_int (fun _ => None) (fun _ => None) (fun _ => None) l
                                                 (match b_kwonly b with VBool true :: _ => true | _ => false end) st
                             | _ => out_of_model
                             end));
    ($"void", (sig [], fun st _ => g_void st)) ].
Definition group_others : list str := [$"to_ip"; $"cerberus"; $"validate"].
Definition group_names : list str := map fst group_table ++ group_others.
(** [_ttp_["group"][name](data, *args, **kwargs)] *)
Definition call_group (a : attribute) (st : fstate) : res (fstate * bool) :=
  match lookup_entry (at_name a) group_table with
  | Some (s, f) => do b <- bind s (at_args a) (at_kwargs a); f st b
  | None => if in_strs (at_name a) group_others then out_of_model else Raise KeyError
  end.
End G.
