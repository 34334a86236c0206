(** * OutputTags: output tags and what they do with results.
    Models _outputter_class (ttp/ttp.py 3275-3448): __init__, extract_load, get_attributes, run with the functions
    ttp/output/transform.py, is_equal.py and macro.py, the formatters raw, json, table and csv and the returners self, terminal and
    file; update_groups_with_outputs is in Template.v, the run itself in Outputs.v.

    Simplifications.  Outside of the model (RuntimeError): the other functions, formatters and returners; attributes named
    data or D (a second value for the functions' first parameter); file names with a percent sign (strftime), with braces
    (format) or empty; coloured printing; arguments of another type than the function needs, if not said otherwise here.
    When the results are not returned (no self returner), dict_to_list after another function or with a path, or a table with a
    key, is outside too: they change the data in place.  File effects are the writes, a directory that is missing is made. *)
From Verif Require Import PyBase Regex Results Template Attributes FormRegex MatchVar MatchFuncs GroupFuncs Parser Compile FuncTable Loaders Session Files Inputs Outputs JsonDump.
Local Open Scope string_scope.
Local Open Scope list_scope.

Record outputter := { ot_name : val; ot_attrs : dict; ot_load : val; ot_funcs : list attribute }.
(** the keys of _ttp_["output"], _ttp_["formatters"] and _ttp_["returners"]: the functions of the files with their _name_map_s *)
Definition output_names : list str :=
  [$"deepdiff"; $"is_equal"; $"macro"; $"traverse"; $"dict_to_list"; $"validate"; $"validate_yangson"].
Definition formatter_names : list str :=
  [$"csv"; $"excel"; $"jinja2"; $"json"; $"n2g"; $"pprint"; $"raw"; $"table"; $"tabulate"; $"yaml"].

(** ** attributes *)
Definition set_attr (o : outputter) (n : str) (v : val) : outputter :=
  {| ot_name := ot_name o; ot_attrs := dset (ot_attrs o) (KS n) v; ot_load := ot_load o; ot_funcs := ot_funcs o |}.
Definition set_oname (o : outputter) (v : val) : outputter :=
  {| ot_name := v; ot_attrs := ot_attrs o; ot_load := ot_load o; ot_funcs := ot_funcs o |}.
Definition add_func (o : outputter) (a : attribute) : outputter :=
  {| ot_name := ot_name o; ot_attrs := ot_attrs o; ot_load := ot_load o; ot_funcs := ot_funcs o ++ [a] |}.
(** [get_attributes("name({})".format(O))[0]] *)
Definition first_attr (n : str) (v : val) : res attribute :=
  do l <- get_attributes (n ++ $"(" ++ py_str v ++ $")");
  match l with a :: _ => Ok a | [] => Raise IndexError end.
(** extract_functions: ttp.py 3343-3364; the extractor of the attribute would be called with a dictionary *)
Definition chain_output (o : outputter) (a : attribute) : res outputter :=
  if str_eqb (at_name a) $"functions" then Raise AttributeError
  else Ok (if in_strs (at_name a) output_names then add_func o a else o).
Definition texts (l : list str) : val := VList (map VStr l).
(** get_attributes: ttp.py 3308-3393.  Keys that are no strings have no [lower] *)
Definition out_attr (o : outputter) (kv : key * val) : res outputter :=
  match fst kv with
  | KS k =>
      let n := lower k in let v := snd kv in
      if str_eqb n $"name" then Ok (set_oname o v)
      else if str_eqb n $"returner" then
        match v with VStr s => Ok (set_attr o n (texts (comma_list s))) | _ => Raise AttributeError end
      else if str_eqb n $"filename" then
        match v with VStr s => if existsb (Ascii.eqb "%") s then out_of_model else Ok (set_attr o n v) | _ => Raise TypeError end
      else if str_eqb n $"format_attributes" then
        do a <- first_attr n v; Ok (set_attr o n (VDict [(KS $"args", VList (at_args a)); (KS $"kwargs", VDict (at_kwargs a))]))
      else if str_eqb n $"path" then
        match v with VStr s => Ok (set_attr o n (texts (split_path s))) | _ => Raise AttributeError end
      else if str_eqb n $"headers" then
        Ok (set_attr o n (match v with VStr s => texts (comma_list s) | _ => v end))
      else if str_eqb n $"condition" then
        do a <- first_attr n v; Ok (set_attr o n (VList (at_args a)))
      else if str_eqb n $"functions" then
        do s <- s_arg v; do l <- get_attributes s; rfold chain_output l o
      else if in_strs k output_names then
        do a <- first_attr k v; Ok (add_func o a)
      else if in_strs k [$"data"; $"D"] then out_of_model
      else Ok (set_attr o k v)
  | _ => Raise AttributeError
  end.
Definition default_attrs : dict :=
  [(KS $"returner", VStr $"self"); (KS $"format", VStr $"raw"); (KS $"load", VStr $"python")].
Definition read_output (attrs : dict) (load : val) : res outputter :=
  rfold out_attr attrs {| ot_name := VNone; ot_attrs := attrs; ot_load := load; ot_funcs := [] |}.
(** an output tag: ttp.py 3278-3306 *)
Definition tag_output (w : world) (e : elem) : res outputter :=
  let attrs := dupdate default_attrs (map (fun kv => (KS (fst kv), VStr (snd kv))) (e_attrs e)) in
  let attrs := match dget attrs (KS $"format") with
               | Some (VStr f) => if str_eqb f $"jinja2" then dset attrs (KS $"load") (VStr $"text") else attrs
               | _ => attrs
               end in
  do o <- load_struct w (e_text e) (strs_of_dict attrs);
  let text := match e_text e with [] => VNone | s => VStr s end in
  read_output (match o with Some (VDict d) => dupdate attrs d | _ => attrs end)
              (match o with Some x => if truthy x then x else text | None => text end).
(** an output made of arguments, [result(format=..., ...)]: ttp.py 629-631, 3293-3295 *)
Definition kwargs_output (kw : dict) : res outputter :=
  read_output (dupdate default_attrs (if dmem kw (KS $"returner") then kw else dset kw (KS $"returner") (VStr $"self"))) (VDict []).

(** ** functions *)
Definition path_arg (v : val) : res (list str) :=
  match v with VStr s => Ok (split_path s) | VList l => rmap s_arg l | _ => out_of_model end.
Definition description (o : outputter) : val := match dget (ot_attrs o) (KS $"description") with Some v => v | None => VStr $"None" end.
(** the function's result *)
(** a macro of the output: ttp/output/macro.py 1-8.  A tuple as the result is outside; a macro changes nothing *)
Definition output_macro (ms : list (str * macro)) (a : attribute) (results : val) : res val :=
  do b <- bind (sig [req $"macro_name"]) (at_args a) (at_kwargs a);
  do n <- s_arg (p1 b);
  match find (fun m => str_eqb (fst m) n) ms with
  | None => Ok results
  | Some m => do r <- snd m results; match r with MVal VNone => Ok results | MVal v => Ok v | MTuple _ => out_of_model end
  end.
Definition call_output (ms : list (str * macro)) (o : outputter) (a : attribute) (results : val) : res val :=
  let n := at_name a in
  if str_eqb n $"traverse" then
    do b <- bind (sig [req $"path"; opt $"strict" (VBool true)]) (at_args a) (at_kwargs a);
    match b_params b with
    | [p; s] => do path <- path_arg p; traverse (truthy s) path results
    | _ => Raise TypeError
    end
  else if str_eqb n $"dict_to_list" then
    do b <- bind (sig [opt $"key_name" (VStr $"key"); opt $"path" VNone; opt $"strict" (VBool false)]) (at_args a) (at_kwargs a);
    match b_params b with
    | [k; p; s] => do key_name <- s_arg k; do path <- (if truthy p then path_arg p else Ok []); dict_to_list_at key_name path (truthy s) results
    | _ => Raise TypeError
    end
  else if str_eqb n $"is_equal" then
    do _ <- bind (sig []) (at_args a) (at_kwargs a);
    do b <- is_equal (ot_load o) results;
    Ok (VDict [(KS $"output_name", ot_name o); (KS $"output_description", description o); (KS $"is_equal", VBool b)])
  else if str_eqb n $"macro" then output_macro ms a results
  else out_of_model.
(** what a function leaves of the data, if that is still needed ([keep]): only a dict_to_list without a path that comes first
    changes it in a way that is modelled.  [a] has the number [i] *)
Definition data_after (keep : bool) (i : nat) (a : attribute) (data : val) : res val :=
  if (keep && str_eqb (at_name a) $"dict_to_list")%bool then
    match i, at_kwargs a, at_args a with
    | 0, [], [VStr k] => Ok (snd (dict_to_list k data))
    | 0, [], [] => Ok (snd (dict_to_list $"key" data))
    | 0, [(KS n, VStr k)], [] => if str_eqb n $"key_name" then Ok (snd (dict_to_list k data)) else out_of_model
    | _, _, _ => out_of_model
    end
  else Ok data.
Definition run_one (ms : list (str * macro)) (o : outputter) (keep : bool) (ia : nat * attribute) (results data : val) : res (val * val) :=
  do r <- call_output ms o (snd ia) results; do d <- data_after keep (fst ia) (snd ia) data; Ok (r, d).
Fixpoint indexed {A} (i : nat) (l : list A) : list (nat * A) := match l with [] => [] | x :: t => (i, x) :: indexed (S i) t end.

(** ** formatters *)
Definition attr_of (o : outputter) (n : str) : option val := dget (ot_attrs o) (KS n).
Definition header_key (v : val) : res key := match v with VStr s => Ok (KS s) | VInt z => Ok (KI z) | VNone => Ok KNone | _ => out_of_model end.
Definition table_of (o : outputter) (data : val) : res (list key * list (list val)) :=
  do path <- (match attr_of o $"path" with Some v => if truthy v then path_arg v else Ok [] | None => Ok [] end);
  do key_name <- (match attr_of o $"key" with Some v => if truthy v then s_arg v else Ok [] | None => Ok [] end);
  do headers <- (match attr_of o $"headers" with
                 | Some v => if truthy v then match v with VList l => rmap header_key l | _ => out_of_model end else Ok []
                 | None => Ok []
                 end);
  table path (match attr_of o $"missing" with Some v => v | None => VStr [] end) key_name
        (match attr_of o $"strict" with Some v => truthy v | None => true end) headers data.
Definition has_brace (s : str) : bool := existsb (fun c => in_chars $"{}" c) s.
(** [sep] and [quote] are put into format strings *)
Definition text_attr (o : outputter) (n d : str) : res str :=
  match attr_of o n with
  | Some (VStr s) => if has_brace s then out_of_model else Ok s
  | Some _ => out_of_model
  | None => Ok d
  end.
Definition csv_of (o : outputter) (data : val) : res val :=
  do t <- table_of o data;
  do sep <- text_attr o $"sep" $","; do q <- text_attr o $"quote" [dquote];
  do x <- csv_text sep q t; Ok (VStr x).
Definition has_key (o : outputter) : bool := match attr_of o $"key" with Some v => truthy v | None => false end.
Definition format_of (o : outputter) (keep : bool) : option (val -> res val) :=
  match attr_of o $"format" with
  | Some (VStr f) =>
      if str_eqb f $"raw" then Some Ok
      else if str_eqb f $"json" then Some json_formatter
      else if in_strs f [$"table"; $"csv"] then
        if (keep && has_key o)%bool then Some (fun _ => out_of_model)
        else if str_eqb f $"table" then Some (fun d => do t <- table_of o d; Ok (VList (VList (map Outputs.key_val (fst t)) :: map VList (snd t))))
        else Some (csv_of o)
      else if in_strs f formatter_names then Some (fun _ => out_of_model)
      else None
  | Some (VList _) | Some (VDict _) => Some (fun _ => Raise TypeError)   (* [format_type in dict] *)
  | _ => None
  end.

(** ** returners *)
Inductive effect := Printed (s : str) | Wrote (path s : str).
(** terminal_returner.py 38-52: what is printed *)
Definition printed_text (v : val) : str := match v with VStr s => s | _ => replace_all $"\n" [nl] (py_repr v) end.
(** file_returner.py 11-52 *)
Definition file_url (o : outputter) : option str := match attr_of o $"url" with Some (VStr u) => Some u | Some _ => None | None => Some $"./Output/" end.
Definition file_name (o : outputter) : option str :=
  match attr_of o $"filename" with
  | Some (VStr f) => if (is_nil f || has_brace f)%bool then None else Some f
  | _ => None
  end.
Definition returner_of (o : outputter) (r : str) : option (val -> effect) :=
  if str_eqb r $"terminal" then Some (fun v => Printed (printed_text v))
  else if str_eqb r $"file" then
    match file_url o, file_name o with Some u, Some f => Some (fun v => Wrote (path_join u f) (py_str v)) | _, _ => None end
  else None.
(** what is inside of the model *)
Definition returner_known (o : outputter) (r : str) : bool :=
  if str_eqb r $"terminal" then match attr_of o $"colour" with Some _ => false | None => true end
  else if str_eqb r $"file" then match file_url o, file_name o with Some _, Some _ => true | _, _ => false end
  else negb (str_eqb r $"syslog").
Definition is_self (r : str) : bool := str_eqb r $"self".
Definition returners (o : outputter) : res (list str) := match attr_of o $"returner" with Some (VList l) => rmap s_arg l | _ => out_of_model end.
Definition condition_args (o : outputter) : list val := match attr_of o $"condition" with Some (VList l) => l | _ => [] end.

(** ** run: ttp.py 3395-3448.  [ms]: the macros of the moment; [vars]: the template's variables, none for an output made of arguments.  The flag that
    self_returner sets stays for later runs, and is set again in every run that gets to the returners *)
Definition run_output (ms : list (str * macro)) (vars : option dict) (o : outputter) (data : val) : res (val * list effect) :=
  do rs <- returners o;
  if negb (forallb (returner_known o) rs) then out_of_model
  else
    do vars <- (match vars, condition_args o with
                | Some d, _ => Ok d
                | None, [] => Ok []
                | None, [_; _] => Raise AttributeError
                | None, _ => Raise ValueError
                end);
    let keep := negb (existsb is_self rs) in
    do (x, _) <- output_run (nat * attribute) (run_one ms o keep) (format_of o keep) is_self effect (returner_of o)
                   (condition_args o) vars (indexed 0 (ot_funcs o)) rs false data;
    Ok x.
(** the name of an output, for the groups that refer to it; group items are stripped, so that none is a space *)
Definition output_name (o : outputter) : str := match ot_name o with VStr s => s | _ => [space] end.
(** the results of the outputs of a group, or of a template, one after the other *)
Definition run_outs (ms : list (str * macro)) (vars : dict) (l : list (@gout outputter)) (data : val) : res val :=
  rfold (fun v g => match g with
                    | Found o => do (x, _) <- run_output ms (Some vars) o v; Ok x
                    | Template.ByName _ => Raise AttributeError       (* a name has no [run] *)
                    end) l data.
