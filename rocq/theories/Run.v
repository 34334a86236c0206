(** * Run: a template's text and data give the results.
    Everything together: Load.v makes the template objects out of the text, Session.v adds the inputs, runs the parser
    (Parser.v, Results.v) on every text and forms the results.  Models what
    [p = ttp(template=text); p.add_input(d1); ...; p.parse(one=True); p.result()] does.

    Simplifications: those of the files used; the lookup functions see the lookup
    tables, and are outside of the model (RuntimeError) when they refer to the results of templates or groups. *)
From Verif Require Import PyBase Regex Results Template Attributes FormRegex MatchVar MatchFuncs GroupFuncs Parser Compile FuncTable Session Files Inputs OutputTags Load.
Local Open Scope string_scope.
Local Open Scope list_scope.

(** ** the functions *)
Definition is_lookup (n : nat) (a : attribute) : bool :=
  (str_eqb (at_name a) $"lookup" &&
   (dmem (at_kwargs a) (KS $"template") || dmem (at_kwargs a) (KS $"group") || Nat.ltb n (length (at_args a))))%bool.
Definition m_fun (t : tpl) (a : attribute) : mfunc :=
  if is_lookup 1 a then {| mf_call := fun _ _ => out_of_model; mf_attr := fun _ => out_of_model |}
  else match_func (tp_macros t) (VDict (tp_lookups t)) [] (VDict []) a.
(** what a macro gives in a group: macro.py 8-15 of ttp/group; tuples are outside *)
Definition gm_of (r : mret) : res gmret :=
  match r with
  | MVal (VBool false) => Ok MFalse
  | MVal v => Ok (if (py_eq v (VBool true) || py_eq v VNone)%bool then MGoOn else MNew v)
  | MTuple _ => out_of_model
  end.
Definition g_macros (ms : list (str * macro)) : list (str * (val -> res gmret)) :=
  map (fun m => (fst m, fun v => do r <- snd m v; gm_of r)) ms.
Definition g_fun (t : tpl) (k2i : bool) (a : attribute) (st : fstate) : res (fstate * bool) :=
  if is_lookup 2 a then out_of_model else call_group (g_macros (tp_macros t)) (VDict (tp_lookups t)) [] (VDict []) (VList []) k2i a st.

Section R.
Variable clock : str -> option val.      (* what the time functions give *)
Variable k2i : bool.                     (* dynamic_path_key_to_int *)

Variable order : list nat -> list nat.   (* [list(set(l))] *)
Variable w : world.                      (* the files *)

(** set_data and parse for one datum: ttp.py 2363-2392, 2429-2656; [gvars] are the variables shared by all templates.
    The groups' runs are set to their defaults by set_data, that is what [to_pgroup] gives them *)
Definition vfs_of (t : tpl) (dataname : str) : list (key * (str -> option val)) :=
  map (fun nf => (fst nf, var_function clock dataname (snd nf))) (tp_vfs t).
Definition chosen {A} (idxs : list nat) (gs : list A) : res (list A) :=
  rmap (fun i => match nth_error gs i with Some g => Ok g | None => Raise IndexError end) idxs.
(** the outputs of a group: ttp.py 2606-2611, 2649-2650 *)
Definition own_outputs (t : tpl) (l : list (@gout outputter)) : option (val -> res val) :=
  match l with [] => None | _ => Some (run_outs (tp_macros t) (tp_vars t) l) end.
Definition parse_text (t : tpl) (gvars : dict) (idxs : list nat) (fs : list attribute) (dataname data : str) (main : val) : res (dict * val) :=
  let vars := set_vars (tp_vars t) (vfs_of t dataname) (datatext data) in
  do text <- input_text (tp_macros t) fs (datatext data);
  do gs <- chosen idxs (combine (tp_groups t) (tp_gouts t));
  do (_, (e, v)) <- Parser.parse attribute (g_fun t k2i) k2i text
                      (map (fun g => (to_pgroup (m_fun t) (fst g), own_outputs t (snd g))) gs) (tp_v2r t)
                      {| m_vars := vars; m_gvars := gvars |} main;
  Ok (e_gvars e, v).
Definition parser_of (ts : list tpl) (i : nat) (gvars : dict) (idxs : list nat) (fs : list attribute) (d : datum) (main : val) : res (dict * val) :=
  match nth_error ts i with
  | Some t => do (x, n) <- text_of w d; parse_text t gvars idxs fs n x main
  | None => out_of_model
  end.

(** ** the session *)
(** [ms]: the macros of the moment when the template's outputs run *)
Definition template_of (ms : list (str * macro)) (it : nat * tpl) : @template (list attribute) :=
  {| t_id := fst it; t_name := tp_name (snd it); t_method := tp_method (snd it); t_groups := map tgroup_of (number 0 (tp_groups (snd it)));
     t_inputs := tp_inputs (snd it); t_results := VList [];
     t_outputs := map (fun o v => run_outs ms (tp_vars (snd it)) [Found o] v) (tp_outputs (snd it)) |}.
(** _ttp_["macro"] when the outputs of the templates run: ttp.py 451, 504, 988-991, 3402-3405.  The templates have been parsed,
    one after the other in one process, so that the last one's macros are there; an output sets them if its template has any *)
Fixpoint output_macros (cur : list (str * macro)) (ts : list tpl) : list (list (str * macro)) :=
  match ts with
  | [] => []
  | t :: rest => let cur' := match tp_outputs t, tp_macros t with _ :: _, (_ :: _) as ms => ms | _, _ => cur end in cur' :: output_macros cur' rest
  end.
Definition parsed_macros (ts : list tpl) : list (str * macro) := last (map tp_macros ts) [].
Definition session_t := @session (list attribute) dict.
Definition session_of (ts : list tpl) : session_t :=
  {| ss_templates := map (fun x => template_of (snd x) (fst x)) (combine (number 0 ts) (output_macros (parsed_macros ts) ts)); ss_global := @nil (key * val); ss_threshold := 5242880 |}.
(** what add_input loads; an error is not modelled here *)
Definition load_input (v : val) : list datum := match load_files w v [] [] false with Ok l => l | Raise _ => [] end.
(** [add_input(data, template_name=name)] for each *)
Definition add_texts (texts : list (val * str)) (s : session_t) : session_t :=
  fold_left (fun s x => add_input load_input [] order s (fst x) $"Default_Input" (snd x) []) texts s.
Definition file_size (p : str) : res Z := match w_file w p with Some x => Ok (Z.of_nat (length x)) | None => Raise FileNotFoundError end.
(** [ttp(template=text, base_path=base, vars=vars)], the texts as inputs, [parse(one=True)] *)
Definition parsed (ts : list tpl) (texts : list (val * str)) : res session_t :=
  Session.parse file_size (fun s => Z.of_nat (length s)) (parser_of ts) (fun _ _ => out_of_model)
    (add_texts texts (session_of ts)) (VBool true) (VBool false).
Definition ttp_session (base : str) (vars : dict) (text : str) (texts : list (val * str)) : res session_t :=
  do ts <- load_template w order base vars text; parsed ts texts.
(** [result(structure=structure)] *)
Definition ttp_result (base : str) (vars : dict) (text : str) (texts : list (val * str)) (structure : str) : res val :=
  do s <- ttp_session base vars text texts; Ok (result s [] structure).
(** the output of result()'s arguments runs for one template after the other: ttp.py 634-659, 3402-3405.  [own]: the templates'
    macros, [cur]: those of the moment *)
Fixpoint run_results (own : nat -> list (str * macro)) (cur : list (str * macro)) (o : outputter) (ts : list (@template (list attribute))) : res (list (@template (list attribute))) :=
  match ts with
  | [] => Ok []
  | t :: rest =>
      let cur' := match own (t_id t) with [] => cur | ms => ms end in
      do (x, _) <- run_output cur' None o (t_results t); do l <- run_results own cur' o rest; Ok (set_results t x :: l)
  end.
(** [result(templates=names, structure=structure, **kw)] with arguments for an output: ttp.py 611-659.  In a dictionary templates without a
    name are left out, and the output does not run for them *)
Definition result_with (own : nat -> list (str * macro)) (cur : list (str * macro)) (s : session_t) (names : list str) (kw : dict) (structure : str) : res val :=
  do o <- kwargs_output kw;
  let ts := pick names (ss_templates s) in
  let ts := if str_eqb (lower structure) $"dictionary" then filter (fun t => negb (is_nil (t_name t))) ts else ts in
  do ts <- (if in_strs (lower structure) [$"list"; $"dictionary"; $"flat_list"] then run_results own cur o ts else Ok ts);
  Ok (result (set_templates s ts) [] structure).
Definition own_macros (ts : list tpl) (i : nat) : list (str * macro) := match nth_error ts i with Some t => tp_macros t | None => [] end.
Definition ttp_result_with (base : str) (vars : dict) (text : str) (texts : list (val * str)) (kw : dict) (structure : str) : res val :=
  do ts <- load_template w order base vars text;
  do s <- parsed ts texts;
  result_with (own_macros ts) (last (output_macros (parsed_macros ts) ts) []) s [] kw structure.
End R.
