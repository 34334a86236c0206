(** * Api: histories of calls on one ttp object, with the complete program behind them.
    Models [p = ttp(base_path=base, vars=vars)] and then any sequence of add_template, add_vars, add_lookup, add_input, set_input,
    clear_input, parse(one=True), clear_result, and at the end result(): ttp.py 219-413, 415-532, 661-722, and add_lookup, add_vars of a
    template, 967-976.

    Simplifications.  add_template has its default name and no filters (the template's name is the template tag's, or the default);
    values are copied, so a dictionary given to add_vars and changed later by the caller is not followed.  A template that is no text
    and no path is outside of the model. *)
From Verif Require Import PyBase Regex Results Template Attributes FormRegex MatchVar MatchFuncs GroupFuncs Parser Compile FuncTable Session Files Inputs OutputTags Load Run RunSeen.
Local Open Scope string_scope.
Local Open Scope list_scope.

Inductive call :=
| AddTemplate (path : val)
| AddVars (vars : val)
| AddLookup (name text : str) (include : option str) (load : str) (key : option str)
| AddInput (data : val) (input_name template_name : str) (groups : list str)
| SetInput (data : val) (input_name template_name : str) (groups : list str)
| ClearInput (template_name : str)
| ParseOne
| ClearResult (names : list str).
(** the object: its variables, its templates as loaded, and as they are used *)
Record obj := { o_vars : dict; o_tpls : list tpl; o_session : session_t }.
Definition with_vars (t : tpl) (v : dict) : tpl :=
  {| tp_name := tp_name t; tp_method := tp_method t; tp_pathchar := tp_pathchar t; tp_vars := v; tp_v2r := tp_v2r t; tp_vfs := tp_vfs t; tp_lookups := tp_lookups t;
     tp_groups := tp_groups t; tp_inputs := tp_inputs t; tp_macros := tp_macros t; tp_outputs := tp_outputs t; tp_gouts := tp_gouts t |}.
Definition with_lookups (t : tpl) (l : dict) : tpl :=
  {| tp_name := tp_name t; tp_method := tp_method t; tp_pathchar := tp_pathchar t; tp_vars := tp_vars t; tp_v2r := tp_v2r t; tp_vfs := tp_vfs t; tp_lookups := l;
     tp_groups := tp_groups t; tp_inputs := tp_inputs t; tp_macros := tp_macros t; tp_outputs := tp_outputs t; tp_gouts := tp_gouts t |}.
Definition set_outputs (t : @template (list attribute)) (l : list (val -> res val)) : @template (list attribute) :=
  {| t_id := t_id t; t_name := t_name t; t_method := t_method t; t_groups := t_groups t; t_inputs := t_inputs t; t_results := t_results t; t_outputs := l |}.

Section A.
Variable clock : str -> option val.
Variable k2i : bool.
Variable order : list nat -> list nat.
Variable w : world.
Variable base : str.

(** __init__: ttp.py 219-248 *)
Definition created (vars : dict) : obj := {| o_vars := vars; o_tpls := []; o_session := session_of [] |}.
(** add_template: ttp.py 349-391 *)
Definition template_texts (path : val) : res (list str) :=
  do items <- load_files w path [] [] true;
  rmap (fun i => match i with TextData x => Ok x | _ => out_of_model end) items.
Definition add_template (o : obj) (path : val) : res obj :=
  do texts <- template_texts path;
  do tss <- rmap (load_template w order base (o_vars o)) texts;
  let ts := o_tpls o ++ concat tss in
  Ok {| o_vars := o_vars o; o_tpls := ts;
        o_session := set_templates (o_session o) (ss_templates (o_session o) ++ map (template_of []) (number (length (o_tpls o)) (concat tss))) |}.
(** add_vars: ttp.py 404-413, 971-976 *)
Definition add_vars (o : obj) (vars : val) : obj :=
  match vars with
  | VDict d => {| o_vars := dupdate (o_vars o) d; o_tpls := map (fun t => with_vars t (dupdate (tp_vars t) d)) (o_tpls o); o_session := o_session o |}
  | _ => o
  end.
(** add_lookup: ttp.py 382-402, 967-970.  What is not loaded is None *)
Definition lookup_attrs (include : option str) (load : str) (key : option str) : list (str * str) :=
  (match include with Some i => [($"include", i)] | None => [] end) ++ [($"load", load)] ++ (match key with Some k => [($"key", k)] | None => [] end).
Definition add_lookup (o : obj) (name text : str) (include : option str) (load : str) (key : option str) : res obj :=
  do v <- load_struct w text (lookup_attrs include load key);
  let x := match v with Some x => x | None => VNone end in
  Ok {| o_vars := o_vars o; o_tpls := map (fun t => with_lookups t (dset (tp_lookups t) (KS name) x)) (o_tpls o); o_session := o_session o |}.
(** parse(one=True): RunSeen.parsed_seen, for the session as it is; the outputs run with the macros of the moment (Run.output_macros) *)
Definition with_outputs (ts : list tpl) (s : session_t) : session_t :=
  set_templates s (map (fun x => set_outputs (fst x) (t_outputs (template_of (snd (snd x)) (t_id (fst x), fst (snd x)))))
                       (combine (ss_templates s) (combine ts (output_macros (parsed_macros ts) ts)))).
Definition parse_now (ts : list tpl) (s0 : session_t) : res session_t :=
  let s := with_outputs ts s0 in
  do _ <- data_size (file_size w) (fun s => Z.of_nat (length s)) s;
  do (g, l) <- each_seen clock k2i w ts [] (ss_templates s) (ss_global s);
  do l' <- rmap run_outputs l;
  Ok (set_templates (set_global s g) l').
Definition with_session (o : obj) (s : session_t) : obj := {| o_vars := o_vars o; o_tpls := o_tpls o; o_session := s |}.
Definition do_call (o : obj) (c : call) : res obj :=
  match c with
  | AddTemplate p => add_template o p
  | AddVars v => Ok (add_vars o v)
  | AddLookup n x i l k => add_lookup o n x i l k
  | AddInput d i t gs => Ok (with_session o (add_input (load_input w) [] order (o_session o) d i t gs))
  | SetInput d i t gs => Ok (with_session o (set_input (load_input w) [] order (o_session o) d i t gs))
  | ClearInput t => Ok (with_session o (clear_input (o_session o) t))
  | ParseOne => do s <- parse_now (o_tpls o) (o_session o); Ok (with_session o s)
  | ClearResult ns => do s <- clear_result (o_session o) ns; Ok (with_session o s)
  end.
Definition run (h : list call) (vars : dict) : res obj := rfold do_call h (created vars).
(** [result(templates=names, structure=structure)] after these calls *)
Definition ttp_calls (h : list call) (vars : dict) (names : list str) (structure : str) : res val :=
  do o <- run h vars; Ok (result (o_session o) names structure).
End A.
