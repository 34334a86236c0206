(** * RunSeen: the complete program, with lookups in the results of templates and groups.
    Run.v with the parts of the state that [lookup(template=...)] and [lookup(group=...)] read:
    [_ttp_["ttp_object"]._templates], [_ttp_["template_obj"].results] (ttp.py 503-505, match/lookup.py 14-33, group/lookup.py 22-47)
    and [_ttp_["parser_object"].main_results] (ttp.py 2369, 2628-2629, 2652-2658).
    Models [p = ttp(template=text, ...); p.add_input(d1); ...; p.parse(one=True); p.result()].

    Simplification: values are copied, so a value found by a lookup does not change when the place where it was found does. *)
From Verif Require Import PyBase Regex Results Template Attributes FormRegex MatchVar MatchFuncs GroupFuncs Parser Compile FuncTable Session Files Inputs OutputTags Load Run.
Local Open Scope string_scope.
Local Open Scope list_scope.

(** what the functions see: the templates by name with their results, and the results of the template that is being parsed *)
Record view := { vw_templates : list (str * val); vw_results : val }.
(** match/lookup.py 6-48 *)
Definition m_seen (vw : view) (t : tpl) (a : attribute) : mfunc :=
  match_func (tp_macros t) (VDict (tp_lookups t)) (vw_templates vw) (vw_results vw) a.
(** group/lookup.py 6-73.  [main] is [parser_object.main_results].  While groups without outputs of their own are saved ([None]) it is
    the very dictionary or list the results are saved in.  After a save that replaced the results by None (C12) the two differ: then
    lookups in results are outside of the model *)
Definition g_seen (vw : view) (t : tpl) (k2i : bool) (main : option val) (a : attribute) (st : fstate) : res (fstate * bool) :=
  let call m := call_group (g_macros (tp_macros t)) (VDict (tp_lookups t)) (vw_templates vw) m (vw_results vw) k2i a st in
  match main with
  | Some m => call m
  | None => match fs_results st with
            | VDict _ | VList _ => call (fs_results st)
            | _ => if is_lookup 2 a then out_of_model else call (fs_results st)
            end
  end.

Section P.
Variable F : Type.
Variable runf : option val -> F -> fstate -> res (fstate * bool).
Variable k2i : bool.
(** ttp.py 2644-2658; [main]: main_results as it is; it becomes a list (2652-2656) when the first group's results are added *)
Definition main_list (main : val) : list val :=
  match main with VDict [] => [] | VDict d => [VDict d] | VList l => l | v => [v] end.
Fixpoint own_seen (e : env) (v2r : list (str * list str)) (l : list (list (list (item F)) * (val -> res val))) (main : val) : res (env * val) :=
  match l with
  | [] => Ok (e, main)
  | (raw, out) :: t =>
      do s <- make_results F (runf (Some main)) k2i e v2r [raw] (VDict []);
      do v <- out (s_results F s);
      own_seen (s_env F s) v2r t (VList (main_list main ++ [v]))
  end.
(** ttp.py 2429-2656, as Parser.parse *)
Definition parse_seen (text : str) (Gs : list (pgroup F * option (val -> res val))) (v2r : list (str * list str))
  (env0 : menv) (main : val) : res (env * val) :=
  do (env1, l) <- run_all F text (map (fun x => (fst x, match snd x with Some _ => true | None => false end)) Gs) env0;
  let fresh runs := update_runs (m_vars env1) (update_runs (m_gvars env1) runs) in
  let cook rs : list (list (item F)) := map (map (set_runs F fresh)) (raw_of F rs) in
  let glob := flat_map (fun x => match snd x with
                                 | false => match fst x with [] => [] | rs => [cook rs] end
                                 | true => [] end) l in
  let own := flat_map (fun x => match snd (snd x) with
                                | Some out => match fst (fst x) with [] => [] | rs => [(cook rs, out)] end
                                | None => [] end) (combine l Gs) in
  do s <- make_results F (runf None) k2i {| e_vars := m_vars env1; e_gvars := m_gvars env1 |} v2r glob main;
  own_seen (s_env F s) v2r own (s_results F s).
End P.

Section R.
Variable clock : str -> option val.
Variable k2i : bool.
Variable order : list nat -> list nat.
Variable w : world.

(** set_data and parse for one datum, as Run.parse_text *)
Definition text_seen (vw : view) (t : tpl) (gvars : dict) (idxs : list nat) (fs : list attribute) (dataname data : str) (main : val) : res (dict * val) :=
  let vars := set_vars (tp_vars t) (vfs_of clock t dataname) (datatext data) in
  do text <- input_text (tp_macros t) fs (datatext data);
  do gs <- chosen idxs (combine (tp_groups t) (tp_gouts t));
  do (e, v) <- parse_seen attribute (g_seen vw t k2i) k2i text
                 (map (fun g => (to_pgroup (m_seen vw t) (fst g), own_outputs t (snd g))) gs) (tp_v2r t)
                 {| m_vars := vars; m_gvars := gvars |} main;
  Ok (e_gvars e, v).
Definition parser_seen (ts : list tpl) (vw : view) (i : nat) (gvars : dict) (idxs : list nat) (fs : list attribute) (d : datum) (main : val) : res (dict * val) :=
  match nth_error ts i with
  | Some t => do (x, n) <- text_of w d; text_seen vw t gvars idxs fs n x main
  | None => out_of_model
  end.

(** __parse_in_one_process, ttp.py 502-532: the templates before this one, as they have become, those after it, as they still are *)
Definition named_results (t : @template (list attribute)) : str * val := (t_name t, t_results t).
Definition view_of (before : list (@template (list attribute))) (t : @template (list attribute)) (after : list (@template (list attribute))) : view :=
  {| vw_templates := map named_results (before ++ t :: after); vw_results := t_results t |}.
Definition one_seen (ts : list tpl) (before after : list (@template (list attribute))) (t0 : @template (list attribute)) (g : dict)
  : res (dict * @template (list attribute)) :=
  let m := lower (t_method t0) in
  let prs t := parser_seen ts (view_of before t after) (t_id t0) in
  if str_eqb m ($"per_input") then
    rfold (fun st i =>
      rfold (fun st d =>
        do (g', v) <- prs (snd st) (fst st) (in_groups (snd i)) (in_funcs (snd i)) d (VDict []);
        do t' <- form_results (snd st) v; Ok (g', t')) (in_data (snd i)) st) (t_inputs t0) (g, t0)
  else if str_eqb m ($"per_template") then
    do (g', v) <- rfold (fun st i =>
      rfold (fun st d => prs t0 (fst st) (in_groups (snd i)) (in_funcs (snd i)) d (snd st))
            (in_data (snd i)) st) (t_inputs t0) (g, VDict []);
    do t' <- form_results t0 v; Ok (g', t')
  else Ok (g, t0).
Fixpoint each_seen (ts : list tpl) (before : list (@template (list attribute))) (l : list (@template (list attribute))) (g : dict)
  : res (dict * list (@template (list attribute))) :=
  match l with
  | [] => Ok (g, before)
  | t :: after => do (g1, t1) <- one_seen ts before after t g; each_seen ts (before ++ [t1]) after g1
  end.
(** parse(one=True), ttp.py 415-451: data sizes first, then every template, then the outputs *)
Definition parsed_seen (ts : list tpl) (texts : list (val * str)) : res session_t :=
  let s := add_texts order w texts (session_of ts) in
  do _ <- data_size (file_size w) (fun s => Z.of_nat (length s)) s;
  do (g, l) <- each_seen ts [] (ss_templates s) (ss_global s);
  do l' <- rmap run_outputs l;
  Ok (set_templates (set_global s g) l').
(** [result(structure=structure)] *)
Definition ttp_seen (base : str) (vars : dict) (text : str) (texts : list (val * str)) (structure : str) : res val :=
  do ts <- load_template w order base vars text;
  do s <- parsed_seen ts texts;
  Ok (result s [] structure).
End R.
