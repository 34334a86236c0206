(** * Load: from the template's text to its variables and groups.
    Models _template_class (ttp/ttp.py 891-1402): construct_etree, handle_extend's serialization, get_template_attributes,
    collect_tags, parse_vars, parse_lookup, parse_group, parse_template, get_var_functions.

    Simplifications.  A macro is a function of its
    argument alone, it changes nothing else; what Python's exec defines is given by the world. *)
From Verif Require Import PyBase Regex Results Template Attributes FormRegex MatchVar MatchFuncs GroupFuncs Parser Compile FuncTable Loaders Xml Session Files Inputs OutputTags.
Local Open Scope string_scope.
Local Open Scope list_scope.

(** ** the tree *)
Definition parse_xml (t : str) : res elem := match xml_parse t with Some e => Ok e | None => Raise ParseError end.
Definition wrapped (t : str) : str := $"<template>" ++ [nl] ++ t ++ [nl] ++ $"</template>".
Definition wrapped_group (t : str) : str :=
  $"<template><group name=""_anonymous_"">" ++ [nl] ++ t ++ [nl] ++ $"</group></template>".
(** construct_etree: ttp.py 1374-1402; [fmt]: what "{}".format makes of the text *)
Definition construct (t fmt : str) : res elem :=
  do e <- (match xml_parse t with
           | Some e => if str_eqb (lower (e_tag e)) $"template" then Ok e else parse_xml (wrapped fmt)
           | None => parse_xml (wrapped fmt)
           end);
  match e_children e with [] => parse_xml (wrapped_group fmt) | _ => Ok e end.
Definition construct_etree (t : str) : res elem := construct t t.
(** the text of a child template is bytes, [ET.tostring(element, encoding="UTF-8")], and formats as b'...' *)
Definition utf8 (c : ascii) : str :=
  if N.ltb (code c) 128 then [c] else [chr (192 + N.div (code c) 64); chr (128 + N.modulo (code c) 64)].
Definition bytes_char (q c : ascii) : str :=
  if between 127 255 c then ["\"%char; "x"%char; hexdigit (N.div (code c) 16); hexdigit (N.modulo (code c) 16)] else repr_char q c.
Definition bytes_repr (s : str) : str :=
  let q := if (existsb (Ascii.eqb squote) s && negb (existsb (Ascii.eqb dquote) s))%bool then dquote else squote in
  "b"%char :: q :: flat_map (bytes_char q) (flat_map utf8 s) ++ [q].
Section W.
Variable w : world.
Variable order : list nat -> list nat.   (* [list(set(l))] *)
Fixpoint has_tag (n : str) (e : elem) : bool :=
  match e with Elem t _ _ cs _ => (str_eqb t n || existsb (has_tag n) cs)%bool end.
(** an attribute with a default *)
Definition attr_or (attrs : list (str * str)) (n d : str) : str := match attr attrs n with Some v => v | None => d end.
(** what an extend tag loads: ttp.py 1338-1363; [ms]: the macros.  A macro's result that is no string is no XML: TypeError *)
Definition extension_text (ms : list (str * macro)) (c : elem) : res str :=
  let path := attr_or (e_attrs c) $"template" [] in
  do l <- load_files w (VStr path) [] [] true;
  match l with
  | TextData x :: _ =>
      if str_eqb x path then Raise FileNotFoundError
      else match attr (e_attrs c) $"macro" with
           | None => Ok x
           | Some n => match find (fun m => str_eqb (fst m) n) ms with
                       | None => Ok x
                       | Some m => do r <- snd m (VStr x); match r with MVal (VStr y) => Ok y | _ => Raise TypeError end
                       end
           end
  | _ => Raise IndexError
  end.
Definition extension_of (ms : list (str * macro)) (c : elem) : res ((str * list elem) + str) :=
  do x <- extension_text ms c;
  do e <- construct_etree x;
  Ok (match e_children e with
      | [g] => match attr (e_attrs g) $"name" with
               | Some n => if str_eqb n $"_anonymous_" then inr (e_text g) else inl (e_text e, [g])
               | None => inl (e_text e, [g])
               end
      | cs => inl (e_text e, cs)
      end).
(** parse_macro: ttp.py 1163-1178.  Later definitions come first; a syntax error is logged *)
Definition parse_macro (ms : list (str * macro)) (e : elem) : res (list (str * macro)) :=
  match e_text e with
  | [] => Raise TypeError                  (* no text is None *)
  | t => do o <- w_exec w t; Ok (match o with Some l => l ++ ms | None => ms end)
  end.
(** handle_extend and load_template_xml's construct_etree: ttp.py 1319-1373, 1404-1411.  The macros are those of the tags of
    the template itself; the tree is written as text and read again *)
Definition is_macro (e : elem) : bool := str_eqb (e_tag e) $"macro".
Definition extended (e : elem) : res elem :=
  do ms <- rfold parse_macro (filter is_macro (e_children e)) [];
  if has_tag $"extend" e then
    do (x, cs) <- handle (extension_of ms) 1000 true true (e_text e) (e_children e);
    construct_etree (xml_text (Elem (e_tag e) (e_attrs e) x cs (e_tail e)))
  else construct_etree (xml_text e).
Definition template_tree (t : str) : res elem := do e <- construct_etree t; extended e.
(** parse_template: ttp.py 1183-1196 *)
Definition child_tree (c : elem) : res elem :=
  do e <- construct (xml_text c) (bytes_repr (raw_text c)); extended e.

(** ** the template *)
Record tpl := {
  tp_name : str; tp_method : str; tp_pathchar : str; tp_vars : dict; tp_v2r : list (str * list str);
  tp_vfs : list (key * str); tp_lookups : dict; tp_groups : list cgroup;
  tp_inputs : list (str * inp); tp_macros : list (str * macro);
  tp_outputs : list outputter;                 (* the template's outputs *)
  tp_gouts : list (list (@gout outputter)) }.  (* the outputs of each group *)
(** get_template_attributes: ttp.py 1106-1129 *)
(** parse_vars: ttp.py 1208-1219; a dictionary with keys that are no strings is outside *)
Fixpoint add_path (p : str) (ks : list str) (l : list (str * list str)) : list (str * list str) :=
  match l with
  | [] => match ks with [] => [] | _ => [(p, ks)] end
  | (q, old) :: t => if str_eqb p q then (q, old ++ ks) :: t else (q, old) :: add_path p ks t
  end.
Definition str_keys (d : dict) : res (list str) := rmap (fun kv => match fst kv with KS s => Ok s | _ => out_of_model end) d.
Definition parse_vars (st : dict * list (str * list str)) (e : elem) : res (dict * list (str * list str)) :=
  let '(vars, v2r) := st in
  do v <- load_struct w (e_text e) (e_attrs e);
  do vars' <- (match v with
               | Some (VDict d) => Ok (dupdate vars d)
               | Some x => if truthy x then out_of_model else Ok vars
               | None => Ok vars
               end);
  match attr (e_attrs e) $"name" with
  | None => Ok (vars', v2r)
  | Some p => match v with
              | Some (VDict d) => do ks <- str_keys d; Ok (vars', add_path p ks v2r)
              | _ => Raise AttributeError
              end
  end.
(** parse_lookup: ttp.py 1221-1231 *)
Definition parse_lookup (d : dict) (e : elem) : res dict :=
  match attr (e_attrs e) $"name" with
  | None => Ok d
  | Some n =>
      do v <- load_struct w (e_text e) (e_attrs e);
      match v with
      | None => Ok d
      | Some x => if str_eqb (lower (attr_or (e_attrs e) $"database" [])) $"geoip2" then out_of_model else Ok (dset d (KS n) x)
      end
  end.
(** the functions of ttp/variable/*.py *)
Definition variable_names : list str :=
  [$"getfilename"; $"gethostname"; $"get_time"; $"get_date"; $"get_timestamp_ms"; $"get_timestamp"; $"get_time_ns"; $"get_timestamp_iso"].
(** get_var_functions: ttp.py 1015-1026 *)
Definition is_vf (v : val) : bool := match v with VStr s => in_strs s variable_names | _ => false end.
Definition var_functions (vars : dict) : list (key * str) :=
  flat_map (fun kv => match snd kv with VStr s => if in_strs s variable_names then [(fst kv, s)] else [] | _ => [] end) vars.
Definition plain_vars (vars : dict) : dict := filter (fun kv => negb (is_vf (snd kv))) vars.
Definition tagged (names : list str) (e : elem) : bool := in_strs (lower (e_tag e)) names.
Fixpoint rmapi {A B} (f : nat -> A -> res B) (i : nat) (l : list A) : res (list B) :=
  match l with [] => Ok [] | x :: t => do y <- f i x; do ys <- rmapi f (S i) t; Ok (y :: ys) end.
(** parse_hierarch_tmplt: ttp.py 1246-1271.  The child templates (by [kid]) come first *)
Fixpoint number {A} (i : nat) (l : list A) : list (nat * A) := match l with [] => [] | x :: t => (i, x) :: number (S i) t end.
Definition tgroup_of (ig : nat * cgroup) : tgroup :=
  match snd ig with CG _ _ _ a _ _ _ => {| tg_index := fst ig; tg_name := ga_name a; tg_inputs := ga_in a |} end.
Definition group_outs (g : cgroup) : list str := match g with CG _ _ _ a _ _ _ => ga_out a end.
Definition collect_tag (ms : list (str * macro)) (c : elem) : res (list (str * macro)) :=
  if tagged [$"macro"] c then parse_macro ms c
  else if (tagged [$"doc"] c && is_nil (e_text c))%bool then Raise TypeError    (* parse_doc: None + "\n" *)
  else Ok ms.
Definition load_tree (base : str) (kid : str -> nat -> elem -> res tpl) (ttp_vars : dict) (name : str) (e : elem) : res (list tpl * tpl) :=
  let cs := e_children e in
  let base1 := attr_or (e_attrs e) $"base_path" base in
  do ms <- rfold collect_tag cs [];
  do kids <- rmapi (kid base1) 0 (filter (tagged [$"template"]) cs);
  do (vars, v2r) <- rfold parse_vars (filter (tagged vars_tags) cs) (ttp_vars, []);
  do outs <- rmap (tag_output w) (filter (tagged output_tags) cs);
  do lks <- rfold parse_lookup (filter (tagged [$"lookup"]) cs) [];
  let pc := attr_or (e_attrs e) $"pathchar" $"." in
  do gs <- compile_all vars (group_names [] (VDict []) [] (VDict []) (VList []) false) pc 0 (filter (tagged group_tags) cs);
  do ins <- template_inputs w order (map tgroup_of (number 0 gs)) base1 (filter (tagged input_tags) cs);
  let (gouts, glob) := group_outputs output_name (map group_outs gs) outs in
  Ok (kids, {| tp_name := attr_or (e_attrs e) $"name" name; tp_method := attr_or (e_attrs e) $"results" $"per_input";
        tp_pathchar := pc; tp_vars := plain_vars vars; tp_v2r := v2r; tp_vfs := var_functions vars; tp_lookups := lks; tp_groups := gs;
        tp_inputs := map (fun ni => (fst ni, io_input (snd ni))) ins; tp_macros := ms;
        tp_outputs := glob; tp_gouts := gouts |}).
(** a child template: its own child templates are loaded, and not used *)
Fixpoint load_child (fuel : nat) (base : str) (ttp_vars : dict) (i : nat) (c : elem) : res tpl :=
  match fuel with
  | O => out_of_model
  | S f => do e <- child_tree c;
           do (_, t) <- load_tree base (fun b => load_child f b ttp_vars) ttp_vars (str_of_N (N.of_nat i)) e; Ok t
  end.
(** add_template: ttp.py 349-391.  A template with child templates is replaced by them *)
Definition load_template (base : str) (ttp_vars : dict) (text : str) : res (list tpl) :=
  do e <- template_tree text;
  do (kids, t) <- load_tree base (fun b => load_child (S (length text)) b ttp_vars) ttp_vars $"_root_template_" e;
  Ok (match kids with [] => [t] | _ => kids end).
End W.
