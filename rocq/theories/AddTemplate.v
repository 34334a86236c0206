(** * AddTemplate: add_template with a name and filters.
    Models add_template (ttp/ttp.py 349-391) for one text, and what _template_class does with its name and filters: 1183-1196 and
    1401-1418.  The rest is Load.load_tree.

    Simplification: with filters, the numbers of the child templates do not matter, since only those with a name are loaded. *)
From Verif Require Import PyBase Regex Results Template Attributes FormRegex MatchVar MatchFuncs GroupFuncs Parser Compile FuncTable Loaders Session Files Inputs OutputTags Xml Load.
Local Open Scope string_scope.
Local Open Scope list_scope.

Section A.
Variable w : world.
Variable order : list nat -> list nat.
(** parse_template: ttp.py 1183-1187 *)
Definition kept_child (filters : list str) (c : elem) : bool :=
  (negb (tagged [$"template"] c) || is_nil filters ||
   match attr (e_attrs c) $"name" with Some n => in_strs n filters | None => false end)%bool.
Definition with_children (e : elem) (cs : list elem) : elem := Elem (e_tag e) (e_attrs e) (e_text e) cs (e_tail e).
(** a template that returns before parse_hierarch_tmplt: ttp.py 1410-1416, then 948-953 *)
Definition unloaded (ttp_vars : dict) (name : str) (e : elem) : tpl :=
  let (gouts, glob) := group_outputs output_name [] [] in
  {| tp_name := attr_or (e_attrs e) $"name" name; tp_method := attr_or (e_attrs e) $"results" $"per_input";
     tp_pathchar := attr_or (e_attrs e) $"pathchar" $"."; tp_vars := plain_vars ttp_vars; tp_v2r := []; tp_vfs := var_functions ttp_vars; tp_lookups := [];
     tp_groups := []; tp_inputs := []; tp_macros := []; tp_outputs := glob; tp_gouts := gouts |}.
Definition add_named (base : str) (ttp_vars : dict) (name : str) (filters : list str) (text : str) : res (list tpl) :=
  do e <- template_tree w text;
  if (negb (is_nil filters) && negb (in_strs (attr_or (e_attrs e) $"name" name) filters))%bool then Ok [unloaded ttp_vars name e]
  else do (kids, t) <- load_tree w order base (fun b => load_child w order (S (length text)) b ttp_vars) ttp_vars name (with_children e (filter (kept_child filters) (e_children e)));
       Ok (match kids with [] => [t] | _ => kids end).
End A.
