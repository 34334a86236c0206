(** * InputLoadText: get_input_load of a program: a template's text, and then inputs.
    Models [p = ttp(template=text, base_path=base, vars=vars)], [p.add_input(data, template_name=name)] for each of [texts] and
    [p.get_input_load()]: ttp.py 219-248, 349-391, 1246-1271, 1028-1055, 670-694.  The inputs' tags are those that Load.load_tree gives to
    template_inputs. *)
From Verif Require Import PyBase Regex Results Template Attributes FormRegex MatchVar MatchFuncs GroupFuncs Parser Compile FuncTable Loaders Session Files Inputs OutputTags Load Run InputLoad.
Local Open Scope string_scope.
Local Open Scope list_scope.

Section T.
Variable order : list nat -> list nat.
Variable w : world.
(** the loads of the input tags of a template element: ttp.py 1261-1266 *)
Definition tree_loads (base : str) (t : tpl) (e : elem) : res (list (str * dict)) :=
  template_loads w (map tgroup_of (number 0 (tp_groups t))) (attr_or (e_attrs e) $"base_path" base) (filter (tagged input_tags) (e_children e)).
Fixpoint rzip {A B C} (f : A -> B -> res C) (l : list A) (k : list B) : res (list C) :=
  match l, k with
  | [], [] => Ok []
  | x :: l, y :: k => do z <- f x y; do zs <- rzip f l k; Ok (z :: zs)
  | _, _ => out_of_model
  end.
(** a template with child templates is replaced by them: ttp.py 379-391 *)
Definition text_loads (base text : str) (ts : list tpl) : res (list (list (str * dict))) :=
  do e <- template_tree w text;
  match filter (tagged [$"template"]) (e_children e) with
  | [] => rzip (tree_loads base) ts [e]
  | cs => rzip (fun t c => do e' <- child_tree w c; tree_loads (attr_or (e_attrs e) $"base_path" base) t e') ts cs
  end.
Definition ttp_load (base : str) (vars : dict) (text : str) (texts : list (val * str)) : res dict :=
  do ts <- load_template w order base vars text;
  do lss <- text_loads base text ts;
  Ok (get_input_load (combine (ss_templates (add_texts order w texts (session_of ts))) lss)).
End T.
