(** * SpecAddTemplate: add_template with a name and filters (specification for C140). *)
From Verif Require Import PyBase Regex Template Attributes MatchVar Parser Compile FuncTable Loaders Session SpecSession Files Inputs OutputTags Load SpecVariable SpecAttr SpecText SpecCalls SpecFiles SpecInputs SpecLoaded.
Local Open Scope string_scope.
Local Open Scope list_scope.

(** a child template is wanted if there are no filters or they have its name attribute; other elements are *)
Definition wanted (filters : list str) (c : elem) : Prop :=
  template_tag c -> filters = [] \/ exists n, attribute_of (e_attrs c) "name" = Some n /\ In n filters.
(** the element with the wanted children *)
Definition wanted_only (filters : list str) (e e' : elem) : Prop :=
  exists cs, sublist (wanted filters) (e_children e) cs /\ e' = Elem (e_tag e) (e_attrs e) (e_text e) cs (e_tail e).
(** a template with a name, a results method, a path character and the variables of the parser, and nothing else *)
Definition nothing_but_names (ttp_vars : dict) (name : str) (e : elem) (t : tpl) : Prop :=
  attribute_or (e_attrs e) "name" name (tp_name t) /\ attribute_or (e_attrs e) "results" (t_ "per_input") (tp_method t) /\ attribute_or (e_attrs e) "pathchar" (t_ ".") (tp_pathchar t) /\
  sublist (fun kv => ~ computed kv) ttp_vars (tp_vars t) /\ (exists fns, sublist computed ttp_vars fns /\ Forall2 (fun kv nf => fst kv = fst nf /\ snd kv = VStr (snd nf)) fns (tp_vfs t)) /\
  tp_v2r t = [] /\ tp_lookups t = [] /\ tp_groups t = [] /\ tp_inputs t = [] /\ tp_macros t = [] /\ tp_outputs t = [] /\ tp_gouts t = [].
Section W.
Variable w : world.
Variable order : list nat -> list nat.
Inductive adds (base : str) (ttp_vars : dict) (name : str) (filters : list str) (text : str) : list tpl -> Prop :=
| ad_not e nm t : tree_of w text e -> attribute_or (e_attrs e) "name" name nm -> filters <> [] -> ~ In nm filters -> nothing_but_names ttp_vars name e t -> adds base ttp_vars name filters text [t]
| ad_alone e e' nm t : tree_of w text e -> attribute_or (e_attrs e) "name" name nm -> filters = [] \/ In nm filters -> wanted_only filters e e' ->
    template_from w order (child_from w order (S (length text)) ttp_vars) base ttp_vars name e' [] t -> adds base ttp_vars name filters text [t]
| ad_children e e' nm kids t : tree_of w text e -> attribute_or (e_attrs e) "name" name nm -> filters = [] \/ In nm filters -> wanted_only filters e e' ->
    template_from w order (child_from w order (S (length text)) ttp_vars) base ttp_vars name e' kids t -> kids <> [] -> adds base ttp_vars name filters text kids.
End W.
