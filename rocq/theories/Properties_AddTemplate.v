(** * C140: add_template with a name and filters. *)
From Verif Require Import PyBase Regex Results Template Attributes MatchVar Parser Compile FuncTable Loaders Session SpecSession Files Inputs OutputTags Load SpecVariable SpecAttr SpecText SpecCalls SpecFiles SpecInputs SpecLoaded.
From Verif Require Import AddTemplate SpecAddTemplate LoadedFacts LoadedFacts2 AddTemplateFacts.
Local Open Scope string_scope.
Local Open Scope list_scope.

(** the templates that add_template adds for a text, and no others *)
Theorem C140_add : forall w order base vars name filters text ts, add_named w order base vars name filters text = Ok ts <-> adds w order base vars name filters text ts.
Proof. exact add_iff. Qed.
Print Assumptions C140_add.
(** the defaults *)
Theorem C140_default : forall w order base vars text, add_named w order base vars (t_ "_root_template_") [] text = load_template w order base vars text.
Proof. exact default_add. Qed.
Print Assumptions C140_default.
(** when the filters do not have the name of the text's own template, nothing of it is loaded, and none of its child templates *)
Theorem C140_root_not_wanted : forall w order base vars name filters text e, tree_of w text e -> filters <> [] ->
  (forall nm, attribute_or (e_attrs e) "name" name nm -> ~ In nm filters) ->
  exists t, add_named w order base vars name filters text = Ok [t] /\ nothing_but_names vars name e t.
Proof. exact filtered_root. Qed.
Print Assumptions C140_root_not_wanted.
Definition w140 : world := {| w_file := fun _ => None; w_dir := fun _ => None; w_tdir := None; w_exec := fun _ => out_of_model |}.
Definition text140 (root : string) : str := concat (map (fun s => t_ s ++ [chr 10])
  [root; "<template name=""a"">"; "<group name=""g"">"; "interface {{ interface }}"; "</group>"; "</template>"; "<template>"; "<group name=""g"">"; "vlan {{ vlan }}"; "</group>"; "</template>"; "<template name=""b"" results=""per_template"">"; "<group name=""g"">"; "hostname {{ hostname }}"; "</group>"; "</template>"; "</template>"]).
Definition seen140 (r : res (list tpl)) : res (list (str * nat)) := do ts <- r; Ok (map (fun t => (tp_name t, length (tp_groups t))) ts).
Definition add140 (name : string) (filters : list string) (root : string) : res (list (str * nat)) :=
  seen140 (add_named w140 (fun l => l) [] [] (t_ name) (map t_ filters) (text140 root)).
Example C140_add_case :
  add140 "_root_template_" [] "<template>" = Ok [(t_ "a", 1); (t_ "1", 1); (t_ "b", 1)] /\
  add140 "all" ["b"; "all"] "<template>" = Ok [(t_ "b", 1)] /\
  add140 "_root_template_" ["a"; "x"; "b"] "<template name=""x"">" = Ok [(t_ "a", 1); (t_ "b", 1)] /\
  add140 "_root_template_" ["_root_template_"] "<template>" = Ok [(t_ "_root_template_", 0)] /\
  seen140 (add_named w140 (fun l => l) [] [] (t_ "mine") [t_ "mine"] (t_ "interface {{ interface }}")) = Ok [(t_ "mine", 1)] /\
  seen140 (add_named w140 (fun l => l) [] [] (t_ "mine") [t_ "other"] (t_ "interface {{ interface }}")) = Ok [(t_ "mine", 0)].
Proof. vm_compute. repeat split. Qed.
(** the filters are a set: their order and names given twice do not matter *)
Theorem C140_set : forall w order base vars name f1 f2 text, (forall n, In n f1 <-> In n f2) -> add_named w order base vars name f1 text = add_named w order base vars name f2 text.
Proof. exact same_filters. Qed.
Print Assumptions C140_set.
Example C140_set_case : (forall n, In n [t_ "a"; t_ "x"; t_ "a"] <-> In n [t_ "x"; t_ "a"]) /\
  add140 "_root_template_" ["a"; "x"; "a"] "<template name=""x"">" = Ok [(t_ "a", 1)] /\ add140 "_root_template_" ["x"; "a"] "<template name=""x"">" = Ok [(t_ "a", 1)].
Proof. split; [intros n; cbn; tauto|]. vm_compute. split; reflexivity. Qed.
(** the names of child templates alone select nothing, although the documentation says that filters are checked against child templates *)
Example C140_children_limits : add140 "_root_template_" ["a"] "<template>" = Ok [(t_ "_root_template_", 0)] /\
  exists e, tree_of w140 (text140 "<template>") e /\ forall nm, attribute_or (e_attrs e) "name" (t_ "_root_template_") nm -> ~ In nm [t_ "a"].
Proof.
  split; [vm_compute; reflexivity|]. destruct (template_tree w140 (text140 "<template>")) as [e|] eqn:E; [|vm_compute in E; discriminate].
  exists e. split; [now apply tree_iff|]. intros nm H. apply attribute_or_iff' in H. subst nm.
  assert (A : e_attrs e = []) by (vm_compute in E; injection E as <-; reflexivity). rewrite A. vm_compute. intros [K|[]]. discriminate.
Qed.
