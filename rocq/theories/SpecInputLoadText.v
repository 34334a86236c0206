(** * SpecInputLoadText: the loads of the templates of a text (specification for C139). *)
From Verif Require Import PyBase Regex Template Attributes MatchVar Parser Compile FuncTable Loaders Session SpecSession Files Inputs OutputTags Load Run SpecVariable SpecAttr SpecText SpecCalls SpecFiles SpecInputs SpecLoaded SpecInputLoad.
Local Open Scope string_scope.
Local Open Scope list_scope.

(** the loads of the input tags of a template element that has become [t] *)
Definition element_loads (w : world) (base : str) (t : tpl) (e : elem) (ls : list (str * dict)) : Prop :=
  exists base1 is nps, attribute_or (e_attrs e) "base_path" base base1 /\ tags ["i"; "in"; "input"] (e_children e) is /\
    Forall2 (fun e np => tag_loads w (map tgroup_of (Load.number 0 (tp_groups t))) base1 e (fst np) (snd np)) is nps /\ loads_are nps ls.
(** the loads of the templates that a text becomes *)
Definition text_loads_are (w : world) (base text : str) (ts : list tpl) (lss : list (list (str * dict))) : Prop :=
  exists e ks base1, tree_of w text e /\ tags ["template"] (e_children e) ks /\ attribute_or (e_attrs e) "base_path" base base1 /\ length ts = length lss /\
    ((ks = [] /\ exists t ls, ts = [t] /\ lss = [ls] /\ element_loads w base t e ls) \/
     (ks <> [] /\ Forall2 (fun c tl => exists e', child_tree_of w c e' /\ element_loads w base1 (fst tl) e' (snd tl)) ks (combine ts lss))).
