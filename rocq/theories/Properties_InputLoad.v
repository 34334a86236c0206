(** * C139: get_input_load. *)
From Verif Require Import PyBase Regex Results Template Attributes MatchVar Compile FuncTable Loaders Session SpecSession Files Inputs SpecVariable SpecAttr SpecText SpecCalls SpecFiles SpecInputs.
From Verif Require Import OutputTags Load Run SpecLoaded InputLoad SpecInputLoad InputLoadText SpecInputLoadText DictFacts SessionInputs InputLoadFacts InputLoadFacts2 InputLoadFacts3.
Local Open Scope string_scope.
Local Open Scope list_scope.

(** the load of a tag is what its attributes say, and nothing else *)
Theorem C139_tag : forall w tgs base e n p, tag_load w tgs base e = Ok (n, p) <-> tag_loads w tgs base e n p.
Proof. exact load_iff. Qed.
Print Assumptions C139_tag.
Definition w139 : world :=
  {| w_file := fun p => if str_eqb p (t_ "inc.json") then Some (t_ "{""c"": 3}") else None; w_dir := fun _ => None; w_tdir := None; w_exec := fun _ => out_of_model |}.
Definition tag139 (attrs : list (string * string)) (text : string) : elem := Elem (t_ "input") (map (fun kv => (t_ (fst kv), t_ (snd kv))) attrs) (t_ text) [] [].
Definition kv139 (k : string) (v : val) : key * val := (KS (t_ k), v).
Definition params139 : dict := [kv139 "my_params" (VDict [kv139 "key1" (VStr (t_ "val1"))]); kv139 "more" (VList [VStr (t_ "item1"); VInt 2])].
Definition text139 : string := "{""my_params"": {""key1"": ""val1""}, ""more"": [""item1"", 2]}".
Example C139_tag_case :
  tag_load w139 [] [] (tag139 [("name", "my_input"); ("load", "json")] text139) = Ok (t_ "my_input", params139) /\
  (* python is the default; the attributes in the text are the load too *)
  tag_load w139 [] [] (tag139 [] "name = 'x'") = Ok (t_ "x", [kv139 "name" (VStr (t_ "x"))]) /\
  tag_load w139 [] [] (tag139 [("load", "text")] "some text") = Ok (t_ "Default_Input", []) /\
  tag_load w139 [] [] (tag139 [] "") = Ok (t_ "Default_Input", []) /\
  tag_load w139 [] [] (tag139 [("load", "json")] "{}") = Ok (t_ "Default_Input", []) /\
  (* a load in the loaded text: without include there is nothing more to load; with it, that takes the place *)
  tag_load w139 [] [] (tag139 [("load", "json")] "{""a"": 1, ""load"": ""json""}") = Ok (t_ "Default_Input", [kv139 "a" (VInt 1); kv139 "load" (VStr (t_ "json"))]) /\
  tag_load w139 [] [] (tag139 [("load", "json")] "{""load"": ""json"", ""include"": ""inc.json""}") = Ok (t_ "Default_Input", [kv139 "c" (VInt 3)]).
Proof. vm_compute. repeat split. Qed.

(** a tag with one load attribute, whose text loads a dictionary that has no load of its own: that dictionary *)
Theorem C139_plain : forall w tgs base e n o d1 k s d2 attrs r,
  tag_gives w tgs base e n o -> tag_has (e_attrs e) (d1 ++ (KS k, VStr s) :: d2) ->
  same_word k "load" -> ~ stripped true true white s (t_ "text") -> Forall no_load (d1 ++ d2) ->
  text_attributes (d1 ++ (KS k, VStr s) :: d2) attrs -> struct_gives w (e_text e) attrs (Some (VDict r)) -> Forall no_load r -> tag_loads w tgs base e n r.
Proof. exact plain_load. Qed.
Print Assumptions C139_plain.
Example C139_plain_case : tag_loads w139 [] [] (tag139 [("name", "my_input"); ("load", "json")] text139) (t_ "my_input") params139.
Proof.
  assert (N : forall k v, lower (t_ k) <> t_ "load" -> no_load (KS (t_ k), v)) by (intros k v H; exists (t_ k); split; [reflexivity|exact H]).
  eapply C139_plain with (d1 := [kv139 "name" (VStr (t_ "my_input"))]) (k := t_ "load") (s := t_ "json") (d2 := [kv139 "groups" (VList [VStr (t_ "all")])]).
  - apply InputFacts.tag_iff. vm_compute. reflexivity.
  - apply InputFacts.tag_has_iff. vm_compute. reflexivity.
  - reflexivity.
  - intros H. apply InputFacts.strip_white in H. vm_compute in H. discriminate.
  - repeat constructor; apply N; vm_compute; discriminate.
  - apply InputFacts.text_attributes_iff. vm_compute. reflexivity.
  - apply PythonFacts.struct_iff. vm_compute. reflexivity.
  - repeat constructor; apply N; vm_compute; discriminate.
Qed.

(** the loads of a template's tags: of two tags with the same name the first one's stays *)
Theorem C139_template : forall w tgs base tags l, template_loads w tgs base tags = Ok l ->
  exists nps, Forall2 (fun e np => tag_loads w tgs base e (fst np) (snd np)) tags nps /\ loads_are nps l.
Proof. exact loads_iff. Qed.
Print Assumptions C139_template.
Theorem C139_template_when : forall w tgs base tags, (exists l, template_loads w tgs base tags = Ok l) <-> Forall (fun e => exists n p, tag_loads w tgs base e n p) tags.
Proof. exact loads_when. Qed.
Print Assumptions C139_template_when.
(** all of them are loads of inputs of the template *)
Theorem C139_names : forall w tgs order base tags ls l,
  template_loads w tgs base tags = Ok ls -> template_inputs w order tgs base tags = Ok l -> incl (map fst ls) (map fst l).
Proof. exact load_names. Qed.
Print Assumptions C139_names.
Definition tags139 : list elem := [tag139 [("name", "a"); ("load", "json")] text139; tag139 [("name", "b"); ("load", "text")] "x"; tag139 [("load", "json"); ("name", "a")] "{""z"": 1}"].
Example C139_template_case : template_loads w139 [] [] tags139 = Ok [(t_ "a", params139); (t_ "b", [])] /\
  exists l, template_inputs w139 (fun l => l) [] [] tags139 = Ok l /\ map fst l = [t_ "a"; t_ "b"].
Proof. split; [vm_compute; reflexivity|]. eexists. split; vm_compute; reflexivity. Qed.

(** get_input_load is a dictionary from the names of the templates to dictionaries; of two templates with the same name, the last one's *)
Theorem C139_get : forall Fn (ts : list (@template Fn * list (str * dict))), dwf (get_input_load ts) /\
  forall k v, dget (get_input_load ts) k = Some v <-> exists n t ls, k = KS n /\ last_template ts n t ls /\ v = VDict (inputs_load t ls).
Proof. intros Fn. exact (@get_iff Fn). Qed.
Print Assumptions C139_get.
(** a template's dictionary has its inputs' names, and the load of each *)
Theorem C139_inputs : forall Fn (t : @template Fn) ls, NoDup (map fst ls) -> inputs_dict t ls (VDict (inputs_load t ls)).
Proof. intros Fn. exact (@inputs_dict_iff Fn). Qed.
Print Assumptions C139_inputs.
Definition input139 : @input nat := {| in_groups := []; in_data := []; in_funcs := 0 |}.
Definition template139 (name : string) (inputs : list string) : @template nat :=
  {| t_id := 0; t_name := t_ name; t_method := t_ "per_input"; t_groups := []; t_inputs := map (fun n => (t_ n, input139)) inputs; t_results := VNone; t_outputs := [] |}.
Definition templates139 : list (@template nat * list (str * dict)) :=
  [(template139 "t1" ["a"; "Default_Input"], [(t_ "a", params139)]); (template139 "t2" [], []); (template139 "t2" ["b"], [(t_ "b", [kv139 "z" (VInt 1)])])].
Example C139_get_case : get_input_load templates139 =
  [kv139 "t1" (VDict [kv139 "a" (VDict params139); kv139 "Default_Input" (VDict [])]); kv139 "t2" (VDict [kv139 "b" (VDict [kv139 "z" (VInt 1)])])] /\
  NoDup (map fst [(t_ "a", params139)]).
Proof. split; [vm_compute; reflexivity|]. repeat constructor. intros []. Qed.

(** add_input changes no load; the inputs that it makes have none *)
Theorem C139_calls : forall Fn G (load : val -> list datum) (nofuncs : Fn) order (s : session Fn G) cs,
  Forall2 (fun t t' => t_name t' = t_name t /\ forall ls n, incl (map fst ls) (map fst (t_inputs t)) ->
      (In n (map fst (t_inputs t)) -> dget (inputs_load t' ls) (KS n) = dget (inputs_load t ls) (KS n)) /\
      (~ In n (map fst (t_inputs t)) -> In n (map fst (t_inputs t')) -> dget (inputs_load t' ls) (KS n) = Some (VDict [])))
    (ss_templates s) (ss_templates (do_calls load nofuncs order s cs)).
Proof. intros Fn G. exact (@load_calls Fn G). Qed.
Print Assumptions C139_calls.
Example C139_calls_case :
  let s := {| ss_templates := [template139 "t1" ["a"]]; ss_global := tt; ss_threshold := 0%Z |} in
  let call n := {| c_data := VStr (t_ "x"); c_input := t_ n; c_template := t_ "_all_"; c_groups := [] |} in
  map (fun t => inputs_load t [(t_ "a", params139)]) (ss_templates (do_calls (fun v => [TextData (t_ "x")]) 0 (fun l => l) s [call "a"; call "new"]))
    = [[kv139 "a" (VDict params139); kv139 "new" (VDict [])]] /\
  incl (map fst [(t_ "a", params139)]) (map fst (t_inputs (template139 "t1" ["a"]))).
Proof. split; [vm_compute; reflexivity|]. intros x H. exact H. Qed.

(** the whole program: a template's text, inputs, and get_input_load *)
Theorem C139_program : forall order w base vars text texts d, ttp_load order w base vars text texts = Ok d ->
  exists ts lss, template_is w order base vars text ts /\ text_loads_are w base text ts lss /\ dwf d /\
    forall k v, dget d k = Some v <-> exists n t ls, k = KS n /\ last_template (combine (ss_templates (add_texts order w texts (session_of ts))) lss) n t ls /\ v = VDict (inputs_load t ls) /\ inputs_dict t ls v.
Proof. exact program_load. Qed.
Print Assumptions C139_program.
Definition lines139 (l : list string) : str := concat (map (fun s => t_ s ++ [chr 10]) l).
Definition root139 : str := lines139
  ["<input name=""my_input"" load=""json"">"; "{""my_params"": {""key1"": ""val1""}, ""more"": [""item1"", 2]}"; "</input>"; "<group name=""interfaces"">"; "interface {{ interface }}"; "</group>"].
Definition children139 : str := lines139
  ["<template name=""template_1"">"; "<input name=""my_input"" load=""json"">"; "{""a"": 1}"; "</input>"; "<group name=""i"" input=""other"">"; "interface {{ interface }}"; "</group>"; "</template>";
   "<template>"; "<input name=""my_input"" load=""json"">{""b"": 2}</input>"; "<input name=""my_input"" load=""json"">{""b"": 3}</input>"; "vlan {{ vlan }}"; "</template>"].
Example C139_program_case :
  ttp_load (fun l => l) w139 [] [] root139 [] = Ok [kv139 "_root_template_" (VDict [kv139 "my_input" (VDict params139)])] /\
  ttp_load (fun l => l) w139 [] [] root139 [(VStr (t_ "interface Lo0"), t_ "_all_")]
    = Ok [kv139 "_root_template_" (VDict [kv139 "my_input" (VDict params139); kv139 "Default_Input" (VDict [])])] /\
  ttp_load (fun l => l) w139 [] [] children139 []
    = Ok [kv139 "template_1" (VDict [kv139 "my_input" (VDict [kv139 "a" (VInt 1)]); kv139 "other" (VDict [])]); kv139 "1" (VDict [kv139 "my_input" (VDict [kv139 "b" (VInt 2)])])].
Proof. vm_compute. repeat split. Qed.
