(** * Properties_OutputTags: output tags and arguments of result() (C130). *)
From Verif Require Import PyBase Regex Template Attributes MatchVar MatchFuncs Compile FuncTable Loaders Session Files Inputs Outputs JsonDump OutputTags Load Run PyEqFacts.
From Verif Require Import SpecVariable SpecAttr SpecText SpecCalls SpecFiles SpecInputs SpecOutput SpecJson SpecOutputTags.
From Verif Require Import DictFacts OutputTagFacts OutputRunFacts OutputRunFacts2.
Local Open Scope string_scope.
Local Open Scope list_scope.

Definition w130 : world := {| w_file := fun _ => None; w_dir := fun _ => None; w_tdir := None; w_exec := fun _ => out_of_model |}.
Definition tag130 (attrs : list (string * string)) (text : str) : elem := Elem (t_ "output") (map (fun kv => (t_ (fst kv), t_ (snd kv))) attrs) text [] [].
Definition at130 (n : string) (args : list val) (kw : dict) : attribute := {| at_name := t_ n; at_args := args; at_kwargs := kw |}.
Definition d130 (l : list (string * val)) : dict := map (fun kv => (KS (t_ (fst kv)), snd kv)) l.
Definition s130 (s : string) : val := VStr (t_ s).
Definition o130 (n : val) (attrs : list (string * val)) (load : val) (fs : list attribute) : outputter := {| ot_name := n; ot_attrs := d130 attrs; ot_load := load; ot_funcs := fs |}.

(** ** reading *)
(** an output tag gives the output that its attributes and its text say, and nothing else *)
Theorem C130_tag : forall w e o, tag_output w e = Ok o <-> tag_output_is w e o.
Proof. exact tag_iff. Qed.
Print Assumptions C130_tag.
Example C130_tag_case :
  tag_output w130 (tag130 [("name", "out"); ("format", "csv"); ("path", "interfaces. vlans"); ("returner", "terminal, self"); ("dict_to_list", "'vlan'"); ("condition", "'a', 1")] (t_ "headers = 'x, y'"))
  = Ok (o130 (s130 "out")
     [("returner", VList [s130 "terminal"; s130 "self"]); ("format", s130 "csv"); ("load", s130 "python"); ("name", s130 "out"); ("path", VList [s130 "interfaces"; s130 "vlans"]); ("dict_to_list", s130 "'vlan'");
      ("condition", VList [s130 "a"; VInt 1]); ("headers", VList [s130 "x"; s130 "y"])]
     (VDict (d130 [("headers", s130 "x, y")])) [at130 "dict_to_list" [s130 "vlan"] []]).
Proof. vm_compute. reflexivity. Qed.
(** so do arguments *)
Theorem C130_arguments : forall kw o, dwf kw -> (kwargs_output kw = Ok o <-> arguments_output kw o).
Proof. exact arguments_iff. Qed.
Print Assumptions C130_arguments.
Definition kw130 : dict := d130 [("functions", s130 "traverse('a.b', strict=False) | dict_to_list(key_name='n')"); ("format", s130 "table")].
Definition made130 : outputter :=
  o130 VNone [("returner", VList [s130 "self"]); ("format", s130 "table"); ("load", s130 "python"); ("functions", s130 "traverse('a.b', strict=False) | dict_to_list(key_name='n')")] (VDict [])
    [at130 "traverse" [s130 "a.b"] (d130 [("strict", VBool false)]); at130 "dict_to_list" [] (d130 [("key_name", s130 "n")])].
Example C130_arguments_case : kwargs_output kw130 = Ok made130.
Proof. vm_compute. reflexivity. Qed.

(** ** running *)
(** what a function gives *)
Theorem C130_function : forall ms o a x y, call_output ms o a x = Ok y <-> function_gives ms o a x y.
Proof. exact call_iff. Qed.
Print Assumptions C130_function.
Definition data130 : val := VDict (d130 [("a", VDict (d130 [("b", VDict (d130 [("v1", VDict (d130 [("id", VInt 1)])); ("v2", VDict (d130 [("id", VInt 2)]))]))]))]).
Definition ms130 : list (str * macro) := [(t_ "last", fun v => Ok (MVal (match v with VList l => last l VNone | _ => v end))); (t_ "last", fun _ => Ok (MVal (VInt 0)))].
Example C130_function_case :
  call_output ms130 made130 (at130 "traverse" [s130 "a.b"] []) data130 = Ok (VDict (d130 [("v1", VDict (d130 [("id", VInt 1)])); ("v2", VDict (d130 [("id", VInt 2)]))])) /\
  call_output ms130 made130 (at130 "dict_to_list" [] (d130 [("path", s130 "a.b")])) data130 = Ok (VList [VDict (d130 [("id", VInt 1); ("key", s130 "v1")]); VDict (d130 [("id", VInt 2); ("key", s130 "v2")])]) /\
  call_output ms130 made130 (at130 "is_equal" [] []) (VDict []) = Ok (VDict (d130 [("output_name", VNone); ("output_description", s130 "None"); ("is_equal", VBool true)])) /\
  call_output ms130 made130 (at130 "is_equal" [VInt 1] []) VNone = Raise TypeError /\
  (* macros *)
  call_output ms130 made130 (at130 "macro" [s130 "last"] []) (VList [VInt 1; VInt 2]) = Ok (VInt 2) /\ call_output ms130 made130 (at130 "macro" [] [(KS (t_ "macro_name"), s130 "last")]) (VList []) = Ok (VList []) /\
  call_output ms130 made130 (at130 "macro" [s130 "other"] []) data130 = Ok data130 /\ call_output ms130 made130 (at130 "macro" [] []) data130 = Raise TypeError.
Proof. vm_compute. repeat split. Qed.
(** what a formatter gives *)
Theorem C130_format : forall o x y, vok x -> (apply_format (format_of o false) x = Ok y <-> formatted o x y).
Proof. intros o x y V. rewrite (format_iff o false x y V). split; [now intros [H _]|intros H; split; [exact H|discriminate]]. Qed.
Print Assumptions C130_format.
Definition csv130 : outputter := o130 VNone [("format", s130 "csv"); ("path", VList [s130 "a"; s130 "b"]); ("key", s130 "vlan"); ("missing", s130 "-"); ("headers", VList [s130 "vlan"; s130 "name"; s130 "id"]); ("quote", s130 "|")] VNone [].
Example C130_format_case :
  apply_format (format_of csv130 false) data130 = Ok (VStr (join [nl] [t_ "|vlan|,|name|,|id|"; t_ "|v1|,|-|,|1|"; t_ "|v2|,|-|,|2|"])).
Proof. vm_compute. reflexivity. Qed.
(** the whole run: what becomes of the results, what is printed and written *)
Theorem C130_run : forall ms vars o data r es, macros_ok ms -> vok data -> vok (VDict (ot_attrs o)) -> vok (ot_name o) ->
  (run_output ms vars o data = Ok (r, es) <-> output_runs_to ms vars o data r es).
Proof. exact run_iff. Qed.
Print Assumptions C130_run.
Definition quiet130 (rs : list string) : outputter :=
  o130 (s130 "q") [("returner", VList (map s130 rs)); ("format", s130 "json"); ("filename", s130 "out.txt"); ("condition", VList [s130 "site"; s130 "x"])] VNone [at130 "dict_to_list" [s130 "n"] []; at130 "traverse" [s130 "id"; VBool false] []].
Example C130_run_case :
  let data := VDict (d130 [("v1", VDict (d130 [("id", VInt 7)]))]) in let out := t_ "[" ++ [nl] ++ t_ "    7" ++ [nl] ++ t_ "]" in
  run_output [] (Some (d130 [("site", s130 "x")])) (quiet130 ["self"; "terminal"; "file"]) data = Ok (VStr out, [Printed out; Wrote (t_ "./Output/out.txt") out]) /\
  (* the results that are not returned are as the functions left them *)
  run_output [] (Some (d130 [("site", s130 "x")])) (quiet130 ["file"]) data = Ok (VDict (d130 [("v1", VDict (d130 [("id", VInt 7); ("n", s130 "v1")]))]), [Wrote (t_ "./Output/out.txt") out]) /\
  run_output [] (Some (d130 [("site", s130 "y")])) (quiet130 ["self"; "terminal"; "file"]) data = Ok (data, []).
Proof. vm_compute. repeat split. Qed.
(** the outputs of a template or a group, one after the other *)
Theorem C130_outputs : forall ms vars l, macros_ok ms -> Forall (fun o => vok (VDict (ot_attrs o)) /\ vok (ot_name o)) l ->
  forall x y, vok x -> (run_outs ms vars (map Found l) x = Ok y <-> exists es, outputs_run_to ms vars l x y es).
Proof. exact outputs_iff. Qed.
Print Assumptions C130_outputs.
Example C130_outputs_case :
  run_outs [] [] (map Found [o130 VNone [("returner", VList [s130 "self"]); ("format", s130 "raw")] VNone [at130 "traverse" [s130 "a.b"] []]; o130 VNone [("returner", VList [s130 "self"]); ("format", s130 "table")] VNone [at130 "dict_to_list" [] []]]) data130
  = Ok (VList [VList [s130 "id"; s130 "key"]; VList [VInt 1; s130 "v1"]; VList [VInt 2; s130 "v2"]]).
Proof. vm_compute. reflexivity. Qed.
(** result() with arguments: the output runs on the results of each template that is asked for, one after the other, and what it returns
    is put together as the structure says *)
Theorem C130_result : forall own cur (s : session_t) names kw structure o v, (forall i, macros_ok (own i)) -> macros_ok cur -> dwf kw -> arguments_output kw o -> vok (VDict (ot_attrs o)) -> vok (ot_name o) ->
  Forall (fun t => vok (t_results t)) (ss_templates s) -> known_structure structure ->
  (result_with own cur s names kw structure = Ok v <->
   exists ts rs, sublist (asked_for names structure) (ss_templates s) ts /\ results_run_to own o cur ts rs /\ structured structure ts rs v).
Proof. intros own cur s names kw structure o v MO MK W A. apply result_with_iff; [exact MO|exact MK|now apply arguments_iff]. Qed.
Print Assumptions C130_result.
Definition t130 (v : val) : @Session.template (list attribute) := {| t_id := 0; t_name := []; t_method := t_ "per_input"; t_groups := []; t_inputs := []; t_results := v; t_outputs := [] |}.
Definition ss130 : session_t := {| ss_templates := [t130 (VList [data130]); t130 (VList [])]; ss_global := []; ss_threshold := 0 |}.
Example C130_result_case :
  result_with (fun _ => []) [] ss130 [] kw130 (t_ "LIST") = Ok (VList [VList [VList [s130 "id"; s130 "n"]; VList [VInt 1; s130 "v1"]; VList [VInt 2; s130 "v2"]]; VList [VList []]]).
Proof. vm_compute. reflexivity. Qed.
Definition n130 (n : string) (v : val) : @Session.template (list attribute) := {| t_id := 0; t_name := t_ n; t_method := t_ "per_input"; t_groups := []; t_inputs := []; t_results := v; t_outputs := [] |}.
(** the templates without a name are left out; of two with one name the last counts, at the place of the first; what is no list of lists stays as it is *)
Example C130_result_dictionary_case :
  result_with (fun _ => []) [] {| ss_templates := [n130 "a" (VList []); n130 "" (VList [data130]); n130 "b" (VList []); n130 "a" (VList [data130]); n130 "c" (VList [])]; ss_global := []; ss_threshold := 0 |}
    [t_ "a"; t_ "b"; []] kw130 (t_ "Dictionary") =
  Ok (VDict [(KS (t_ "a"), VList [VList [s130 "id"; s130 "n"]; VList [VInt 1; s130 "v1"]; VList [VInt 2; s130 "v2"]]); (KS (t_ "b"), VList [VList []])]).
Proof. vm_compute. reflexivity. Qed.
Example C130_result_flat_case :
  result_with (fun _ => []) [] ss130 [] kw130 (t_ "flat_list") = Ok (VList [s130 "id"; s130 "n"; VInt 1; s130 "v1"; VInt 2; s130 "v2"]).
Proof. vm_compute. reflexivity. Qed.
