(** * Properties_Filters: C116. *)
From Verif Require Import PyBase Results Template Attributes MatchFuncs Parser Compile FuncTable Session Load Run Inputs Files SpecProgram SpecFilters FilterFacts SessionInputs Properties_Program Properties_Isolation.
Local Open Scope string_scope.
Local Open Scope list_scope.

(** C116: a filter, however it is called, leaves the value and the variables as they are and answers True or False *)
Theorem C116_filter : forall t a env d env' d' fl, In (at_name a) filters -> run_func (m_fun t a) env d = Ok (env', (d', fl)) -> env' = env /\ d' = d /\ exists b, fl = FBool b.
Proof. exact filter_tests. Qed.
Print Assumptions C116_filter.
(** so a value whose functions are filters is saved unchanged exactly when each of them passes it, and dropped exactly when one rejects it after the ones before passed it *)
Theorem C116_filters : forall t fs, Forall (fun a => In (at_name a) filters) fs -> forall env d flags env' o,
  run_chain (map (m_fun t) fs) env d flags = Ok (env', o) <->
  env' = env /\ ((o = Some (d, flags) /\ Forall (fun a => passes (m_fun t a) env d) fs) \/
                (o = None /\ exists before a after, fs = before ++ a :: after /\ Forall (fun a => passes (m_fun t a) env d) before /\ rejects (m_fun t a) env d)).
Proof. exact filters_only. Qed.
Print Assumptions C116_filters.
(** a transformer, however it is called, never rejects a value *)
Theorem C116_transformer : forall t a env d env' d' fl, In (at_name a) transformers -> run_func (m_fun t a) env d = Ok (env', (d', fl)) -> fl <> FBool false.
Proof. exact transformer_keeps. Qed.
Print Assumptions C116_transformer.
(** so a value whose functions are transformers is always saved, unless one of them raises *)
Theorem C116_transformers : forall t fs, Forall (fun a => In (at_name a) transformers) fs -> forall env d flags env' o, run_chain (map (m_fun t) fs) env d flags = Ok (env', o) -> o <> None.
Proof. exact transformers_never_drop. Qed.
Print Assumptions C116_transformers.

(** the functions written in a template *)
Definition x116t (s : string) : str := x115_lines ["<group>"; s; "</group>"]%string.
Definition x116 (s : string) : res val := ttp_result (fun _ => None) false sort_set no_files [] [] (x116t s) [(VStr (x115_lines ["mtu 12"; "mtu 130"; "mtu x"]%string), $"_all_")] $"list".
Definition x116f (s : string) : list str := match load_template no_files sort_set [] [] (x116t s) with Ok [t] => map at_name (flat_map SpecIsolation.match_functions (tp_groups t)) | _ => [] end.
Definition x116n (l : list val) : val := VList [VList [VList (map (fun v => VDict [(KS $"n", v)]) l)]].
Definition x116a : string := "mtu {{ n | _start_ | isdigit | contains('1') | notequal('130') }}".
Definition x116b : string := "mtu {{ n | _start_ | prepend('m') | to_list }}".
Example C116_ex :
  x116f x116a = [$"isdigit"; $"contains"; $"notequal"] /\ Forall (fun n => In n filters) (x116f x116a) /\ x116 x116a = Ok (x116n [VStr $"12"]) /\
  x116f x116b = [$"prepend"; $"to_list"] /\ Forall (fun n => In n transformers) (x116f x116b) /\ x116 x116b = Ok (x116n [VList [VStr $"m12"]; VList [VStr $"m130"]; VList [VStr $"mx"]]).
Proof.
  assert (Ea : x116f x116a = [$"isdigit"; $"contains"; $"notequal"]) by (vm_compute; reflexivity).
  assert (Eb : x116f x116b = [$"prepend"; $"to_list"]) by (vm_compute; reflexivity).
  split; [exact Ea|]. split; [rewrite Ea; repeat (apply Forall_cons; [cbn; tauto|]); constructor|]. split; [vm_compute; reflexivity|].
  split; [exact Eb|]. split; [rewrite Eb; repeat (apply Forall_cons; [cbn; tauto|]); constructor|]. vm_compute; reflexivity.
Qed.
