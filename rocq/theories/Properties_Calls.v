(** * Properties_Calls: C124. *)
From Verif Require Import PyBase DictFacts StrFacts Regex Results Template Attributes FormRegex MatchFuncs GroupFuncs Parser FuncTable SpecVariable SpecCalls CallFacts CallFacts2 CallFacts3.
Local Open Scope string_scope.
Local Open Scope list_scope.

(** Arguments reach the parameters by Python's rules, and a call that fits none of them is a TypeError. *)
Theorem C124_arguments s args kws : (forall b, bind s args kws = Ok b <-> binds s args kws b) /\ ((forall b, ~ binds s args kws b) <-> bind s args kws = Raise TypeError).
Proof.
  split; [intros b; apply bind_iff|]. split.
  - intros H. destruct (bind s args kws) as [b|e] eqn:E; [apply bind_iff in E; now elim (H b)|]. now apply bind_error in E as ->.
  - intros H b K. apply bind_iff in K. congruence.
Qed.
Print Assumptions C124_arguments.
(** Giving the first arguments by name instead of by place changes nothing. *)
Theorem C124_by_name s args kws b : length args <= length (sg_params s) -> NoDup (map fst (sg_params s) ++ map fst (sg_kwonly s)) ->
  binds s args kws b -> binds s [] (combine (map (fun p => KS (fst p)) (sg_params s)) args ++ kws) b.
Proof. exact (by_name s args kws b). Qed.
Print Assumptions C124_by_name.
(** A match function that is called by its name gets the arguments its [def] line says and does what it does with them. *)
Theorem C124_match macros lookups templates results a env d r :
  call_match macros lookups templates results a env d = Ok r <->
  exists line s b name, In line match_defs /\ read_def line = (at_name a, s) /\ binds s (at_args a) (at_kwargs a) b /\ t_ name = at_name a /\
    match_does macros lookups templates results (value_of s b) (b_star b) env d name r.
Proof. exact (call_match_iff macros lookups templates results a env d r). Qed.
Print Assumptions C124_match.
(** The same for group functions. *)
Theorem C124_group macros lookups templates main results k2i a st r :
  call_group macros lookups templates main results k2i a st = Ok r <->
  exists line s b name, In line group_defs /\ read_def line = (at_name a, s) /\ binds s (at_args a) (at_kwargs a) b /\ t_ name = at_name a /\
    group_does macros lookups templates main results k2i (value_of s b) (b_star b) st name r.
Proof. exact (call_group_iff macros lookups templates main results k2i a st r). Qed.
Print Assumptions C124_group.
(** A name that no function has is a KeyError (after which the methods of the text are tried), arguments that do not fit a TypeError. *)
Theorem C124_unknown a :
  (forall macros lookups templates results env d, (forall line, In line match_defs -> fst (read_def line) <> at_name a) -> ~ In (at_name a) (map t_ match_unmodelled) ->
     call_match macros lookups templates results a env d = Raise KeyError) /\
  (forall macros lookups templates main results k2i st, (forall line, In line group_defs -> fst (read_def line) <> at_name a) -> ~ In (at_name a) (map t_ group_unmodelled) ->
     call_group macros lookups templates main results k2i a st = Raise KeyError).
Proof. split; intros *; [exact (match_unknown _ _ _ _ a _ _)|exact (group_unknown _ _ _ _ _ _ a _)]. Qed.
Print Assumptions C124_unknown.
Theorem C124_misfit a line s : read_def line = (at_name a, s) -> (forall b, ~ binds s (at_args a) (at_kwargs a) b) ->
  (forall macros lookups templates results env d, In line match_defs -> call_match macros lookups templates results a env d = Raise TypeError) /\
  (forall macros lookups templates main results k2i st, In line group_defs -> call_group macros lookups templates main results k2i a st = Raise TypeError).
Proof. intros H K. split; intros *; intros I; [exact (match_misfit _ _ _ _ a _ _ line s I H K)|exact (group_misfit _ _ _ _ _ _ a _ line s I H K)]. Qed.
Print Assumptions C124_misfit.

Definition x124_env : menv := {| m_vars := []; m_gvars := [] |}.
Definition x124_a (n : string) (args : list val) (kws : dict) : attribute := {| at_name := t_ n; at_args := args; at_kwargs := kws |}.
(** [resub(old="a", new="b")] *)
Example C124_ex_resub : call_match [] (VDict []) [] (VDict []) (x124_a "resub" [] [(KS (t_ "new"), VStr (t_ "b")); (KS (t_ "old"), VStr (t_ "a"))]) x124_env (VStr (t_ "banana"))
  = Ok (x124_env, (VStr (t_ "bbnana"), FNone)).
Proof. vm_compute. reflexivity. Qed.
Example C124_ex_binds : binds (snd (read_def "resub(data, old, new, count=1)")) [VStr (t_ "a")] [(KS (t_ "new"), VStr (t_ "b"))]
  {| b_params := [VStr (t_ "a"); VStr (t_ "b"); VInt 1]; b_star := []; b_kwonly := [] |}.
Proof. apply bind_iff. vm_compute. reflexivity. Qed.
Example C124_ex_twice : call_match [] (VDict []) [] (VDict []) (x124_a "append" [VStr (t_ "a")] [(KS (t_ "char"), VStr (t_ "b"))]) x124_env (VStr (t_ "x")) = Raise TypeError.
Proof. vm_compute. reflexivity. Qed.
Example C124_ex_unknown : call_match [] (VDict []) [] (VDict []) (x124_a "upper" [] []) x124_env (VStr (t_ "x")) = Raise KeyError.
Proof. vm_compute. reflexivity. Qed.
