(** * SpecFilters: the match functions that test the value, and those that change it. *)
From Verif Require Import PyBase MatchFuncs Parser.
Local Open Scope string_scope.
Local Open Scope list_scope.

(** the functions that only test *)
Definition filters : list str :=
  [$"startswith_re"; $"endswith_re"; $"contains_re"; $"notstartswith_re"; $"notendswith_re"; $"exclude_re"; $"exclude"; $"equal"; $"notequal";
   $"contains"; $"isdigit"; $"notdigit"; $"greaterthan"; $"lessthan"; $"void"; $"is_ip"].
(** the functions that change the value, add fields or record, and never reject *)
Definition transformers : list str :=
  [$"copy"; $"count"; $"item"; $"joinmatches"; $"let"; $"lookup"; $"rlookup"; $"gpvlookup"; $"mac_eui"; $"resub"; $"resuball"; $"record";
   $"sformat"; $"join"; $"append"; $"prepend"; $"print"; $"replaceall"; $"truncate"; $"to_str"; $"to_list"; $"to_int"; $"to_unicode"; $"to_cidr"; $"unrange"; $"uptimeparse"].
(** a function passes a value: it returns the value as it is, and True *)
Definition passes (f : mfunc) (env : menv) (d : val) : Prop := run_func f env d = Ok (env, (d, FBool true)).
(** it rejects it *)
Definition rejects (f : mfunc) (env : menv) (d : val) : Prop := run_func f env d = Ok (env, (d, FBool false)).
