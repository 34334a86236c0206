(** * SpecVars: what a template's [<vars name="path">] tags put into the results. *)
From Coq Require Import Sorting.Sorted Sorting.Permutation.
From Verif Require Import PyBase SpecProgram.
Local Open Scope string_scope.
Local Open Scope list_scope.

(** Python's order of strings *)
Inductive str_lt : str -> str -> Prop :=
| lt_nil c t : str_lt [] (c :: t)
| lt_head c d s t : (code c < code d)%N -> str_lt (c :: s) (d :: t)
| lt_tail c s t : str_lt s t -> str_lt (c :: s) (c :: t).
(** the paths that are not empty, in ascending order *)
Definition ascending (paths sorted : list (str * list str)) : Prop :=
  Permutation (filter (fun pn => match fst pn with [] => false | _ => true end) paths) sorted /\ StronglySorted str_lt (map fst sorted).
(** the variables of these names that exist, each once, in the order of the first mention *)
Definition values_of (vars : dict) (names : list str) : dict :=
  flat_map (fun n => match dget vars (KS n) with Some v => [(KS n, v)] | None => [] end) (firsts names).
