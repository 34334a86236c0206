(** * SpecIsolation: when the texts given to a template are parsed independently of each other. *)
From Verif Require Import PyBase Results Template Attributes MatchVar Compile Session Load SpecProgram.
Local Open Scope string_scope.
Local Open Scope list_scope.

(** the functions of the match variables of a group and of its child groups *)
Definition regex_functions (x : crex) : list attribute := flat_map (fun nv => v_funcs (vo_st (snd nv))) (x_vars x).
Fixpoint match_functions (g : cgroup) : list attribute :=
  match g with
  | CG _ _ _ _ _ s kids =>
      flat_map regex_functions (gs_start s) ++ flat_map regex_functions (gs_end s) ++ flat_map regex_functions (gs_re s) ++ flat_map match_functions kids
  end.
(** the functions of a group and of its child groups *)
Fixpoint group_functions (g : cgroup) : list attribute :=
  match g with CG _ _ _ _ funcs _ kids => funcs ++ flat_map group_functions kids end.
(** only these functions store something outside of the results *)
Definition recorders : list str := [$"record"; $"count"; $"gpvlookup"].
Definition records_nothing (t : tpl) : Prop :=
  Forall (fun g => Forall (fun a => ~ In (at_name a) recorders) (match_functions g) /\
                   Forall (fun a => at_name a <> $"record") (group_functions g)) (tp_groups t).
(** no input tags, and groups that name no inputs *)
Definition group_inputs (g : cgroup) : list str := match g with CG _ _ _ a _ _ _ => ga_in a end.
Definition no_inputs (t : tpl) : Prop := tp_inputs t = [] /\ Forall (fun g => group_inputs g = []) (tp_groups t).
(** no outputs that see the results of all texts; groups may have their own outputs *)
Definition no_outputs (t : tpl) : Prop := tp_outputs t = [].
(** [list(set(l))] of the numbers 0, 1, ..., n-1: CPython lists them in this order *)
Definition lists_ranges (order : list nat -> list nat) : Prop := forall l n, (forall x, In x l <-> x < n) -> order l = seq 0 n.
(** the [i]th column of the rows *)
Definition column (rows : list (list val)) (i : nat) : list val := map (fun row => nth i row VNone) rows.
