(** * SpecCache: which functions the package offers, and what happened to them so far. *)
From Verif Require Import PyBase Cache.
Local Open Scope string_scope.
Local Open Scope list_scope.

(** a module whose functions are offered: not private, not written for the other Python, not ttp itself *)
Definition is_module (major : nat) (f : pyfile) : Prop :=
  (exists b, pf_name f = b ++ $".py") /\ (forall b, pf_name f <> $"_" ++ b) /\
  (forall b, pf_name f <> b ++ (if Nat.eqb major 2 then $"_py3.py" else $"_py2.py")) /\ pf_name f <> $"ttp.py".
(** [def] of module [f] is offered as [name] in [dir] *)
Definition offers (major : nat) (files : list pyfile) (dir name : str) (f : pyfile) (def : str) : Prop :=
  In f files /\ is_module major f /\ pf_dir f = dir /\ In def (pf_defs f) /\ (forall b, def <> $"_" ++ b) /\
  (dget (pf_map f) (KS def) = Some name \/ (dget (pf_map f) (KS def) = None /\ name = def)).
(** no name is offered twice *)
Definition no_clash (major : nat) (files : list pyfile) : Prop :=
  forall dir name f def f' def', offers major files dir name f def -> offers major files dir name f' def' -> f = f' /\ def = def'.
(** modules are told apart by directory and file name *)
Definition distinct_modules (major : nat) (files : list pyfile) : Prop :=
  forall f g, In f files -> In g files -> is_module major f -> is_module major g -> module_key f = module_key g -> f = g.

(** ** histories of calls *)
Section Hist.
Variables (major : nat) (files : list pyfile).
(** parser [s] calls a function of module [f] *)
Definition touches (s : nat) (f : pyfile) (e : rt_event) : Prop :=
  exists dir name def, e = ECall s dir name /\ offers major files dir name f def.
(** it has called one before (since it was created) *)
Definition has_called (es : list rt_event) (s : nat) (f : pyfile) : Prop :=
  exists a e b, es = a ++ e :: b /\ touches s f e /\ ~ In (ENew s) b.
(** the parser whose first call of module [f] came last *)
Inductive last_first (f : pyfile) : list rt_event -> nat -> Prop :=
| lf_here es e s : touches s f e -> ~ has_called es s f -> last_first f (es ++ [e]) s
| lf_keep es e s : last_first f es s -> (forall s', touches s' f e -> has_called es s' f) -> last_first f (es ++ [e]) s.
(** [b]: what happened since parser [s] was created.  It has called a function of module [f] that it had not replaced *)
Definition has_used (b : list rt_event) (s : nat) (f : pyfile) : Prop :=
  exists b1 dir name def b2, b = b1 ++ ECall s dir name :: b2 /\ offers major files dir name f def /\ forall n, ~ In (EAdd s dir name n) b1.
Definition calls_after_new (es : list rt_event) : Prop :=
  forall a s dir name b, es = a ++ ECall s dir name :: b -> In (ENew s) a.
End Hist.
