(** * SpecSeen: what the functions of one template can look up in the results of others, stated without the code. *)
From Verif Require Import PyBase Template Attributes Session SpecSession RunSeen.
Local Open Scope string_scope.
Local Open Scope list_scope.

Section Spec.
Definition tmpl := @template (list attribute).
(** parsing one datum of the template with this number, with these groups and input functions, into this structure, while this is what
    can be looked up *)
Variable prs : view -> nat -> dict -> list nat -> list attribute -> datum -> val -> res (dict * val).

(** every template by its name with the results it has now: those before as parsing left them, those after as they were at the start *)
Definition shows (before : list tmpl) (t : tmpl) (now : val) (after : list tmpl) : view :=
  {| vw_templates := map (fun x => (t_name x, t_results x)) before ++ (t_name t, now) :: map (fun x => (t_name x, t_results x)) after;
     vw_results := now |}.

(** per_input: each datum is parsed into an empty structure while the results of the earlier data show, and what it gives joins them *)
Inductive one_by_one (before after : list tmpl) (t : tmpl) : list val -> dict -> list (@job (list attribute)) -> dict -> list val -> Prop :=
| obo_nil rs g : one_by_one before after t rs g [] g rs
| obo_cons rs g j g1 v d js g2 rs2 :
    run_job (prs (shows before t (VList rs) after)) (t_id t) g j (VDict []) = Ok (g1, v) -> shaped v d ->
    one_by_one before after t (rs ++ [d]) g1 js g2 rs2 -> one_by_one before after t rs g (j :: js) g2 rs2.

Inductive processed (before after : list tmpl) (t : tmpl) (g g' : dict) (t' : tmpl) : Prop :=
| pr_per_input old rs : t_method t = $"per_input" -> t_results t = VList old ->
    one_by_one before after t old g (jobs t) g' rs -> same_but_results t t' -> t_results t' = VList rs -> processed before after t g g' t'
(** per_template: all data are parsed into one structure, which shows only when it is complete *)
| pr_per_template v d : t_method t = $"per_template" ->
    together (run_job (prs (shows before t (t_results t) after)) (t_id t)) g (VDict []) (jobs t) g' v -> shaped v d ->
    same_but_results t t' -> t_results t' = d -> processed before after t g g' t'.

(** in the order of the templates *)
Inductive in_order : list tmpl -> list tmpl -> dict -> dict -> list tmpl -> Prop :=
| io_nil before g : in_order before [] g g before
| io_cons before t after g g1 t1 g2 l : processed before after t g g1 t1 -> in_order (before ++ [t1]) after g1 g2 l ->
    in_order before (t :: after) g g2 l.

(** outputs run when all templates are parsed: no lookup sees what they return *)
Definition all_parsed (s s' : session (list attribute) dict) : Prop :=
  exists g l, in_order [] (ss_templates s) (ss_global s) g l /\
    Forall2 outputs_run l (ss_templates s') /\ ss_global s' = g /\ ss_threshold s' = ss_threshold s.
End Spec.
