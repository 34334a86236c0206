(** * SpecSession: what the session API promises, stated without its code. *)
From Verif Require Import PyBase DictFacts PyEqFacts Session.
From Coq Require Import Sorting.Sorted Sorting.Permutation.
Local Open Scope string_scope.
Local Open Scope list_scope.

Section Spec.
Context {Fn G : Type}.
Local Notation input := (input Fn).
Local Notation template := (template Fn).
Local Notation session := (session Fn G).

(** one unit of work: groups to use, input functions, datum *)
Definition job := (list nat * Fn * datum)%type.

(** the units of work of a template: inputs in the order they were defined, each
    input's data in the order it was added *)
Definition jobs (t : template) : list job :=
  concat (map (fun i => map (fun d => (in_groups (snd i), in_funcs (snd i), d)) (in_data (snd i))) (t_inputs t)).
Definition data_of (t : template) : list datum := concat (map (fun i => in_data (snd i)) (t_inputs t)).

Definition run_job (prs : nat -> G -> list nat -> Fn -> datum -> val -> res (G * val)) (id : nat) (g : G) (j : job) (main : val) :=
  prs id g (fst (fst j)) (snd (fst j)) (snd j) main.

(** every job is run once, in order, each from an empty structure *)
Inductive separately (run : G -> job -> val -> res (G * val)) : G -> list job -> G -> list val -> Prop :=
| sep_nil g : separately run g [] g []
| sep_cons g j g1 v js g2 vs : run g j (VDict []) = Ok (g1, v) -> separately run g1 js g2 vs ->
    separately run g (j :: js) g2 (v :: vs).

(** every job is run once, in order, each into the structure left by the previous one *)
Inductive together (run : G -> job -> val -> res (G * val)) : G -> val -> list job -> G -> val -> Prop :=
| tog_nil g v : together run g v [] g v
| tog_cons g v j g1 v1 js g2 v2 : run g j v = Ok (g1, v1) -> together run g1 v1 js g2 v2 ->
    together run g v (j :: js) g2 v2.

(** how one parsed structure appears in the results: the records of unnamed
    groups are not under a key but form a list, whose last item holds the rest *)
Inductive shaped : val -> val -> Prop :=
| sh_named d : ~ In (KS ($"_anonymous_")) (map fst d) -> shaped (VDict d) (VDict d)
| sh_only v : shaped (VDict [(KS ($"_anonymous_"), v)]) v
| sh_mixed d1 d2 l : ~ In (KS ($"_anonymous_")) (map fst d1) -> d1 ++ d2 <> [] ->
    shaped (VDict (d1 ++ (KS ($"_anonymous_"), VList l) :: d2)) (VList (l ++ [VDict (d1 ++ d2)]))
| sh_list l : ~ In (VStr ($"_anonymous_")) l -> shaped (VList l) (VList l).

(** all fields but the results *)
Definition same_but_results (t t' : template) : Prop :=
  t_id t' = t_id t /\ t_name t' = t_name t /\ t_method t' = t_method t /\ t_groups t' = t_groups t /\
  t_inputs t' = t_inputs t /\ t_outputs t' = t_outputs t.

(** all fields but the inputs *)
Definition same_but_inputs (t t' : template) : Prop :=
  t_id t' = t_id t /\ t_name t' = t_name t /\ t_method t' = t_method t /\ t_groups t' = t_groups t /\
  t_results t' = t_results t /\ t_outputs t' = t_outputs t.
(** the templates a call's template name stands for: the one of that name, all of them for "_all_" *)
Definition addressed (name : str) (t : template) : Prop := name = $"_all_" \/ name = t_name t.
Definition addressedb (name : str) (t : template) : bool := if str_eqb name ($"_all_") then true else str_eqb name (t_name t).

(** what parsing does to one template, before its outputs *)
Inductive template_parsed prs : template -> G -> G -> template -> Prop :=
| tp_per_input t g g' t' old vs ds :
    t_method t = $"per_input" -> t_results t = VList old ->
    separately (run_job prs (t_id t)) g (jobs t) g' vs -> Forall2 shaped vs ds ->
    same_but_results t t' -> t_results t' = VList (old ++ ds) ->
    template_parsed prs t g g' t'
| tp_per_template t g g' t' v d :
    t_method t = $"per_template" ->
    together (run_job prs (t_id t)) g (VDict []) (jobs t) g' v -> shaped v d ->
    same_but_results t t' -> t_results t' = d ->
    template_parsed prs t g g' t'.

(** templates are processed in order *)
Inductive in_turn (R : template -> G -> G -> template -> Prop) : list template -> G -> G -> list template -> Prop :=
| it_nil g : in_turn R [] g g []
| it_cons t g g1 t1 ts g2 ts2 : R t g g1 t1 -> in_turn R ts g1 g2 ts2 -> in_turn R (t :: ts) g g2 (t1 :: ts2).

(** each output is applied to what the previous one returned *)
Inductive pipe : list (val -> res val) -> val -> val -> Prop :=
| pipe_nil v : pipe [] v v
| pipe_cons f fs v w u : f v = Ok w -> pipe fs w u -> pipe (f :: fs) v u.
Definition outputs_run (t t' : template) : Prop :=
  same_but_results t t' /\ pipe (t_outputs t) (t_results t) (t_results t').

(** the results method is one of the two documented ones *)
Definition documented_method (t : template) : Prop :=
  (t_method t = $"per_input" /\ exists l, t_results t = VList l) \/ t_method t = $"per_template".

(** parsing one datum does not depend on what was parsed before *)
Definition memoryless (prs : nat -> G -> list nat -> Fn -> datum -> val -> res (G * val)) : Prop :=
  forall id g1 g2 gs f d m,
    match prs id g1 gs f d m, prs id g2 gs f d m with
    | Ok (_, v1), Ok (_, v2) => v1 = v2
    | Raise e1, Raise e2 => e1 = e2
    | _, _ => False
    end.

(** ** data of an input *)
Definition same_datum (a b : datum) : Prop :=
  match a, b with
  | FileName x, FileName y => x = y
  | TextData x, TextData y => x = y
  | StructData x, StructData y => veq x y
  | _, _ => False
  end.
Definition datum_ok (d : datum) : Prop := match d with StructData v => vok v | _ => True end.

(** [l] is [all] without the repeated items, first occurrences kept in order *)
Inductive kept : list datum -> list datum -> list datum -> Prop :=
| kept_nil seen : kept seen [] []
| kept_new seen d all l : (forall e, In e seen -> ~ same_datum d e) -> kept (seen ++ [d]) all l -> kept seen (d :: all) (d :: l)
| kept_old seen d all l e : In e seen -> same_datum d e -> kept seen all l -> kept seen (d :: all) l.

(** the data of the input called [name] *)
Definition input_data (t : template) (name : str) : list datum :=
  match aget (t_inputs t) name with Some i => in_data i | None => [] end.
Definition input_groups (t : template) (name : str) : list nat :=
  match aget (t_inputs t) name with Some i => in_groups i | None => [] end.

(** Python's [list(set(l))]: the members, each once, in some order *)
Definition python_set (order : list nat -> list nat) : Prop :=
  forall l, NoDup (order l) /\ forall n, In n (order l) <-> In n l.

(** the groups an input is parsed with *)
Definition belongs (tgs : list tgroup) (name : str) (groups : list str) (n : nat) : Prop :=
  exists g, In g tgs /\ tg_index g = n /\
    ((exists g', In g' tgs /\ In name (tg_inputs g')) /\ In name (tg_inputs g)
     \/ (~ exists g', In g' tgs /\ In name (tg_inputs g')) /\ tg_inputs g = [] /\
        (In ($"all") groups \/ In (tg_name g) groups)).

(** ** sizes *)
Definition datum_size (fsize : str -> res Z) (tsize : str -> Z) (d : datum) : Z :=
  match d with FileName p => match fsize p with Ok n => n | Raise _ => 0%Z end | TextData x => tsize x | StructData _ => 0%Z end.
Definition all_data (s : session) : list datum := concat (map data_of (ss_templates s)).
Definition total_size fsize tsize (s : session) : Z :=
  fold_right Z.add 0%Z (map (datum_size fsize tsize) (all_data s)).
Definition files_exist (fsize : str -> res Z) (s : session) : Prop :=
  forall p, In (FileName p) (all_data s) -> exists n, fsize p = Ok n.

(** ** result structures *)
Definition items1 (v : val) : list val := match v with VList l => l | _ => [v] end.
(** one level of nesting is removed from each template's list *)
Definition flattened (rs : list val) : list val := concat (map (fun r => concat (map items1 (items1 r))) rs).
End Spec.
