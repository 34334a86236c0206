(** * SpecApi: what a sequence of calls on one ttp object leads to, stated without the code. *)
From Verif Require Import PyBase DictFacts Results Template Attributes FormRegex Compile Session Files Inputs Load Run SpecSession SpecVariable SpecFiles SpecLoaded RunSeen SpecSeen Api.
Local Open Scope string_scope.
Local Open Scope list_scope.

(** ** variables *)
(** the last add_vars with this name in it gives [x]; none has it *)
Definition adds (k : key) (c : call) (x : val) : Prop := exists d, c = AddVars (VDict d) /\ dget d k = Some x.
Definition given (k : key) (h : list call) (x : val) : Prop :=
  exists h1 c h2, h = h1 ++ c :: h2 /\ adds k c x /\ forall c' y, In c' h2 -> ~ adds k c' y.
Definition never_given (k : key) (h : list call) : Prop := forall c y, In c h -> ~ adds k c y.
(** what the caller passes are dictionaries: no key twice *)
Definition real_dicts (h : list call) : Prop := forall d, In (AddVars (VDict d)) h -> dwf d.

Section W.
Variables (w : world) (order : list nat -> list nat) (base : str).
(** ** a template that is loaded, after the calls that come later *)
Definition lookup_given (c : call) (name : str) (x : val) : Prop :=
  exists text include load key o, c = AddLookup name text include load key /\
    struct_gives w text ((match include with Some i => [(t_ "include", i)] | None => [] end) ++ [(t_ "load", load)] ++ (match key with Some k => [(t_ "key", k)] | None => [] end)) o /\
    x = match o with Some v => v | None => VNone end.
(** everything but these two *)
Definition same_code (t t' : tpl) : Prop :=
  tp_name t' = tp_name t /\ tp_method t' = tp_method t /\ tp_pathchar t' = tp_pathchar t /\ tp_v2r t' = tp_v2r t /\ tp_vfs t' = tp_vfs t /\
  tp_groups t' = tp_groups t /\ tp_inputs t' = tp_inputs t /\ tp_macros t' = tp_macros t /\ tp_outputs t' = tp_outputs t /\ tp_gouts t' = tp_gouts t.
Inductive told : call -> tpl -> tpl -> Prop :=
| to_vars d t t' : same_code t t' -> tp_lookups t' = tp_lookups t -> tp_vars t' = dupdate (tp_vars t) d -> told (AddVars (VDict d)) t t'
| to_lookup c n x t t' : lookup_given c n x -> same_code t t' -> tp_vars t' = tp_vars t -> tp_lookups t' = dset (tp_lookups t) (KS n) x -> told c t t'
| to_nothing c t : (forall d, c <> AddVars (VDict d)) -> (forall n x i l k, c <> AddLookup n x i l k) -> told c t t.
Inductive told_all : list call -> tpl -> tpl -> Prop :=
| ta_nil t : told_all [] t t
| ta_cons c h t t1 t2 : told c t t1 -> told_all h t1 t2 -> told_all (c :: h) t t2.

(** ** the templates of a history, in the order of the calls: every text is read with the variables given up to then *)
Definition text_is (vars : dict) (d : datum) (ts : list tpl) : Prop := exists x, d = TextData x /\ template_is w order base vars x ts.
Inductive history : dict -> list call -> list tpl -> dict -> Prop :=
| hi_nil v : history v [] [] v
| hi_template v p ds tss ts h l v' : loads w [] [] true p ds -> Forall2 (text_is v) ds tss -> Forall2 (told_all h) (concat tss) ts ->
    history v h l v' -> history v (AddTemplate p :: h) (ts ++ l) v'
| hi_vars v d h l v' : history (dupdate v d) h l v' -> history v (AddVars (VDict d) :: h) l v'
| hi_other v c h l v' : (forall p, c <> AddTemplate p) -> (forall d, c <> AddVars (VDict d)) -> history v h l v' -> history v (c :: h) l v'.

(** ** the object's templates go with what was loaded: number, name, method *)
Definition goes_with (it : nat * tpl) (x : tmpl) : Prop :=
  t_id x = fst it /\ t_name x = tp_name (snd it) /\ t_method x = tp_method (snd it) /\ t_groups x = map tgroup_of (Load.number 0 (tp_groups (snd it))).
Definition in_step (o : obj) : Prop := Forall2 goes_with (Load.number 0 (o_tpls o)) (ss_templates (o_session o)).
(** a template nothing was parsed with *)
Definition unparsed (t : tpl) (x : tmpl) : Prop := t_results x = VList [] /\ t_inputs x = tp_inputs t.
(** all but the outputs, which are set when they are needed *)
Definition same_but_outputs (t t' : tmpl) : Prop :=
  t_id t' = t_id t /\ t_name t' = t_name t /\ t_method t' = t_method t /\ t_groups t' = t_groups t /\ t_inputs t' = t_inputs t /\ t_results t' = t_results t.
(** the outputs of a template are its own tags', with its variables of now and the macros of the last template before it, or itself,
    that has both macros and outputs; if there is none, of the last template of all *)
Definition macro_setter (t : tpl) : Prop := tp_outputs t <> [] /\ tp_macros t <> [].
Definition macros_then (ts : list tpl) (i : nat) (ms : list (str * macro)) : Prop :=
  (exists j t, j <= i /\ nth_error ts j = Some t /\ macro_setter t /\ ms = tp_macros t /\ forall k u, j < k <= i -> nth_error ts k = Some u -> ~ macro_setter u) \/
  ((forall k u, k <= i -> nth_error ts k = Some u -> ~ macro_setter u) /\ exists ts0 t, ts = ts0 ++ [t] /\ ms = tp_macros t).
Definition outputs_are (ts : list tpl) (x x' : tmpl) : Prop :=
  same_but_outputs x x' /\
  exists t ms, nth_error ts (t_id x) = Some t /\ macros_then ts (t_id x) ms /\ t_outputs x' = map (fun o v => OutputTags.run_outs ms (tp_vars t) [Found o] v) (tp_outputs t).
End W.
