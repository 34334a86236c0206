(** * C135: functions look up in the results of other templates and groups, in the complete program. *)
From Verif Require Import PyBase Regex Results Template Attributes FormRegex MatchVar MatchFuncs GroupFuncs Parser Compile FuncTable Session SpecSession Files Inputs OutputTags Load Run
  RunSeen SpecMatch SpecVariable SpecOutcome SpecGroupOutcome OutcomeFacts2 GroupOutcomeFacts3 SpecSeen SeenRefine SeenFacts Properties_Loaded.
Local Open Scope string_scope.
Local Open Scope list_scope.

(** a program that needs no such lookup does the same here *)
Theorem C135_refines : forall clock k2i order w base vars text texts structure v,
  ttp_result clock k2i order w base vars text texts structure = Ok v -> ttp_seen clock k2i order w base vars text texts structure = Ok v.
Proof. exact seen_refines. Qed.
Print Assumptions C135_refines.

(** what parsing makes of the templates, and what shows to whom *)
Theorem C135_session : forall clock k2i order w ts texts s',
  let s := add_texts order w texts (session_of ts) in
  files_exist (file_size w) s -> Forall documented_method (ss_templates s) ->
  (parsed_seen clock k2i order w ts texts = Ok s' <-> all_parsed (parser_seen clock k2i w ts) s s').
Proof. intros clock k2i order w ts texts s' s. exact (parsed_iff clock k2i order w ts texts s'). Qed.
Print Assumptions C135_session.

Definition asking (kw : string) (source : str) : attribute := {| at_name := $"lookup"; at_args := []; at_kwargs := [(KS (t_ kw), VStr source)] |}.
(** [{{ x | lookup(template="a.b") }}]: the value stands for what the table at that path of the results that show has for it *)
Theorem C135_match_template : forall vw t s env d r, s <> [] ->
  (mf_call (m_seen vw t (asking "template" s)) env d = r <->
   exists o, lookup_gives (VDict (tp_lookups t)) (vw_templates vw) (vw_results vw) d None (ByTemplate s) o /\ r = (do x <- o; Ok (env, x))).
Proof.
  intros vw t s env d r Hs. transitivity (keep_env env (f_lookup (VDict (tp_lookups t)) (vw_templates vw) (vw_results vw) d (ByTemplate s) None) = r).
  - destruct s as [|c s]; [congruence|]. reflexivity.
  - unfold keep_env. split; [intros <-; eexists; split; [apply lookup_iff; reflexivity|reflexivity]|intros (o & K & ->)]. apply lookup_iff in K as <-. reflexivity.
Qed.
Print Assumptions C135_match_template.
Theorem C135_match_group : forall vw t s env d r, s <> [] ->
  (mf_call (m_seen vw t (asking "group" s)) env d = r <->
   exists o, lookup_gives (VDict (tp_lookups t)) (vw_templates vw) (vw_results vw) d None (ByGroup s) o /\ r = (do x <- o; Ok (env, x))).
Proof.
  intros vw t s env d r Hs. transitivity (keep_env env (f_lookup (VDict (tp_lookups t)) (vw_templates vw) (vw_results vw) d (ByGroup s) None) = r).
  - destruct s as [|c s]; [congruence|]. reflexivity.
  - unfold keep_env. split; [intros <-; eexists; split; [apply lookup_iff; reflexivity|reflexivity]|intros (o & K & ->)]. apply lookup_iff in K as <-. reflexivity.
Qed.
Print Assumptions C135_match_group.

Definition asking_for (key : str) (kw : string) (source : str) (update : bool) : attribute :=
  {| at_name := $"lookup"; at_args := [VStr key]; at_kwargs := [(KS (t_ kw), VStr source); (KS $"update", VBool update)] |}.
(** [lookup="key, template='a.b'"] of a group, while the results saved so far are [main] *)
Theorem C135_group_template : forall vw t k2i main key s update st r, s <> [] -> (exists d, fs_results st = VDict d) \/ (exists l, fs_results st = VList l) ->
  main = fs_results st ->
  (g_seen vw t k2i None (asking_for key "template" s update) st = r <->
   changes st (glookup_to (VDict (tp_lookups t)) (vw_templates vw) main (vw_results vw) key None true update (fs_data st) (ByTemplate s)) r).
Proof.
  intros vw t k2i main key s update st r Hs Hm ->. rewrite <- g_lookup_iff. destruct s as [|c s]; [congruence|].
  unfold g_seen. destruct Hm as [[d ->]|[l ->]]; destruct update; reflexivity.
Qed.
Print Assumptions C135_group_template.
Theorem C135_group_group : forall vw t k2i main key s update st r, s <> [] -> (exists d, fs_results st = VDict d) \/ (exists l, fs_results st = VList l) ->
  main = fs_results st ->
  (g_seen vw t k2i None (asking_for key "group" s update) st = r <->
   changes st (glookup_to (VDict (tp_lookups t)) (vw_templates vw) main (vw_results vw) key None true update (fs_data st) (ByGroup s)) r).
Proof.
  intros vw t k2i main key s update st r Hs Hm ->. rewrite <- g_lookup_iff. destruct s as [|c s]; [congruence|].
  unfold g_seen. destruct Hm as [[d ->]|[l ->]]; destruct update; reflexivity.
Qed.
Print Assumptions C135_group_group.

(** a group with outputs of its own (main_results is not what it is saved in) sees the results of the groups saved before it *)
Theorem C135_group_own : forall vw t k2i main key s update st r, s <> [] ->
  (g_seen vw t k2i (Some main) (asking_for key "group" s update) st = r <->
   changes st (glookup_to (VDict (tp_lookups t)) (vw_templates vw) main (vw_results vw) key None true update (fs_data st) (ByGroup s)) r).
Proof.
  intros vw t k2i main key s update st r Hs. rewrite <- g_lookup_iff. destruct s as [|c s]; [congruence|]. unfold g_seen. destruct update; reflexivity.
Qed.
Print Assumptions C135_group_own.

(** the second template's matches are looked up in the results of the first *)
Definition names135 : list string :=
  ["<template name='names'>"; "<group name='short.{{ short }}'>"; "alias {{ short }} is {{ long }}"; "</group>"; "</template>"].
Definition ports135 : list string :=
  ["<template name='ports'>"; "<group name='ports'>"; "port {{ name | lookup(template='names.short') }} up"; "</group>"; "</template>"].
Definition data135 : list (val * str) := [(VStr (load131 ["alias Gi is Gigabit"; "alias Te is Ten"]), $"names"); (VStr (load131 ["port Te up"; "port Fa up"]), $"ports")].
Definition clock135 : str -> option val := fun _ => None.
Definition run135 (x : list string) (data : list (val * str)) : res val := ttp_seen clock135 false sort_set no_files [] [] (load131 x) data $"list".
Local Notation k_ s := (KS $s).
Example C135_example_in_order : run135 (names135 ++ ports135) data135 =
  Ok (VList [VList [VDict [(k_ "short", VDict [(k_ "Gi", VDict [(k_ "long", VStr $"Gigabit")]); (k_ "Te", VDict [(k_ "long", VStr $"Ten")])])]];
             VList [VDict [(k_ "ports", VList [VDict [(k_ "name", VDict [(k_ "long", VStr $"Ten")])]; VDict [(k_ "name", VStr $"Fa")]])]]]).
Proof. vm_compute. reflexivity. Qed.
(** the other way round there is nothing to find yet: the empty results have no first item *)
Example C135_example_too_early : run135 (ports135 ++ names135) data135 = Raise IndexError.
Proof. vm_compute. reflexivity. Qed.
(** outputs run afterwards: the table is found though the output of the first template hides it *)
Definition hidden135 : list string :=
  ["<template name='names'>"; "<group name='short.{{ short }}'>"; "alias {{ short }} is {{ long }}"; "</group>"; "<output traverse='path=short'/>"; "</template>"].
Example C135_example_outputs_later : run135 (hidden135 ++ ports135) data135 =
  Ok (VList [VList [VDict [(k_ "Gi", VDict [(k_ "long", VStr $"Gigabit")]); (k_ "Te", VDict [(k_ "long", VStr $"Ten")])]];
             VList [VDict [(k_ "ports", VList [VDict [(k_ "name", VDict [(k_ "long", VStr $"Ten")])]; VDict [(k_ "name", VStr $"Fa")]])]]]).
Proof. vm_compute. reflexivity. Qed.
(** groups: the first fills the table, the second asks it; update writes the row into the record *)
Definition groups135 (update : string) : list string :=
  ["<group name='names.{{ short }}'>"; "alias {{ short }} is {{ long }}"; "</group>";
   ("<group name='ports' lookup=""'name', group='names'" ++ update ++ """>")%string; "port {{ name }} up"; "</group>"].
Definition gdata135 : list (val * str) := [(VStr (load131 ["alias Te is Ten"; "port Te up"; "port Fa up"]), $"_all_")].
Example C135_example_update : run135 (groups135 ", update=True") gdata135 =
  Ok (VList [VList [VDict [(k_ "names", VDict [(k_ "Te", VDict [(k_ "long", VStr $"Ten")])]);
    (k_ "ports", VList [VDict [(k_ "name", VStr $"Te"); (k_ "long", VStr $"Ten")]; VDict [(k_ "name", VStr $"Fa")]])]]]).
Proof. vm_compute. reflexivity. Qed.
Example C135_example_replace : run135 (groups135 "") gdata135 =
  Ok (VList [VList [VDict [(k_ "names", VDict [(k_ "Te", VDict [(k_ "long", VStr $"Ten")])]);
    (k_ "ports", VList [VDict [(k_ "name", VDict [(k_ "long", VStr $"Ten")])]; VDict [(k_ "name", VStr $"Fa")]])]]]).
Proof. vm_compute. reflexivity. Qed.
(** a template's own earlier results *)
Definition own135 : list string :=
  ["<group name='names.{{ short }}'>"; "alias {{ short }} is {{ long }}"; "</group>"; "<group name='ports'>"; "port {{ name | lookup(group='names') }} up"; "</group>"].
Definition odata135 : list (val * str) := [(VStr (load131 ["alias Te is Ten"]), $"_all_"); (VStr (load131 ["port Te up"]), $"_all_")].
Example C135_example_earlier_data : run135 own135 odata135 =
  Ok (VList [VList [VDict [(k_ "names", VDict [(k_ "Te", VDict [(k_ "long", VStr $"Ten")])])]; VDict [(k_ "ports", VDict [(k_ "name", VDict [(k_ "long", VStr $"Ten")])])]]]).
Proof. vm_compute. reflexivity. Qed.
(** matches are made before anything is saved: nothing of the same datum shows *)
Example C135_example_same_datum : run135 own135 gdata135 =
  Ok (VList [VList [VDict [(k_ "names", VDict [(k_ "Te", VDict [(k_ "long", VStr $"Ten")])]); (k_ "ports", VList [VDict [(k_ "name", VStr $"Te")]; VDict [(k_ "name", VStr $"Fa")]])]]]).
Proof. vm_compute. reflexivity. Qed.
(** with per_template nothing shows until all data are parsed *)
Example C135_example_per_template : run135 ("<template results='per_template'>" :: own135 ++ ["</template>"]) odata135 =
  Ok (VList [VDict [(k_ "names", VDict [(k_ "Te", VDict [(k_ "long", VStr $"Ten")])]); (k_ "ports", VDict [(k_ "name", VStr $"Te")])]]).
Proof. vm_compute. reflexivity. Qed.
