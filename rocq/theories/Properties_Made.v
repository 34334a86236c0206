(** * C123: what a group tag becomes.

    The lines of the text and those after the child groups, their expressions and variables,
    the lists they are put in and the default values: exactly those of SpecMade.v. *)
From Coq Require Import Lia.
From Verif Require Import PyBase DictFacts StrFacts Regex FormRegex Results Template Attributes MatchVar Compile SpecGroups SpecVariable SpecMade MadeFacts MadeFacts2 MadeFacts3 Properties_Isolation.
Local Open Scope string_scope.
Local Open Scope list_scope.

(** the lines of a text that are used *)
Theorem C123_used : forall text ls, used_lines text = ls <-> exists lss, Forall2 used (splitlines text) lss /\ ls = concat lss.
Proof. intros text ls. rewrite used_lines_eq. split; [intros <-; eexists; split; [now apply used_all|reflexivity]|]. intros (lss & H & ->). apply used_all in H. now subst. Qed.
Print Assumptions C123_used.
(** the expression of a line, and the defaults after it *)
Theorem C123_line : forall vars gdefault line d ox d',
  Compile.compile_line vars gdefault line d = Ok (ox, d') <-> exists ms, line_gives vars gdefault line d ms ox d'.
Proof. intros vars gdefault. exact (line_exact vars gdefault). Qed.
Print Assumptions C123_line.
(** a group: exactly the tags that the rules cover make one, and it is the one of the rules *)
Theorem C123_group : forall vars functions pathchar top path idx par e g,
  compile_group vars functions pathchar top path idx par e = Ok g <-> group_from vars functions pathchar top path idx par e g.
Proof. intros vars functions pathchar top path idx par e g. apply group_exact. Qed.
Print Assumptions C123_group.
Theorem C123_groups : forall vars functions pathchar es gs,
  compile_all vars functions pathchar 0 es = Ok gs <-> Forall2 (fun ie g => group_from vars functions pathchar true [] (fst ie) None (snd ie) g) (numbered es) gs.
Proof. exact groups_exact. Qed.
Print Assumptions C123_groups.
(** the default values of a group *)
Theorem C123_defaults : forall vars functions pathchar top path idx par tag attrs text cs tail id par' p a fs s kids default,
  compile_group vars functions pathchar top path idx par (Elem tag attrs text cs tail) = Ok (CG id par' p a fs s kids) ->
  default = match last_given attrs (t_ "default") with Some o => Some (variable_or_text vars o) | None => None end ->
  (forall e, default = Some (VDict e) -> NoDup (map fst e)) ->
  exists ms xss os, parts_give vars default (text :: filter (fun t => negb (blank t)) (map e_tail cs)) [] ms xss (gs_defaults s) /\
    Forall2 (fun v o => own_default vars (fst v) (snd v) o) (everyone ms) os /\
    (forall k v, dget (gs_defaults s) k = Some v <-> default_of default (everyone ms) os k v) /\
    (gs_hasdef s = true <-> default_only default s).
Proof.
  intros vars functions pathchar top path idx par tag attrs text cs tail id par' p a fs s kids default H Hd Hw. apply group_exact in H. inversion H as [? ? ? ? ? ? ? ? ? fss df a' id' ms first others d s' kids' H1 H2 H3 H4 H5 H6 H7 H8 H9 H10 H11]; subst s'. rewrite <- Hd in H2. subst df d.
  assert (N : text :: filter (fun t => negb (blank t)) (map e_tail cs) <> []) by discriminate. destruct (parts_default vars default _ ms (first :: others) (gs_defaults s) Hw N H7) as (os & Ho & K). exists ms, (first :: others), os. split; [exact H7|]. split; [exact Ho|]. split; [exact K|exact H10].
Qed.
Print Assumptions C123_defaults.
(** how the values of a variable are joined: the separator of the first [joinmatches] of its functions *)
Theorem C123_joins : forall vs n o, In (KS n, o) (joins_of vs) <->
  exists v l1 a l2, In (n, v) vs /\ v_funcs (vo_st v) = l1 ++ a :: l2 /\ Forall (fun b => at_name b <> t_ "joinmatches") l1 /\ at_name a = t_ "joinmatches" /\
    ((exists s args, at_args a = VStr s :: args /\ o = Some s) \/ ((forall s args, at_args a <> VStr s :: args) /\ o = None)).
Proof.
  intros vs n o. unfold joins_of. rewrite in_flat_map.
  assert (J : forall v r, join_sep v = Some r <-> exists l1 a l2, v_funcs (vo_st v) = l1 ++ a :: l2 /\ Forall (fun b => at_name b <> t_ "joinmatches") l1 /\ at_name a = t_ "joinmatches" /\
    ((exists s args, at_args a = VStr s :: args /\ r = Some s) \/ ((forall s args, at_args a <> VStr s :: args) /\ r = None))).
  { intros v r. unfold join_sep. induction (v_funcs (vo_st v)) as [|b l IH]; cbn [find].
    - split; [discriminate|]. intros (l1 & a & l2 & E & _). now destruct l1.
    - destruct (str_eqb (at_name b) $"joinmatches") eqn:E.
      + apply str_eqb_eq in E. split.
        * intros K. exists [], b, l. split; [reflexivity|]. split; [constructor|]. split; [exact E|]. destruct (at_args b) as [|[] args]; injection K as <-; first [left; eexists; eexists; split; reflexivity|right; split; [discriminate|reflexivity]].
        * intros (l1 & a & l2 & Hl & Hn & Ha & Hr). destruct l1 as [|c l1]; [|inversion Hn; subst; injection Hl as -> _; contradiction]. injection Hl as <- _. destruct Hr as [(s & args & -> & ->)|[Hr ->]]; [reflexivity|]. destruct (at_args b) as [|[] args]; try reflexivity. now destruct (Hr s args).
      + apply str_eqb_neq in E. rewrite IH. split.
        * intros (l1 & a & l2 & -> & Hn & Ha & Hr). exists (b :: l1), a, l2. split; [reflexivity|]. split; [now constructor|]. now split.
        * intros (l1 & a & l2 & Hl & Hn & Ha & Hr). destruct l1 as [|c l1]; [injection Hl as <- _; contradiction|]. injection Hl as -> ->. inversion Hn; subst. exists l1, a, l2. now repeat split. }
  split.
  - intros ([m v] & Hi & K). cbn [fst snd] in K. destruct (join_sep v) as [r|] eqn:E; [|now destruct K]. destruct K as [K|[]]. injection K as -> ->. apply J in E as (l1 & a & l2 & H). exists v, l1, a, l2. now split.
  - intros (v & l1 & a & l2 & Hi & H). exists (n, v). split; [exact Hi|]. cbn [fst snd]. assert (E : join_sep v = Some o) by (apply J; now exists l1, a, l2). rewrite E. now left.
Qed.
Print Assumptions C123_joins.

(** non-vacuity *)
Definition x123_show (r : res cgroup) :=
  do g <- r; match g with CG id _ _ _ _ s kids => Ok (id, map (fun x => (x_text x, x_action x)) (gs_start s), map x_text (gs_end s), map (fun x => map fst (x_vars x)) (gs_re s), gs_defaults s, gs_hasdef s, length kids) end.
Definition x123 (attrs : list (str * str)) : elem := Elem $"group" (($"name", $"g") :: attrs)
  (x115_lines [""; "name {{ n-1 }}"; "## comment"; "plain"; "{{ kind | set('k') }}"; "mtu {{ mtu | DIGIT | default(1500) }} "; "{{ ignore }} via {{ hop | joinmatches(',') }}"; "end {{ _end_ }}"; ""]%string)
  [Elem $"group" [($"name", $"k")] (x115_lines [""; "k {{ z }}"; ""]%string) [] (x115_lines [""; "speed {{ speed }}"; ""]%string)] [].
Example C123_ex : x123_show (compile_group [] [] $"." true [] 0 None (x123 [($"default", $"no")])) =
  Ok ($"g", 0, [($"\nname[ \t]+(?P<n_1>(?:\S+))[\t ]*(?=\n|\r\n)", AStart)], [$"\nend[\t ]*(?=\n|\r\n)"], [[$"mtu"]; [$"hop"]; [$"speed"]],
      [(KS $"n-1", VStr $"no"); (KS $"kind", VStr $"k"); (KS $"mtu", VInt 1500); (KS $"hop", VStr $"no"); (KS $"speed", VStr $"no")], true, 1).
Proof. vm_compute. reflexivity. Qed.
Example C123_ex_dict : x123_show (compile_group [(KS $"dd", VDict [(KS $"mtu", VInt 1); (KS $"x", VInt 2)])] [] $"." true [] 0 None (x123 [($"default", $"dd")])) =
  Ok ($"g", 0, [($"\nname[ \t]+(?P<n_1>(?:\S+))[\t ]*(?=\n|\r\n)", AStart)], [$"\nend[\t ]*(?=\n|\r\n)"], [[$"mtu"]; [$"hop"]; [$"speed"]],
      [(KS $"kind", VStr $"k"); (KS $"mtu", VInt 1); (KS $"x", VInt 2)], false, 1).
Proof. vm_compute. reflexivity. Qed.
Example C123_ex_from : exists g, group_from [] [] $"." true [] 0 None (x123 [($"default", $"no")]) g.
Proof. destruct (compile_group [] [] $"." true [] 0 None (x123 [($"default", $"no")])) as [g|] eqn:E; [exists g; now apply C123_group|vm_compute in E; discriminate]. Qed.
(** a group tag without text, or a child with nothing after it, makes none *)
Example C123_ex_none : compile_group [] [] $"." true [] 0 None (Elem $"group" [] [] [] []) = Raise AttributeError /\
  compile_group [] [] $"." true [] 0 None (Elem $"group" [] $"{{ x }}" [Elem $"group" [] $"{{ y }}" [] []] []) = Raise AttributeError.
Proof. vm_compute. split; reflexivity. Qed.
