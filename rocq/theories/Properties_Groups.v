(** * Properties_Groups: C118, C119. *)
From Verif Require Import PyBase DictFacts Regex Results Template Attributes FormRegex MatchVar MatchFuncs Parser Compile FuncTable Session Files Inputs OutputTags Load Run SpecTemplate SessionInputs SpecProgram SpecGroups GroupRefine GroupAttrs CompileFacts Properties_Template Properties_Program Properties_Isolation.
Local Open Scope string_scope.
Local Open Scope list_scope.

(** C118: a group tag without a name *)
Theorem C118_no_name : forall pc top path idx l, given l $"name" = [] ->
  attributes pc top path idx l =
  let p := if top then [$"_anonymous_*"] else path in
  {| ga_path := p; ga_name := join $"." p; ga_id := Some (join $"." p ++ $"._anonymous_", idx);
     ga_method := match last_given l $"method" with Some o => strip (lower o) | None => $"group" end;
     ga_in := if top then match last_given l $"input" with Some o => items o | None => [] end else [];
     ga_out := if top then match last_given l $"output" with Some o => items o | None => [] end else [] |}.
Proof. intros pc top path idx l. exact (attributes_none pc top idx path l). Qed.
Print Assumptions C118_no_name.
(** a group tag with a name that gives a path *)
Theorem C118_name : forall pc top path idx l n, given l $"name" = [n] -> join $"." (path_of_name pc path n) <> [] ->
  attributes pc top path idx l =
  let p := path_of_name pc path n in
  {| ga_path := p; ga_name := join $"." p; ga_id := Some (join $"." p, idx);
     ga_method := match last_given l $"method" with Some o => strip (lower o) | None => $"group" end;
     ga_in := if top then match last_given l $"input" with Some o => items o | None => [] end else [];
     ga_out := if top then match last_given l $"output" with Some o => items o | None => [] end else [] |}.
Proof. intros pc top path idx l n. exact (attributes_name pc top idx path l n). Qed.
Print Assumptions C118_name.
(** the group's functions and default: exactly when every attribute gives functions, and then these in the order of the attributes *)
Theorem C118_functions : forall vars names top l fa,
  func_attributes vars names top l = Ok fa <->
  exists fss, Forall2 (adds vars names top) l fss /\
    fa = {| fa_default := match last_given l $"default" with Some o => Some (variable_or_text vars o) | None => None end; fa_funcs := concat fss |}.
Proof. intros vars names top l fa. exact (functions_exact vars names top l {| fa_default := None; fa_funcs := [] |} fa). Qed.
Print Assumptions C118_functions.
(** the group that the loader makes has these attributes and functions, and its children know its path and identifier *)
Theorem C118_group : forall vars names pc top path idx par e id par' p a funcs s kids,
  compile_group vars names pc top path idx par e = Ok (CG id par' p a funcs s kids) ->
  par' = par /\ a = attributes pc top path idx (e_attrs e) /\ p = ga_path a /\ ga_id a = Some id /\
  (exists fss, Forall2 (adds vars names top) (e_attrs e) fss /\ funcs = concat fss) /\
  Forall2 (fun ic k => compile_group vars names pc false p (fst ic) (Some id) (snd ic) = Ok k) (combine (seq 0 (length (e_children e))) (e_children e)) kids.
Proof. exact group_made. Qed.
Print Assumptions C118_group.
Definition x118 : list (str * str) := [($"Method", $" Table "); ($"name", $"/a.b*"); ($"METHOD", $"group"); ($"input", $"x , y"); ($"contains", $"'v', 'w'"); ($"functions", $"f1"); ($"default", $"none")].
Definition x118v : dict := [(KS $"f1", VStr $"void | nothing | sformat(string='a', add_field='b')"); (KS $"none", VDict [(KS $"q", VInt 1)])].
Example C118_ex :
  attributes $"." true [] 3 x118 = {| ga_path := [$"a"; $"b*"]; ga_name := $"a.b*"; ga_id := Some ($"a.b*", 3); ga_method := $"group"; ga_in := [$"x"; $"y"]; ga_out := [] |} /\
  given x118 $"name" = [$"/a.b*"] /\ path_of_name $"." [] $"/a.b*" = [$"a"; $"b*"] /\
  match func_attributes x118v [$"void"; $"contains"; $"sformat"] true x118 with
  | Ok fa => map at_name (fa_funcs fa) = [$"contains"; $"void"; $"sformat"] /\ fa_default fa = Some (VDict [(KS $"q", VInt 1)])
  | Raise _ => False end.
Proof. vm_compute. repeat split. Qed.
(** names that are given twice (with different case) add up; one that gives nothing counts as none *)
Example C118_more_names : ga_path (attributes $"." true [] 0 [($"name", $"a"); ($"Name", $"b")]) = [$"a"; $"b"] /\ attributes $"." true [] 0 [($"name", [])] = attributes $"." true [] 0 [].
Proof. vm_compute. split; reflexivity. Qed.

(** C119: the groups of the complete program are those that C33 to C36 speak about: same identifiers, names, paths, methods, and the
    regexes of the same lines in the same lists; [names_of vars]: the names of the functions of a variable, chains replaced by their functions *)
Theorem C119_groups : forall vars names pc es gs, compile_all vars names pc 0 es = Ok gs -> Forall2 (group_of vars) (build_all (names_of vars) pc 0 es) gs.
Proof. intros vars names pc es gs. apply groups_refine. Qed.
Print Assumptions C119_groups.
(** so in the complete program the first line of a group, lines marked _start_ and all lines of a table are its start lines (and get a
    start action), lines marked _end_ its end lines, and the others, and all those after a child group, its normal lines *)
Theorem C119_roles : forall vars names pc top path idx par e id par' p a funcs s kids,
  compile_group vars names pc top path idx par e = Ok (CG id par' p a funcs s kids) ->
  let table := str_eqb (ga_method a) $"table" in
  (exists ends, with_role table EndLine (all_lines (names_of vars) e) ends /\ Forall2 (line_of vars) ends (gs_end s)) /\
  (exists normals, with_role table NormalLine (all_lines (names_of vars) e) normals /\ Forall2 (line_of vars) normals (gs_re s)) /\
  (exists starts made, with_role table StartLine (all_lines (names_of vars) e) starts /\ Forall2 made_start starts made /\ Forall2 (line_of vars) made (gs_start s)).
Proof.
  intros vars names pc top path idx par e id par' p a funcs s kids E table. apply group_refines in E. pose proof (C34_lists (names_of vars) pc top path idx par e) as K. cbv zeta in K.
  destruct (build (names_of vars) pc top path idx par e) as [id0 par0 nm p0 m ins outs L kids0] eqn:Eb. inversion E as [? ? ? ? ? ? ? ? HL Hk]; subst. cbn [gr_method gr_lists] in K. destruct K as (K1 & K2 & st & K3 & K4). destruct HL as (H1 & H2 & H3).
  split; [exists (l_end L); split; assumption|]. split; [exists (l_re L); split; assumption|]. exists st, (l_start L). repeat split; assumption.
Qed.
Print Assumptions C119_roles.
(** and a line of ordinary variables has the regular expression that C38, C39, C89 and C90 speak about *)
Theorem C119_regex : forall vars r x obj info, line_of vars r x ->
  Forall (described vars (rl_line r) obj info) (vars_in (rl_line r)) -> Forall (fun v => v_skipre (vo_st (obj v)) = false) (vars_in (rl_line r)) ->
  x_text x = line_regex info (rl_line r) /\ re_compile (line_regex info (rl_line r)) = Some (x_re x).
Proof.
  intros vars r x obj info (_ & _ & g & d & d' & x0 & E & Et & Er & _) H Hs. pose proof (line_compiled vars g (rl_line r) obj info d H Hs) as K. destruct (re_compile (line_regex info (rl_line r))) as [re|]; [|congruence].
  destruct K as (d2 & l & K & _). rewrite K in E. assert (Ex : x0 = {| x_text := line_regex info (rl_line r); x_re := re; x_vars := l; x_action := fold_left (step_action obj) (vars_in (rl_line r)) AAdd; x_isline := existsb (fun v => v_isline (vo_st (obj v))) (vars_in (rl_line r)) |}) by congruence.
  subst x0. split; [exact Et|]. now rewrite Er.
Qed.
Print Assumptions C119_regex.
(** a template's groups: those of its group tags, with the variables of its vars tags *)
Theorem C119_template : forall w order base kid tvars name e kids t,
  load_tree w order base kid tvars name e = Ok (kids, t) -> exists vars,
  (exists paths, rfold (parse_vars w) (filter (tagged vars_tags) (e_children e)) (tvars, []) = Ok (vars, paths)) /\
  Forall2 (group_of vars) (build_all (names_of vars) (attr_or (e_attrs e) $"pathchar" $".") 0 (filter (tagged group_tags) (e_children e))) (tp_groups t).
Proof.
  intros w order base kid tvars name e kids t E. unfold load_tree in E. cbv zeta in E. destruct (rfold (collect_tag w) _ _) as [ms|]; [|discriminate]. cbn [rbind] in E. destruct (rmapi _ _ _) as [ks|]; [|discriminate]. cbn [rbind] in E.
  destruct (rfold (parse_vars w) _ _) as [[vars paths]|] eqn:Ev; [|discriminate]. cbn [rbind] in E. destruct (rmap (tag_output w) _) as [outs|]; [|discriminate]. cbn [rbind] in E. destruct (rfold (parse_lookup w) _ _) as [lks|]; [|discriminate]. cbn [rbind] in E.
  destruct (compile_all _ _ _ _ _) as [gs|] eqn:Eg; [|discriminate]. cbn [rbind] in E. destruct (template_inputs _ _ _ _ _) as [ins|]; [|discriminate]. cbn [rbind] in E. destruct (group_outputs _ _ _) as [gouts glob]. injection E as <- <-. exists vars. split; [exists paths; reflexivity|]. cbn [tp_groups]. exact (C119_groups _ _ _ _ _ Eg).
Qed.
Print Assumptions C119_template.
(** a table with an end line and a child group *)
Definition x119 : elem := Elem $"group" [($"name", $"t"); ($"method", $"table")] (x115_lines [""; "a {{ x | chain('c') }}"; "b {{ y }} "; "## no"; "{{ _end_ }} stop"; ""]%string)
  [Elem $"group" [($"name", $"k")] (x115_lines [""; "k {{ z }}"; ""]%string) [] (x115_lines [""; "after {{ z | _start_ }}"; ""]%string)] [].
Definition x119v : dict := [(KS $"c", VStr $"upper | _line_")].
Example C119_ex :
  match compile_group x119v [] $"." true [] 0 None x119 with
  | Ok (CG id par p a fs s kids) => id = ($"t", 0) /\ map x_action (gs_start s) = [AStart; AStart] /\ map x_isline (gs_start s) = [true; false] /\ map x_action (gs_end s) = [AEnd] /\ map x_action (gs_re s) = [AStart] /\ length kids = 1
  | Raise _ => False end /\
  names_of x119v $" x | chain('c') " = [$"x"; $"upper"; $"_line_"] /\
  map (fun x => rl_line (snd x)) (all_lines (names_of x119v) x119) = [$"a {{ x | chain('c') }}"; $"b {{ y }}"; $"{{ _end_ }} stop"; $"after {{ z | _start_ }}"].
Proof. vm_compute. repeat split. Qed.
Definition x119l : str := $"mtu {{ y | DIGIT }} on {{ ignore }}".
Definition x119o (v : str) : varobj := match var_obj [] x119l v with Ok o => o | Raise _ => {| vo_text := []; vo_name := []; vo_orig := []; vo_dict := {| at_name := []; at_args := []; at_kwargs := [] |}; vo_attrs := []; vo_st := {| v_funcs := []; v_action := AAdd; v_isline := false; v_skipvar := false; v_skipre := false; v_res := []; v_defaults := [] |} |} end.
Definition x119i (v : str) : vinfo := match info_of [] (x119o v) with Ok i => i | Raise _ => {| vi_name := []; vi_ignore := None; vi_set := false; vi_res := [] |} end.
Example C119_regex_ex : Forall (described [] x119l x119o x119i) (vars_in x119l) /\ Forall (fun v => v_skipre (vo_st (x119o v)) = false) (vars_in x119l) /\ length (vars_in x119l) = 2 /\
  match Compile.compile_line [] None x119l [] with Ok (Some x, _) => x_text x = line_regex x119i x119l /\ x_text x = $"\nmtu[ \t]+(?P<y>(?:\d+))[ \t]+on[ \t]+\S+[\t ]*(?=\n|\r\n)" | _ => False end.
Proof.
  assert (E : vars_in x119l = [$" y | DIGIT "; $" ignore "]) by (vm_compute; reflexivity). rewrite E. split; [|split; [|split; [reflexivity|vm_compute; split; reflexivity]]].
  - repeat (apply Forall_cons; [split; [vm_compute; reflexivity|]; split; [split; [intros K; vm_compute in K; discriminate|vm_compute; reflexivity]|vm_compute; reflexivity]|]). constructor.
  - repeat (apply Forall_cons; [vm_compute; reflexivity|]). constructor.
Qed.
