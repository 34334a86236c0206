(** * Properties of template compilation: C33 - C36, C40, C88 *)
From Verif Require Import PyBase DictFacts StrFacts Regex Results Template SpecTemplate SessionFacts ExtendFacts TemplateFacts TemplateFacts2 TemplateFacts3.
Local Open Scope string_scope.
Local Open Scope list_scope.

(** ** C33: group paths compose *)
Theorem C33_every_tag_is_a_group : forall names_of pc p top path idx par e,
  (exists g, grp_at p (build names_of pc top path idx par e) = Some g) <-> (exists l, line_to p e = Some l).
Proof. exact at_defined. Qed.
Print Assumptions C33_every_tag_is_a_group.

(** the last absolute name on the way down starts the path, the names below it follow *)
Theorem C33_absolute_path : forall names_of pc, pc <> [] -> forall p e g above x below idx,
  Forall good_name (above ++ x :: below) ->
  (forall y, In y above -> ~ In $"_anonymous_" (segments pc y)) ->
  grp_at p (build names_of pc true [] idx None e) = Some g -> line_to p e = Some (above ++ x :: below) ->
  absolute x -> Forall (fun y => ~ absolute y) below ->
  gr_path g = segments pc x ++ concat (map (segments pc) below).
Proof. exact path_absolute. Qed.
Print Assumptions C33_absolute_path.

(** without absolute names: all the names; [_anonymous_*] first when the top group has none *)
Theorem C33_relative_path : forall names_of pc, pc <> [] -> forall p e g below idx,
  Forall good_name (e :: below) ->
  grp_at p (build names_of pc true [] idx None e) = Some g -> line_to p e = Some (e :: below) ->
  Forall (fun y => ~ absolute y) (e :: below) ->
  gr_path g = (match name_of e with Some _ => [] | None => [$"_anonymous_*"] end) ++ concat (map (segments pc) (e :: below)).
Proof. exact path_relative. Qed.
Print Assumptions C33_relative_path.

Definition xn : str -> list str := fun v => map strip (split $"|" (strip v)).
Definition xe (n : option str) (text : str) (cs : list elem) : elem :=
  Elem $"group" (match n with Some n => [($"name", n)] | None => [] end) text cs [].
(** a > (no name) > b.c  and  a > /x > y *)
Definition xtree : elem :=
  xe (Some $"a") $"one {{ x }}" [xe None $"two {{ y }}" [xe (Some $"b.c") $"three {{ z }}" []]; xe (Some $"/x") [] [xe (Some $"y*") [] []]].
Example C33_example_relative : exists g, grp_at [0; 0] (build xn $"." true [] 0 None xtree) = Some g /\ gr_path g = [$"a"; $"b"; $"c"] /\
  line_to [0; 0] xtree = Some (xtree :: [xe None $"two {{ y }}" [xe (Some $"b.c") $"three {{ z }}" []]; xe (Some $"b.c") $"three {{ z }}" []]) /\
  Forall good_name [xtree; xe None $"two {{ y }}" [xe (Some $"b.c") $"three {{ z }}" []]; xe (Some $"b.c") $"three {{ z }}" []].
Proof.
  eexists. split; [vm_compute; reflexivity|]. split; [vm_compute; reflexivity|]. split; [vm_compute; reflexivity|].
  repeat (apply Forall_cons || apply Forall_nil); unfold good_name; vm_compute; first [now left|right; eexists; split; [reflexivity|discriminate]].
Qed.
Example C33_example_absolute : exists g, grp_at [1; 0] (build xn $"." true [] 0 None xtree) = Some g /\ gr_path g = [$"x"; $"y*"] /\ absolute (xe (Some $"/x") [] [xe (Some $"y*") [] []]).
Proof. eexists. split; [vm_compute; reflexivity|]. split; [vm_compute; reflexivity|]. exists $"x". reflexivity. Qed.
Example C33_example_anonymous : gr_path (build xn $"." true [] 0 None (xe None $"two {{ y }}" [])) = [$"_anonymous_*"].
Proof. vm_compute. reflexivity. Qed.

(** ** C34: every line has exactly one role *)
Theorem C34_one_role : forall table tail i r,
  exists k, has_role table tail i r k /\ forall k', has_role table tail i r k' -> k' = k.
Proof.
  intros table tail i r. destruct (role_total table tail i r) as [k Hk]. exists k. split; [exact Hk|].
  intros k' H. eapply role_unique; eassumption.
Qed.
Print Assumptions C34_one_role.

(** a group's three lists are its lines of each role, in order; start lines get a start action *)
Theorem C34_lists : forall names_of pc top path idx par e,
  let g := build names_of pc top path idx par e in
  let table := str_eqb (gr_method g) $"table" in
  with_role table EndLine (all_lines names_of e) (l_end (gr_lists g)) /\
  with_role table NormalLine (all_lines names_of e) (l_re (gr_lists g)) /\
  exists starts, with_role table StartLine (all_lines names_of e) starts /\ Forall2 made_start starts (l_start (gr_lists g)).
Proof.
  intros. unfold g, table. rewrite (build_lists names_of pc top path idx par e). cbn [l_end l_re l_start].
  repeat split; try (now apply select_spec). eexists. split; [now apply select_spec|].
  induction (select _ StartLine _) as [|r l IH]; [constructor|]. constructor; [apply as_start_spec|exact IH].
Qed.
Print Assumptions C34_lists.

(** what marks a line: its variables' words *)
Theorem C34_variable_marks : forall names_of blank v n fs, names_of v = n :: fs ->
  cv_name (compile_var names_of blank v) = sanitize n /\
  decided (sanitize n :: fs) (sanitize n) (cv_action (compile_var names_of blank v)) /\
  (cv_isline (compile_var names_of blank v) = true <-> In $"_line_" (sanitize n :: fs)) /\
  (cv_skip (compile_var names_of blank v) = true <-> blank = true /\ In $"set" (sanitize n :: fs)).
Proof. exact compile_var_spec. Qed.
Print Assumptions C34_variable_marks.

Theorem C34_line_marks : forall names_of line,
  let cs := map (compile_var names_of (blank_of line)) (vars_in line) in
  match compile_line names_of line with
  | None => Exists (fun c => cv_skip c = true) cs
  | Some r => ~ Exists (fun c => cv_skip c = true) cs /\ rl_line r = line /\ line_decided cs (rl_action r) /\
              (rl_isline r = true <-> Exists (fun c => cv_isline c = true) cs)
  end.
Proof. exact compile_line_spec. Qed.
Print Assumptions C34_line_marks.

Definition nlc : str := [nl].
Definition xlines : elem :=
  xe (Some $"a") ($"interface {{ x }}" ++ nlc ++ $"interface2 {{ x | _start_ }}" ++ nlc ++ $" mtu {{ mtu }}" ++ nlc ++ $"## comment {{ c }}" ++ nlc ++ $"{{ v | set(a) }}" ++ nlc ++ $"! {{ _end_ }}")
    [Elem $"group" [] $"k {{ k }}" [] ($"after {{ z | _start_ }}" ++ nlc)].
Example C34_example : let g := build xn $"." true [] 0 None xlines in
  map rl_line (l_start (gr_lists g)) = [$"interface {{ x }}"; $"interface2 {{ x | _start_ }}"] /\
  map rl_action (l_start (gr_lists g)) = [AStart; AStart] /\
  map rl_line (l_end (gr_lists g)) = [$"! {{ _end_ }}"] /\
  map rl_line (l_re (gr_lists g)) = [$" mtu {{ mtu }}"; $"{{ v | set(a) }}"; $"after {{ z | _start_ }}"].
Proof. vm_compute. repeat split. Qed.
Definition xn2 (v : str) : list str := map (fun w => match split $"(" w with h :: _ => h | [] => [] end) (xn v).
Example C34_example_set : map rl_line (l_re (gr_lists (build xn2 $"." true [] 0 None xlines))) = [$" mtu {{ mtu }}"; $"after {{ z | _start_ }}"].
Proof. vm_compute. reflexivity. Qed.

(** ** C35: group identifiers *)
(** two top groups with one name, and children with one name *)
Definition xsame : list elem :=
  [xe (Some $"a") $"one {{ x }}" [xe (Some $"b") $"two {{ y }}" []]; xe (Some $"a") $"three {{ x }}" [xe (Some $"b") $"four {{ y }}" []]].
(** the identifier of the group at position [q :: p] (top group number q, then its children down):
    its path joined by dots, marked when it has no name, and its place among its siblings *)
Theorem C35_identifier : forall names_of pc es q p e gq g l x, pc <> [] -> Forall good_name (l ++ [x]) ->
  nth_error es q = Some e -> line_to p e = Some (l ++ [x]) ->
  nth_error (build_all names_of pc 0 es) q = Some gq -> grp_at p gq = Some g ->
  gr_id g = (join $"." (gr_path g) ++ match name_of x with Some _ => [] | None => $"._anonymous_" end, last (q :: p) 0).
Proof.
  intros names_of pc es q p e gq g l x Hpc Hg He Hl Hq Hp.
  assert (K : forall es k q, nth_error es q = Some e -> nth_error (build_all names_of pc k es) q = Some (build names_of pc true [] (k + q) None e)).
  { clear. induction es as [|y es IH]; intros k [|q] H; try discriminate; cbn [nth_error build_all] in *.
    - injection H as ->. now rewrite Nat.add_0_r.
    - rewrite (IH (S k) q H). now rewrite Nat.add_succ_r. }
  rewrite (K es 0 q He) in Hq. injection Hq as <-. cbn [Nat.add] in Hp.
  rewrite (at_id names_of pc Hpc p true [] q None e g l x Hg Hp Hl). now rewrite last_shift.
Qed.
Print Assumptions C35_identifier.
(** so two groups have the same identifier exactly when the texts of their paths and their places among
    their siblings are the same; with names on both: *)
Theorem C35_same_id : forall names_of pc es q1 p1 q2 p2 e1 e2 gq1 gq2 g1 g2 l1 l2 x1 x2, pc <> [] ->
  Forall good_name (l1 ++ [x1]) -> Forall good_name (l2 ++ [x2]) ->
  nth_error es q1 = Some e1 -> line_to p1 e1 = Some (l1 ++ [x1]) -> nth_error (build_all names_of pc 0 es) q1 = Some gq1 -> grp_at p1 gq1 = Some g1 ->
  nth_error es q2 = Some e2 -> line_to p2 e2 = Some (l2 ++ [x2]) -> nth_error (build_all names_of pc 0 es) q2 = Some gq2 -> grp_at p2 gq2 = Some g2 ->
  name_of x1 <> None -> name_of x2 <> None ->
  (gr_id g1 = gr_id g2 <-> join $"." (gr_path g1) = join $"." (gr_path g2) /\ last (q1 :: p1) 0 = last (q2 :: p2) 0).
Proof.
  intros. assert (K1 := C35_identifier names_of pc es q1 p1 e1 gq1 g1 l1 x1). assert (K2 := C35_identifier names_of pc es q2 p2 e2 gq2 g2 l2 x2).
  rewrite K1, K2 by assumption. destruct (name_of x1); [|congruence]. destruct (name_of x2); [|congruence]. rewrite !app_nil_r.
  split; [intros E; injection E; auto|intros [E1 E2]; congruence].
Qed.
Print Assumptions C35_same_id.
(** groups with one parent have different identifiers, and know their parent *)
Theorem C35_siblings : forall names_of pc p i j top path idx par e g g1 g2,
  grp_at p (build names_of pc top path idx par e) = Some g ->
  nth_error (gr_children g) i = Some g1 -> nth_error (gr_children g) j = Some g2 ->
  gr_parent g1 = Some (gr_id g) /\ (i <> j -> gr_id g1 <> gr_id g2).
Proof.
  intros names_of pc p i j top path idx par e g g1 g2 H H1 H2.
  destruct (at_parent names_of pc p i top path idx par e g g1 H H1) as [P1 I1].
  destruct (at_parent names_of pc p j top path idx par e g g2 H H2) as [_ I2].
  split; [exact P1|]. intros Hn E. apply Hn. rewrite <- I1, <- I2, E. reflexivity.
Qed.
Print Assumptions C35_siblings.
Lemma build_all_nth names_of pc es : forall k i g, nth_error (build_all names_of pc k es) i = Some g -> snd (gr_id g) = k + i /\ gr_parent g = None.
Proof.
  induction es as [|e es IH]; intros k [|i] g H; try discriminate; cbn [build_all nth_error] in H.
  - injection H as <-. rewrite build_index, build_parent. auto.
  - destruct (IH (S k) i g H) as [H1 H2]. split; [lia|exact H2].
Qed.
Theorem C35_tops : forall names_of pc es i j g h,
  nth_error (build_all names_of pc 0 es) i = Some g -> nth_error (build_all names_of pc 0 es) j = Some h ->
  gr_parent g = None /\ (i <> j -> gr_id g <> gr_id h).
Proof.
  intros names_of pc es i j g h H1 H2. destruct (build_all_nth names_of pc es 0 i g H1) as [I1 P1]. destruct (build_all_nth names_of pc es 0 j h H2) as [I2 _].
  split; [exact P1|]. intros Hn E. apply Hn. cbn in I1, I2. rewrite <- I1, <- I2, E. reflexivity.
Qed.
Print Assumptions C35_tops.
Example C35_example : exists g, nth_error (build_all xn $"." 0 xsame) 1 = Some g /\ gr_id g = ($"a", 1).
Proof. eexists. split; vm_compute; reflexivity. Qed.
Example C35_example2 : forall g h, (exists t, nth_error (build_all xn $"." 0 xsame) 0 = Some t /\ grp_at [0] t = Some g) ->
  (exists t, nth_error (build_all xn $"." 0 xsame) 1 = Some t /\ grp_at [0] t = Some h) -> gr_id g = ($"a.b", 0) /\ gr_id h = ($"a.b", 0).
Proof.
  intros g h (t & Ht & Hg) (u & Hu & Hh). vm_compute in Ht, Hu. injection Ht as <-. injection Hu as <-.
  vm_compute in Hg, Hh. injection Hg as <-. injection Hh as <-. split; reflexivity.
Qed.
(** identifiers are not unique: children of different parents *)
Theorem C35_limits : ~ (forall names_of pc es i j p q g h, pc <> [] ->
  (exists gi, nth_error (build_all names_of pc 0 es) i = Some gi /\ grp_at p gi = Some g) ->
  (exists gj, nth_error (build_all names_of pc 0 es) j = Some gj /\ grp_at q gj = Some h) ->
  (i, p) <> (j, q) -> gr_id g <> gr_id h).
Proof.
  intros H. assert (K := H xn $"." xsame 0 1 [0] [0]). 
  eapply K; [discriminate| | |congruence|].
  - eexists. split; vm_compute; reflexivity.
  - eexists. split; vm_compute; reflexivity.
  - vm_compute. reflexivity.
Qed.
Print Assumptions C35_limits.

(** ** C36: outputs of groups *)
(** every group's list of names is settled: see [settled] in SpecTemplate.v; and the
    template keeps, in their order, the outputs no group holds *)
Theorem C36_settled : forall (O : Type) (oname : O -> str) outs groups, NoDup (map oname outs) ->
  Forall2 (settled oname outs) groups (fst (group_outputs oname groups outs)) /\
  snd (group_outputs oname groups outs) =
  filter (fun o => negb (existsb (holds_output oname (oname o)) (fst (group_outputs oname groups outs)))) outs.
Proof. exact @group_outputs_spec. Qed.
Print Assumptions C36_settled.
(** that settles the result: at most one list is settled for given names *)
Theorem C36_exact : forall (O : Type) (oname : O -> str) outs ns r r', NoDup (map oname outs) ->
  settled oname outs ns r -> settled oname outs ns r' -> r' = r.
Proof. intros O oname outs ns r r' Hn H. exact (settled_fun oname outs ns r Hn H r'). Qed.
Print Assumptions C36_exact.
(** when at most the last name of every list is unknown: the group holds exactly the outputs
    of the known names, in the order of the names *)
Definition resolved {O} (oname : O -> str) (outs : list O) (names : list str) (r : list (@gout O)) : Prop :=
  exists os, r = map Found os /\ map oname os = filter (fun n => in_strs n (map oname outs)) names /\ incl os outs.
Theorem C36_known : forall (O : Type) (oname : O -> str) outs groups, NoDup (map oname outs) ->
  Forall (fun names => Forall (known oname outs) (removelast names)) groups ->
  Forall2 (resolved oname outs) groups (fst (group_outputs oname groups outs)).
Proof.
  intros O oname outs groups Hn Hk. destruct (group_outputs_spec oname outs groups Hn) as [HF _]. revert Hk.
  induction HF as [|ns r gs rs Hs _ IH]; intros Hk; [constructor|]. inversion Hk as [|? ? Hk1 Hk2]; subst. constructor; [|auto]. clear - Hs Hk1.
  assert (Kn : forall n, In n (map oname outs) <-> known oname outs n).
  { intros n. rewrite in_map_iff. unfold known. firstorder. }
  induction Hs as [|n ns o r Ho Hon Hs IH|n Hu|n m ns r Hu Hs IH].
  - exists []. repeat split. intros ? [].
  - destruct IH as (os & -> & E & I); [destruct ns; [constructor|now inversion Hk1]|]. exists (o :: os). repeat split.
    + cbn [map filter]. rewrite Hon, E. assert (T : in_strs n (map oname outs) = true); [|now rewrite T].
      apply in_strs_In, Kn. exists o. auto.
    + intros x [<-|Hx]; auto.
  - exists []. repeat split; [|intros ? []]. cbn [filter map]. destruct (in_strs n (map oname outs)) eqn:E; [|reflexivity].
    apply in_strs_In, Kn in E. contradiction.
  - exfalso. apply Hu. now inversion Hk1.
Qed.
Print Assumptions C36_known.
Example C36_example : group_outputs (fun o : str => o) [[$"b"; $"a"]; [$"a"; $"x"]] [$"a"; $"b"; $"c"] =
  ([[Found $"b"; Found $"a"]; [Found $"a"]], [$"c"]) /\ NoDup (map (fun o : str => o) [$"a"; $"b"; $"c"]) /\
  Forall (fun names => Forall (known (fun o : str => o) [$"a"; $"b"; $"c"]) (removelast names)) [[$"b"; $"a"]; [$"a"; $"x"]].
Proof.
  split; [vm_compute; reflexivity|]. split.
  - repeat constructor; cbn [map In]; intuition discriminate.
  - repeat (apply Forall_cons || apply Forall_nil); unfold known; [exists $"b"|exists $"a"]; (split; [|reflexivity]); cbn; auto.
Qed.
(** the name after an unknown one stays a name, and its output stays with the template *)
Theorem C36_limits : ~ (forall (O : Type) (oname : O -> str) outs groups, NoDup (map oname outs) ->
  Forall2 (resolved oname outs) groups (fst (group_outputs oname groups outs))).
Proof.
  intros H. specialize (H str (fun o => o) [$"a"] [[$"x"; $"a"]]).
  assert (ND : NoDup (map (fun o : str => o) [$"a"])) by (repeat constructor; intros []).
  specialize (H ND). vm_compute in H. inversion H as [|? ? ? ? (os & E & _ & _) _]; subst.
  destruct os as [|o os]; discriminate.
Qed.
Print Assumptions C36_limits.
Example C36_left : group_outputs (fun o : str => o) [[$"x"; $"a"; $"b"]] [$"a"; $"b"; $"c"] =
  ([[ByName $"a"; Found $"b"]], [$"a"; $"c"]).
Proof. vm_compute. reflexivity. Qed.

(** ** C40: extend filters *)
Theorem C40_filters : forall content tag top l, attr (e_attrs tag) $"template" <> None ->
  (filter_extend content tag top = l <-> chosen (if top then kept_top tag else kept_nested tag) 0 content l).
Proof. exact filter_extend_chosen. Qed.
Print Assumptions C40_filters.
Definition xtag (t : str) (n : option str) : elem := Elem t (match n with Some n => [($"name", n)] | None => [] end) [] [] [].
Definition xcontent : list elem :=
  [xtag $"vars" (Some $"v1"); xtag $"group" (Some $"g0"); xtag $"input" (Some $"i"); xtag $"g" None; xtag $"group" (Some $"g2"); xtag $"lookup" (Some $"l")].
Definition xext : elem := Elem $"extend" [($"template", $"t.txt"); ($"groups", $"g0, 1"); ($"lookups", $"other")] [] [] [].
Example C40_example : attr (e_attrs xext) $"template" <> None /\
  filter_extend xcontent xext true = [xtag $"vars" (Some $"v1"); xtag $"group" (Some $"g0"); xtag $"input" (Some $"i"); xtag $"g" None].
Proof. split; [discriminate|vm_compute; reflexivity]. Qed.
Example C40_example_nested : filter_extend xcontent xext false = [xtag $"group" (Some $"g0"); xtag $"g" None].
Proof. vm_compute. reflexivity. Qed.

(** ** C88: every extend tag is expanded, if the template is [orderly] *)
Definition tag_path (c : elem) : str := match attr (e_attrs c) $"template" with Some p => p | None => [] end.
Definition xldr (c : elem) : res ((str * list elem) + str) :=
  if str_eqb (tag_path c) $"text" then Ok (inr $"one {{ x }}") else Raise FileNotFoundError.
Definition xe2 : elem := Elem $"extend" [($"template", $"text")] [] [] [].
Theorem C88_expanded : forall load fuel text cs text' cs',
  orderly load true cs -> handle load fuel true true text cs = Ok (text', cs') -> Forall expanded cs'.
Proof. intros load fuel text cs text' cs' Ho H. exact (proj1 (handle_good load fuel true true text cs text' cs' Ho H)). Qed.
Print Assumptions C88_expanded.
(** loading a template without extend tags does not change it *)
Theorem C88_nothing_to_do : forall load fuel top text cs text' cs',
  Forall expanded cs -> handle load fuel top true text cs = Ok (text', cs') -> text' = text /\ cs' = cs.
Proof. intros load fuel top text cs text' cs' Hf H. apply handle_keeps in H; [|exact Hf]. split; congruence. Qed.
Print Assumptions C88_nothing_to_do.
(** a group with an extend of another template inside, which itself extends one with text only *)
Definition xldr2 (c : elem) : res ((str * list elem) + str) :=
  if str_eqb (tag_path c) $"text" then Ok (inr $"one {{ x }}")
  else if str_eqb (tag_path c) $"tags" then Ok (inl ([], [Elem $"group" [($"name", $"a")] $"A" [Elem $"extend" [($"template", $"text")] [] [] []] []; xtag $"vars" None]))
  else Raise FileNotFoundError.
Definition xe3 : elem := Elem $"extend" [($"template", $"tags")] [] [] [].
Example C88_example2 : orderly xldr2 true [xe3; xe3] /\
  handle xldr2 9 true true [] [xe3; xe3] =
  Ok ([], [Elem $"group" [($"name", $"a")] $"Aone {{ x }}" [] []; xtag $"vars" None; Elem $"group" [($"name", $"a")] $"Aone {{ x }}" [] []; xtag $"vars" None]).
Proof.
  split; [|vm_compute; reflexivity].
  assert (Hc : forall text content, xldr2 xe3 = Ok (inl (text, content)) ->
    content = [Elem $"group" [($"name", $"a")] $"A" [Elem $"extend" [($"template", $"text")] [] [] []] []; xtag $"vars" None]).
  { intros text content H. vm_compute in H. injection H as _ <-. reflexivity. }
  constructor.
  - intros l1 c d l2 H _. left. assert (c = xe3) as ->.
    { assert (Hi : In c [xe3; xe3]) by (rewrite H; apply in_or_app; right; now left). destruct Hi as [<-|[<-|[]]]; reflexivity. }
    eexists. eexists. exists (xtag $"vars" None). split; [vm_compute; reflexivity|]. split; [right; left; reflexivity|discriminate].
  - intros c [<-|[<-|[]]] H; discriminate.
  - intros c text content Hi _ Hl. assert (c = xe3) as -> by (destruct Hi as [<-|[<-|[]]]; reflexivity). apply Hc in Hl as ->.
    constructor.
    + intros l1 c d l2 H He. assert (Hi2 : In c [Elem $"group" [($"name", $"a")] $"A" [Elem $"extend" [($"template", $"text")] [] [] []] []; xtag $"vars" None]).
      { change (filter_extend _ xe3 true) with [Elem $"group" [($"name", $"a")] $"A" [Elem $"extend" [($"template", $"text")] [] [] []] []; xtag $"vars" None] in H. rewrite H. apply in_or_app; right; now left. }
      destruct Hi2 as [<-|[<-|[]]]; discriminate.
    + intros c [<-|[<-|[]]] H; [|discriminate]. constructor.
      * intros l1 c d l2 H'. destruct l1 as [|? [|? ?]]; discriminate.
      * intros c [<-|[]] H'; discriminate.
      * intros c text' content [<-|[]] _ H'. vm_compute in H'. discriminate.
    + intros c text' content [<-|[<-|[]]] H; discriminate.
Qed.

(** an extend that brings text only makes the next one be passed over *)
Theorem C88_limits : ~ (forall load fuel text cs text' cs',
  handle load fuel true true text cs = Ok (text', cs') -> Forall (fun c => e_tag c <> $"extend") cs').
Proof.
  intros H. assert (K := H xldr 5 [nl] [xe2; xe2]). 
  destruct (handle xldr 5 true true [nl] [xe2; xe2]) as [[t' c']|] eqn:E; [|vm_compute in E; discriminate].
  specialize (K t' c' eq_refl). vm_compute in E. injection E as <- <-. inversion K; subst. apply H2. reflexivity.
Qed.
Print Assumptions C88_limits.
(** the first of two was expanded, the second is still there *)
Example C88_example : handle xldr 5 true true [nl] [xe2; xe2] = Ok (nl :: $"one {{ x }}", [xe2]).
Proof. vm_compute. reflexivity. Qed.
