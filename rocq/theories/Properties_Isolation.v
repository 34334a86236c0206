(** * Properties_Isolation: C115. *)
From Coq Require Import Lia Sorting.Sorted Sorting.Permutation.
From Verif Require Import PyBase SessionFacts SessionInputs Results Template Attributes MatchVar MatchFuncs GroupFuncs Parser Compile FuncTable Session Files Inputs Load Run SpecProgram SpecIsolation Isolation Properties_Program.
Local Open Scope string_scope.
Local Open Scope list_scope.

(** C115: the templates of a template text without input tags, outputs of the whole template and recording functions parse texts independently: parsing them together
    succeeds exactly when parsing each by itself does, and gives, template by template, the results of the texts in the order of their first addition *)
Theorem C115_isolated : forall clock k2i order w base vars text ts ds R,
  lists_ranges order -> load_template w order base vars text = Ok ts ->
  Forall (fun t => tp_method t = $"per_input") ts -> Forall no_inputs ts -> Forall no_outputs ts -> Forall records_nothing ts -> Forall (data_text w) ds ->
  let run := fun ds => ttp_result clock k2i order w base vars text (map (fun d => (VStr d, $"_all_")) ds) $"list" in
  run ds = Ok R <->
  exists rows, Forall2 (fun d row => run [d] = Ok (VList (map (fun v => VList [v]) row))) (firsts ds) rows /\
               R = VList (map (fun i => VList (column rows i)) (seq 0 (length ts))).
Proof. intros clock k2i order w base vars text ts ds R Ho Hl Hm Hi Hu Hr Hd. exact (isolated clock k2i order w Ho base vars text ts Hl Hm Hi Hu Hr ds R Hd). Qed.
Print Assumptions C115_isolated.
(** what follows for one template: a further, new text appends its result and changes no other *)
Theorem C115_append : forall clock k2i order w base vars text t ds d vs vs',
  lists_ranges order -> load_template w order base vars text = Ok [t] ->
  tp_method t = $"per_input" -> no_inputs t -> no_outputs t -> records_nothing t -> Forall (data_text w) (ds ++ [d]) -> ~ In d ds ->
  let run := fun ds => ttp_result clock k2i order w base vars text (map (fun d => (VStr d, $"_all_")) ds) $"list" in
  run ds = Ok (VList [VList vs]) -> run (ds ++ [d]) = Ok (VList [VList vs']) <-> exists v, vs' = vs ++ [v] /\ run [d] = Ok (VList [VList [v]]).
Proof.
  intros clock k2i order w base vars text t ds d vs vs' Ho Hl Hm Hi Hu Hr Hd Hn run E.
  assert (Hds : Forall (data_text w) ds) by (apply Forall_app in Hd; tauto).
  pose proof (fun ds R Hd => isolated clock k2i order w Ho base vars text [t] Hl (Forall_cons _ Hm (Forall_nil _)) (Forall_cons _ Hi (Forall_nil _)) (Forall_cons _ Hu (Forall_nil _)) (Forall_cons _ Hr (Forall_nil _)) ds R Hd) as I. fold run in I. cbn [length seq map] in I.
  assert (Ef : firsts (ds ++ [d]) = firsts ds ++ [d]).
  { unfold firsts. rewrite rev_app_distr. cbn [rev app nodup]. destruct (in_dec _ d (rev ds)) as [K|K]; [exfalso; apply Hn; now apply in_rev|reflexivity]. }
  unfold run in E. apply (proj1 (I _ _ Hds)) in E as (rows & H1 & E). assert (Evs : vs = column rows 0) by congruence. clear E. unfold run at 1. rewrite (I _ _ Hd). rewrite Ef. split.
  - intros (rows' & H & E). apply Forall2_app_inv_l in H as (ra & rb & Ha & Hb & ->). inversion Hb as [|? row ? ? Hrow Hnil]; subst. inversion Hnil; subst.
    assert (ra = rows). { clear - Ha H1. revert rows H1. induction Ha as [|x r l rs Hx _ IH]; intros rows H1; inversion H1 as [|? r' ? rs' Hx' H1']; subst; [reflexivity|]. f_equal; [|now apply IH]. rewrite Hx in Hx'. assert (K : map (fun v => VList [v]) r = map (fun v => VList [v]) r') by congruence. clear - K. revert r' K. induction r as [|v r IH]; intros [|v' r'] K; try discriminate; [reflexivity|]. cbn [map] in K. f_equal; [congruence|]. apply IH. congruence. }
    subst ra. destruct row as [|v [|v2 row]].
    + exfalso. pose proof (proj1 (I [d] _ (Forall_cons _ (Forall_inv (proj2 (proj1 (Forall_app _ _ _) Hd))) (Forall_nil _))) Hrow) as (? & ? & K). discriminate K.
    + exists v. split; [|exact Hrow]. unfold column in *. rewrite map_app in E. cbn [map nth] in E. congruence.
    + exfalso. pose proof (proj1 (I [d] _ (Forall_cons _ (Forall_inv (proj2 (proj1 (Forall_app _ _ _) Hd))) (Forall_nil _))) Hrow) as (? & ? & K). discriminate K.
  - intros (v & -> & Hv). exists (rows ++ [[v]]). split; [apply Forall2_app; [exact H1|]; constructor; [exact Hv|constructor]|]. unfold column. rewrite map_app. cbn [map nth]. now rewrite Evs.
Qed.
Print Assumptions C115_append.
(** a set that is listed in ascending order lists the ranges in their order *)
Lemma sort_set_ranges : lists_ranges sort_set.
Proof.
  intros l n H. assert (K : forall x, In x (sort_set l) <-> x < n) by (intros x; rewrite <- H; apply sort_set_in). pose proof (sort_set_sorted l) as S. revert K S. generalize (sort_set l). clear - n.
  assert (G : forall l i m, (forall x, In x l <-> i <= x < i + m) -> StronglySorted lt l -> l = seq i m).
  { induction l as [|a l IH]; intros i m H S.
    - destruct m; [reflexivity|]. exfalso. apply (proj2 (H i)). lia.
    - apply StronglySorted_inv in S as [S1 S2]. rewrite Forall_forall in S2. destruct m; [exfalso; pose proof (proj1 (H a) (or_introl eq_refl)); lia|]. cbn [seq].
      assert (a = i). { destruct (proj2 (H i) ltac:(lia)) as [E|E]; [exact E|]. apply S2 in E. pose proof (proj1 (H a) (or_introl eq_refl)). lia. } subst a. f_equal. apply IH; [|exact S1].
      intros x. split; [intros Hx; pose proof (S2 x Hx); pose proof (proj1 (H x) (or_intror Hx)); lia|]. intros Hx. destruct (proj2 (H x) ltac:(lia)) as [E|E]; [lia|exact E]. }
  intros l K S. apply G; [|exact S]. intros x. rewrite K. lia.
Qed.
(** two templates with functions, two texts *)
Definition x115_lines (l : list string) : str := join [nl] (map list_ascii_of_string l).
Definition x115t : str := x115_lines ["<vars>v = ""-""</vars><template name=""a""><group name=""hosts*"" contains=""y"">";"host {{ x | upper }}"; " mtu {{ y | to_int }}";"</group></template><template name=""b""><group>";"mtu {{ n | _start_ | isdigit }}";"</group></template>"]%string.
Definition x115d : list str := [x115_lines ["host a"; " mtu 2"; "host b"]; x115_lines ["mtu 3"; "host c"]; x115_lines ["host a"; " mtu 2"; "host b"]]%string.
Example C115_ex : exists ts, load_template no_files sort_set [] [] x115t = Ok ts /\ lists_ranges sort_set /\ Forall (fun t => tp_method t = $"per_input") ts /\ Forall no_inputs ts /\ Forall no_outputs ts /\ Forall records_nothing ts /\ Forall (data_text no_files) x115d /\
  length ts = 2 /\ flat_map match_functions (flat_map tp_groups ts) <> [] /\ flat_map group_functions (flat_map tp_groups ts) <> [] /\
  ttp_result (fun _ => None) false sort_set no_files [] [] x115t (map (fun d => (VStr d, $"_all_")) x115d) $"list" =
  Ok (VList [VList [VDict [(KS $"hosts", VList [VDict [(KS $"y", VInt 2); (KS $"x", VStr $"A")]])]; VDict []]; VList [VDict []; VList [VDict [(KS $"n", VStr $"3")]]]]).
Proof.
  destruct (load_template no_files sort_set [] [] x115t) as [ts|] eqn:E; [|vm_compute in E; discriminate E]. exists ts. split; [reflexivity|]. split; [exact sort_set_ranges|].
  vm_compute in E. injection E as <-. split; [repeat constructor|]. split; [repeat (apply Forall_cons; [split; [reflexivity|repeat constructor]|]); constructor|]. split; [repeat constructor|].
  split. { repeat (apply Forall_cons; [unfold records_nothing; apply Forall_cons; [split; cbn; repeat (apply Forall_cons; [intuition discriminate|]); constructor|constructor]|]); constructor. }
  split. { repeat (apply Forall_cons; [split; [reflexivity|split; [reflexivity|split; [reflexivity|intros ? K; discriminate K]]]|]). constructor. }
  split; [reflexivity|]. split; [cbn; discriminate|]. split; [cbn; discriminate|]. vm_compute. reflexivity.
Qed.
(** with a function that records, a text sees what an earlier one recorded *)
Definition x115r : str := x115_lines ["host {{ x | record(v) | _start_ }}"; "name {{ y | _start_ }}"; "{{ w | set(v) }}"]%string.
Example C115_limits : let run := fun ds => ttp_result (fun _ => None) false sort_set no_files [] [] x115r (map (fun d => (VStr d, $"_all_")) ds) $"list" in
  run [$"name b"] = Ok (VList [VList [VDict [(KS $"y", VStr $"b"); (KS $"w", VStr $"v")]]]) /\
  run [$"host a"; $"name b"] = Ok (VList [VList [VDict [(KS $"x", VStr $"a"); (KS $"w", VStr $"a")]; VDict [(KS $"y", VStr $"b"); (KS $"w", VStr $"a")]]]).
Proof. split; vm_compute; reflexivity. Qed.
