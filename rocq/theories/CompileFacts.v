(** * CompileFacts: the regular expression of a line does not depend on anything but the line and the variables. *)
From Coq Require Import Lia.
From Verif Require Import PyBase DictFacts StrFacts SessionFacts Regex Results Template Attributes FormRegex MatchVar MatchFuncs Parser Compile AttrFacts.
Local Open Scope string_scope.
Local Open Scope list_scope.

(** ** the defaults do not influence the rest of a variable *)
Definition sim (a b : vstate) : Prop :=
  v_funcs a = v_funcs b /\ v_action a = v_action b /\ v_isline a = v_isline b /\ v_skipvar a = v_skipvar b /\ v_skipre a = v_skipre b /\ v_res a = v_res b.
Definition rsim (a b : res vstate) : Prop := match a, b with Ok x, Ok y => sim x y | Raise e, Raise f => e = f | _, _ => False end.
Lemma sim_refl a : sim a a.
Proof. unfold sim. tauto. Qed.
Ltac sims := unfold sim in *; cbn [add_func set_action set_isline set_skipvar set_skipre add_re set_default v_funcs v_action v_isline v_skipvar v_skipre v_res] in *; intuition congruence.
Lemma rfold_sim (f : vstate -> attribute -> res vstate) l : (forall a b x, sim a b -> rsim (f a x) (f b x)) -> forall a b, sim a b -> rsim (rfold f l a) (rfold f l b).
Proof.
  intros H. induction l as [|x l IH]; intros a b Hab; [exact Hab|]. cbn [rfold]. specialize (H a b x Hab). destruct (f a x), (f b x); cbn in H; try contradiction; cbn [rbind]; [now apply IH|exact H].
Qed.
Lemma extract_re_sim vars a b x : sim a b -> rsim (extract_re vars a x) (extract_re vars b x).
Proof. intros H. unfold extract_re. destruct (resolve_re _ _); cbn; [sims|reflexivity]. Qed.
Lemma extract_sim vars name orig line : forall fuel key a b x, sim a b -> rsim (extract vars name orig line fuel key a x) (extract vars name orig line fuel key b x).
Proof.
  induction fuel as [|f IH]; intros key a b x H; [reflexivity|]. cbn [extract].
  destruct (str_eqb key $"ignore"); [cbn; sims|]. destruct (str_eqb key $"_start_"); [cbn; sims|]. destruct (str_eqb key $"_end_"); [cbn; sims|].
  destruct (str_eqb key $"_line_"); [apply extract_re_sim; sims|]. destruct (str_eqb key $"_headers_"); [cbn; sims|]. destruct (in_strs key _); [exact H|].
  destruct (str_eqb key $"chain").
  { destruct (at_args x) as [|v l]; [reflexivity|]. destruct (get_any vars v) as [[[]|]|]; cbn [rbind]; try exact H; try reflexivity; (destruct (chain_texts _); cbn [rbind]; [|reflexivity]); apply rfold_sim; try exact H; intros; now apply IH. }
  destruct (str_eqb key $"set").
  { unfold extract_set. destruct (rstrip _); [|cbn; sims]. destruct (at_args x); [reflexivity|cbn; sims]. }
  destruct (str_eqb key $"default"). { cbn. unfold extract_default. destruct (in_strs orig no_default); sims. }
  destruct (str_eqb key $"joinmatches"); [cbn; sims|]. destruct (str_eqb key $"re"); [now apply extract_re_sim|].
  destruct (in_strs key from_vars).
  { unfold arg_from_vars. destruct (rmap _ _); cbn; [sims|reflexivity]. }
  destruct (pattern_get _) as [[|]|]; cbn; [now apply extract_re_sim|sims|reflexivity].
Qed.
Definition osim (a b : res varobj) : Prop :=
  match a, b with
  | Ok x, Ok y => vo_text x = vo_text y /\ vo_name x = vo_name y /\ vo_orig x = vo_orig y /\ vo_dict x = vo_dict y /\ vo_attrs x = vo_attrs y /\ sim (vo_st x) (vo_st y)
  | Raise e, Raise f => e = f
  | _, _ => False
  end.
Lemma new_variable_sim vars g g' text line d d' : osim (new_variable vars g text line d) (new_variable vars g' text line d').
Proof.
  unfold new_variable. destruct (get_attributes text) as [[|a attrs]|]; cbn [rbind]; try reflexivity.
  set (st := {| v_funcs := []; v_defaults := _ |}). set (st' := {| v_funcs := []; v_defaults := match g' with _ => _ end |}).
  assert (H : sim st st') by (unfold sim; auto 10). clearbody st st'.
  set (f := S (S (length vars))). set (key := sanitize (at_name a)).
  assert (H1 : rsim (if in_strs key special_names then extract vars key (at_name a) line f key st a else Ok st) (if in_strs key special_names then extract vars key (at_name a) line f key st' a else Ok st')).
  { destruct (in_strs key special_names); [now apply extract_sim|exact H]. }
  destruct (if in_strs key special_names then extract vars key (at_name a) line f key st a else Ok st) as [s1|], (if in_strs key special_names then extract vars key (at_name a) line f key st' a else Ok st') as [s2|]; cbn in H1; try contradiction; cbn [rbind]; [|exact H1].
  assert (H2 : rsim (rfold (fun st x => extract vars key (at_name a) line f (at_name x) st x) attrs s1) (rfold (fun st x => extract vars key (at_name a) line f (at_name x) st x) attrs s2)).
  { apply rfold_sim; [|exact H1]. intros. now apply extract_sim. }
  destruct (rfold _ attrs s1), (rfold _ attrs s2); cbn in H2; try contradiction; cbn [rbind]; [|exact H2]. cbn. auto 10.
Qed.

(** ** the variables of a line, apart from the default values *)
Definition var_obj (vars : dict) (line v : str) : res varobj := new_variable vars None v line [].
Definition ordinary (v : varobj) : Prop := vo_name v <> $"_headers_" /\ ignore_many v = false.
(** every variable of the line is described by [info], [obj] *)
Definition described (vars : dict) (line : str) (obj : str -> varobj) (info : str -> vinfo) (v : str) : Prop :=
  var_obj vars line v = Ok (obj v) /\ ordinary (obj v) /\ info_of vars (obj v) = Ok (info v).
Lemma info_sim vars a b : vo_name a = vo_name b -> vo_dict a = vo_dict b -> sim (vo_st a) (vo_st b) -> info_of vars a = info_of vars b.
Proof. intros H1 H2 (H3 & _ & _ & _ & _ & H4). unfold info_of. now rewrite H1, H2, H3, H4. Qed.
Lemma variable_step vars g line st text obj info : described vars line obj info text ->
  exists v, new_variable vars g text line (ls_defaults st) = Ok v /\ osim (Ok v) (Ok (obj text)) /\
  compile_variable vars g line st text =
    Ok (if v_skipre (vo_st (obj text)) then {| ls_regex := ls_regex st; ls_vars := ls_vars st; ls_action := ls_action st; ls_isline := ls_isline st; ls_skip := true; ls_defaults := v_defaults (vo_st v) |}
        else {| ls_regex := form_regex (info text) text line (ls_regex st);
                ls_vars := if v_skipvar (vo_st (obj text)) then ls_vars st else put (vo_orig v) v (put (vo_name v) v (ls_vars st));
                ls_action := if is_start (ls_action st) then ls_action st else if str_eqb (vo_name (obj text)) $"ignore" then ls_action st else v_action (vo_st (obj text));
                ls_isline := if ls_isline st then true else v_isline (vo_st (obj text)); ls_skip := ls_skip st; ls_defaults := v_defaults (vo_st v) |}).
Proof.
  intros (Ho & (Hh & Hm) & Hi). pose proof (new_variable_sim vars g None text line (ls_defaults st) []) as H. unfold var_obj in Ho. rewrite Ho in H.
  unfold compile_variable. destruct (new_variable vars g text line (ls_defaults st)) as [v|e] eqn:E; [|contradiction]. exists v. split; [reflexivity|]. split; [exact H|].
  cbn [rbind]. cbn in H. destruct H as (H1 & H2 & H3 & H4 & H5 & H6). pose proof H6 as (F1 & F2 & F3 & F4 & F5 & F6). rewrite F2, F3, F4, F5.
  destruct (v_skipre (vo_st (obj text))); [reflexivity|]. unfold variable_regex. rewrite H2.
  assert (Eh : str_eqb (vo_name (obj text)) $"_headers_" = false) by (now apply str_eqb_neq). rewrite Eh.
  rewrite (info_sim vars v (obj text) H2 H4 H6), Hi. cbn [rbind].
  assert (Em : ignore_many v = false) by (rewrite <- Hm; unfold ignore_many; now rewrite H2, H4). rewrite Em.
  assert (Et : vo_text v = text).
  { unfold new_variable in E. destruct (get_attributes text) as [[|a l]|]; cbn [rbind] in E; try discriminate.
    destruct (if in_strs _ _ then _ else _); [|discriminate]. cbn [rbind] in E. destruct (rfold _ _ _); [|discriminate]. cbn [rbind] in E. injection E as <-. reflexivity. }
  rewrite Et. reflexivity.
Qed.
Definition step_action (obj : str -> varobj) (a : action) (v : str) : action :=
  if is_start a then a else if str_eqb (vo_name (obj v)) $"ignore" then a else v_action (vo_st (obj v)).
Definition lvars (obj : str -> varobj) (l : list (str * varobj)) (v : str) : list (str * varobj) :=
  if v_skipvar (vo_st (obj v)) then l else put (vo_orig (obj v)) (obj v) (put (vo_name (obj v)) (obj v) l).
Definition vsim (a b : str * varobj) : Prop := fst a = fst b /\ osim (Ok (snd a)) (Ok (snd b)).
Lemma put_sim n a b l k : osim (Ok a) (Ok b) -> Forall2 vsim l k -> Forall2 vsim (put n a l) (put n b k).
Proof.
  intros Hab. induction 1 as [|[m x] [m' y] l k [H1 H2] Hl IH]; cbn [put].
  - constructor; [split; [reflexivity|exact Hab]|constructor].
  - cbn in H1. subst m'. destruct (str_eqb n m); (constructor; [|assumption]); (split; [reflexivity|assumption]).
Qed.
Lemma line_loop vars g line obj info vs : Forall (described vars line obj info) vs -> Forall (fun v => v_skipre (vo_st (obj v)) = false) vs -> forall st k, Forall2 vsim (ls_vars st) k ->
  exists d l, rfold (compile_variable vars g line) vs st =
    Ok {| ls_regex := fold_left (fun r v => form_regex (info v) v line r) vs (ls_regex st); ls_vars := l;
          ls_action := fold_left (step_action obj) vs (ls_action st); ls_isline := fold_left (fun (b : bool) v => if b then true else v_isline (vo_st (obj v))) vs (ls_isline st);
          ls_skip := ls_skip st; ls_defaults := d |} /\ Forall2 vsim l (fold_left (lvars obj) vs k).
Proof.
  induction 1 as [|v vs Hv _ IH]; intros Hs st k Hk.
  - exists (ls_defaults st), (ls_vars st). split; [destruct st; reflexivity|exact Hk].
  - inversion Hs as [|? ? Hsv Hs']; subst. cbn [rfold fold_left]. destruct (variable_step vars g line st v obj info Hv) as (o & _ & Ho & E). rewrite E, Hsv. cbn [rbind].
    destruct (IH Hs' {| ls_regex := form_regex (info v) v line (ls_regex st);
                ls_vars := if v_skipvar (vo_st (obj v)) then ls_vars st else put (vo_orig o) o (put (vo_name o) o (ls_vars st));
                ls_action := step_action obj (ls_action st) v;
                ls_isline := if ls_isline st then true else v_isline (vo_st (obj v)); ls_skip := ls_skip st; ls_defaults := v_defaults (vo_st o) |} (lvars obj k v)) as (d & l & E1 & E2).
    { cbn [ls_vars]. unfold lvars. destruct (v_skipvar _); [exact Hk|]. pose proof Ho as Ho'. cbn in Ho'. destruct Ho' as (_ & N & O & _). rewrite N, O. apply put_sim; [exact Ho|]. now apply put_sim. }
    exists d, l. split; [exact E1|exact E2].
Qed.
Theorem line_compiled vars g line obj info d : Forall (described vars line obj info) (vars_in line) -> Forall (fun v => v_skipre (vo_st (obj v)) = false) (vars_in line) ->
  match re_compile (line_regex info line) with
  | None => compile_line vars g line d = Raise ReError
  | Some r => exists d' l, compile_line vars g line d = Ok (Some {| x_text := line_regex info line; x_re := r; x_vars := l;
       x_action := fold_left (step_action obj) (vars_in line) AAdd; x_isline := existsb (fun v => v_isline (vo_st (obj v))) (vars_in line) |}, d') /\
     Forall2 vsim l (fold_left (lvars obj) (vars_in line) [])
  end.
Proof.
  intros H Hs. unfold compile_line.
  destruct (line_loop vars g line obj info (vars_in line) H Hs {| ls_regex := []; ls_vars := []; ls_action := AAdd; ls_isline := false; ls_skip := false; ls_defaults := d |} [] (Forall2_nil _)) as (d' & l & E & Hl).
  rewrite E. cbn [rbind ls_skip ls_regex ls_vars ls_action ls_isline ls_defaults]. change (fold_left _ (vars_in line) []) with (line_regex info line) at 1.
  destruct (re_compile _) as [r|]; [|reflexivity]. exists d', l. split; [|exact Hl]. repeat f_equal.
  assert (G : forall vs b, fold_left (fun (b : bool) v => if b then true else v_isline (vo_st (obj v))) vs b = (b || existsb (fun v => v_isline (vo_st (obj v))) vs)%bool).
  { induction vs as [|v vs IH]; intros b; cbn [fold_left existsb]; [now rewrite Bool.orb_false_r|]. rewrite IH. destruct b; reflexivity. }
  now rewrite G.
Qed.
