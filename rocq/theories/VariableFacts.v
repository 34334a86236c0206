(** * VariableFacts: match variables follow the rules of SpecVariable (for C121). *)
From Coq Require Import Lia.
From Verif Require Import PyBase DictFacts ResultsFacts StrFacts OutputFacts SessionFacts FormRegex Results Template Attributes MatchVar SpecVariable.
Local Open Scope string_scope.
Local Open Scope list_scope.

(** ** lookups *)
Section Vars.
Variable vars : dict.
Lemma any_iff v o : get_any vars v = Ok o <-> names_variable vars v o.
Proof.
  split.
  - destruct v as [|[]|z|s|l|d|n]; cbn [get_any]; intros H; try discriminate; injection H as <-; try apply nv_object; apply nv_key; reflexivity.
  - intros H. destruct H as [v k H|n]; [|reflexivity]. destruct v as [|[]|z|s|l|d|n]; cbn [key_for] in H; try discriminate; injection H as <-; reflexivity.
Qed.
Lemma assoc_in {A} (l : list (str * A)) n a : assoc_str n l = Some a -> In (n, a) l.
Proof. induction l as [|[m b] l IH]; cbn [assoc_str]; [discriminate|]. destruct (str_eqb n m) eqn:E; [intros H; injection H as <-; apply str_eqb_eq in E; subst; now left|intros H; right; now apply IH]. Qed.
Lemma assoc_none {A} (l : list (str * A)) n : assoc_str n l = None <-> ~ In n (map fst l).
Proof.
  induction l as [|[m b] l IH]; cbn [assoc_str map fst In]; [tauto|]. destruct (str_eqb n m) eqn:E.
  - apply str_eqb_eq in E. subst. split; [discriminate|]. intros H. exfalso. apply H. now left.
  - rewrite IH. split; [intros H [K|K]; [subst; rewrite str_eqb_refl in E; discriminate|contradiction]|tauto].
Qed.
Lemma in_assoc {A} (l : list (str * A)) n a : NoDup (map fst l) -> In (n, a) l -> assoc_str n l = Some a.
Proof.
  induction l as [|[m b] l IH]; cbn [assoc_str map fst]; [intros _ []|]. intros Hd [H|H]; inversion Hd as [|? ? Hm Hd']; subst.
  - injection H as -> ->. now rewrite str_eqb_refl.
  - destruct (str_eqb n m) eqn:E; [apply str_eqb_eq in E; subst; exfalso; apply Hm; now apply (in_map fst) in H|now apply IH].
Qed.
Definition nodup_strs (l : list str) : bool := (fix go (l : list str) := match l with [] => true | x :: t => (negb (in_strs x t) && go t)%bool end) l.
Lemma nodup_strs_ok l : nodup_strs l = true -> NoDup l.
Proof. induction l as [|x l IH]; intros H; [constructor|]. apply Bool.andb_true_iff in H. destruct H as [H1 H2]. constructor; [|now apply IH]. intros K. apply in_strs_In in K. rewrite K in H1. discriminate. Qed.
Lemma patterns_nodup : NoDup (map fst patterns).
Proof. apply nodup_strs_ok. vm_compute. reflexivity. Qed.
Lemma modules_eq : pattern_module_names = map t_ module_of_patterns. Proof. reflexivity. Qed.
Lemma modules_not_patterns s : among s module_of_patterns -> assoc_str s patterns = None.
Proof.
  unfold among. rewrite <- modules_eq. intros H. assert (K : forallb (fun s => match assoc_str s patterns with None => true | _ => false end) pattern_module_names = true) by (vm_compute; reflexivity).
  rewrite forallb_forall in K. specialize (K s H). now destruct (assoc_str s patterns).
Qed.
Lemma pattern_iff v o : pattern_get v = Ok o <-> names_pattern v o.
Proof.
  split.
  - destruct v as [|b|z|s|l|d|n]; cbn [pattern_get]; intros H; try discriminate; try (injection H as <-; apply np_other; intros; discriminate).
    destruct (assoc_str s patterns) as [p|] eqn:E; [injection H as <-; apply np_pattern; now apply assoc_in|].
    destruct (in_strs s pattern_module_names) eqn:E2; injection H as <-.
    + apply np_module. unfold among. rewrite <- modules_eq. now apply in_strs_In.
    + apply np_no; [now apply assoc_none|]. unfold among. rewrite <- modules_eq. intros K. apply in_strs_In in K. congruence.
  - intros H. destruct H as [s p H|s H|s H1 H2|v H1 H2 H3]; cbn [pattern_get].
    + now rewrite (in_assoc _ _ _ patterns_nodup H).
    + rewrite (modules_not_patterns s H). unfold among in H. rewrite <- modules_eq in H. apply in_strs_In in H. now rewrite H.
    + apply assoc_none in H1. rewrite H1. unfold among in H2. rewrite <- modules_eq in H2. destruct (in_strs s pattern_module_names) eqn:E; [exfalso; apply H2; now apply in_strs_In|reflexivity].
    + destruct v as [|b|z|s|l|d|n]; try reflexivity; [now contradiction (H1 s)|now contradiction (H2 l)|now contradiction (H3 d)].
Qed.
Lemma resolve_iff v r : resolve_re vars v = Ok r <-> expression_of vars v r.
Proof.
  unfold resolve_re. split.
  - destruct (get_any vars v) as [a|] eqn:Ea; [|discriminate]. cbn [rbind]. destruct (pattern_get v) as [b|] eqn:Eb; [|discriminate]. cbn [rbind]. apply any_iff in Ea. apply pattern_iff in Eb. intros H. injection H as <-.
    assert (G : (forall x, a = Some x -> truthy x = false) -> expression_of vars v (match b with Some p => p | None => v end)).
    { intros Ha. destruct b as [p|]; [now apply (eo_pattern vars v a)|now apply (eo_itself vars v a)]. }
    destruct a as [x|]; [|apply G; discriminate]. destruct (truthy x) eqn:Ex; [now apply (eo_variable vars v x b)|]. apply G. intros y Hy. congruence.
  - intros H. destruct H as [x p H1 H2 H3|o p H1 H2 H3|o H1 H2 H3]; apply any_iff in H1; apply pattern_iff in H3; rewrite H1, H3; cbn [rbind].
    + now rewrite H2.
    + destruct o as [x|]; [now rewrite (H2 x eq_refl)|reflexivity].
    + destruct o as [x|]; [now rewrite (H2 x eq_refl)|reflexivity].
Qed.
Lemma chained_iff x l : chain_texts x = Ok l <-> chained x l.
Proof.
  split.
  - destruct x as [|b|z|s|vs|d|n]; cbn [chain_texts]; intros H; try discriminate; [now constructor|].
    destruct (rmap _ vs) as [ls|] eqn:E; [|discriminate]. cbn [rbind] in H. injection H as <-. apply rmap_ok in E.
    assert (G : exists ss, vs = map VStr ss /\ Forall2 (fun s l => get_attributes s = Ok l) ss ls).
    { induction E as [|v l0 vs ls Hv Hl (ss & -> & IH)]; [exists []; split; [reflexivity|constructor]|]. destruct v as [| | |s| | |]; try discriminate. exists (s :: ss). split; [reflexivity|now constructor]. }
    destruct G as (ss & -> & G). now constructor.
  - intros H. destruct H as [s l H|ss ls H]; cbn [chain_texts]; [exact H|].
    assert (E : rmap (fun x => match x with VStr s => get_attributes s | _ => Raise AttributeError end) (map VStr ss) = Ok ls).
    { apply rmap_ok. induction H; cbn [map]; constructor; assumption. }
    rewrite E. reflexivity.
Qed.

(** ** one function *)
Section One.
Variables (name orig line : str).
Definition around : str := rstrip (without_vars line).
Definition applied (st : vstate) (es : list called) (fs : list attribute) (rs : list val) (d : option val) : vstate :=
  {| v_funcs := v_funcs st ++ fs;
     v_action := match last_action name es with Some x => x | None => v_action st end;
     v_isline := (v_isline st || has "_line_" es)%bool;
     v_skipvar := (v_skipvar st || has "ignore" es)%bool;
     v_skipre := (v_skipre st || (has "set" es && str_eqb around []))%bool;
     v_res := v_res st ++ rs;
     v_defaults := with_default orig (v_defaults st) d |}.
Lemma amongs n l : in_strs n (map t_ l) = true <-> among n l.
Proof. apply in_strs_In. Qed.
Lemma amongs_f n l : in_strs n (map t_ l) = false <-> ~ among n l.
Proof. rewrite <- amongs. destruct (in_strs n (map t_ l)); split; congruence. Qed.
Lemma has_one n k a : has n [(k, a)] = str_eqb (t_ n) k.
Proof. unfold has, in_strs. cbn [map fst existsb]. now rewrite Bool.orb_false_r. Qed.
Lemma t_eq n k : str_eqb (t_ n) k = str_eqb k (t_ n).
Proof. destruct (str_eqb (t_ n) k) eqn:E; symmetry; [apply str_eqb_eq in E; subst; apply str_eqb_refl|]. destruct (str_eqb k (t_ n)) eqn:E2; [apply str_eqb_eq in E2; subst; rewrite str_eqb_refl in E; discriminate|reflexivity]. Qed.
(** the record of a single function *)
Lemma one_applied st k a fs rs d : applied st [(k, a)] fs rs d =
  {| v_funcs := v_funcs st ++ fs;
     v_action := match action_for name k with Some x => x | None => v_action st end;
     v_isline := (v_isline st || str_eqb k (t_ "_line_"))%bool;
     v_skipvar := (v_skipvar st || str_eqb k (t_ "ignore"))%bool;
     v_skipre := (v_skipre st || (str_eqb k (t_ "set") && str_eqb around []))%bool;
     v_res := v_res st ++ rs;
     v_defaults := with_default orig (v_defaults st) d |}.
Proof. unfold applied. rewrite !has_one, !t_eq. cbn [last_action fst]. reflexivity. Qed.
Lemma extract_eq f key st a : extract vars name orig line (S f) key st a =
    if str_eqb key $"ignore" then Ok (set_skipvar st)
    else if str_eqb key $"_start_" then Ok (set_action st (if str_eqb name $"_start_" then AStartEmpty else AStart))
    else if str_eqb key $"_end_" then Ok (set_action st AEnd)
    else if str_eqb key $"_line_" then extract_re vars (set_isline (set_action st AJoin)) a
    else if str_eqb key $"_headers_" then Ok (set_action st AStart)
    else if in_strs key [$"_exact_"; $"_exact_space_"; $"columns"] then Ok st
    else if str_eqb key $"chain" then
      match at_args a with
      | [] => Raise IndexError
      | v :: _ =>
          do x <- get_any vars v;
          match x with
          | None | Some VNone => Ok st
          | Some c => do l <- chain_texts c; rfold (fun st a => extract vars name orig line f (at_name a) st a) l st
          end
      end
    else if str_eqb key $"set" then extract_set orig line st a
    else if str_eqb key $"default" then Ok (extract_default orig st a)
    else if str_eqb key $"joinmatches" then Ok (set_action (add_func st a) AJoin)
    else if str_eqb key $"re" then extract_re vars st a
    else if in_strs key from_vars then arg_from_vars vars st a
    else do p <- pattern_get (VStr key);
         match p with Some _ => extract_re vars st a | None => Ok (add_func st a) end.
Proof. reflexivity. Qed.
Lemma vstate_eq (a b : vstate) : v_funcs a = v_funcs b -> v_action a = v_action b -> v_isline a = v_isline b -> v_skipvar a = v_skipvar b -> v_skipre a = v_skipre b -> v_res a = v_res b -> v_defaults a = v_defaults b -> a = b.
Proof. destruct a, b. cbn. now intros -> -> -> -> -> -> ->. Qed.
Lemma no_default_eq : no_default = map t_ without_default. Proof. reflexivity. Qed.
Lemma from_vars_eq : from_vars = map t_ with_names. Proof. reflexivity. Qed.
Ltac same := rewrite one_applied; apply vstate_eq; cbn [v_funcs v_action v_isline v_skipvar v_skipre v_res v_defaults set_skipvar set_action set_isline set_skipre add_func add_re set_default with_default];
  rewrite ?app_nil_r, ?Bool.orb_false_r, ?Bool.orb_true_r; try reflexivity.
Lemma re_iff st a st' : extract_re vars st a = Ok st' <-> exists r, expression_of vars (subject a) r /\ st' = add_re st r.
Proof.
  unfold extract_re. fold (subject a). split.
  - destruct (resolve_re vars (subject a)) as [r|] eqn:E; [|discriminate]. cbn [rbind]. intros H. injection H as <-. exists r. split; [now apply resolve_iff|reflexivity].
  - intros (r & Hr & ->). apply resolve_iff in Hr. rewrite Hr. reflexivity.
Qed.
Lemma from_iff st a st' : arg_from_vars vars st a = Ok st' <-> exists l, Forall2 (fun x y => exists o, names_variable vars x o /\ y = match o with Some z => z | None => x end) (at_args a) l /\
  st' = add_func st {| at_name := at_name a; at_args := l; at_kwargs := at_kwargs a |}.
Proof.
  unfold arg_from_vars.
  assert (G : forall l r, rmap (var_or_arg vars) l = Ok r <-> Forall2 (fun x y => exists o, names_variable vars x o /\ y = match o with Some z => z | None => x end) l r).
  { intros l r. rewrite rmap_ok. assert (E : forall x y, var_or_arg vars x = Ok y <-> exists o, names_variable vars x o /\ y = match o with Some z => z | None => x end).
    { intros x y. unfold var_or_arg. split.
      - destruct (get_any vars x) as [o|] eqn:E; [|discriminate]. cbn [rbind]. intros H. injection H as <-. exists o. split; [now apply any_iff|reflexivity].
      - intros (o & Ho & ->). apply any_iff in Ho. rewrite Ho. reflexivity. }
    split; intros H; induction H; constructor; try assumption; now apply E. }
  split.
  - destruct (rmap (var_or_arg vars) (at_args a)) as [l|] eqn:E; [|discriminate]. cbn [rbind]. intros H. injection H as <-. exists l. split; [now apply G|reflexivity].
  - intros (l & Hl & ->). apply G in Hl. rewrite Hl. reflexivity.
Qed.
Lemma action_none k : ~ among k own_meaning -> action_for name k = None /\ str_eqb k (t_ "_line_") = false /\ str_eqb k (t_ "ignore") = false /\ str_eqb k (t_ "set") = false.
Proof.
  intros H. assert (E : forall w, In w own_meaning -> str_eqb k (t_ w) = false).
  { intros w Hw. destruct (str_eqb k (t_ w)) eqn:E; [|reflexivity]. apply str_eqb_eq in E. exfalso. apply H. unfold among. rewrite E. now apply in_map. }
  unfold action_for. rewrite !E by (cbn; tauto). auto.
Qed.
Lemma named_none k : among k with_names -> action_for name k = None /\ str_eqb k (t_ "_line_") = false /\ str_eqb k (t_ "ignore") = false /\ str_eqb k (t_ "set") = false.
Proof. intros H. unfold among, with_names in H. cbn [map] in H. repeat (destruct H as [<-|H]; [repeat split; vm_compute; reflexivity|]). destruct H. Qed.
Lemma step_sound f key st a st' : key <> t_ "chain" -> extract vars name orig line (S f) key st a = Ok st' ->
  exists fs rs d, does vars orig around (key, a) fs rs d /\ st' = applied st [(key, a)] fs rs d.
Proof.
  intros Hc H. rewrite extract_eq in H.
  destruct (str_eqb key $"ignore") eqn:E1; [apply str_eqb_eq in E1; subst key; injection H as <-; exists [], [], None; split; [apply do_mark; now left|same]|].
  destruct (str_eqb key $"_start_") eqn:E2; [apply str_eqb_eq in E2; subst key; injection H as <-; exists [], [], None; split; [apply do_mark; right; now left|same]|].
  destruct (str_eqb key $"_end_") eqn:E3; [apply str_eqb_eq in E3; subst key; injection H as <-; exists [], [], None; split; [apply do_mark; right; right; now left|same]|].
  destruct (str_eqb key $"_line_") eqn:E4; [apply str_eqb_eq in E4; subst key; apply re_iff in H; destruct H as (r & Hr & ->); exists [], [r], None; split; [apply do_expression; [now left|exact Hr]|same]|].
  destruct (str_eqb key $"_headers_") eqn:E5; [apply str_eqb_eq in E5; subst key; injection H as <-; exists [], [], None; split; [apply do_mark; right; right; right; now left|same]|].
  destruct (in_strs key [$"_exact_"; $"_exact_space_"; $"columns"]) eqn:E6.
  { injection H as <-. exists [], [], None. apply in_strs_In in E6. split; [apply do_mark; unfold among, marks; cbn [map]; do 4 right; exact E6|]. destruct E6 as [<-|[<-|[<-|[]]]]; same. }
  destruct (str_eqb key $"chain") eqn:E7; [apply str_eqb_eq in E7; now contradiction Hc|].
  destruct (str_eqb key $"set") eqn:E8.
  { apply str_eqb_eq in E8. subst key. unfold extract_set in H. fold around in H. destruct around as [|c w] eqn:Ea.
    - destruct (at_args a) as [|v args] eqn:Eg; [discriminate|]. injection H as <-. exists [], [], (Some v). split; [now apply (do_set_alone vars orig [] _ a v args)|]. rewrite one_applied. rewrite Ea. apply vstate_eq; cbn [v_funcs v_action v_isline v_skipvar v_skipre v_res v_defaults set_skipre set_default with_default]; rewrite ?app_nil_r, ?Bool.orb_false_r; try reflexivity; cbn; now rewrite Bool.orb_true_r.
    - injection H as <-. eexists _, [], None. split; [apply do_set_line; [reflexivity|discriminate]|]. rewrite one_applied. rewrite Ea. apply vstate_eq; cbn [v_funcs v_action v_isline v_skipvar v_skipre v_res v_defaults add_func with_default]; rewrite ?app_nil_r, ?Bool.orb_false_r; try reflexivity; cbn; now rewrite Bool.orb_false_r. }
  destruct (str_eqb key $"default") eqn:E9.
  { apply str_eqb_eq in E9. subst key. injection H as <-. unfold extract_default. rewrite no_default_eq. destruct (in_strs orig (map t_ without_default)) eqn:Eo.
    - apply amongs in Eo. exists [], [], None. split; [now apply do_default_no|]. same.
    - apply amongs_f in Eo. destruct (at_args a) as [|v [|v2 args]] eqn:Eg.
      + exists [], [], (Some (VStr (t_ "None"))). split; [apply do_default_other; [reflexivity|exact Eo|rewrite Eg; discriminate]|same].
      + exists [], [], (Some v). split; [now apply do_default_one|same].
      + exists [], [], (Some (VStr (t_ "None"))). split; [apply do_default_other; [reflexivity|exact Eo|rewrite Eg; discriminate]|same]. }
  destruct (str_eqb key $"joinmatches") eqn:E10; [apply str_eqb_eq in E10; subst key; injection H as <-; exists [a], [], None; split; [now apply do_join|same]|].
  destruct (str_eqb key $"re") eqn:E11; [apply str_eqb_eq in E11; subst key; apply re_iff in H; destruct H as (r & Hr & ->); exists [], [r], None; split; [apply do_expression; [now right|exact Hr]|same]|].
  destruct (in_strs key from_vars) eqn:E12.
  { rewrite from_vars_eq in E12. apply amongs in E12. apply from_iff in H. destruct H as (l & Hl & ->). eexists _, [], None. split; [apply do_named; [exact E12|exact Hl]|]. rewrite one_applied.
    destruct (named_none key E12) as (-> & -> & -> & ->). apply vstate_eq; cbn [v_funcs v_action v_isline v_skipvar v_skipre v_res v_defaults add_func with_default andb]; rewrite ?app_nil_r, ?Bool.orb_false_r; reflexivity. }
  assert (Ho : ~ among key own_meaning).
  { unfold among, own_meaning, marks. cbn [app map]. rewrite from_vars_eq in E12.
    intros K. repeat (destruct K as [K|K]; [subst key; first [discriminate E1|discriminate E2|discriminate E3|discriminate E4|discriminate E5|discriminate E6|discriminate E7|discriminate E8|discriminate E9|discriminate E10|discriminate E11|discriminate E12]|]). destruct K. }
  destruct (pattern_get (VStr key)) as [p|] eqn:Ep; [|discriminate]. apply pattern_iff in Ep. cbn [rbind] in H. destruct (action_none key Ho) as (A1 & A2 & A3 & A4). destruct p as [p|].
  - apply re_iff in H. destruct H as (r & Hr & ->). exists [], [r], None. split; [now apply do_pattern with p|]. rewrite one_applied, A1, A2, A3, A4. apply vstate_eq; cbn [v_funcs v_action v_isline v_skipvar v_skipre v_res v_defaults add_re with_default andb]; rewrite ?app_nil_r, ?Bool.orb_false_r; reflexivity.
  - injection H as <-. exists [a], [], None. split; [now apply do_function|]. rewrite one_applied, A1, A2, A3, A4. apply vstate_eq; cbn [v_funcs v_action v_isline v_skipvar v_skipre v_res v_defaults add_func with_default andb]; rewrite ?app_nil_r, ?Bool.orb_false_r; reflexivity.
Qed.
Ltac conc := repeat match goal with
  | |- context [str_eqb (t_ ?x) ?y] => let b := eval vm_compute in (str_eqb (t_ x) y) in change (str_eqb (t_ x) y) with b; cbn match
  | |- context [in_strs (t_ ?x) ?y] => let b := eval vm_compute in (in_strs (t_ x) y) in change (in_strs (t_ x) y) with b; cbn match
  end.
Lemma same_mark k a st : among k marks -> extract vars name orig line 1 k st a = Ok (applied st [(k, a)] [] [] None).
Proof.
  intros Hm. rewrite extract_eq. unfold among, marks in Hm. cbn [map] in Hm. repeat (destruct Hm as [<-|Hm]; [conc; apply Logic.f_equal; same|]). destruct Hm.
Qed.
Lemma unspecial k : ~ among k own_meaning -> forall f st a, extract vars name orig line (S f) k st a =
  do p <- pattern_get (VStr k); match p with Some _ => extract_re vars st a | None => Ok (add_func st a) end.
Proof.
  intros Hk f st a. rewrite extract_eq.
  assert (E : forall w, In w own_meaning -> str_eqb k (t_ w) = false).
  { intros w Hw. destruct (str_eqb k (t_ w)) eqn:E; [|reflexivity]. apply str_eqb_eq in E. exfalso. apply Hk. unfold among. rewrite E. now apply in_map. }
  assert (E6 : in_strs k [$"_exact_"; $"_exact_space_"; $"columns"] = false) by (unfold in_strs; cbn [existsb]; pose proof (E "_exact_" ltac:(cbn; tauto)) as K1; pose proof (E "_exact_space_" ltac:(cbn; tauto)) as K2; pose proof (E "columns" ltac:(cbn; tauto)) as K3; unfold t_ in *; rewrite K1, K2, K3; reflexivity).
  assert (E12 : in_strs k from_vars = false).
  { destruct (in_strs k from_vars) eqn:E12; [|reflexivity]. rewrite from_vars_eq in E12. apply in_strs_In in E12. exfalso. apply Hk. unfold among, own_meaning. rewrite !map_app. apply in_or_app. right. apply in_or_app. now right. }
  change $"ignore" with (t_ "ignore"). change $"_start_" with (t_ "_start_"). change $"_end_" with (t_ "_end_"). change $"_line_" with (t_ "_line_"). change $"_headers_" with (t_ "_headers_"). change $"chain" with (t_ "chain"). change $"set" with (t_ "set"). change $"default" with (t_ "default"). change $"joinmatches" with (t_ "joinmatches"). change $"re" with (t_ "re").
  rewrite E6, E12. rewrite !E by (cbn; tauto). reflexivity.
Qed.
Lemma step_complete f k a st fs rs d : does vars orig around (k, a) fs rs d -> extract vars name orig line (S f) k st a = Ok (applied st [(k, a)] fs rs d).
Proof.
  intros H. inversion H as [k' a' Hm|k' a' r Hk Hr|k' a' Hk Ha|k' a' v args Hk Ha Hg|k' a' Hk Ho|k' a' v Hk Ho Hg|k' a' Hk Ho Hg|k' a' Hk|k' a' l Hk Hl|k' a' p r Hk Hp Hr|k' a' Hk Hp]; subst k' a'.
  - rewrite <- (same_mark k a st Hm). rewrite !extract_eq. unfold among, marks in Hm. cbn [map] in Hm. clear H. repeat (destruct Hm as [<-|Hm]; [conc; reflexivity|]). destruct Hm.
  - rewrite extract_eq. assert (E : forall st, extract_re vars st a = Ok (add_re st r)) by (intros st'; apply re_iff; eauto). destruct Hk as [-> | ->]; conc; rewrite E; apply Logic.f_equal; same.
  - rewrite extract_eq. subst k. conc. unfold extract_set. fold around. destruct around as [|c w] eqn:Ea; [congruence|]. apply Logic.f_equal. rewrite one_applied, Ea. apply vstate_eq; cbn [v_funcs v_action v_isline v_skipvar v_skipre v_res v_defaults add_func with_default]; rewrite ?app_nil_r, ?Bool.orb_false_r; try reflexivity; cbn; now rewrite Bool.orb_false_r.
  - rewrite extract_eq. subst k. conc. unfold extract_set. fold around. rewrite Ha, Hg. apply Logic.f_equal. rewrite one_applied, Ha. apply vstate_eq; cbn [v_funcs v_action v_isline v_skipvar v_skipre v_res v_defaults set_skipre set_default with_default]; rewrite ?app_nil_r, ?Bool.orb_false_r; try reflexivity; cbn; now rewrite Bool.orb_true_r.
  - rewrite extract_eq. subst k. conc. apply Logic.f_equal. unfold extract_default. rewrite no_default_eq. apply amongs in Ho. rewrite Ho. same.
  - rewrite extract_eq. subst k. conc. apply Logic.f_equal. unfold extract_default. rewrite no_default_eq. apply amongs_f in Ho. rewrite Ho, Hg. same.
  - rewrite extract_eq. subst k. conc. apply Logic.f_equal. unfold extract_default. rewrite no_default_eq. apply amongs_f in Ho. rewrite Ho. destruct (at_args a) as [|v [|v2 args]]; [same|cbn in Hg; congruence|same].
  - rewrite extract_eq. subst k. conc. apply Logic.f_equal. same.
  - rewrite extract_eq. assert (E : arg_from_vars vars st a = Ok (add_func st {| at_name := at_name a; at_args := l; at_kwargs := at_kwargs a |})) by (apply from_iff; eauto).
    assert (E' : applied st [(k, a)] [{| at_name := at_name a; at_args := l; at_kwargs := at_kwargs a |}] [] None = add_func st {| at_name := at_name a; at_args := l; at_kwargs := at_kwargs a |}).
    { rewrite one_applied. destruct (named_none k Hk) as (-> & -> & -> & ->). apply vstate_eq; cbn [v_funcs v_action v_isline v_skipvar v_skipre v_res v_defaults add_func with_default andb]; rewrite ?app_nil_r, ?Bool.orb_false_r; reflexivity. }
    rewrite E', E. clear E' H E. unfold among, with_names in Hk. cbn [map] in Hk. repeat (destruct Hk as [<-|Hk]; [conc; reflexivity|]). destruct Hk.
  - rewrite (unspecial k Hk). apply pattern_iff in Hp. rewrite Hp. cbn [rbind]. assert (E : extract_re vars st a = Ok (add_re st r)) by (apply re_iff; eauto). rewrite E. apply Logic.f_equal. destruct (action_none k Hk) as (A1 & A2 & A3 & A4).
    rewrite one_applied, A1, A2, A3, A4. apply vstate_eq; cbn [v_funcs v_action v_isline v_skipvar v_skipre v_res v_defaults add_re with_default andb]; rewrite ?app_nil_r, ?Bool.orb_false_r; reflexivity.
  - rewrite (unspecial k Hk). apply pattern_iff in Hp. rewrite Hp. cbn [rbind]. apply Logic.f_equal. destruct (action_none k Hk) as (A1 & A2 & A3 & A4).
    rewrite one_applied, A1, A2, A3, A4. apply vstate_eq; cbn [v_funcs v_action v_isline v_skipvar v_skipre v_res v_defaults add_func with_default andb]; rewrite ?app_nil_r, ?Bool.orb_false_r; reflexivity.
Qed.
End One.
End Vars.
