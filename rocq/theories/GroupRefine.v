(** * GroupRefine: the groups that the complete loader makes are those of Template.build. *)
From Coq Require Import Lia.
From Verif Require SessionFacts XmlFacts.
From Verif Require Import PyBase DictFacts Regex Results Template Attributes FormRegex MatchVar Compile.
Local Open Scope string_scope.
Local Open Scope list_scope.

Section R.
Variable vars : dict.
(** the names of the functions that a function stands for: a chain stands for the functions of its variable *)
Fixpoint stands_for (fuel : nat) (a : attribute) : list str :=
  match fuel with
  | 0 => []
  | S f => if str_eqb (at_name a) $"chain" then
             match at_args a with
             | [] => []
             | v :: _ => match get_any vars v with
                         | Ok (Some VNone) | Ok None | Raise _ => []
                         | Ok (Some c) => match chain_texts c with Ok l => flat_map (stands_for f) l | Raise _ => [] end
                         end
             end
           else [at_name a]
  end.
Definition chain_names (fuel : nat) (a : attribute) : list str := stands_for fuel {| at_name := $"chain"; at_args := at_args a; at_kwargs := at_kwargs a |}.
Definition names_of (v : str) : list str :=
  match get_attributes v with
  | Ok (a :: l) => at_name a :: (if str_eqb (sanitize (at_name a)) $"chain" then chain_names (S (S (length vars))) a else []) ++ flat_map (stands_for (S (S (length vars)))) l
  | _ => []
  end.
Definition rel (st : vstate) (c : cvar) : Prop := v_action st = cv_action c /\ v_isline st = cv_isline c /\ v_skipre st = cv_skip c.
Section V.
Variables (name orig line : str).
Notation blank := (match rstrip (without_vars line) with [] => true | _ => false end).
Notation app1 := (apply_name name blank).
Notation ext := (extract vars name orig line).
Definition other (n : str) : Prop := ~ In n [$"_start_"; $"_end_"; $"_headers_"; $"joinmatches"; $"_line_"; $"set"].
Lemma other_id n c : other n -> app1 c n = c.
Proof.
  intros H. unfold apply_name. repeat match goal with |- context [str_eqb n ?k] => let E := fresh in destruct (str_eqb n k) eqn:E; [exfalso; apply H; apply str_eqb_eq in E; subst n; cbn; tauto|] end. reflexivity.
Qed.
Ltac oth := let K := fresh in intros K; cbn in K; repeat (destruct K as [K|K]; [discriminate K|]); destruct K.
Lemma extract_key fuel : forall key st a st' c, ext (S fuel) key st a = Ok st' -> rel st c -> key <> $"chain" -> rel st' (app1 c key).
Proof.
  intros key st a st' c E R Hk. cbn [extract] in E.
  destruct (str_eqb key $"ignore") eqn:E1; [apply str_eqb_eq in E1; subst key; injection E as <-; rewrite other_id; [exact R|oth]|].
  destruct (str_eqb key $"_start_") eqn:E2; [apply str_eqb_eq in E2; subst key; injection E as <-; destruct R as (_ & R2 & R3); split; [reflexivity|split; assumption]|].
  destruct (str_eqb key $"_end_") eqn:E3; [apply str_eqb_eq in E3; subst key; injection E as <-; destruct R as (_ & R2 & R3); split; [reflexivity|split; assumption]|].
  destruct (str_eqb key $"_line_") eqn:E4.
  { apply str_eqb_eq in E4; subst key. unfold extract_re in E. destruct (resolve_re _ _) as [r|]; [|discriminate]. cbn [rbind] in E. injection E as <-. destruct R as (_ & R2 & R3). split; [reflexivity|]. split; [reflexivity|exact R3]. }
  destruct (str_eqb key $"_headers_") eqn:E5; [apply str_eqb_eq in E5; subst key; injection E as <-; destruct R as (_ & R2 & R3); split; [reflexivity|split; assumption]|].
  destruct (in_strs key [$"_exact_"; $"_exact_space_"; $"columns"]) eqn:E6.
  { injection E as <-. apply SessionFacts.in_strs_In in E6. rewrite other_id; [exact R|]. cbn in E6. repeat (destruct E6 as [<-|E6]; [oth|]). destruct E6. }
  destruct (str_eqb key $"chain") eqn:E7; [apply str_eqb_eq in E7; contradiction|].
  destruct (str_eqb key $"set") eqn:E8.
  { apply str_eqb_eq in E8; subst key. change (apply_name name blank c $"set") with (if blank then {| cv_name := cv_name c; cv_action := cv_action c; cv_isline := cv_isline c; cv_skip := true |} else c).
    unfold extract_set in E. destruct (rstrip (without_vars line)) as [|x ml]; [destruct (at_args a) as [|v vs]; [discriminate|]; injection E as <-; destruct R as (R1 & R2 & R3); split; [exact R1|split; [exact R2|reflexivity]]|]. injection E as <-. exact R. }
  destruct (str_eqb key $"default") eqn:E9.
  { apply str_eqb_eq in E9; subst key. injection E as <-. unfold extract_default. rewrite other_id by oth. destruct (in_strs orig no_default); exact R. }
  destruct (str_eqb key $"joinmatches") eqn:E10.
  { apply str_eqb_eq in E10; subst key. injection E as <-. destruct R as (_ & R2 & R3). split; [reflexivity|split; assumption]. }
  assert (Ho : other key).
  { intros K. cbn in K. clear - E2 E3 E4 E5 E8 E10 K. apply str_eqb_neq in E2, E3, E4, E5, E8, E10. destruct K as [K|[K|[K|[K|[K|[K|K]]]]]]; [exact (E2 (eq_sym K))|exact (E3 (eq_sym K))|exact (E5 (eq_sym K))|exact (E10 (eq_sym K))|exact (E4 (eq_sym K))|exact (E8 (eq_sym K))|destruct K]. }
  rewrite other_id by exact Ho. destruct (str_eqb key $"re").
  { unfold extract_re in E. destruct (resolve_re _ _) as [r|]; [|discriminate]. injection E as <-. exact R. }
  destruct (in_strs key from_vars).
  { unfold arg_from_vars in E. destruct (rmap _ _) as [r|]; [|discriminate]. injection E as <-. exact R. }
  destruct (pattern_get (VStr key)) as [p|]; [|discriminate]. cbn [rbind] in E. destruct p; [|injection E as <-; exact R].
  unfold extract_re in E. destruct (resolve_re _ _) as [r|]; [|discriminate]. injection E as <-. exact R.
Qed.
Lemma fold_flat {A} (f : A -> list str) l : forall c, fold_left app1 (flat_map f l) c = fold_left (fun c a => fold_left app1 (f a) c) l c.
Proof. induction l as [|a l IH]; intros c; [reflexivity|]. cbn [flat_map fold_left]. rewrite fold_left_app. apply IH. Qed.
Lemma extract_chain fuel : (forall a st st' c, ext fuel (at_name a) st a = Ok st' -> rel st c -> rel st' (fold_left app1 (stands_for fuel a) c)) ->
  forall a st st' c, ext (S fuel) $"chain" st a = Ok st' -> rel st c -> rel st' (fold_left app1 (chain_names (S fuel) a) c).
Proof.
  intros IH a st st' c E R. unfold chain_names. cbn [stands_for at_name at_args]. rewrite str_eqb_refl. cbn [extract] in E.
  change (str_eqb $"chain" $"ignore") with false in E. change (str_eqb $"chain" $"_start_") with false in E. change (str_eqb $"chain" $"_end_") with false in E. change (str_eqb $"chain" $"_line_") with false in E. change (str_eqb $"chain" $"_headers_") with false in E. change (in_strs $"chain" [$"_exact_"; $"_exact_space_"; $"columns"]) with false in E. change (str_eqb $"chain" $"chain") with true in E. cbv iota in E.
  destruct (at_args a) as [|v vs]; [discriminate|]. destruct (get_any vars v) as [x|]; [|discriminate]. cbn [rbind] in E.
  destruct x as [[]|]; try (injection E as <-; exact R); (destruct (chain_texts _) as [fs|] eqn:El; [|discriminate]); cbn [rbind] in E; rewrite fold_flat; clear - IH E R; revert st c E R; induction fs as [|b fs IHl]; intros st c E R; cbn [rfold fold_left] in *;
    solve [injection E as <-; exact R | destruct (ext fuel (at_name b) st b) as [s1|] eqn:Eb; [|discriminate]; cbn [rbind] in E; exact (IHl _ _ E (IH _ _ _ _ Eb R))].
Qed.
Lemma extract_rel fuel : forall a st st' c, ext fuel (at_name a) st a = Ok st' -> rel st c -> rel st' (fold_left app1 (stands_for fuel a) c).
Proof.
  induction fuel as [|fuel IH]; intros a st st' c E R; [discriminate|]. cbn [stands_for]. destruct (str_eqb (at_name a) $"chain") eqn:Ec.
  - apply str_eqb_eq in Ec. rewrite Ec in E. pose proof (extract_chain fuel IH a st st' c E R) as K. unfold chain_names in K. cbn [stands_for at_name at_args] in K. rewrite str_eqb_refl in K. exact K.
  - apply str_eqb_neq in Ec. cbn [fold_left]. exact (extract_key fuel _ _ _ _ _ E R Ec).
Qed.
Lemma extract_all fuel l : forall st st' c, rfold (fun st x => ext fuel (at_name x) st x) l st = Ok st' -> rel st c -> rel st' (fold_left app1 (flat_map (stands_for fuel) l) c).
Proof.
  induction l as [|a l IH]; intros st st' c E R; cbn [rfold flat_map] in *; [injection E as <-; exact R|]. destruct (ext fuel (at_name a) st a) as [s1|] eqn:Ea; [|discriminate]. cbn [rbind] in E. rewrite fold_left_app. exact (IH _ _ _ E (extract_rel _ _ _ _ _ Ea R)).
Qed.
End V.
Definition blank_of (line : str) : bool := match rstrip (without_vars line) with [] => true | _ => false end.
Lemma variable_rel g text line d v : new_variable vars g text line d = Ok v -> vo_name v = cv_name (compile_var names_of (blank_of line) text) /\ rel (vo_st v) (compile_var names_of (blank_of line) text).
Proof.
  intros E. unfold new_variable in E. unfold compile_var, names_of. destruct (get_attributes text) as [[|a l]|]; cbn [rbind] in E; try discriminate.
  set (name := sanitize (at_name a)) in *.
  match type of E with (do st1 <- ?m; _) = _ => destruct m as [s1|] eqn:E1; [|discriminate] end. cbn [rbind] in E. destruct (rfold _ l s1) as [s2|] eqn:E2; [|discriminate]. cbn [rbind] in E. injection E as <-. cbn [vo_name vo_st].
  assert (Hn : forall l c, cv_name (fold_left (apply_name name (blank_of line)) l c) = cv_name c).
  { clear. induction l as [|n l IH]; intros c; [reflexivity|]. cbn [fold_left]. rewrite IH. unfold apply_name. repeat match goal with |- context [if ?b then _ else _] => destruct b end; reflexivity. }
  rewrite fold_left_app. split.
  - rewrite !Hn. unfold apply_name. repeat match goal with |- context [if ?b then _ else _] => destruct b end; reflexivity.
  - apply (extract_all _ _ _ _ _ _ _ _ E2). clear E2. set (fuel := S (length vars)) in *. match type of E1 with context [extract _ _ _ _ _ _ ?s _] => set (s0 := s) in * end. set (c0 := {| cv_name := name; cv_action := AAdd; cv_isline := false; cv_skip := false |}).
    assert (R0 : rel s0 c0) by (split; [reflexivity|split; reflexivity]). destruct (str_eqb name $"chain") eqn:Ec.
    + apply str_eqb_eq in Ec. rewrite Ec in *. change (in_strs $"chain" special_names) with true in E1. cbv iota in E1. change (apply_name $"chain" (blank_of line) c0 $"chain") with c0. exact (extract_chain _ _ _ fuel (extract_rel _ _ _ fuel) _ _ _ _ E1 R0).
    + cbn [fold_left]. apply str_eqb_neq in Ec. destruct (in_strs name special_names) eqn:Es; [exact (extract_key _ _ _ fuel _ _ _ _ _ E1 R0 Ec)|].
      injection E1 as <-. rewrite (other_id name line); [exact R0|]. intros K. assert (in_strs name special_names = true); [|congruence]. apply SessionFacts.in_strs_In. cbn in K |- *. tauto.
Qed.
(** a line *)
Lemma line_rel g line ts : forall st st' a l sk, rfold (compile_variable vars g line) ts st = Ok st' -> ls_action st = a -> ls_isline st = l -> ls_skip st = sk ->
  fold_left line_step (map (compile_var names_of (blank_of line)) ts) (a, l, sk) = (ls_action st', ls_isline st', ls_skip st').
Proof.
  induction ts as [|t ts IH]; intros st st' a l sk E Ea El Es; cbn [rfold map fold_left] in *; [injection E as <-; congruence|].
  destruct (compile_variable vars g line st t) as [s1|] eqn:E1; [|discriminate]. cbn [rbind] in E. unfold compile_variable in E1. destruct (new_variable vars g t line (ls_defaults st)) as [v|] eqn:Ev; [|discriminate]. cbn [rbind] in E1.
  apply variable_rel in Ev as (En & R1 & R2 & R3). unfold line_step at 2. rewrite <- R3, <- R2, <- R1, <- En. destruct (v_skipre (vo_st v)).
  - injection E1 as <-. exact (IH _ _ _ _ _ E Ea El eq_refl).
  - destruct (variable_regex _ _ _ _ _ _) as [[[regex subs] d]|]; [|discriminate]. cbn [rbind] in E1. injection E1 as <-. apply (IH _ _ _ _ _ E); cbn [ls_action ls_isline ls_skip]; subst; try reflexivity. now destruct (ls_isline st).
Qed.
Definition line_of (r : rline) (x : crex) : Prop :=
  x_action x = rl_action r /\ x_isline x = rl_isline r /\
  exists g d d' x0, Compile.compile_line vars g (rl_line r) d = Ok (Some x0, d') /\ x_text x = x_text x0 /\ x_re x = x_re x0 /\ x_vars x = x_vars x0.
Lemma compiled_line g line d x d' : Compile.compile_line vars g line d = Ok (x, d') ->
  match Template.compile_line names_of line, x with Some r, Some x => line_of r x /\ rl_line r = line | None, None => True | _, _ => False end.
Proof.
  intros E. pose proof E as E0. unfold Compile.compile_line in E. destruct (rfold _ (vars_in line) _) as [st|] eqn:Es; [|discriminate]. cbn [rbind] in E. unfold Template.compile_line. fold (blank_of line).
  pose proof (line_rel _ _ _ _ _ AAdd false false Es eq_refl eq_refl eq_refl) as El. rewrite El. destruct (ls_skip st); [injection E as <- <-; exact I|]. destruct (re_compile (ls_regex st)) as [r|]; [|discriminate]. injection E as <- <-.
  split; [|reflexivity]. split; [reflexivity|]. split; [reflexivity|]. exists g, d, (ls_defaults st). eexists. split; [exact E0|]. split; [reflexivity|split; reflexivity].
Qed.
Lemma compiled_lines g ls : forall d xs d', Compile.compile_lines vars g ls d = Ok (xs, d') -> Forall2 line_of (flat_map (fun l => match Template.compile_line names_of l with Some r => [r] | None => [] end) ls) xs.
Proof.
  induction ls as [|l ls IH]; intros d xs d' E; cbn [Compile.compile_lines flat_map] in *; [injection E as <- <-; constructor|].
  destruct (Compile.compile_line vars g l d) as [[x d1]|] eqn:E1; [|discriminate]. cbn [rbind] in E. destruct (Compile.compile_lines vars g ls d1) as [[ys d2]|] eqn:E2; [|discriminate]. cbn [rbind] in E. injection E as <- <-.
  apply compiled_line in E1. apply IH in E2. destruct (Template.compile_line names_of l), x; try contradiction; [|exact E2]. constructor; [apply E1|exact E2].
Qed.
Definition lists_of (L : lists) (s : gstate) : Prop := Forall2 line_of (l_start L) (gs_start s) /\ Forall2 line_of (l_end L) (gs_end s) /\ Forall2 line_of (l_re L) (gs_re s).
Lemma start_line r x : line_of r x -> line_of (as_start r) (start_of x).
Proof. intros (H1 & H2 & H3). unfold as_start, start_of. rewrite H1. destruct (is_start (rl_action r)); [now split|]. split; [reflexivity|]. split; [exact H2|exact H3]. Qed.
Lemma placed m tail rs xs : Forall2 line_of rs xs -> forall i L s, lists_of L s -> lists_of (classify m tail i rs L) (place_all m tail i xs s).
Proof.
  induction 1 as [|r x rs xs H _ IH]; intros i L s HL; cbn [classify place_all]; [exact HL|]. apply IH. destruct HL as (H1 & H2 & H3). unfold classify1, place. destruct H as (Ha & Hl & Hx) eqn:Heq. rewrite Ha.
  destruct (is_end (rl_action r)); [repeat split; try assumption; apply Forall2_app; [assumption|constructor; [assumption|constructor]]|].
  destruct tail; [repeat split; try assumption; apply Forall2_app; [assumption|constructor; [assumption|constructor]]|].
  destruct (Nat.eqb i 0); [repeat split; try assumption; apply Forall2_app; [assumption|constructor; [now apply start_line|constructor]]|].
  destruct (str_eqb m $"table"); [repeat split; try assumption; apply Forall2_app; [assumption|constructor; [now apply start_line|constructor]]|].
  destruct (is_start (rl_action r)); repeat split; try assumption; apply Forall2_app; try assumption; constructor; try assumption; constructor.
Qed.
Lemma regexes_of dflt m tail data s s' L : regexes vars dflt m tail data s = Ok s' -> lists_of L s -> lists_of (get_regexes names_of m tail data L) s'.
Proof.
  intros E H. unfold regexes in E. destruct (Compile.compile_lines vars _ _ _) as [[xs d]|] eqn:E1; [|discriminate]. cbn [rbind] in E. injection E as <-. apply compiled_lines in E1.
  unfold get_regexes, Template.compile_lines. pose proof (placed m tail _ _ E1 0 L {| gs_start := gs_start s; gs_end := gs_end s; gs_re := gs_re s; gs_defaults := d; gs_hasdef := gs_hasdef s |} H) as K.
  unfold settle_defaults. destruct dflt as [[]|]; exact K.
Qed.
(** ** groups *)
Variable gnames : list str.
Inductive group_of : grp -> cgroup -> Prop :=
| group_is id par a L kids funcs s ckids : lists_of L s -> Forall2 group_of kids ckids ->
    group_of (Grp id par (ga_name a) (ga_path a) (ga_method a) (ga_in a) (ga_out a) L kids) (CG id par (ga_path a) a funcs s ckids).
Theorem group_refines pc e : forall top path idx par g, compile_group vars gnames pc top path idx par e = Ok g -> group_of (build names_of pc top path idx par e) g.
Proof.
  induction e as [tag attrs text cs tail IH] using XmlFacts.elem_ind2. intros top path idx par g E. cbn [compile_group build] in *.
  destruct (func_attributes vars gnames top attrs) as [fa|]; [|discriminate]. cbn [rbind] in E. set (a := attributes pc top path idx attrs) in *. set (id := match ga_id a with Some i => i | None => ([], 0) end) in *. cbv zeta.
  match type of E with (do s0 <- ?m; _) = _ => destruct m as [s0|] eqn:E0; [|discriminate] end. cbn [rbind] in E.
  match type of E with (do (_, _) <- ?m; _) = _ => destruct m as [[kids s]|] eqn:Ek; [|discriminate] end. cbn [rbind] in E. injection E as <-.
  assert (H0 : lists_of (get_regexes names_of (ga_method a) false text {| l_start := []; l_end := []; l_re := [] |}) s0).
  { unfold with_text in E0. destruct text as [|c text]; [discriminate|]. apply (regexes_of _ _ _ _ _ _ _ E0). repeat split; constructor. }
  clear E0. clearbody a id.
  assert (G : forall i kids s0 s L0, lists_of L0 s0 ->
    (fix go (i : nat) (cs : list elem) (s : gstate) : res (list cgroup * gstate) :=
           match cs with
           | [] => Ok ([], s)
           | c :: cs =>
               do k <- compile_group vars gnames pc false (ga_path a) i (Some id) c;
               do s1 <- with_text (e_tail c) (fun tail s => match strip tail with [] => Ok s | _ => regexes vars (fa_default fa) (ga_method a) true tail s end) s;
               do (ks, s2) <- go (S i) cs s1;
               Ok (k :: ks, s2)
           end) i cs s0 = Ok (kids, s) ->
    lists_of (fold_left (fun L c => match strip (e_tail c) with [] => L | _ => get_regexes names_of (ga_method a) true (e_tail c) L end) cs L0) s /\
    Forall2 group_of ((fix go (i : nat) (cs : list elem) : list grp := match cs with [] => [] | c :: cs => build names_of pc false (ga_path a) i (Some id) c :: go (S i) cs end) i cs) kids).
  { clear H0 Ek kids s s0. induction IH as [|c cs Hc _ IHcs]; intros i kids s0 s L0 H0 Ek; [injection Ek as <- <-; split; [exact H0|constructor]|].
    destruct (compile_group vars gnames pc false (ga_path a) i (Some id) c) as [k|] eqn:Ec; [|discriminate]. cbn [rbind] in Ek.
    match type of Ek with (do s1 <- ?m; _) = _ => destruct m as [s1|] eqn:E1; [|discriminate] end. cbn [rbind] in Ek.
    match type of Ek with (do (_, _) <- ?m; _) = _ => destruct m as [[ks s2]|] eqn:E2; [|discriminate] end. cbn [rbind] in Ek. injection Ek as <- <-.
    apply Hc in Ec. cbn [fold_left]. eapply IHcs in E2 as [K1 K2]; [split; [exact K1|constructor; [exact Ec|exact K2]]|].
    unfold with_text in E1. destruct (e_tail c) as [|x t] eqn:Et; [discriminate|]. destruct (strip (x :: t)); [injection E1 as <-; exact H0|]. exact (regexes_of _ _ _ _ _ _ _ E1 H0). }
  apply (G _ _ _ _ _ H0) in Ek as [K1 K2]. constructor; [exact K1|exact K2].
Qed.
Theorem groups_refine pc es : forall i gs, compile_all vars gnames pc i es = Ok gs -> Forall2 group_of (build_all names_of pc i es) gs.
Proof.
  induction es as [|e es IH]; intros i gs E; cbn [compile_all build_all] in *; [injection E as <-; constructor|].
  destruct (compile_group _ _ _ _ _ _ _ e) as [g|] eqn:Eg; [|discriminate]. cbn [rbind] in E. destruct (compile_all _ _ _ _ es) as [gs'|] eqn:Es; [|discriminate]. injection E as <-. constructor; [now apply group_refines|now apply IH].
Qed.
End R.
