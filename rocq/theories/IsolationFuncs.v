(** * IsolationFuncs: which functions store something outside of the results. *)
From Coq Require Import Lia.
From Verif Require Import PyBase DictFacts Regex Results Template Attributes FormRegex MatchVar MatchFuncs GroupFuncs Parser ParserFacts QuietFacts Compile FuncTable Session SessionFacts Inputs Load Run SpecIsolation.
Local Open Scope string_scope.
Local Open Scope list_scope.

(** ** match functions *)
Definition keeps {A} (f : menv -> val -> bound -> res (menv * A)) : Prop := forall env d b env' r, f env d b = Ok (env', r) -> env' = env.
Lemma keep_env_same env r env' x : keep_env env r = Ok (env', x) -> env' = env.
Proof. unfold keep_env. destruct r; cbn [rbind]; congruence. Qed.
Lemma pure_keeps f : keeps (pure f).
Proof. intros env d b env' r E. exact (keep_env_same _ _ _ _ E). Qed.
Lemma lookup_entry_in {A} n (l : list (str * A)) x : lookup_entry n l = Some x -> In (n, x) l.
Proof. induction l as [|[m a] l IH]; cbn [lookup_entry]; [discriminate|]. destruct (str_eqb n m) eqn:E; [apply str_eqb_eq in E; intros [= ->]; subst; now left|intros H; right; now apply IH]. Qed.
Lemma table_keeps macros lookups templates results : Forall (fun e => keeps (snd (snd e)) \/ In (fst e) recorders) (match_table macros lookups templates results).
Proof.
  unfold match_table.
  repeat (apply Forall_cons; [cbn [fst snd]; first [left; apply pure_keeps | left; intros env d b env' r E; exact (keep_env_same _ _ _ _ E) | left; intros env d b env' r E; discriminate E | right; unfold recorders; cbn [In]; tauto]|]). constructor.
Qed.
Lemma match_func_quiet macros lookups templates results a : ~ In (at_name a) recorders -> quiet_m (match_func macros lookups templates results a).
Proof.
  intros Hn env d env' r E. cbn [match_func mf_call] in E. unfold call_match in E. destruct (lookup_entry _ _) as [[s f]|] eqn:El; [|destruct (in_strs _ _); discriminate].
  destruct (bind s _ _) as [b|]; [|discriminate]. cbn [rbind] in E. apply lookup_entry_in in El. pose proof (table_keeps macros lookups templates results) as H. rewrite Forall_forall in H. apply H in El as [K|K]; cbn [fst snd] in K; [now apply K in E as ->|contradiction].
Qed.
Lemma m_fun_quiet t a : ~ In (at_name a) recorders -> quiet_m (m_fun t a).
Proof. intros Hn. unfold m_fun. destruct (is_lookup 1 a); [intros env d env' r E; discriminate E|]. now apply match_func_quiet. Qed.

(** ** group functions *)
Definition stays (f : fstate -> res (fstate * bool)) : Prop := forall st st' b, f st = Ok (st', b) -> fs_env st' = fs_env st.
Lemma set_data_env st k v st' : set_data st k v = Ok st' -> fs_env st' = fs_env st.
Proof. unfold set_data. destruct (fs_data st); congruence || (intros [= <-]; reflexivity). Qed.
Ltac stay := intros st st' ok E; repeat match type of E with
  | rbind ?m _ = Ok _ => destruct m as [?|?] eqn:?; cbn [rbind] in E; [|discriminate E]
  | (let '(_, _) := ?p in _) = Ok _ => destruct p
  | (if ?b then _ else _) = Ok _ => destruct b
  | match ?x with _ => _ end = Ok _ => destruct x eqn:?
  | Raise _ = Ok _ => discriminate E
  | out_of_model = Ok _ => discriminate E
  | keep _ = Ok _ => let E1 := fresh in let E2 := fresh in injection E as E1 E2; rewrite <- E1; first [reflexivity|eapply set_data_env; eassumption]
  | reject _ = Ok _ => let E1 := fresh in let E2 := fresh in injection E as E1 E2; rewrite <- E1; reflexivity
  | Ok _ = Ok _ => let E1 := fresh in let E2 := fresh in injection E as E1 E2; rewrite <- E1; reflexivity
  end.
Lemma g_contains_stays l : stays (g_contains l).
Proof. induction l as [|x l IH]; cbn [g_contains]; stay; now apply IH in E. Qed.
Lemma g_containsall_stays l : stays (g_containsall l).
Proof. induction l as [|x l IH]; cbn [g_containsall]; stay; now apply IH in E. Qed.
Lemma g_exclude_stays l : stays (g_exclude l).
Proof. induction l as [|x l IH]; cbn [g_exclude]; stay; now apply IH in E. Qed.
Lemma g_excludeall_stays l : stays (g_excludeall l).
Proof. unfold g_excludeall. stay. Qed.
Lemma g_del_stays l : stays (g_del l).
Proof. induction l as [|x l IH]; cbn [g_del]; stay; apply IH in E; exact E. Qed.
Lemma g_lookup_in_stays table path k a r u : stays (group_lookup_in table path k a r u).
Proof. unfold group_lookup_in. stay. Qed.
Lemma group_keeps gmacros lookups templates main results k2i : Forall (fun e => (forall b, stays (fun st => snd (snd e) st b)) \/ fst e = $"record") (group_table gmacros lookups templates main results k2i).
Proof.
  unfold group_table.
  Ltac entry tac := apply Forall_cons; [cbn [fst snd]; left; intros b; tac|].
  entry ltac:(stay; exact (g_contains_stays _ _ _ _ E)).
  entry ltac:(unfold g_contains_val; stay).
  entry ltac:(stay; exact (g_containsall_stays _ _ _ _ E)).
  entry ltac:(stay; exact (g_del_stays _ _ _ _ E)).
  entry ltac:(unfold g_equal; stay).
  entry ltac:(stay; exact (g_exclude_stays _ _ _ _ E)).
  entry ltac:(unfold g_exclude_val; stay).
  entry ltac:(unfold g_excludeall; stay).
  entry ltac:(unfold g_expand; stay).
  entry ltac:(unfold g_itemize; stay).
  entry ltac:(unfold g_items2dict; cbv zeta; stay).
  entry ltac:(unfold g_lookup; stay; exact (g_lookup_in_stays _ _ _ _ _ _ _ _ _ E)).
  entry ltac:(unfold g_macro; stay).
  apply Forall_cons; [right; reflexivity|].
  entry ltac:(unfold g_set; cbv zeta; stay).
  entry ltac:(unfold g_sformat; stay).
  entry ltac:(unfold g_str_to_unicode; stay).
  entry ltac:(unfold g_to_int; cbv zeta; stay).
  entry ltac:(unfold g_void; stay).
  constructor.
Qed.
Lemma g_fun_quiet t k2i a : at_name a <> $"record" -> quiet_f attribute (g_fun t k2i) a.
Proof.
  intros Hn st st' b E. unfold g_fun in E. destruct (is_lookup 2 a); [discriminate E|]. unfold call_group in E. destruct (lookup_entry _ _) as [[s f]|] eqn:El; [|destruct (in_strs _ _); discriminate].
  destruct (bind s _ _) as [bb|]; [|discriminate]. cbn [rbind] in E. apply lookup_entry_in in El. pose proof (group_keeps (g_macros (tp_macros t)) (VDict (tp_lookups t)) [] (VDict []) (VList []) k2i) as H. rewrite Forall_forall in H. apply H in El as [K|K]; cbn [fst snd] in K; [now rewrite (K _ _ _ _ E)|contradiction].
Qed.

(** ** groups *)
Section G.
Variables (t : tpl) (k2i : bool).
Notation quiet_re := (quiet_re attribute (g_fun t k2i)).
Lemma regex_quiet g x : Forall (fun a => ~ In (at_name a) recorders) (regex_functions x) -> Forall (fun a => at_name a <> $"record") (g_funcs _ g) -> quiet_re (to_pregex (m_fun t) g x).
Proof.
  intros Hx Hg. split.
  - cbn [to_pregex p_vars]. apply Forall_map. apply Forall_forall. intros [n v] Hi. cbn [snd pvar_of pv_funcs]. apply Forall_map. apply Forall_forall. intros a Ha. apply m_fun_quiet. rewrite Forall_forall in Hx. apply Hx. apply in_flat_map. exists (n, v). now split.
  - cbn [to_pregex p_re r_group]. eapply Forall_impl; [|exact Hg]. intros a Ha. now apply g_fun_quiet.
Qed.
Lemma regexes_quiet g l : Forall (fun a => ~ In (at_name a) recorders) (flat_map regex_functions l) -> Forall (fun a => at_name a <> $"record") (g_funcs _ g) -> Forall quiet_re (map (to_pregex (m_fun t) g) l).
Proof.
  intros Hl Hg. apply Forall_map. apply Forall_forall. intros x Hx. apply regex_quiet; [|exact Hg]. rewrite Forall_forall in Hl |- *. intros a Ha. apply Hl. apply in_flat_map. exists x. now split.
Qed.
Fixpoint cgroup_ind_ (P : cgroup -> Prop) (H : forall id parent path a funcs st kids, Forall P kids -> P (CG id parent path a funcs st kids)) (g : cgroup) : P g :=
  match g with
  | CG id parent path a funcs st kids => H id parent path a funcs st kids ((fix go l := match l return Forall P l with [] => Forall_nil _ | x :: l => Forall_cons _ (cgroup_ind_ P H x) (go l) end) kids)
  end.
Lemma group_quiet g : Forall (fun a => ~ In (at_name a) recorders) (match_functions g) -> Forall (fun a => at_name a <> $"record") (group_functions g) -> quiet_group attribute (g_fun t k2i) (to_pgroup (m_fun t) g).
Proof.
  induction g as [id parent path a funcs st kids IH] using cgroup_ind_. intros Hm Hg. cbn [match_functions group_functions] in Hm, Hg. rewrite !Forall_app in Hm. destruct Hm as (H1 & H2 & H3 & H4). apply Forall_app in Hg as [G1 G2].
  cbn [to_pgroup]. constructor; cbn [g_funcs]; try (apply regexes_quiet; assumption).
  - eapply Forall_impl; [|exact G1]. intros b Hb. now apply g_fun_quiet.
  - apply Forall_map. apply Forall_forall. intros x Hx. rewrite Forall_forall in IH. apply IH; [exact Hx| |].
    + rewrite Forall_forall in H4 |- *. intros b Hb. apply H4. apply in_flat_map. exists x. now split.
    + rewrite Forall_forall in G2 |- *. intros b Hb. apply G2. apply in_flat_map. exists x. now split.
Qed.
Theorem template_quiet : records_nothing t -> Forall (fun g => quiet_group attribute (g_fun t k2i) (to_pgroup (m_fun t) g)) (tp_groups t).
Proof. intros H. eapply Forall_impl; [|exact H]. intros g [H1 H2]. now apply group_quiet. Qed.
Theorem parse_text_quiet clock gvars idxs fs n x main gv v : records_nothing t -> parse_text clock k2i t gvars idxs fs n x main = Ok (gv, v) -> gv = gvars.
Proof.
  intros H E. unfold parse_text in E. cbv zeta in E. destruct (input_text _ fs _) as [text|]; [|discriminate]. cbn [rbind] in E. destruct (chosen idxs (combine (tp_groups t) (tp_gouts t))) as [gs|] eqn:Ec; [|discriminate]. cbn [rbind] in E.
  destruct (Parser.parse _ _ _ _ _ _ _ _) as [[e1 [e v']]|] eqn:Ep; [|discriminate]. cbn [rbind] in E. injection E as <- <-. apply parse_quiet in Ep; [exact Ep|].
  apply Forall_map. apply Forall_forall. intros g Hg. cbn [fst snd]. pose proof (template_quiet H) as Q. rewrite Forall_forall in Q. apply Q. unfold chosen in Ec. cut (In g (combine (tp_groups t) (tp_gouts t))); [destruct g; apply in_combine_l|]. clear - Ec Hg. revert gs Ec Hg. induction idxs as [|i idxs IH]; intros gs Ec Hg; cbn [rmap] in Ec; [injection Ec as <-; destruct Hg|].
  destruct (nth_error (combine (tp_groups t) (tp_gouts t)) i) as [g'|] eqn:En; [|discriminate]. cbn [rbind] in Ec. destruct (rmap _ idxs) as [gs'|] eqn:Er; [|discriminate]. cbn [rbind] in Ec. injection Ec as <-. destruct Hg as [->|Hg]; [eapply nth_error_In, En|now apply (IH gs')].
Qed.
End G.
