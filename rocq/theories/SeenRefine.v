(** * SeenRefine: what the program of Run.v answers is what the one with lookups in results answers *)
From Verif Require Import PyBase Regex Results Template Attributes FormRegex MatchVar MatchFuncs GroupFuncs Parser Compile FuncTable Session Files Inputs OutputTags Load Run RunSeen DictFacts IsolationFuncs.
Local Open Scope string_scope.
Local Open Scope list_scope.

(** ** the functions that look up nothing there do not see the results *)
Lemma rbind_ok {A B} (m : res A) (k : A -> res B) y : rbind m k = Ok y -> exists x, m = Ok x /\ k x = Ok y.
Proof. destruct m; [eauto|discriminate]. Qed.

Lemma bp_default n t (kws : dict) l r : bind_params ((n, Some VNone) :: t) [] kws = Ok (l, r) -> dget kws (KS n) = None -> exists l', l = VNone :: l' /\ bind_params t [] kws = Ok (l', r).
Proof. cbn [bind_params]. unfold kw. intros E H. rewrite H in E. apply rbind_ok in E as ([l' r'] & E & K). injection K as <- <-. eauto. Qed.
Lemma bp_any n t kws l r d : bind_params ((n, d) :: t) [] kws = Ok (l, r) -> exists v l', l = v :: l' /\ bind_params t [] kws = Ok (l', r).
Proof.
  cbn [bind_params]. unfold kw. intros E. destruct (dget kws (KS n)); [|destruct d; [|discriminate]]; apply rbind_ok in E as ([l' r'] & E & K); injection K as <- <-; eauto.
Qed.
Lemma bp_arg n d t a args kws l r : bind_params ((n, d) :: t) (a :: args) kws = Ok (l, r) -> exists l', l = a :: l' /\ bind_params t args kws = Ok (l', r).
Proof. cbn [bind_params]. unfold kw. intros E. destruct (dget kws (KS n)); [discriminate|]. apply rbind_ok in E as ([l' r'] & E & K). injection K as <- <-. eauto. Qed.
Lemma bound_params s args kws b : bind s args kws = Ok b -> exists l r, bind_params (sg_params s) args kws = Ok (l, r) /\ b_params b = l.
Proof.
  unfold bind. intros E. destruct (forallb _ kws); cbn [negb] in E; [|discriminate]. apply rbind_ok in E as ([l r] & E & K). exists l, r. split; [exact E|].
  destruct r; [injection K as <-; reflexivity|]. destruct (sg_star s); [injection K as <-; reflexivity|discriminate].
Qed.
Definition m_sig := sig [opt $"name" VNone; opt $"template" VNone; opt $"group" VNone; opt $"add_field" (VBool false)].
Definition g_sig := sig [req $"key"; opt $"name" VNone; opt $"template" VNone; opt $"group" VNone; opt $"add_field" (VBool false); opt $"replace" (VBool true); opt $"update" (VBool false)].
Lemma dmem_none (d : dict) k : dmem d k = false -> dget d k = None.
Proof. unfold dmem. now destruct (dget d k). Qed.
Lemma m_bound args (kws : dict) b : bind m_sig args kws = Ok b -> (length args <= 1)%nat -> dget kws (KS $"template") = None -> dget kws (KS $"group") = None -> p2 b = VNone /\ p3 b = VNone.
Proof.
  intros E L H2 H3. apply bound_params in E as (l & r & E & P). unfold p2, p3. rewrite P. cbn [sg_params m_sig sig] in E. unfold opt in E.
  assert (G : exists v l', l = v :: l' /\ bind_params [opt $"template" VNone; opt $"group" VNone; opt $"add_field" (VBool false)] [] kws = Ok (l', r)).
  { destruct args as [|a [|? ?]]; [now apply bp_any in E|apply bp_arg in E; eauto|cbn in L; lia]. }
  destruct G as (v & l1 & -> & G). apply bp_default in G as (l2 & -> & G); [|exact H2]. apply bp_default in G as (l3 & -> & G); [|exact H3]. split; reflexivity.
Qed.
Lemma g_bound args (kws : dict) b : bind g_sig args kws = Ok b -> (length args <= 2)%nat -> dget kws (KS $"template") = None -> dget kws (KS $"group") = None -> p3 b = VNone /\ p4 b = VNone.
Proof.
  intros E L H2 H3. apply bound_params in E as (l & r & E & P). unfold p3, p4. rewrite P. cbn [sg_params g_sig sig] in E. unfold opt, req in E.
  assert (G : exists v w l', l = v :: w :: l' /\ bind_params [opt $"template" VNone; opt $"group" VNone; opt $"add_field" (VBool false); opt $"replace" (VBool true); opt $"update" (VBool false)] [] kws = Ok (l', r)).
  { destruct args as [|a [|c [|? ?]]]; [| | |cbn in L; lia].
    - apply bp_any in E as (v & l1 & -> & E). apply bp_any in E as (v2 & l2 & -> & E). eauto.
    - apply bp_arg in E as (l1 & -> & E). apply bp_any in E as (v2 & l2 & -> & E). eauto.
    - apply bp_arg in E as (l1 & -> & E). apply bp_arg in E as (l2 & -> & E). eauto. }
  destruct G as (v & v' & l1 & -> & G). apply bp_default in G as (l2 & -> & G); [|exact H2]. apply bp_default in G as (l3 & -> & G); [|exact H3]. split; reflexivity.
Qed.

(** the tables with the results, and without *)
Lemma entry_split {A} n (pre post pre' post' : list (str * A)) k e e' : pre = pre' -> post = post' -> str_eqb n k = false ->
  lookup_entry n (pre ++ (k, e) :: post) = lookup_entry n (pre' ++ (k, e') :: post').
Proof. intros <- <- H. induction pre as [|[m x] pre IH]; cbn [app lookup_entry]; [now rewrite H|]. now destruct (str_eqb n m). Qed.

Lemma m_same ms lk T R a env d : is_lookup 1 a = false -> call_match ms lk T R a env d = call_match ms lk [] (VDict []) a env d.
Proof.
  intros H. unfold call_match. destruct (str_eqb (at_name a) $"lookup") eqn:En.
  - apply str_eqb_eq in En. unfold is_lookup in H. rewrite En in *. rewrite str_eqb_refl in H. cbn [andb] in H.
    apply orb_false_iff in H as [H H3]. apply orb_false_iff in H as [H1 H2]. apply dmem_none in H1, H2. apply Nat.ltb_ge in H3.
    change (lookup_entry $"lookup" (match_table ms lk T R)) with (Some (m_sig, pure (fun d b => do s <- source_of (p1 b) (p2 b) (p3 b); do a <- key_arg (p4 b); f_lookup lk T R d s a))).
    change (lookup_entry $"lookup" (match_table ms lk [] (VDict []))) with (Some (m_sig, pure (fun d b => do s <- source_of (p1 b) (p2 b) (p3 b); do a <- key_arg (p4 b); f_lookup lk [] (VDict []) d s a))).
    cbv beta iota. destruct (bind m_sig (at_args a) (at_kwargs a)) as [b|e] eqn:Eb; [|reflexivity]. cbn [rbind]. apply m_bound in Eb as [P2 P3]; [|assumption..].
    unfold pure. rewrite P2, P3. unfold source_of. cbn [truthy]. destruct (truthy (p1 b)); [|reflexivity]. destruct (s_arg (p1 b)); reflexivity.
  - replace (lookup_entry (at_name a) (match_table ms lk T R)) with (lookup_entry (at_name a) (match_table ms lk [] (VDict []))); [reflexivity|].
    exact (entry_split (at_name a) (firstn 5 (match_table ms lk [] (VDict []))) (skipn 6 (match_table ms lk [] (VDict [])))
             (firstn 5 (match_table ms lk T R)) (skipn 6 (match_table ms lk T R)) $"lookup" _ _ eq_refl eq_refl En).
Qed.

Lemma g_same ms lk T M R k2i a st : is_lookup 2 a = false -> call_group ms lk T M R k2i a st = call_group ms lk [] (VDict []) (VList []) k2i a st.
Proof.
  intros H. unfold call_group. destruct (str_eqb (at_name a) $"lookup") eqn:En.
  - apply str_eqb_eq in En. unfold is_lookup in H. rewrite En in *. rewrite str_eqb_refl in H. cbn [andb] in H.
    apply orb_false_iff in H as [H H3]. apply orb_false_iff in H as [H1 H2]. apply dmem_none in H1, H2. apply Nat.ltb_ge in H3.
    pose (body := fun T M R (st : fstate) (b : bound) => do k <- s_arg (p1 b); do s <- source_of (p2 b) (p3 b) (p4 b);
                             do a <- (if truthy (p5 b) then do f <- s_arg (p5 b); Ok (Some f) else Ok None);
                             g_lookup lk T M R s k a (truthy (p6 b)) (match p7 b with VBool true => true | _ => false end) st).
    change (lookup_entry $"lookup" (group_table ms lk T M R k2i)) with (Some (g_sig, body T M R)).
    change (lookup_entry $"lookup" (group_table ms lk [] (VDict []) (VList []) k2i)) with (Some (g_sig, body [] (VDict []) (VList []))).
    cbv beta iota. destruct (bind g_sig (at_args a) (at_kwargs a)) as [b|e] eqn:Eb; [|reflexivity]. cbn [rbind]. apply g_bound in Eb as [P2 P3]; [|assumption..].
    unfold body. rewrite P2, P3. unfold source_of. cbn [truthy]. destruct (s_arg (p1 b)); [|reflexivity]. cbn [rbind]. destruct (truthy (p2 b)); [|reflexivity]. destruct (s_arg (p2 b)); reflexivity.
  - replace (lookup_entry (at_name a) (group_table ms lk T M R k2i)) with (lookup_entry (at_name a) (group_table ms lk [] (VDict []) (VList []) k2i)); [reflexivity|].
    exact (entry_split (at_name a) (firstn 11 (group_table ms lk [] (VDict []) (VList []) k2i)) (skipn 12 (group_table ms lk [] (VDict []) (VList []) k2i))
             (firstn 11 (group_table ms lk T M R k2i)) (skipn 12 (group_table ms lk T M R k2i)) $"lookup" _ _ eq_refl eq_refl En).
Qed.

Definition m_le (f f' : mfunc) : Prop := forall env d x, run_func f env d = Ok x -> run_func f' env d = Ok x.
Lemma m_refines vw t a : m_le (m_fun t a) (m_seen vw t a).
Proof.
  intros env d x. unfold m_fun, m_seen. destruct (is_lookup 1 a) eqn:E; [discriminate|]. unfold run_func. cbn [match_func mf_call mf_attr].
  now rewrite (m_same _ _ (vw_templates vw) (vw_results vw)).
Qed.
Lemma g_refines vw t k2i main a st x : g_fun t k2i a st = Ok x -> g_seen vw t k2i main a st = Ok x.
Proof.
  unfold g_fun, g_seen. destruct (is_lookup 2 a) eqn:E; [discriminate|]. intros H.
  assert (K : forall m, call_group (g_macros (tp_macros t)) (VDict (tp_lookups t)) (vw_templates vw) m (vw_results vw) k2i a st = Ok x) by (intros m; now rewrite g_same).
  destruct main; [apply K|]. destruct (fs_results st); apply K.
Qed.

(** ** saving *)
Section M.
Variable F : Type.
Variables f f' : F -> fstate -> res (fstate * bool).
Hypothesis le : forall a st x, f a st = Ok x -> f' a st = Ok x.
Variable k2i : bool.
Ltac go := repeat match goal with
  | H : rbind ?m _ = Ok _ |- _ => let x := fresh "x" in let E := fresh "E" in apply rbind_ok in H as (x & E & H)
  end.
Lemma funcs_le l : forall st x, run_funcs F f l st = Ok x -> run_funcs F f' l st = Ok x.
Proof.
  induction l as [|a l IH]; intros st x; cbn [run_funcs]; [auto|]. intros H. apply rbind_ok in H as ([st' ok] & E & H). apply le in E. rewrite E. cbn [rbind].
  destruct ok; auto.
Qed.
Lemma process_le s x : processgrp F f k2i s = Ok x -> processgrp F f' k2i s = Ok x.
Proof.
  unfold processgrp. intros H. apply rbind_ok in H as ([[r d] c] & E & H). rewrite E. cbn [rbind]. apply rbind_ok in H as ([fs ok] & E2 & H).
  apply funcs_le in E2. rewrite E2. exact H.
Qed.
Lemma flush_le s x : flush F f k2i s = Ok x -> flush F f' k2i s = Ok x.
Proof. unfold flush. intros H. apply rbind_ok in H as ([s' o] & E & H). apply process_le in E. rewrite E. exact H. Qed.
Lemma start_le s rd r m d x : Results.do_start F f k2i s rd r m d = Ok x -> Results.do_start F f' k2i s rd r m d = Ok x.
Proof. unfold Results.do_start. intros H. apply rbind_ok in H as (s2 & E & H). apply flush_le in E. rewrite E. exact H. Qed.
Lemma dispatch_le s rd r x : dispatch F f k2i s rd r = Ok x -> dispatch F f' k2i s rd r = Ok x.
Proof.
  unfold dispatch, do_add, do_join. destruct (r_action F rd); auto using start_le.
  - destruct (path_eqb _ _); [auto|]. destruct (gid_in _ _); auto using start_le.
  - destruct (path_eqb _ _); [auto|]. destruct (gid_in _ _); auto using start_le.
Qed.
Lemma handle_le s i x : Results.handle F f k2i s i = Ok x -> Results.handle F f' k2i s i = Ok x.
Proof.
  unfold Results.handle. destruct i as [rd [r|]]; [|auto]. destruct (ogid_in _ _); [auto|]. destruct (gid_in _ _); [|apply dispatch_le].
  destruct (is_start _); [apply dispatch_le|auto].
Qed.
Lemma fold_le {A S} (g g' : S -> A -> res S) l : (forall s a x, g s a = Ok x -> g' s a = Ok x) -> forall s x, rfold g l s = Ok x -> rfold g' l s = Ok x.
Proof.
  intros K. induction l as [|a l IH]; intros s x; cbn [rfold]; [auto|]. intros H. apply rbind_ok in H as (y & E & H). apply K in E. rewrite E. cbn [rbind]. auto.
Qed.
Lemma make_le e v2r raw m x : make_results F f k2i e v2r raw m = Ok x -> make_results F f' k2i e v2r raw m = Ok x.
Proof.
  unfold make_results. intros H. apply rbind_ok in H as (s1 & E1 & H). change (save_vars F k2i) with (save_vars F k2i) in *. rewrite E1. cbn [rbind].
  apply rbind_ok in H as (s2 & E2 & H). assert (K : run_groups F f' k2i raw s1 = Ok s2).
  { revert E2. unfold run_groups. apply fold_le. intros s grp y. apply fold_le. intros s0 c y0. unfold step_item. destruct (choose F s0 c); [apply handle_le|auto]. }
  rewrite K. cbn [rbind]. now apply flush_le.
Qed.
End M.

(** ** matching *)
Section X.
Variables mf mf' : attribute -> mfunc.
Hypothesis le : forall a, m_le (mf a) (mf' a).
Lemma chain_le l : forall env d fl x, run_chain (map mf l) env d fl = Ok x -> run_chain (map mf' l) env d fl = Ok x.
Proof.
  induction l as [|a l IH]; intros env d fl x; cbn [map run_chain]; [auto|]. intros H. apply rbind_ok in H as ([env' [d' f]] & E & H). apply le in E. rewrite E. cbn [rbind].
  destruct f as [|[|]|]; auto.
Qed.
Definition pvs (f : attribute -> mfunc) (vs : list (str * varobj)) := map (fun nv => (fst nv, pvar_of f (snd nv))) vs.
Lemma assoc_pvs n vs : (exists v, assoc n (pvs mf vs) = Some (pvar_of mf v) /\ assoc n (pvs mf' vs) = Some (pvar_of mf' v)) \/ (assoc n (pvs mf vs) = None /\ assoc n (pvs mf' vs) = None).
Proof. induction vs as [|[m v] vs IH]; cbn [pvs map assoc fst snd]; [now right|]. destruct (str_eqb n m); [left; eauto|exact IH]. Qed.
Lemma vars_le vs l : forall env r x, run_vars (pvs mf vs) l env r = Ok x -> run_vars (pvs mf' vs) l env r = Ok x.
Proof.
  induction l as [|[n d] l IH]; intros env r x; cbn [run_vars]; [auto|]. destruct (assoc_pvs n vs) as [(v & -> & ->)|[-> _]]; [|discriminate].
  intros H. apply rbind_ok in H as ([env' o] & E & H). cbn [pvar_of pv_funcs] in *. apply chain_le in E. rewrite E. cbn [rbind]. destruct o as [[d' nf]|]; [|exact H].
  cbn [pvar_of pv_orig] in *. auto.
Qed.
Lemma temp_same g c m : temp_of attribute (to_pregex mf' g c) m = temp_of attribute (to_pregex mf g c) m.
Proof. unfold temp_of. destruct (pm_groups m); [|reflexivity]. cbn [to_pregex p_vars]. now rewrite !map_map. Qed.
Lemma check_le g c start ms : forall st x, check_matches attribute (to_pregex mf g c) ms start st = Ok x -> check_matches attribute (to_pregex mf' g c) ms start st = Ok x.
Proof.
  unfold check_matches. intros st x. apply fold_le. clear st x. intros [env rs] m x. unfold check_one. intros H. apply rbind_ok in H as ([env' o] & E & H).
  assert (K : run_vars (p_vars attribute (to_pregex mf' g c)) (temp_of attribute (to_pregex mf' g c) m) env [] = Ok (env', o)).
  { rewrite temp_same. exact (vars_le (x_vars c) _ _ _ _ E). }
  rewrite K. exact H.
Qed.

Lemma starts_le text start stop g l : forall a x, rfold (Parser.do_start attribute text start stop) (map (to_pregex mf g) l) a = Ok x -> rfold (Parser.do_start attribute text start stop) (map (to_pregex mf' g) l) a = Ok x.
Proof.
  induction l as [|c l IH]; intros a x; cbn [map rfold]; [auto|]. intros H. apply rbind_ok in H as (y & E & H).
  assert (K : Parser.do_start attribute text start stop a (to_pregex mf' g c) = Ok y).
  { unfold Parser.do_start in *. clear IH H; cbn [to_pregex p_find] in *. destruct (map (pmatch_of _) _) as [|m ms]; [exact E|]. apply rbind_ok in E as (st & E & K). apply check_le in E. rewrite E. exact K. }
  rewrite K. cbn [rbind]. auto.
Qed.
Lemma ends_le text start stop se g l : forall a x, rfold (Parser.do_end attribute text start stop se) (map (to_pregex mf g) l) a = Ok x -> rfold (Parser.do_end attribute text start stop se) (map (to_pregex mf' g) l) a = Ok x.
Proof.
  induction l as [|c l IH]; intros a x; cbn [map rfold]; [auto|]. intros H. apply rbind_ok in H as (y & E & H).
  assert (K : Parser.do_end attribute text start stop se a (to_pregex mf' g c) = Ok y).
  { unfold Parser.do_end in *. clear IH H; cbn [to_pregex p_find] in *. destruct (map (pmatch_of _) _) as [|m ms]; [exact E|]. apply rbind_ok in E as (st & E & K). apply check_le in E. rewrite E. exact K. }
  rewrite K. cbn [rbind]. auto.
Qed.
Lemma normals_le text start stop g l : forall a x,
  rfold (fun st R => check_matches attribute R (p_find attribute R (slice text start stop)) start st) (map (to_pregex mf g) l) a = Ok x ->
  rfold (fun st R => check_matches attribute R (p_find attribute R (slice text start stop)) start st) (map (to_pregex mf' g) l) a = Ok x.
Proof.
  induction l as [|c l IH]; intros a x; cbn [map rfold]; [auto|]. intros H. apply rbind_ok in H as (y & E & H). cbn [to_pregex p_find] in E |- *.
  apply check_le in E. cbn [to_pregex p_find] in *. rewrite E. cbn [rbind]. auto.
Qed.
Lemma place_same g l rs : place_default attribute g (map (to_pregex mf' g) l) rs = place_default attribute g (map (to_pregex mf g) l) rs.
Proof. destruct l; reflexivity. Qed.
Lemma run_le text c : forall st start stop x, run_re attribute text (to_pgroup mf c) st start stop = Ok x -> run_re attribute text (to_pgroup mf' c) st start stop = Ok x.
Proof.
  induction c as [id parent path a funcs gs kids IH] using cgroup_ind_. intros st start stop x. cbn [to_pgroup]. cbv zeta. cbn [run_re].
  set (g := {| g_id := id; g_parent := parent; g_path := path; g_runs := gs_defaults gs; g_funcs := funcs |}).
  intros H. apply rbind_ok in H as (acc & E & H). apply starts_le in E. rewrite E. cbn [rbind]. destruct (negb (sa_found attribute acc)).
  - rewrite place_same. replace (no_starts attribute (map (to_pregex mf' g) (gs_start gs))) with (no_starts attribute (map (to_pregex mf g) (gs_start gs))) by (destruct (gs_start gs); reflexivity).
    match type of H with _ ?ks ?st0 = _ => revert H; generalize st0 end.
    clear E. induction IH as [|k kids Hk _ IHk]; intros st0 H; cbn [map] in *; [exact H|]. apply rbind_ok in H as (st1 & E & H).
    replace (pg_default attribute (to_pgroup mf' k)) with (pg_default attribute (to_pgroup mf k)) by (destruct k; reflexivity).
    destruct (no_starts attribute _ || pg_default attribute (to_pgroup mf k))%bool.
    + apply Hk in E. rewrite E. cbn [rbind]. auto.
    + injection E as <-. cbn [rbind]. auto.
  - apply rbind_ok in H as ([e st1] & E2 & H). apply ends_le in E2. rewrite E2. cbn [rbind]. apply rbind_ok in H as (st3 & E3 & H). apply normals_le in E3. rewrite E3. cbn [rbind].
    clear - IH H. revert st3 H. induction IH as [|k kids Hk _ IHk]; intros st0 H; cbn [map] in *; [exact H|]. apply rbind_ok in H as (st1' & E & H). apply Hk in E. rewrite E. cbn [rbind]. auto.
Qed.
End X.

(** ** one text *)
Definition pgs (mf : attribute -> mfunc) (l : list (cgroup * option (val -> res val))) := map (fun g => (to_pgroup mf (fst g), snd g)) l.
Lemma all_le (mf mf' : attribute -> mfunc) (le : forall a, m_le (mf a) (mf' a)) text l : forall env x,
  run_all attribute text (map (fun x => (fst x, match snd x with Some _ => true | None => false end)) (pgs mf l)) env = Ok x ->
  run_all attribute text (map (fun x => (fst x, match snd x with Some _ => true | None => false end)) (pgs mf' l)) env = Ok x.
Proof.
  induction l as [|[c o] l IH]; intros env x; [auto|]. change (pgs mf ((c, o) :: l)) with ((to_pgroup mf c, o) :: pgs mf l). change (pgs mf' ((c, o) :: l)) with ((to_pgroup mf' c, o) :: pgs mf' l). cbn [map run_all fst snd]. intros H. apply rbind_ok in H as ([env1 rs] & E & H).
  apply (run_le mf mf' le) in E. rewrite E. cbn [rbind]. apply rbind_ok in H as ([env2 l2] & E2 & H). apply IH in E2. rewrite E2. exact H.
Qed.
Lemma own_le (f : attribute -> fstate -> res (fstate * bool)) (f' : option val -> attribute -> fstate -> res (fstate * bool)) (le : forall m a st x, f a st = Ok x -> f' m a st = Ok x)
  k2i v2r l : forall e main e' vs, own_results attribute f k2i e v2r l (main_list main) = Ok (e', vs) -> (l <> [] \/ main = VList vs) -> own_seen attribute f' k2i e v2r l main = Ok (e', VList vs).
Proof.
  induction l as [|[raw out] l IH]; intros e main e' vs H Hm; cbn [own_results own_seen] in *.
  - injection H as <- <-. destruct Hm as [[]|Hm]; [reflexivity|]. now rewrite Hm.
  - apply rbind_ok in H as (s & E & H). apply (make_le _ _ _ (le (Some main))) in E. rewrite E. cbn [rbind]. apply rbind_ok in H as (v & E2 & H). rewrite E2. cbn [rbind].
    apply IH; [exact H|]. destruct l; [|left; discriminate]. right. cbn [own_results] in H. now injection H as _ ->.
Qed.
Lemma flat_map_map {A B C} (f : B -> list C) (g : A -> B) l : flat_map f (map g l) = flat_map (fun x => f (g x)) l.
Proof. induction l as [|x l IH]; cbn [map flat_map]; [reflexivity|now rewrite IH]. Qed.
Lemma parse_le (mf mf' : attribute -> mfunc) f f' (lem : forall a, m_le (mf a) (mf' a)) (le : forall m a st x, f a st = Ok x -> f' m a st = Ok x) k2i text l v2r env0 main env1 e v :
  Parser.parse attribute f k2i text (pgs mf l) v2r env0 main = Ok (env1, (e, v)) ->
  parse_seen attribute f' k2i text (pgs mf' l) v2r env0 main = Ok (e, v).
Proof.
  unfold Parser.parse, parse_seen. intros H. apply rbind_ok in H as ([env2 found] & E & H). apply (all_le mf mf' lem) in E. rewrite E. cbn [rbind]. cbv zeta in *.
  replace (combine found (pgs mf' l)) with (map (fun x : (_ * bool) * (cgroup * option (val -> res val)) => (fst x, (to_pgroup mf' (fst (snd x)), snd (snd x)))) (combine found l)).
  2:{ clear. revert found. induction l as [|[c o] l IH]; intros [|y found]; cbn [pgs map combine fst snd]; try reflexivity. now rewrite IH. }
  replace (combine found (pgs mf l)) with (map (fun x : (_ * bool) * (cgroup * option (val -> res val)) => (fst x, (to_pgroup mf (fst (snd x)), snd (snd x)))) (combine found l)) in H.
  2:{ clear. revert found. induction l as [|[c o] l IH]; intros [|y found]; cbn [pgs map combine fst snd]; try reflexivity. now rewrite IH. }
  rewrite flat_map_map in H |- *. cbn [fst snd] in H |- *.
  apply rbind_ok in H as (s & E2 & H). apply (make_le _ _ _ (le None)) in E2. rewrite E2. cbn [rbind].
  match type of H with match ?o with _ => _ end = _ => destruct o eqn:Eo end.
  - cbn [own_seen]. now injection H as _ <- <-.
  - apply rbind_ok in H as ([e3 vs] & E3 & H). injection H as _ <- <-. apply (own_le f f' le); [|left; discriminate]. destruct (s_results attribute s) as [| | | | |[|]|]; exact E3.
Qed.
Lemma text_le clock k2i vw t gv idxs fs n x main r : parse_text clock k2i t gv idxs fs n x main = Ok r -> text_seen clock k2i vw t gv idxs fs n x main = Ok r.
Proof.
  unfold parse_text, text_seen. intros H. apply rbind_ok in H as (text & E & H). rewrite E. cbn [rbind]. apply rbind_ok in H as (gs & E2 & H). rewrite E2. cbn [rbind].
  apply rbind_ok in H as ([env1 [e v]] & E3 & H).
  pose (l := map (fun g : cgroup * list gout => (fst g, own_outputs t (snd g))) gs).
  assert (K : forall mf, map (fun g : cgroup * list gout => (to_pgroup mf (fst g), own_outputs t (snd g))) gs = pgs mf l) by (intros mf; unfold l, pgs; now rewrite map_map).
  rewrite K in E3. rewrite K. apply (parse_le _ (m_seen vw t) _ (g_seen vw t k2i) (m_refines vw t) (fun m a st x => g_refines vw t k2i m a st x)) in E3.
  rewrite E3. exact H.
Qed.
Lemma parser_le clock k2i w ts vw i gv idxs fs d main r : parser_of clock k2i w ts i gv idxs fs d main = Ok r -> parser_seen clock k2i w ts vw i gv idxs fs d main = Ok r.
Proof.
  unfold parser_of, parser_seen. destruct (nth_error ts i) as [t|]; [|auto]. intros H. apply rbind_ok in H as ([x n] & E & H). rewrite E. cbn [rbind]. now apply text_le.
Qed.

(** ** the session *)
Section S.
Variables (clock : str -> option val) (k2i : bool) (order : list nat -> list nat) (w : world) (ts : list tpl).
Let prs := parser_of clock k2i w ts.
Let see := parser_seen clock k2i w ts.
Lemma inputs_le (f f' : nat -> dict * @template (list attribute) -> str * @Session.input (list attribute) -> res (dict * @template (list attribute))) l :
  (forall a s x, f 0 s a = Ok x -> f' 0 s a = Ok x) -> forall s x, rfold (f 0) l s = Ok x -> rfold (f' 0) l s = Ok x.
Proof. intros H s x. apply fold_le. intros. now apply H. Qed.
Lemma one_le before after t g x : parse_one prs t g = Ok x -> one_seen clock k2i w ts before after t g = Ok x.
Proof.
  unfold parse_one, one_seen. destruct (str_eqb (lower (t_method t)) $"per_input").
  - apply fold_le. clear g x. intros st i x. apply fold_le. clear st x. intros st d x H. apply rbind_ok in H as ([g' v] & E & H). apply (parser_le _ _ _ _ (view_of before (snd st) after)) in E.
    rewrite E. exact H.
  - destruct (str_eqb (lower (t_method t)) $"per_template"); [|auto]. intros H. apply rbind_ok in H as ([g' v] & E & H).
    assert (K : rfold (fun st i => rfold (fun st d => see (view_of before t after) (t_id t) (fst st) (in_groups (snd i)) (in_funcs (snd i)) d (snd st)) (in_data (snd i)) st) (t_inputs t) (g, VDict []) = Ok (g', v)).
    { revert E. apply fold_le. intros st i y. apply fold_le. intros st' d y'. apply parser_le. }
    unfold see in K. rewrite K. exact H.
Qed.
Lemma each_le l : forall before g g' l', each (parse_one prs) l g = Ok (g', l') -> each_seen clock k2i w ts before l g = Ok (g', before ++ l').
Proof.
  induction l as [|t l IH]; intros before g g' l'; cbn [each each_seen].
  - intros H. injection H as <- <-. now rewrite app_nil_r.
  - intros H. apply rbind_ok in H as ([g1 t1] & E & H). apply (one_le before l) in E. rewrite E. cbn [rbind]. apply rbind_ok in H as ([g2 l2] & E2 & H). injection H as <- <-.
    apply (IH (before ++ [t1])) in E2. now rewrite E2, <- app_assoc.
Qed.
End S.
Theorem parsed_le clock k2i order w ts texts s : parsed clock k2i order w ts texts = Ok s -> parsed_seen clock k2i order w ts texts = Ok s.
Proof.
  unfold parsed, parsed_seen, Session.parse. intros H. apply rbind_ok in H as ([size n] & E & H). rewrite E. cbn [rbind]. cbn [is_true andb] in H.
  apply rbind_ok in H as ([g l] & E2 & H). apply (each_le clock k2i w ts _ []) in E2. rewrite E2. exact H.
Qed.
Theorem seen_refines clock k2i order w base vars text texts structure v :
  ttp_result clock k2i order w base vars text texts structure = Ok v -> ttp_seen clock k2i order w base vars text texts structure = Ok v.
Proof.
  unfold ttp_result, ttp_session, ttp_seen. intros H. apply rbind_ok in H as (s & H & E). apply rbind_ok in H as (ts & E1 & H). rewrite E1. cbn [rbind]. apply parsed_le in H. rewrite H. exact E.
Qed.
