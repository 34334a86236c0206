(** * QuietFacts: what changes the variables shared by all inputs. *)
From Coq Require Import Lia.
From Verif Require Import PyBase DictFacts Results MatchFuncs Parser ParserFacts ParserFacts2 MuteFacts.

Section E.
Variable F : Type.
Variable runf : F -> fstate -> res (fstate * bool).
Variable k2i : bool.
(** a group function that leaves the shared variables alone *)
Definition quiet_f (f : F) : Prop := forall st st' b, runf f st = Ok (st', b) -> e_gvars (fs_env st') = e_gvars (fs_env st).
Definition quiet_item (x : item F) : Prop := Forall quiet_f (g_funcs F (r_group F (fst x))).
Definition quiet_state (gv : dict) (s : rstate F) : Prop := e_gvars (s_env F s) = gv /\ Forall quiet_f (rc_funcs F (s_rec F s)).
Lemma run_funcs_quiet fs : Forall quiet_f fs -> forall st st' b, run_funcs F runf fs st = Ok (st', b) -> e_gvars (fs_env st') = e_gvars (fs_env st).
Proof.
  induction 1 as [|f fs Hf _ IH]; intros st st' b E; cbn [run_funcs] in E; [now injection E as <- _|]. destruct (runf f st) as [[st1 ok]|] eqn:E1; [|discriminate]. cbn [rbind] in E. apply Hf in E1. destruct ok; [|injection E as <- _; exact E1]. rewrite <- E1. now apply IH in E.
Qed.
Lemma processgrp_quiet gv s s' o : quiet_state gv s -> processgrp F runf k2i s = Ok (s', o) -> quiet_state gv s'.
Proof.
  intros [H1 H2] E. unfold processgrp in E. destruct (if rc_mwl F (s_rec F s) then _ else _) as [[[rs d1] c1]|]; [|discriminate]. cbn [rbind] in E.
  destruct (run_funcs F runf _ _) as [[fs ok]|] eqn:Ef; [|discriminate]. cbn [rbind] in E. apply (run_funcs_quiet _ H2) in Ef. cbn [fs_env] in Ef. destruct ok.
  - destruct (form_path _ _ _ _) as [[[op d2] c2]|]; [|discriminate]. cbn [rbind] in E. destruct op as [[|p pp]|]; injection E as <- <-; (split; [cbn [s_env]; congruence|exact H2]).
  - injection E as <- <-. split; [cbn [s_env]; congruence|exact H2].
Qed.
Lemma flush_quiet gv s s' : quiet_state gv s -> flush F runf k2i s = Ok s' -> quiet_state gv s'.
Proof.
  intros H E. unfold flush in E. destruct (processgrp F runf k2i s) as [[s1 o]|] eqn:Ep; [|discriminate]. apply (processgrp_quiet gv) in Ep; [|exact H]. cbn [rbind] in E. destruct o as [[data pp]|]; [|now injection E as <-].
  destruct (save_cur _ _ _ _ _) as [v|]; [|discriminate]. injection E as <-. exact Ep.
Qed.
Lemma do_start_quiet gv s rd d m defs s' : quiet_state gv s -> Forall quiet_f (g_funcs F (r_group F rd)) -> Results.do_start F runf k2i s rd d m defs = Ok s' -> quiet_state gv s'.
Proof.
  intros H Hg E. unfold Results.do_start in E. destruct (flush F runf k2i _) as [s2|] eqn:Ef; [|discriminate]. apply (flush_quiet gv) in Ef; [|exact H]. injection E as <-. split; [apply Ef|exact Hg].
Qed.
Lemma dispatch_quiet gv s rd d s' : quiet_state gv s -> Forall quiet_f (g_funcs F (r_group F rd)) -> dispatch F runf k2i s rd d = Ok s' -> quiet_state gv s'.
Proof.
  intros H Hg E. unfold dispatch in E. destruct (r_action F rd).
  - exact (do_start_quiet gv _ _ _ _ _ _ H Hg E).
  - exact (do_start_quiet gv _ _ _ _ _ _ H Hg E).
  - unfold do_add in E. destruct (path_eqb _ _); [injection E as <-; exact H|]. destruct (gid_in _ _); [|injection E as <-; exact H]. exact (do_start_quiet gv _ _ _ _ _ _ H Hg E).
  - unfold do_join in E. destruct (path_eqb _ _); [destruct (rfold _ _ _) as [rr|]; [|discriminate]; injection E as <-; exact H|]. destruct (gid_in _ _); [|injection E as <-; exact H]. exact (do_start_quiet gv _ _ _ _ _ _ H Hg E).
  - unfold Results.do_end in E. destruct (negb _); [|injection E as <-; exact H]. destruct (s_started F s) as [|t l]; [discriminate|]. destruct (gid_eqb _ _); injection E as <-; exact H.
Qed.
Lemma step_quiet gv s c s' : quiet_state gv s -> Forall quiet_item c -> step_item F runf k2i s c = Ok s' -> quiet_state gv s'.
Proof.
  intros H Hc E. unfold step_item in E. destruct (choose F s c) as [[rd o]|] eqn:Ec; [|discriminate]. apply choose_priority in Ec as [Hi _]. rewrite Forall_forall in Hc. apply Hc in Hi. cbn [fst] in Hi.
  unfold handle in E. destruct o as [d|]; [|injection E as <-; exact H]. destruct (ogid_in _ _); [injection E as <-; exact H|]. destruct (gid_in _ _).
  - destruct (is_start _); [|injection E as <-; exact H]. now apply (dispatch_quiet gv) in E.
  - now apply (dispatch_quiet gv) in E.
Qed.
Lemma rfold_quiet {A B} (f : A -> B -> res A) (P : A -> Prop) (Q : B -> Prop) l : (forall a b a', P a -> Q b -> f a b = Ok a' -> P a') -> Forall Q l -> forall a a', P a -> rfold f l a = Ok a' -> P a'.
Proof.
  intros Hf. induction 1 as [|b l Hb _ IH]; intros a a' Ha E; cbn [rfold] in E; [now injection E as <-|]. destruct (f a b) as [a1|] eqn:E1; [|discriminate]. cbn [rbind] in E. apply IH in E; [exact E|]. now apply (Hf a b).
Qed.
Lemma save_var_quiet gv s pv s' : quiet_state gv s -> save_var_path F k2i s pv = Ok s' -> quiet_state gv s'.
Proof.
  intros H E. destruct pv as [p names]. unfold save_var_path in E. destruct p as [|c p]; [injection E as <-; exact H|]. destruct (form_path _ _ _ _) as [[[op data] cache]|]; [|discriminate]. cbn [rbind] in E. cbv zeta in E.
  destruct op as [[|q pp]|]; try (injection E as <-; exact H). destruct (save_cur _ _ _ _ _) as [v|]; [|discriminate]. injection E as <-. exact H.
Qed.
Theorem make_results_quiet e v2r raw main s : Forall (Forall (Forall quiet_item)) raw -> make_results F runf k2i e v2r raw main = Ok s -> e_gvars (s_env F s) = e_gvars e.
Proof.
  intros Hr E. unfold make_results in E. set (s0 := init_state F e main) in E. assert (H0 : quiet_state (e_gvars e) s0) by (split; [reflexivity|constructor]).
  destruct (match raw with [] => Ok s0 | _ :: _ => save_vars F k2i s0 v2r end) as [s1|] eqn:E1; [|discriminate]. cbn [rbind] in E.
  assert (H1 : quiet_state (e_gvars e) s1).
  { destruct raw; [injection E1 as <-; exact H0|]. unfold save_vars in E1. destruct (rfold _ _ s0) as [sa|] eqn:Ea; [|discriminate]. cbn [rbind] in E1. injection E1 as <-.
    apply (rfold_quiet _ (quiet_state (e_gvars e)) (fun _ => True)) in Ea; [split; [apply Ea|constructor]|intros; eapply save_var_quiet; eassumption|apply Forall_forall; trivial|exact H0]. }
  unfold run_groups in E. destruct (rfold _ raw s1) as [s2|] eqn:E2; [|discriminate]. cbn [rbind] in E.
  apply (rfold_quiet _ (quiet_state (e_gvars e)) (Forall (Forall quiet_item))) in E2; [|intros a b a' Ha Hb Eb; exact (rfold_quiet _ _ _ _ (fun a b a' Ha Hb => step_quiet (e_gvars e) a b a' Ha Hb) Hb a a' Ha Eb)|exact Hr|exact H1].
  apply (flush_quiet (e_gvars e)) in E; [apply E|exact E2].
Qed.

(** ** the matches *)
Definition quiet_m (f : mfunc) : Prop := forall env d env' r, mf_call f env d = Ok (env', r) -> m_gvars env' = m_gvars env.
Definition quiet_re (R : pregex F) : Prop := Forall (fun nv => Forall quiet_m (pv_funcs (snd nv))) (p_vars F R) /\ Forall quiet_f (g_funcs F (r_group F (p_re F R))).
Inductive quiet_group : pgroup F -> Prop :=
| quiet_PG g a b c d cs : Forall quiet_f (g_funcs F g) -> Forall quiet_re a -> Forall quiet_re b -> Forall quiet_re c -> Forall quiet_group cs -> quiet_group (PG F g a b c d cs).
Notation found := (list (Z * list (item F))).
Definition quiet_found (gv : dict) (st : menv * found) : Prop := m_gvars (fst st) = gv /\ Forall (fun e => Forall quiet_item (snd e)) (snd st).
Lemma run_func_quiet f env d env' r : quiet_m f -> run_func f env d = Ok (env', r) -> m_gvars env' = m_gvars env.
Proof.
  intros Hf E. unfold run_func in E. destruct (mf_call f env d) as [[e1 r1]|x] eqn:Ec; [injection E as <- _; now apply Hf in Ec|].
  destruct x; try discriminate. destruct (mf_attr f d) as [v|x]; [destruct v as [|[]| | | | |]; injection E as <- _; reflexivity|]. destruct x; try discriminate. now injection E as <- _.
Qed.
Lemma run_chain_quiet fs : Forall quiet_m fs -> forall env d fl env' o, run_chain fs env d fl = Ok (env', o) -> m_gvars env' = m_gvars env.
Proof.
  induction 1 as [|f fs Hf _ IH]; intros env d fl env' o E; cbn [run_chain] in E; [now injection E as <- _|]. destruct (run_func f env d) as [[e1 [d1 g1]]|] eqn:E1; [|discriminate]. cbn [rbind] in E. apply (run_func_quiet _ _ _ _ _ Hf) in E1.
  destruct g1 as [|[]|nf]; try (apply IH in E; congruence). injection E as <- _. exact E1.
Qed.
Lemma run_vars_quiet vars : Forall (fun nv => Forall quiet_m (pv_funcs (snd nv))) vars -> forall temp env r env' o, run_vars vars temp env r = Ok (env', o) -> m_gvars env' = m_gvars env.
Proof.
  intros Hv. induction temp as [|[n data] temp IH]; intros env r env' o E; cbn [run_vars] in E; [now injection E as <- _|].
  assert (Ha : forall v, assoc n vars = Some v -> Forall quiet_m (pv_funcs v)). { clear - Hv. induction Hv as [|[m x] vars Hx _ IH]; intros v E; [discriminate|]. cbn [assoc] in E. destruct (str_eqb n m); [injection E as <-; exact Hx|now apply IH]. }
  destruct (assoc n vars) as [v|]; [|discriminate]. specialize (Ha v eq_refl). destruct (run_chain _ env data []) as [[e1 o1]|] eqn:E1; [|discriminate]. cbn [rbind] in E. apply (run_chain_quiet _ Ha) in E1. destruct o1 as [[d nf]|]; [apply IH in E; congruence|injection E as <- _; exact E1].
Qed.
Lemma add_at_quiet gv env p x rs : quiet_found gv (env, rs) -> quiet_item x -> quiet_found gv (env, add_at F p x rs).
Proof.
  intros [H1 H2] Hx. split; [exact H1|]. cbn [snd] in *. clear H1. induction H2 as [|[q l] rs Hl Hrs IH]; cbn [add_at]; [repeat constructor; exact Hx|]. destruct (Z.eqb p q); constructor; cbn [snd] in *; auto. apply Forall_app. split; [exact Hl|]. now constructor.
Qed.
Lemma check_quiet gv R start ms : quiet_re R -> forall st st', quiet_found gv st -> check_matches F R ms start st = Ok st' -> quiet_found gv st'.
Proof.
  intros [Hv Hg] st st' H E. unfold check_matches in E. refine (rfold_quiet (check_one F R start) (quiet_found gv) (fun _ => True) ms _ _ st st' H E); [|apply Forall_forall; trivial]. clear - Hv Hg.
  intros [env rs] m st' H _ E. unfold check_one in E. destruct (run_vars _ _ env []) as [[e1 o]|] eqn:E1; [|discriminate]. cbn [rbind] in E. apply (run_vars_quiet _ Hv) in E1.
  assert (H' : quiet_found gv (e1, rs)) by (destruct H as [H1 H2]; split; [cbn [fst] in *; congruence|exact H2]). destruct o as [d|]; [|destruct (is_start _)]; injection E as <-; try exact H'; (apply add_at_quiet; [exact H'|exact Hg]).
Qed.
Lemma do_start_q gv text start stop R a a' : quiet_re R -> quiet_found gv (sa_st F a) -> Parser.do_start F text start stop a R = Ok a' -> quiet_found gv (sa_st F a').
Proof.
  intros HR H E. unfold Parser.do_start in E. destruct (p_find F R _) as [|m ms]; [now injection E as <-|]. destruct (check_matches F R (m :: ms) start (sa_st F a)) as [st|] eqn:Ec; [|discriminate]. injection E as <-. exact (check_quiet gv R start _ HR _ _ H Ec).
Qed.
Lemma do_end_q gv text start stop se R a a' : quiet_re R -> quiet_found gv (snd a) -> Parser.do_end F text start stop se a R = Ok a' -> quiet_found gv (snd a').
Proof.
  intros HR H E. unfold Parser.do_end in E. destruct (p_find F R _) as [|m ms]; [now injection E as <-|]. destruct (check_matches F R (m :: ms) start (snd a)) as [st|] eqn:Ec; [|discriminate]. injection E as <-. exact (check_quiet gv R start _ HR _ _ H Ec).
Qed.
Lemma remove_iter_incl {A} (p : A -> bool) l : forall x, In x (remove_iter p l) -> In x l.
Proof.
  assert (G : forall n l, length l <= n -> forall x, In x (remove_iter p l) -> In x l); [|intros x; now apply (G (length l))].
  induction n as [|n IH]; intros [|y l'] Hl x Hx; cbn [remove_iter] in Hx; cbn [length] in Hl; try (destruct Hx; fail); try lia.
  destruct (p y); [|destruct Hx as [->|Hx]; [now left|right; apply IH; [lia|exact Hx]]]. destruct l' as [|z l']; [destruct Hx|]. cbn [length] in Hl. destruct Hx as [->|Hx]; [right; now left|right; right; apply IH; [lia|exact Hx]].
Qed.
Lemma run_re_quiet gv text G : quiet_group G -> forall st start stop st', quiet_found gv st -> run_re F text G st start stop = Ok st' -> quiet_found gv st'.
Proof.
  induction G as [g a b c d cs IH] using (pgroup_ind' F). intros HG st start stop st' H E. inversion HG as [? ? ? ? ? ? Hg Ha Hb Hc Hcs]; subst. rewrite run_re_eq in E.
  destruct (rfold (Parser.do_start F text start stop) a _) as [acc|] eqn:Ea; [|discriminate]. cbn [rbind] in E. cbv zeta in E.
  apply (rfold_quiet _ (fun a => quiet_found gv (sa_st F a)) quiet_re) in Ea; [|intros x R x' Hx HR Ex; exact (do_start_q gv _ _ _ R _ _ HR Hx Ex)|exact Ha|exact H].
  assert (IHc : Forall (fun c => forall st start stop st', quiet_found gv st -> run_re F text c st start stop = Ok st' -> quiet_found gv st') cs).
  { clear - IH Hcs. induction IH as [|x l Hx _ IHl]; [constructor|]. inversion Hcs as [|? ? Hq Hr]; subst. constructor; [exact (Hx Hq)|exact (IHl Hr)]. }
  destruct (negb (sa_found F acc)).
  - assert (H1 : quiet_found gv (if d then (fst (sa_st F acc), place_default F g a (snd (sa_st F acc))) else sa_st F acc)).
    { destruct d; [|exact Ea]. destruct Ea as [E1 E2]. split; [exact E1|]. cbn [snd]. unfold place_default. apply Forall_app. split; [exact E2|]. constructor; [|constructor]. cbn [snd]. constructor; [|constructor]. unfold quiet_item. cbn [fst]. destruct a as [|R a]; cbn [default_re r_group]; [exact Hg|]. inversion Ha as [|? ? [_ HR] _]; subst. exact HR. }
    revert H1 E. generalize (if d then (fst (sa_st F acc), place_default F g a (snd (sa_st F acc))) else sa_st F acc). clear - IHc. induction IHc as [|x l Hx _ IHl]; intros s Hs E; cbn [kids_def] in E; [now injection E as <-|].
    destruct (_ || _)%bool; cbn [rbind] in E; [|now apply IHl in E]. destruct (run_re F text x s _ stop) as [s1|] eqn:E1; [|discriminate]. cbn [rbind] in E. apply IHl in E; [exact E|]. exact (Hx _ _ _ _ Hs E1).
  - destruct (rfold (Parser.do_end F text _ stop _) b _) as [[e st1]|] eqn:Eb; [|discriminate]. cbn [rbind] in E.
    apply (rfold_quiet _ (fun a => quiet_found gv (snd a)) quiet_re) in Eb; [|intros x R x' Hx HR Ex; exact (do_end_q gv _ _ _ _ R _ _ HR Hx Ex)|exact Hb|exact Ea]. cbn [snd] in Eb.
    assert (H2 : quiet_found gv (if Z.eqb e (-1) then st1 else (fst st1, cleanup F (g_id F g) (if Z.eqb e (-1) then stop else (start + sa_s F acc + e)%Z) (snd st1)))).
    { destruct (Z.eqb e (-1)); [exact Eb|]. destruct Eb as [E1 E2]. split; [exact E1|]. cbn [snd]. unfold cleanup. apply Forall_forall. intros x Hx. apply filter_In in Hx as [Hx _]. apply in_map_iff in Hx as ((q & l) & <- & Hi). cbn [fst snd]. rewrite Forall_forall in E2. apply E2 in Hi. cbn [snd] in Hi. rewrite Forall_forall in Hi |- *. intros y Hy. apply Hi. now apply remove_iter_incl in Hy. }
    destruct (rfold _ c _) as [st3|] eqn:Ec; [|discriminate]. cbn [rbind] in E.
    apply (rfold_quiet _ (quiet_found gv) quiet_re) in Ec; [|intros x R x' Hx HR Ex; exact (check_quiet gv R _ _ HR _ _ Hx Ex)|exact Hc|exact H2].
    revert Ec E. generalize st3. generalize (if Z.eqb e (-1) then stop else (start + sa_s F acc + e)%Z). clear - IHc. intros stop. induction IHc as [|x l Hx _ IHl]; intros s Hs E; cbn [kids_all] in E; [now injection E as <-|].
    destruct (run_re F text x s _ stop) as [s1|] eqn:E1; [|discriminate]. cbn [rbind] in E. apply IHl in E; [exact E|]. exact (Hx _ _ _ _ Hs E1).
Qed.
Lemma run_all_quiet text Gs : Forall (fun Gb => quiet_group (fst Gb)) Gs -> forall env env' l, run_all F text Gs env = Ok (env', l) ->
  m_gvars env' = m_gvars env /\ Forall (fun rb => Forall (fun e => Forall quiet_item (snd e)) (fst rb)) l.
Proof.
  induction 1 as [|[G b] Gs HG _ IH]; intros env env' l E; cbn [run_all] in E; [injection E as <- <-; split; [reflexivity|constructor]|].
  destruct (run_re F text G (env, []) 0 (-1)) as [[e1 rs]|] eqn:E1; [|discriminate]. cbn [rbind] in E. apply (run_re_quiet (m_gvars env) text G HG) in E1 as [E1 E2]; [|split; [reflexivity|constructor]]. cbn [fst snd] in *.
  destruct (run_all F text Gs e1) as [[e2 l2]|] eqn:E3; [|discriminate]. cbn [rbind] in E. injection E as <- <-. apply IH in E3 as [E3 E4]. split; [congruence|]. now constructor.
Qed.
Lemma cooked_quiet f (rs : found) : Forall (fun e => Forall quiet_item (snd e)) rs -> Forall (Forall quiet_item) (map (map (set_runs F f)) (raw_of F rs)).
Proof.
  intros H. unfold raw_of. apply Forall_forall. intros c Hc. apply in_map_iff in Hc as (c0 & <- & Hc). apply in_map_iff in Hc as ([q l] & <- & Hc). cbn [snd]. assert (K : In (q, l) rs).
  { eapply Permutation.Permutation_in; [|exact Hc]. apply Permutation.Permutation_sym, sort_perm. }
  rewrite Forall_forall in H. apply H in K. cbn [snd] in K. apply Forall_map. eapply Forall_impl; [|exact K]. intros [rd o] Hx. exact Hx.
Qed.
Lemma own_quiet v2r l : Forall (fun x => Forall (Forall quiet_item) (fst x)) l -> forall e main e' vs,
  Parser.own_results F runf k2i e v2r l main = Ok (e', vs) -> e_gvars e' = e_gvars e.
Proof.
  induction 1 as [|[raw out] l Hx _ IH]; intros e main e' vs E; cbn [Parser.own_results] in E; [injection E as <- <-; reflexivity|].
  destruct (make_results F runf k2i e v2r [raw] (VDict [])) as [s|] eqn:Em; [|discriminate]. cbn [rbind] in E. destruct (out (s_results F s)) as [v|]; [|discriminate]. cbn [rbind] in E. apply IH in E. rewrite E.
  apply make_results_quiet in Em; [exact Em|]. constructor; [exact Hx|constructor].
Qed.
Theorem parse_quiet text Gs v2r env0 main env1 e v : Forall (fun Go => quiet_group (fst Go)) Gs ->
  Parser.parse F runf k2i text Gs v2r env0 main = Ok (env1, (e, v)) -> e_gvars e = m_gvars env0.
Proof.
  intros HG E. unfold Parser.parse in E. set (Gb := map _ Gs) in E. destruct (run_all F text Gb env0) as [[e1 l]|] eqn:E1; [|discriminate]. cbn [rbind] in E. cbv zeta in E.
  assert (HGb : Forall (fun Gb => quiet_group (fst Gb)) Gb) by (unfold Gb; apply Forall_map; exact HG).
  apply (run_all_quiet _ _ HGb) in E1 as [E1 E2].
  match type of E with context [make_results F runf k2i ?e0 v2r ?g main] => set (glob := g) in E; set (ee := e0) in E end.
  assert (Hq : Forall (Forall (Forall quiet_item)) glob).
  { unfold glob. clear - E2. induction E2 as [|[rs b] l Hx _ IH]; [constructor|]. cbn [flat_map]. apply Forall_app. split; [|exact IH]. cbn [fst snd] in *. destruct b; [constructor|]. destruct rs; [constructor|]. constructor; [|constructor]. now apply cooked_quiet. }
  match type of E with context [flat_map ?f (combine l Gs)] => set (own := flat_map f (combine l Gs)) in E end.
  assert (Hw : Forall (fun x => Forall (Forall quiet_item) (fst x)) own).
  { unfold own. clear - E2. revert Gs. induction E2 as [|[rs b] l Hx _ IH]; intros Gs; [constructor|]. destruct Gs as [|[G o] Gs]; [constructor|]. cbn [combine flat_map fst snd] in *. apply Forall_app. split; [|apply IH]. destruct o; [|constructor]. destruct rs; [constructor|]. constructor; [|constructor]. now apply cooked_quiet. }
  destruct (make_results F runf k2i ee v2r glob main) as [s|] eqn:Em; [|discriminate]. cbn [rbind] in E. apply (make_results_quiet ee v2r glob main s Hq) in Em.
  destruct own as [|o own']; [injection E as <- <- <-; rewrite Em; exact E1|].
  match type of E with context [Parser.own_results F runf k2i ?a v2r ?b ?c] => destruct (Parser.own_results F runf k2i a v2r b c) as [[e2 vs]|] eqn:Eo end; [|discriminate]. cbn [rbind] in E. injection E as <- <- <-. apply own_quiet in Eo; [|exact Hw]. rewrite Eo, Em. exact E1.
Qed.
End E.
