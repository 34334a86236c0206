(** * JoinFacts: joinmatches for values of all kinds. *)
From Verif Require Import PyBase DictFacts Tree Results SpecTree ResultsFacts ResultsHist PathFacts SpecRecords MachineFacts RunFacts MachineProps SpecJoin.

(** join_one, on the value *)
Definition jv (jc : str) (old v : val) : res val :=
  match old with
  | VStr a => match v with VStr b => Ok (VStr (a ++ jc ++ b)) | _ => Raise TypeError end
  | VList a => Ok (VList (a ++ adds v))
  | _ => Ok (VList [old; v])
  end.
Lemma join_one_jv jc r k old v : dget r k = Some old -> join_one jc r k v = do x <- jv jc old v; Ok (dset r k x).
Proof. intros H. unfold join_one. rewrite H. destruct old, v; reflexivity. Qed.
Lemma join_all_jv jc k vs : forall r old, dget r k = Some old ->
  match rfold (jv jc) vs old with
  | Ok x => exists r', join_all jc r (map (fun v => [(k, v)]) vs) = Ok r' /\ dget r' k = Some x /\ (forall k', k' <> k -> dget r' k' = dget r k')
  | Raise e => join_all jc r (map (fun v => [(k, v)]) vs) = Raise e
  end.
Proof.
  induction vs as [|v vs IH]; intros r old H; cbn [rfold].
  - exists r. auto.
  - unfold join_all. cbn [map rfold fst snd]. rewrite (join_one_jv jc r k old v H).
    destruct (jv jc old v) as [x|e]; cbn [rbind]; [|reflexivity].
    specialize (IH (dset r k x) x (dget_dset_same r k x)). destruct (rfold (jv jc) vs x) as [y|e]; [|exact IH].
    destruct IH as (r' & H1 & H2 & H3). exists r'. split; [exact H1|]. split; [exact H2|]. intros k' Hk. rewrite H3 by exact Hk. apply dget_dset_other. congruence.
Qed.
Lemma fold_list jc vs : forall l, rfold (jv jc) vs (VList l) = Ok (VList (l ++ concat (map adds vs))).
Proof.
  induction vs as [|v vs IH]; intros l; cbn [rfold map concat].
  - now rewrite app_nil_r.
  - cbn [jv rbind]. rewrite IH. now rewrite app_assoc.
Qed.
Lemma fold_strings jc ms : forall m, rfold (jv jc) (map VStr ms) (VStr m) = Ok (VStr (join jc (m :: ms))).
Proof.
  induction ms as [|x ms IH]; intros m; [reflexivity|]. cbn [map rfold jv rbind]. rewrite IH. f_equal. f_equal.
  destruct ms; cbn [join]; [reflexivity|]. now rewrite <- !app_assoc.
Qed.
Lemma fold_app jc vs ws : forall v, rfold (jv jc) (vs ++ ws) v = do x <- rfold (jv jc) vs v; rfold (jv jc) ws x.
Proof. induction vs as [|a vs IH]; intros v; [reflexivity|]. cbn [app rfold]. destruct (jv jc v a); [apply IH|reflexivity]. Qed.
Lemma fold_joined jc v0 vs : forall x, joined jc (v0 :: vs) x -> rfold (jv jc) vs v0 = match x with Some y => Ok y | None => Raise TypeError end.
Proof.
  intros x H. remember (v0 :: vs) as L eqn:EL. destruct H as [ms Hm|l ws|v H1 H2|v w ws H1 H2|ms v ws Hm H1].
  - destruct ms as [|m ms]; [congruence|]. injection EL as <- <-. apply fold_strings.
  - injection EL as <- <-. apply fold_list.
  - injection EL as <- <-. reflexivity.
  - injection EL as <- <-. cbn [rfold]. assert (jv jc v w = Ok (VList [v; w])) as -> by (destruct v; try discriminate; reflexivity). cbn [rbind]. apply fold_list.
  - destruct ms as [|m ms]; [congruence|]. injection EL as <- <-. rewrite fold_app, fold_strings. cbn [rbind rfold jv].
    destruct v; try discriminate; reflexivity.
Qed.
Lemma joined_total sep v0 vs : exists x, joined sep (v0 :: vs) x.
Proof.
  destruct (is_str v0) eqn:Es.
  - destruct v0; try discriminate.
    assert (HS : (exists ms, vs = map VStr ms) \/ exists ms v ws, vs = map VStr ms ++ v :: ws /\ is_str v = false).
    { clear Es. induction vs as [|v vs IH]; [left; exists []; reflexivity|]. destruct (is_str v) eqn:Ev.
      - destruct v; try discriminate. destruct IH as [[ms ->]|(ms & w & ws & -> & Hw)]; [left; now exists (s0 :: ms)|right; exists (s0 :: ms), w, ws; auto].
      - right. exists [], v, vs. auto. }
    destruct HS as [[ms ->]|(ms & v & ws & -> & Hv)].
    + eexists. apply (joined_strings sep (s :: ms)). discriminate.
    + eexists. apply (joined_fails sep (s :: ms) v ws); [discriminate|exact Hv].
  - destruct (is_lst v0) eqn:El; [destruct v0; try discriminate; eexists; apply joined_list|].
    destruct vs; eexists; [apply joined_single|apply joined_others]; assumption.
Qed.

Section Run.
Variable F : Type.
Variable runf : F -> fstate -> res (fstate * bool).
Variable k2i : bool.
Variable g : group F.
Hypothesis Hstatic : static_path (g_path F g).
Hypothesis Hne : g_path F g <> [].
Hypothesis Hnof : g_funcs F g = [].
Hypothesis Htop : g_parent F g = None.
Hypothesis HD : dwf (g_runs F g).

Lemma run_joins_raise jc lines rs e : forall s r0,
  Forall2 (fun x r => r_group F (fst x) = g /\ r_action F (fst x) = AJoin /\ snd x = Some r /\ joinchar (r_joins F (fst x)) r = jc) lines rs ->
  Rel F g s (Some r0) true -> join_all jc r0 rs = Raise e ->
  rfold (step_item F runf k2i) (map (fun x => [x]) lines) s = Raise e.
Proof using Htop.
  intros s r0 Hl. revert s r0. induction Hl as [|x r lines rs (H1 & H2 & H3 & H4) Hl IH]; intros s r0 HR HJ; [discriminate|].
  unfold join_all in HJ. cbn [rfold] in HJ.
  destruct x as [rd d]. cbn [fst snd] in *. subst d. cbn [map rfold]. unfold step_item at 1. cbn [choose].
  destruct HR as [He HR]. unfold handle. rewrite H1, Htop. cbn [ogid_in]. rewrite He, H2. cbn [negb]. unfold dispatch.
  rewrite H2. unfold do_join. rewrite H1, HR. cbn [rc_path rc_result]. rewrite path_eqb_refl, H4.
  destruct (rfold _ r r0) as [r1|] eqn:E1; cbn [rbind] in *; [|congruence].
  apply (IH (upd_rec_result F s r1) r1); [|exact HJ].
  split; [exact He|]. unfold upd_rec_result. cbn. rewrite HR. reflexivity.
Qed.
Theorem run_join_raise e start lines r0 rs jc x main :
  r_group F (fst start) = g -> r_action F (fst start) = AStart -> snd start = Some r0 ->
  Forall2 (fun x r => r_group F (fst x) = g /\ r_action F (fst x) = AJoin /\ snd x = Some r /\ joinchar (r_joins F (fst x)) r = jc) lines rs ->
  join_all jc r0 rs = Raise x ->
  results_of (make_results F runf k2i e [] [map (fun x => [x]) (start :: lines)] main) = Raise x.
Proof using Hstatic Hne Hnof Htop HD.
  intros Hg Ha Hr Hl HJ. unfold make_results. cbn [save_vars sort_paths fold_right rfold rbind].
  unfold run_groups. cbn [rfold map]. unfold step_item at 1. cbn [choose]. destruct start as [rd d]. cbn [fst snd] in *. subst d.
  set (s0 := set_rec F (init_state F e main) (rec0 F)).
  assert (HR0 : Rel F g s0 None true) by (repeat split).
  rewrite (handle_start F runf k2i g Htop s0 true None rd r0 HR0 Hg) by (rewrite Ha; reflexivity).
  unfold dispatch. rewrite Ha. rewrite Hg.
  pose proof (start_case F runf k2i g Hstatic Hne Hnof) as SC.
  specialize (SC s0 None true rd r0 (fun v => Raise x)
    (fun s' => do s2 <- rfold (step_item F runf k2i) (map (fun x => [x]) lines) s'; flush F runf k2i s2) HR0 Hg).
  cbn [rbind saves rfold] in SC. rewrite <- SC.
  - destruct (do_start _ _ _ _ _ _ _ _) as [s1|]; [|reflexivity]. cbn [rbind].
    destruct (rfold (step_item F runf k2i) _ s1); reflexivity.
  - intros s' HR'. rewrite (run_joins_raise jc lines rs x s' r0 Hl HR' HJ). reflexivity.
Qed.

(** the start line's value of the variable, if any, then those of the join lines *)
Theorem joined_all e start lines r0 k vs jc main y :
  r_group F (fst start) = g -> r_action F (fst start) = AStart -> snd start = Some r0 ->
  join_lines F g k jc lines vs ->
  joined jc (match dget r0 k with Some v => [v] | None => [] end ++ vs) y ->
  match y with
  | None => results_of (make_results F runf k2i e [] [map (fun x => [x]) (start :: lines)] main) = Raise TypeError
  | Some x => exists content,
      results_of (make_results F runf k2i e [] [map (fun x => [x]) (start :: lines)] main)
      = save_cur k2i false main (map split_stars (g_path F g)) (VDict content) /\
      dget content k = Some x /\
      forall k', k' <> k -> dget content k' = match dget r0 k' with Some v => Some v | None => dget (g_runs F g) k' end
  end.
Proof using Hstatic Hne Hnof Htop HD.
  intros H1 H2 H3 H5 HJ. apply join_lines_run in H5.
  assert (HA : match y with
    | None => join_all jc r0 (map (fun v => [(k, v)]) vs) = Raise TypeError
    | Some x => exists r', join_all jc r0 (map (fun v => [(k, v)]) vs) = Ok r' /\ dget r' k = Some x /\ (forall k', k' <> k -> dget r' k' = dget r0 k') end).
  { destruct (dget r0 k) as [v0|] eqn:E0; cbn [app] in HJ.
    - apply fold_joined in HJ. pose proof (join_all_jv jc k vs r0 v0 E0) as H. rewrite HJ in H. destruct y; exact H.
    - destruct vs as [|v vs]; [exfalso; inversion HJ; subst; match goal with H : map VStr ?l = [] |- _ => destruct l; [congruence|discriminate] | H : map VStr ?l ++ _ = [] |- _ => destruct l; discriminate end|].
      apply fold_joined in HJ. pose proof (join_all_jv jc k vs (dset r0 k v) v (dget_dset_same r0 k v)) as H. rewrite HJ in H.
      assert (HE : join_all jc r0 (map (fun v => [(k, v)]) (v :: vs)) = join_all jc (dset r0 k v) (map (fun v => [(k, v)]) vs)).
      { unfold join_all. cbn [map rfold fst snd]. unfold join_one at 1. rewrite E0. reflexivity. }
      rewrite HE. destruct y as [x|]; [|exact H]. destruct H as (r' & J1 & J2 & J3). exists r'. split; [exact J1|]. split; [exact J2|].
      intros k' Hk. rewrite J3 by exact Hk. apply dget_dset_other. congruence. }
  destruct y as [x|].
  - destruct HA as (r' & J1 & J2 & J3). exists (with_defaults r' (g_runs F g)). split; [|split].
    + eapply run_join; eauto.
    + rewrite with_defaults_get, J2. reflexivity.
    + intros k' Hk. rewrite with_defaults_get, J3 by exact Hk. reflexivity.
  - eapply run_join_raise; eauto.
Qed.
End Run.
