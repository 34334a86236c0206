(** * MachineProps: user-level consequences of the machine lemmas. *)
From Verif Require Import PyBase DictFacts Regex Tree Results SpecTree ResultsFacts PathFacts SpecRecords
  MachineFacts MuteFacts RunFacts.

Section Props.
Variable F : Type.
Variable runf : F -> fstate -> res (fstate * bool).
Variable k2i : bool.
Notation rstate := (rstate F).
Notation item := (item F).
Notation flush := (flush F runf k2i).
Notation step_item := (step_item F runf k2i).
Notation gid_of x := (g_id F (r_group F (fst x))).

(** the results after processing candidate sets and closing the input *)
Definition final (css : list (list item)) (s : rstate) : res val :=
  results_of (do s1 <- rfold step_item css s; flush s1).

Lemma step_single s x : step_item s [x] = handle F runf k2i s x.
Proof. reflexivity. Qed.

(** C06: after a rejected start line of group [g] the matches of [g] and of its
    children have no effect at all, until an accepted start of [g] *)
Theorem rejected_start_mutes s rd css :
  let g := g_id F (r_group F rd) in
  Forall (fun c => c <> [] /\ Forall (fun x => restarts F g x = false) c) css ->
  final ([(rd, None)] :: css) s =
  final ([(rd, None)] :: filter (fun c => negb (forallb (muted_by F g) c)) css) s.
Proof.
  intros g H. unfold final. cbn [rfold]. rewrite step_single, handle_reject. cbn [rbind].
  rewrite (mute_erase F runf k2i g css); [reflexivity|left; reflexivity|exact H].
Qed.

(** C06: and for groups that are neither [g] nor children of [g] it is as if the
    rejected line had not been there *)
Theorem rejected_start_isolated s rd css :
  Forall (Forall (foreign F (g_id F (r_group F rd)))) css ->
  final ([(rd, None)] :: css) s = final css s.
Proof.
  intros H. unfold final. cbn [rfold]. rewrite step_single, handle_reject. cbn [rbind].
  set (g := g_id F (r_group F rd)) in *.
  assert (HS : same_but F g (set_ended F s (g :: s_ended F s)) s).
  { repeat split; auto. intros h Hh. cbn [s_ended set_ended]. unfold gid_in. cbn [existsb].
    destruct (gid_eqb_spec h g); [congruence|reflexivity]. }
  pose proof (others_unaffected F runf k2i g css _ _ HS H) as HR.
  destruct (rfold step_item css (set_ended F s (g :: s_ended F s))) as [s1|], (rfold step_item css s) as [s2|]; cbn [rel_res] in HR; try contradiction.
  - cbn [rbind]. eapply flush_same; eauto.
  - subst. reflexivity.
Qed.

(** C07 *)
Theorem end_closes s rd r css :
  let g := g_id F (r_group F rd) in
  r_action F rd = AEnd -> rc_path F (s_rec F s) = g_path F (r_group F rd) ->
  ~ In g (s_ended F s) -> (forall p, g_parent F (r_group F rd) = Some p -> ~ In p (s_ended F s)) ->
  Forall (fun c => c <> [] /\ Forall (fun x => restarts F g x = false) c) css ->
  (exists s1, step_item s [(rd, Some r)] = Ok s1 /\ s_rec F s1 = s_rec F s /\ s_results F s1 = s_results F s) /\
  final ([(rd, Some r)] :: css) s =
  final ([(rd, Some r)] :: filter (fun c => negb (forallb (muted_by F g) c)) css) s.
Proof.
  intros g Ha Hp Hg Hpar H.
  assert (HH : step_item s [(rd, Some r)] = Ok (set_ended F s (g :: s_ended F s))).
  { rewrite step_single. apply end_keeps_record; auto.
    - destruct (g_parent F (r_group F rd)) as [p|]; [|reflexivity]. cbn [ogid_in].
      destruct (gid_in p (s_ended F s)) eqn:E; [|reflexivity]. apply gid_in_spec in E. exfalso. now apply (Hpar p).
    - destruct (gid_in (g_id F (r_group F rd)) (s_ended F s)) eqn:E; [|reflexivity]. apply gid_in_spec in E. contradiction. }
  split.
  - eexists. split; [exact HH|]. split; reflexivity.
  - unfold final. cbn [rfold]. rewrite HH. cbn [rbind].
    rewrite (mute_erase F runf k2i g css); [reflexivity|left; reflexivity|exact H].
Qed.

(** C08: functions given by what they do to the record; [None] stands for False *)
Variable app_ : F -> val -> option val.
Definition set_data (st : fstate) (d : val) : fstate :=
  {| fs_data := d; fs_path := fs_path st; fs_defaults := fs_defaults st; fs_cache := fs_cache st;
     fs_results := fs_results st; fs_env := fs_env st |}.
Fixpoint apply_all (fs : list F) (d : val) : option val :=
  match fs with
  | [] => Some d
  | f :: t => match app_ f d with Some d' => apply_all t d' | None => None end
  end.
Definition record_function (f : F) : Prop := forall st,
  runf f st = Ok (match app_ f (fs_data st) with Some d => (set_data st d, true) | None => (st, false) end).

Lemma run_funcs_apply fs : forall st, Forall record_function fs ->
  exists st', run_funcs F runf fs st = Ok (st', match apply_all fs (fs_data st) with Some _ => true | None => false end) /\
    st' = set_data st (fs_data st') /\
    (forall d, apply_all fs (fs_data st) = Some d -> fs_data st' = d).
Proof.
  induction fs as [|f fs IH]; intros st H; cbn [run_funcs apply_all].
  - exists st. split; [reflexivity|]. split; [now destruct st|]. intros d [= <-]. reflexivity.
  - inversion H as [|? ? Hf Hfs]; subst. rewrite Hf. destruct (app_ f (fs_data st)) as [d|]; cbn [rbind].
    + destruct (IH (set_data st d) Hfs) as (st' & H1 & H2 & H3). cbn [fs_data set_data] in *.
      exists st'. split; [exact H1|]. split; [rewrite H2; now destruct st|exact H3].
    + exists st. split; [reflexivity|]. split; [now destruct st|discriminate].
Qed.

Theorem function_chain s :
  let r := s_rec F s in
  rc_mwl F r = false -> Forall record_function (rc_funcs F r) -> static_path (rc_path F r) -> rc_path F r <> [] ->
  dwf (rc_defaults F r) ->
  results_of (flush s) =
  match apply_all (rc_funcs F r) (VDict (with_defaults (rc_result F r) (rc_defaults F r))) with
  | Some d => save_cur k2i false (s_results F s) (map split_stars (rc_path F r)) d
  | None => Ok (s_results F s)
  end.
Proof.
  intros r Hm Hf Hs Hne HD. unfold Results.flush, processgrp. fold r. rewrite Hm. cbn [rbind].
  rewrite add_defaults_spec by exact HD.
  set (st := {| fs_data := VDict (with_defaults (rc_result F r) (rc_defaults F r)); fs_path := rc_path F r;
                fs_defaults := rc_defaults F r; fs_cache := s_cache F s; fs_results := s_results F s; fs_env := s_env F s |}).
  destruct (run_funcs_apply (rc_funcs F r) st Hf) as (st' & H1 & H2 & H3). rewrite H1. cbn [rbind].
  change (fs_data st) with (VDict (with_defaults (rc_result F r) (rc_defaults F r))) in *.
  destruct (apply_all (rc_funcs F r) (VDict (with_defaults (rc_result F r) (rc_defaults F r)))) as [d|] eqn:E.
  - specialize (H3 d eq_refl).
    assert (fs_path st' = rc_path F r) as -> by (rewrite H2; reflexivity).
    rewrite form_path_static by exact Hs. cbn [rbind].
    assert (fs_results st' = s_results F s) as HR by (rewrite H2; reflexivity).
    destruct (rc_path F r) as [|p ps]; [congruence|]. cbn [map rbind s_results]. rewrite HR, H3.
    destruct (save_cur _ _ _ _ _); reflexivity.
  - cbn [rbind results_of s_results]. rewrite H2. reflexivity.
Qed.
End Props.

(** C13 *)
Section Join.
Variable F : Type.
Variable runf : F -> fstate -> res (fstate * bool).
Variable k2i : bool.
Variable g : group F.
Hypothesis Hstatic : static_path (g_path F g).
Hypothesis Hne : g_path F g <> [].
Hypothesis Hnof : g_funcs F g = [].
Hypothesis Htop : g_parent F g = None.
Hypothesis HD : dwf (g_runs F g).

(** [lines] are join lines of the group that match variable [k] with values [vs] *)
Definition join_lines (k : key) (jc : str) (lines : list (item F)) (vs : list val) : Prop :=
  Forall2 (fun x v => r_group F (fst x) = g /\ r_action F (fst x) = AJoin /\ snd x = Some [(k, v)] /\
                      match dget (r_joins F (fst x)) k with Some (Some c) => c | _ => [nl] end = jc) lines vs.

Lemma join_lines_run k jc lines vs : join_lines k jc lines vs ->
  Forall2 (fun x r => r_group F (fst x) = g /\ r_action F (fst x) = AJoin /\ snd x = Some r /\ joinchar (r_joins F (fst x)) r = jc)
    lines (map (fun v => [(k, v)]) vs).
Proof.
  induction 1 as [|x v lines vs (H1 & H2 & H3 & H4) H IH]; [constructor|]. cbn [map]. constructor; [|exact IH].
  repeat split; auto.
Qed.

Theorem joined_strings e start lines r0 k m ms jc main :
  r_group F (fst start) = g -> r_action F (fst start) = AStart -> snd start = Some r0 ->
  dget r0 k = Some (VStr m) -> join_lines k jc lines (map VStr ms) ->
  exists content,
    results_of (make_results F runf k2i e [] [map (fun x => [x]) (start :: lines)] main)
    = save_cur k2i false main (map split_stars (g_path F g)) (VDict content) /\
    dget content k = Some (VStr (join jc (m :: ms))) /\
    forall k', k' <> k -> dget content k' = match dget r0 k' with Some v => Some v | None => dget (g_runs F g) k' end.
Proof.
  intros H1 H2 H3 H4 H5. destruct (join_strings jc k ms r0 m H4) as (r' & J1 & J2 & J3).
  exists (with_defaults r' (g_runs F g)). split; [|split].
  - eapply run_join; eauto. apply join_lines_run in H5. rewrite map_map in H5. exact H5.
  - rewrite with_defaults_get, J2. reflexivity.
  - intros k' Hk. rewrite with_defaults_get, J3 by exact Hk. reflexivity.
Qed.

(** the variable first occurs on a join line *)
Theorem joined_strings_absent e start lines r0 k m ms jc main :
  r_group F (fst start) = g -> r_action F (fst start) = AStart -> snd start = Some r0 ->
  dget r0 k = None -> join_lines k jc lines (map VStr (m :: ms)) ->
  exists content,
    results_of (make_results F runf k2i e [] [map (fun x => [x]) (start :: lines)] main)
    = save_cur k2i false main (map split_stars (g_path F g)) (VDict content) /\
    dget content k = Some (VStr (join jc (m :: ms))) /\
    forall k', k' <> k -> dget content k' = match dget r0 k' with Some v => Some v | None => dget (g_runs F g) k' end.
Proof.
  intros H1 H2 H3 H4 H5. destruct (join_strings jc k ms (dset r0 k (VStr m)) m) as (r' & J1 & J2 & J3); [apply dget_dset_same|].
  exists (with_defaults r' (g_runs F g)). split; [|split].
  - eapply run_join; eauto.
    + apply join_lines_run in H5. rewrite map_map in H5. exact H5.
    + unfold join_all in *. cbn [map rfold]. cbn [rfold fst snd]. unfold join_one at 1. rewrite H4. cbn [rbind]. exact J1.
  - rewrite with_defaults_get, J2. reflexivity.
  - intros k' Hk. rewrite with_defaults_get, J3 by exact Hk. rewrite dget_dset_other by congruence. reflexivity.
Qed.

Theorem joined_lists e start lines r0 k l vs jc main :
  r_group F (fst start) = g -> r_action F (fst start) = AStart -> snd start = Some r0 ->
  dget r0 k = Some (VList l) -> join_lines k jc lines vs ->
  exists content,
    results_of (make_results F runf k2i e [] [map (fun x => [x]) (start :: lines)] main)
    = save_cur k2i false main (map split_stars (g_path F g)) (VDict content) /\
    dget content k = Some (VList (l ++ concat (map to_items vs))) /\
    forall k', k' <> k -> dget content k' = match dget r0 k' with Some v => Some v | None => dget (g_runs F g) k' end.
Proof.
  intros H1 H2 H3 H4 H5. destruct (join_others jc k vs r0 l H4) as (r' & J1 & J2 & J3).
  exists (with_defaults r' (g_runs F g)). split; [|split].
  - eapply run_join; eauto. now apply join_lines_run.
  - rewrite with_defaults_get, J2. reflexivity.
  - intros k' Hk. rewrite with_defaults_get, J3 by exact Hk. reflexivity.
Qed.
End Join.
