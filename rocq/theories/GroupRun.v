(** * GroupRun: one top level group with arbitrary functions and any path.

    MachineFacts.one_group without the restriction to static paths and to groups
    without functions: what a run leaves behind is exactly the records of its
    matches, committed one after the other. *)
From Verif Require Import PyBase DictFacts Regex Tree Results SpecTree ResultsFacts PathFacts SpecRecords MachineFacts.

Section GroupRun.
Variable F : Type.
Variable runf : F -> fstate -> res (fstate * bool).
Variable k2i : bool.
Notation rstate := (rstate F).
Notation group := (group F).
Notation item := (item F).
Notation flush := (flush F runf k2i).
Notation step_item := (step_item F runf k2i).

(** what is visible from outside between two records: results tree, path cache, variables *)
Definition world := (val * dict * env)%type.
Definition world_of (s : rstate) : world := (s_results F s, s_cache F s, s_env F s).
Definition with_world (s : rstate) (w : world) : rstate :=
  {| s_results := fst (fst w); s_started := s_started F s; s_ended := s_ended F s; s_rec := s_rec F s;
     s_cache := snd (fst w); s_env := snd w |}.
Definition rworld (r : res rstate) : res world :=
  match r with Ok s => Ok (world_of s) | Raise e => Raise e end.

(** processing one finished record (of a group matched by its own start line):
    defaults, then the group's functions, then its path, then the save *)
Definition commit (path : list str) (funcs : list F) (defaults : dict) (w : world) (r : dict) : res world :=
  let '(tree, cache, e) := w in
  do (fs, ok) <- run_funcs F runf funcs
     {| fs_data := VDict (add_defaults r defaults); fs_path := path; fs_defaults := defaults;
        fs_cache := cache; fs_results := tree; fs_env := e |};
  if ok then
    do (op, data, cache2) <- form_path (e_vars (fs_env fs)) (fs_path fs) (fs_data fs) (fs_cache fs);
    match op with
    | Some ((_ :: _) as pp) => do v <- save_cur k2i false (fs_results fs) pp data; Ok (v, cache2, fs_env fs)
    | _ => Ok (fs_results fs, cache2, fs_env fs)
    end
  else Ok (fs_results fs, fs_cache fs, fs_env fs).

Lemma flush_commit (s : rstate) :
  rc_mwl F (s_rec F s) = false ->
  flush s = do w <- commit (rc_path F (s_rec F s)) (rc_funcs F (s_rec F s)) (rc_defaults F (s_rec F s)) (world_of s) (rc_result F (s_rec F s));
            Ok (with_world s w).
Proof.
  intros Hm. unfold Results.flush, processgrp, commit, world_of. rewrite Hm. cbn [rbind].
  destruct (run_funcs F runf _ _) as [[fs ok]|e]; [|reflexivity]. cbn [rbind].
  destruct ok; [|reflexivity].
  destruct (form_path _ _ _ _) as [[[op data] c2]|e]; [|reflexivity]. cbn [rbind].
  destruct op as [[|p pp]|]; try reflexivity. cbn [rbind s_results].
  destruct (save_cur _ _ _ _ _); reflexivity.
Qed.

Section OneGroup.
Variable g : group.
Hypothesis Hne : g_path F g <> [].
Hypothesis Htop : g_parent F g = None.
Notation ev_of := (ev_of F).
Notation of_group := (of_group F g).

Definition commits (rs : list dict) (w : world) : res world :=
  rfold (commit (g_path F g) (g_funcs F g) (g_runs F g)) rs w.

Definition Rel (s : rstate) (cur : option dict) (on : bool) : Prop :=
  gid_in (g_id F g) (s_ended F s) = negb on /\
  match cur with
  | None => s_rec F s = rec0 F /\ s_started F s = []
  | Some r => s_rec F s = {| rc_result := r; rc_path := g_path F g; rc_funcs := g_funcs F g; rc_defaults := g_runs F g;
                             rc_gid := Some (g_id F g); rc_mwl := false |}
  end.

Lemma commits_app a b w : commits (a ++ b) w = do w' <- commits a w; commits b w'.
Proof.
  revert w; induction a as [|r a IH]; intros w; [reflexivity|]. cbn [app]. unfold commits in *. cbn [rfold].
  destruct (commit _ _ _ w r) as [t1|e]; [|reflexivity]. cbn [rbind]. apply IH.
Qed.

Definition pend (cur : option dict) : list dict := match cur with Some r => [r] | None => [] end.

Lemma flush_rel s cur on : Rel s cur on -> flush s = do w <- commits (pend cur) (world_of s); Ok (with_world s w).
Proof.
  intros [_ H]. destruct cur as [r|].
  - rewrite flush_commit by now rewrite H. rewrite H. cbn [rc_path rc_funcs rc_defaults rc_result pend].
    unfold commits. cbn [rfold]. destruct (commit _ _ _ _ _); reflexivity.
  - destruct H as [H _]. rewrite flush_norec; rewrite ?H; try reflexivity. cbn. destruct s; reflexivity.
Qed.

Lemma start_case s cur on rd (r : dict) t (K : rstate -> res rstate) :
  Rel s cur on -> r_group F rd = g ->
  (forall s', Rel s' (Some r) true -> rworld (K s') = t (world_of s')) ->
  rworld (do s' <- do_start F runf k2i
       (set_ended F s (filter (fun y => negb (gid_eqb (g_id F g) y)) (s_ended F s))) rd r false (g_runs F g); K s')
  = (do w <- commits (pend cur) (world_of s); t w).
Proof.
  intros HR Hg HK. unfold do_start. rewrite Hg.
  set (s1 := set_started F _ _).
  assert (Hfl : flush s1 = do w <- commits (pend cur) (world_of s); Ok (with_world s1 w)).
  { destruct cur as [c|].
    - rewrite (flush_rel s1 (Some c) true); [reflexivity|]. destruct HR as [_ HR]. split; [|exact HR].
      unfold s1. cbn. apply gid_in_filter.
    - destruct HR as [_ [HR _]]. rewrite flush_norec; unfold s1; cbn; rewrite ?HR; reflexivity. }
  rewrite Hfl. destruct (commits _ _) as [[[v c] e']|e]; [|reflexivity]. cbn [rbind].
  rewrite HK; [reflexivity|]. split.
  - unfold s1. cbn. apply gid_in_filter.
  - cbn. reflexivity.
Qed.

Lemma handle_start s on cur rd r : Rel s cur on -> r_group F rd = g -> is_start (r_action F rd) = true ->
  handle F runf k2i s (rd, Some r) =
  dispatch F runf k2i (set_ended F s (filter (fun y => negb (gid_eqb (g_id F g) y)) (s_ended F s))) rd r.
Proof.
  intros [He _] Hg Ha. unfold handle. rewrite Hg, Htop. cbn [ogid_in]. rewrite He, Ha.
  destruct on; cbn [negb]; [|reflexivity].
  rewrite filter_id_gid by exact He. destruct s; reflexivity.
Qed.

Lemma run_events xs : forall s cur on,
  Forall of_group xs -> Rel s cur on ->
  (cur = None -> on = true -> no_early_end (map ev_of xs) = true) ->
  rworld (do s' <- rfold step_item (map (fun x => [x]) xs) s; flush s')
  = commits (records (map ev_of xs) cur on) (world_of s).
Proof.
  induction xs as [|[rd data] xs IH]; intros s cur on Hx HR Hee.
  - cbn [map rfold rbind records]. rewrite (flush_rel s cur on HR). unfold pend.
    destruct (commits _ _) as [[[v c] e']|e]; reflexivity.
  - inversion Hx as [|? ? [Hg Hj] Hx']; subst. cbn [fst] in Hg, Hj.
    cbn [map rfold]. unfold Results.step_item at 1. cbn [choose].
    destruct data as [r|].
    2:{ (* rejected *)
      cbn [handle MachineFacts.ev_of snd records]. rewrite Hg. cbn [rbind].
      etransitivity; [apply (IH _ cur false); [exact Hx'| |congruence]|reflexivity].
      destruct HR as [He HR]. split; [|exact HR].
      cbn. now rewrite gid_eqb_refl. }
    cbn [MachineFacts.ev_of snd fst map] in Hee |- *. destruct (r_action F rd) eqn:Ea; [| | |congruence|].
    + rewrite (handle_start s on cur rd r HR Hg) by (rewrite Ea; reflexivity).
      unfold dispatch. rewrite Ea. cbn [records]. rewrite commits_app.
      unfold rbind at 1 2.
      pose proof (start_case s cur on rd r (commits (records (map ev_of xs) (Some r) true))
                 (fun s' => do s'' <- rfold step_item (map (fun x => [x]) xs) s'; flush s'') HR Hg) as HS.
      rewrite Hg. unfold pend in HS. unfold rbind in HS at 3. rewrite <- HS.
      * destruct (do_start _ _ _ _ _ _ _ _); reflexivity.
      * intros s' HR'. apply IH; [exact Hx'|exact HR'|discriminate].
    + rewrite (handle_start s on cur rd r HR Hg) by (rewrite Ea; reflexivity).
      unfold dispatch. rewrite Ea. cbn [records]. rewrite commits_app.
      unfold rbind at 1 2.
      pose proof (start_case s cur on rd [] (commits (records (map ev_of xs) (Some []) true))
                 (fun s' => do s'' <- rfold step_item (map (fun x => [x]) xs) s'; flush s'') HR Hg) as HS.
      rewrite Hg. unfold pend in HS. unfold rbind in HS at 3. rewrite <- HS.
      * destruct (do_start _ _ _ _ _ _ _ _); reflexivity.
      * intros s' HR'. apply IH; [exact Hx'|exact HR'|discriminate].
    + (* add *)
      unfold handle. rewrite Hg, Htop. cbn [ogid_in]. destruct HR as [He HR]. rewrite He, Ea. cbn [is_start records].
      destruct on; cbn [negb].
      * unfold dispatch. rewrite Ea. unfold do_add. rewrite Hg.
        destruct cur as [c|].
        -- rewrite HR. cbn [rc_path rc_result]. rewrite path_eqb_refl. cbn [rbind].
           rewrite IH with (cur := Some (first_wins_merge r c)) (on := true); [reflexivity|exact Hx'| |discriminate].
           split; [exact He|]. unfold upd_rec_result. cbn. rewrite HR. reflexivity.
        -- destruct HR as [HR1 HR2]. rewrite HR1, HR2. cbn [rec0 rc_path gid_in existsb].
           destruct (path_eqb [] (g_path F g)) eqn:Ep.
           { destruct (path_eqb_spec [] (g_path F g)); congruence. }
           cbn [rbind]. apply IH; [exact Hx'|split; [exact He|auto]|exact Hee].
      * cbn [rbind]. destruct cur as [c|]; (apply IH; [exact Hx'|split; [exact He|exact HR]|discriminate]).
    + (* end *)
      unfold handle. rewrite Hg, Htop. cbn [ogid_in]. destruct HR as [He HR]. rewrite He, Ea. cbn [is_start records].
      destruct on; cbn [negb].
      * unfold dispatch. rewrite Ea. unfold do_end. rewrite Hg.
        destruct cur as [c|].
        -- rewrite HR. cbn [rc_path]. rewrite path_eqb_refl. cbn [negb rbind].
           etransitivity; [apply (IH _ (Some c) false); [exact Hx'| |discriminate]|reflexivity].
           split; [|exact HR]. cbn. now rewrite gid_eqb_refl.
        -- specialize (Hee eq_refl eq_refl). discriminate.
      * cbn [rbind]. destruct cur as [c|]; (apply IH; [exact Hx'|split; [exact He|exact HR]|discriminate]).
Qed.

Theorem group_run e xs main :
  Forall of_group xs -> no_early_end (map ev_of xs) = true ->
  rworld (make_results F runf k2i e [] [map (fun x => [x]) xs] main)
  = commits (records (map ev_of xs) None true) (main, [], e).
Proof.
  intros Hx Hee. unfold make_results. cbn [save_vars sort_paths fold_right rfold rbind].
  unfold run_groups. cbn [rfold].
  pose proof (run_events xs (set_rec F (init_state F e main) (rec0 F)) None true Hx) as H.
  cbn [init_state set_rec s_results] in H. unfold set_rec, init_state in *. cbn [s_results s_started s_ended s_cache s_env s_rec] in *.
  unfold world_of in H. cbn [s_results s_cache s_env] in H. rewrite <- H.
  - destruct (rfold step_item _ _); reflexivity.
  - split; [reflexivity|]. split; reflexivity.
  - auto.
Qed.
End OneGroup.
End GroupRun.
