(** * MachineFacts: the results builder as a state machine. *)
From Verif Require Import PyBase DictFacts Regex Tree Results SpecTree ResultsFacts PathFacts SpecRecords.

Lemma gid_eqb_spec (a b : gid) : reflect (a = b) (gid_eqb a b).
Proof.
  destruct a as [a i], b as [b j]. unfold gid_eqb. simpl.
  destruct (str_eqb_spec a b) as [->|H]; simpl; [|constructor; congruence].
  destruct (Nat.eqb_spec i j) as [->|H]; constructor; congruence.
Qed.
Lemma gid_eqb_refl a : gid_eqb a a = true.
Proof. destruct (gid_eqb_spec a a); congruence. Qed.
Lemma gid_in_spec g l : gid_in g l = true <-> In g l.
Proof.
  unfold gid_in. rewrite existsb_exists. split.
  - intros (x & H1 & H2). destruct (gid_eqb_spec g x); [subst; assumption|discriminate].
  - intros H. exists g. split; [assumption|apply gid_eqb_refl].
Qed.
Lemma gid_in_filter g l : gid_in g (filter (fun y => negb (gid_eqb g y)) l) = false.
Proof.
  induction l as [|x l IH]; [reflexivity|]. simpl. destruct (gid_eqb g x) eqn:E; simpl; [exact IH|].
  rewrite E. exact IH.
Qed.
Lemma gid_in_filter_other g h l : h <> g -> gid_in h (filter (fun y => negb (gid_eqb g y)) l) = gid_in h l.
Proof.
  intros H. induction l as [|x l IH]; [reflexivity|]. simpl.
  destruct (gid_eqb_spec g x) as [<-|E]; simpl; rewrite IH; [|reflexivity].
  destruct (gid_eqb_spec h g); [congruence|reflexivity].
Qed.

Lemma path_eqb_refl p : path_eqb p p = true.
Proof. induction p as [|x p IH]; simpl; [reflexivity|]. now rewrite str_eqb_refl. Qed.
Lemma path_eqb_spec p q : reflect (p = q) (path_eqb p q).
Proof.
  revert q; induction p as [|x p IH]; intros [|y q]; simpl; try (constructor; congruence).
  destruct (str_eqb_spec x y) as [->|H]; simpl; [|constructor; congruence].
  destruct (IH q) as [->|H]; constructor; congruence.
Qed.

Lemma add_defaults_spec r D : dwf D -> add_defaults r D = with_defaults r D.
Proof.
  unfold add_defaults, with_defaults. revert r; induction D as [|[k v] D IH]; intros r Hw.
  - simpl. now rewrite app_nil_r.
  - inversion Hw as [|? ? Hn Hw']; subst. cbn [fold_left fst snd filter]. unfold dsetdefault.
    destruct (dmem r k) eqn:E; simpl.
    + now apply IH.
    + rewrite IH by exact Hw'. apply dmem_false in E. rewrite dset_fresh by exact E.
      rewrite <- app_assoc. simpl. f_equal. f_equal. apply filter_ext_in. intros [k' v'] Hi. simpl. f_equal.
      assert (k' <> k) as Hk.
      { intros ->. apply Hn. change k with (fst (k, v')). now apply in_map. }
      rewrite <- (dset_fresh r k v) by exact E. unfold dmem. rewrite dget_dset_other by congruence. reflexivity.
Qed.

Definition results_of {F} (r : res (rstate F)) : res val :=
  match r with Ok s => Ok (s_results F s) | Raise e => Raise e end.

Section Machine.
Variable F : Type.
Variable runf : F -> fstate -> res (fstate * bool).
Variable k2i : bool.
Notation rstate := (rstate F).
Notation group := (group F).
Notation item := (item F).
Notation flush := (flush F runf k2i).
Notation step_item := (step_item F runf k2i).

(** a record with a static path, no functions and no merge flag *)
Lemma flush_simple (s : rstate) :
  let r := s_rec F s in
  static_path (rc_path F r) -> rc_path F r <> [] -> rc_funcs F r = [] -> rc_mwl F r = false ->
  flush s = do v <- save_cur k2i false (s_results F s) (map split_stars (rc_path F r))
                      (VDict (add_defaults (rc_result F r) (rc_defaults F r)));
            Ok (with_results F s v).
Proof.
  intros r Hs Hne Hf Hm. unfold Results.flush, processgrp. fold r. rewrite Hm, Hf.
  cbn [rbind run_funcs fs_env fs_path fs_data fs_cache fs_results].
  rewrite form_path_static by exact Hs. cbn [rbind].
  destruct (rc_path F r) as [|p path] eqn:Ep; [congruence|]. cbn [map].
  cbn [s_results]. destruct s; reflexivity.
Qed.

Lemma flush_norec (s : rstate) :
  rc_path F (s_rec F s) = [] -> rc_funcs F (s_rec F s) = [] -> rc_mwl F (s_rec F s) = false -> flush s = Ok s.
Proof.
  intros Hp Hf Hm. unfold Results.flush, processgrp. rewrite Hm, Hf, Hp.
  cbn. destruct s; reflexivity.
Qed.

(** ** one group *)
Section OneGroup.
Variable g : group.
Hypothesis Hstatic : static_path (g_path F g).
Hypothesis Hne : g_path F g <> [].
Hypothesis Hnof : g_funcs F g = [].
Hypothesis Htop : g_parent F g = None.

(** the event carried by a match item of this group (join lines are treated in
    their own section) *)
Definition ev_of (x : item) : ev :=
  match snd x with
  | None => EReject
  | Some r => match r_action F (fst x) with
              | AStart => EStart r
              | AStartEmpty => EStartEmpty
              | AAdd => EAdd r
              | AJoin => EAdd r
              | AEnd => EEnd
              end
  end.
Definition of_group (x : item) : Prop := r_group F (fst x) = g /\ r_action F (fst x) <> AJoin.

Definition path := map split_stars (g_path F g).
Definition saves (rs : list dict) (t : val) : res val :=
  rfold (fun t r => save_cur k2i false t path (VDict (add_defaults r (g_runs F g)))) rs t.

Definition Rel (s : rstate) (cur : option dict) (on : bool) : Prop :=
  gid_in (g_id F g) (s_ended F s) = negb on /\
  match cur with
  | None => s_rec F s = rec0 F /\ s_started F s = []
  | Some r => s_rec F s = {| rc_result := r; rc_path := g_path F g; rc_funcs := []; rc_defaults := g_runs F g;
                             rc_gid := Some (g_id F g); rc_mwl := false |}
  end.

Lemma saves_app a b t : saves (a ++ b) t = do t' <- saves a t; saves b t'.
Proof.
  revert t; induction a as [|r a IH]; intros t; [reflexivity|]. cbn [app]. unfold saves in *. cbn [rfold].
  destruct (save_cur k2i false t path (VDict (add_defaults r (g_runs F g)))) as [t1|e]; [|reflexivity].
  cbn [rbind]. apply IH.
Qed.

Lemma flush_rel s cur on : Rel s cur on ->
  flush s = do v <- saves (match cur with Some r => [r] | None => [] end) (s_results F s); Ok (with_results F s v).
Proof.
  intros [_ H]. destruct cur as [r|].
  - rewrite flush_simple; rewrite H; simpl; auto. fold path.
    unfold saves. cbn [rfold]. destruct (save_cur _ _ _ _ _); reflexivity.
  - destruct H as [H _]. rewrite flush_norec; rewrite ?H; try reflexivity.
    cbn. destruct s; reflexivity.
Qed.

Lemma start_case s cur on rd (r : dict) t (K : rstate -> res rstate) :
  Rel s cur on -> r_group F rd = g ->
  (forall s', Rel s' (Some r) true -> results_of (K s') = t (s_results F s')) ->
  results_of (do s' <- do_start F runf k2i
       (set_ended F s (filter (fun y => negb (gid_eqb (g_id F g) y)) (s_ended F s))) rd r false (g_runs F g); K s')
  = (do v <- saves (match cur with Some r => [r] | None => [] end) (s_results F s); t v).
Proof.
  intros HR Hg HK. unfold do_start. rewrite Hg.
  set (s1 := set_started F _ _).
  assert (HR1 : Rel s1 cur true \/ (cur = None)).
  { destruct cur as [c|]; [left|right; reflexivity]. destruct HR as [_ HR]. split; [|exact HR].
    unfold s1. cbn. apply gid_in_filter. }
  assert (Hfl : flush s1 = do v <- saves (match cur with Some r => [r] | None => [] end) (s_results F s); Ok (with_results F s1 v)).
  { destruct HR1 as [HR1| ->].
    - rewrite (flush_rel s1 cur true HR1). reflexivity.
    - destruct HR as [_ [HR _]]. rewrite flush_norec; unfold s1; cbn; rewrite ?HR; reflexivity. }
  rewrite Hfl. destruct (saves _ _) as [v|e]; [|reflexivity]. cbn [rbind].
  rewrite HK; [reflexivity|]. split.
  - unfold s1. cbn. apply gid_in_filter.
  - cbn. rewrite Hnof. reflexivity.
Qed.

Lemma filter_id_gid l : gid_in (g_id F g) l = false -> filter (fun y => negb (gid_eqb (g_id F g) y)) l = l.
Proof.
  induction l as [|x l IH]; [reflexivity|]. simpl. intros H. apply orb_false_iff in H as [H1 H2].
  rewrite H1. simpl. now rewrite IH.
Qed.

(** accepted starts go through [start_case] whether or not the group was muted *)
Lemma handle_start s on cur rd r : Rel s cur on -> r_group F rd = g -> is_start (r_action F rd) = true ->
  handle F runf k2i s (rd, Some r) =
  dispatch F runf k2i (set_ended F s (filter (fun y => negb (gid_eqb (g_id F g) y)) (s_ended F s))) rd r.
Proof.
  intros [He _] Hg Ha. unfold handle. rewrite Hg, Htop. cbn [ogid_in]. rewrite He, Ha.
  destruct on; cbn [negb]; [|reflexivity].
  rewrite filter_id_gid by exact He. destruct s; reflexivity.
Qed.

Lemma run_events xs : forall s cur on,
  Forall of_group xs -> Rel s cur on ->
  (cur = None -> on = true -> no_early_end (map ev_of xs) = true) ->
  results_of (do s' <- rfold step_item (map (fun x => [x]) xs) s; flush s')
  = saves (records (map ev_of xs) cur on) (s_results F s).
Proof.
  induction xs as [|[rd data] xs IH]; intros s cur on Hx HR Hee.
  - cbn [map rfold rbind records]. rewrite (flush_rel s cur on HR).
    destruct (saves _ _); reflexivity.
  - inversion Hx as [|? ? [Hg Hj] Hx']; subst. cbn [fst] in Hg, Hj.
    cbn [map rfold]. unfold Results.step_item at 1. cbn [choose].
    destruct data as [r|].
    2:{ (* rejected *)
      cbn [handle ev_of snd records]. rewrite Hg. cbn [rbind].
      etransitivity; [apply (IH _ cur false); [exact Hx'| |congruence]|reflexivity].
      destruct HR as [He HR]. split; [|exact HR].
      cbn. now rewrite gid_eqb_refl. }
    cbn [ev_of snd fst map] in Hee |- *. destruct (r_action F rd) eqn:Ea; [| | |congruence|].
    + rewrite (handle_start s on cur rd r HR Hg) by (rewrite Ea; reflexivity).
      unfold dispatch. rewrite Ea. cbn [records]. rewrite saves_app.
      unfold rbind at 1 2.
      pose proof (start_case s cur on rd r (saves (records (map ev_of xs) (Some r) true))
                 (fun s' => do s'' <- rfold step_item (map (fun x => [x]) xs) s'; flush s'') HR Hg) as HS.
      rewrite Hg. rewrite <- HS.
      * destruct (do_start _ _ _ _ _ _ _ _); reflexivity.
      * intros s' HR'. apply IH; [exact Hx'|exact HR'|discriminate].
    + rewrite (handle_start s on cur rd r HR Hg) by (rewrite Ea; reflexivity).
      unfold dispatch. rewrite Ea. cbn [records]. rewrite saves_app.
      unfold rbind at 1 2.
      pose proof (start_case s cur on rd [] (saves (records (map ev_of xs) (Some []) true))
                 (fun s' => do s'' <- rfold step_item (map (fun x => [x]) xs) s'; flush s'') HR Hg) as HS.
      rewrite Hg. rewrite <- HS.
      * destruct (do_start _ _ _ _ _ _ _ _); reflexivity.
      * intros s' HR'. apply IH; [exact Hx'|exact HR'|discriminate].
    + (* add *)
      unfold handle. rewrite Hg, Htop. cbn [ogid_in]. destruct HR as [He HR]. rewrite He, Ea. cbn [is_start records].
      destruct on; cbn [negb].
      * unfold dispatch. rewrite Ea. unfold do_add. rewrite Hg.
        destruct cur as [c|].
        -- rewrite HR. cbn [rc_path rc_result]. rewrite path_eqb_refl. cbn [rbind].
           rewrite IH with (cur := Some (first_wins_merge r c)) (on := true); [reflexivity|exact Hx'| |discriminate].
           split; [exact He|]. unfold upd_rec_result. cbn. rewrite HR. reflexivity.
        -- destruct HR as [HR1 HR2]. rewrite HR1, HR2. cbn [rec0 rc_path gid_in existsb].
           destruct (path_eqb [] (g_path F g)) eqn:Ep.
           { destruct (path_eqb_spec [] (g_path F g)); congruence. }
           cbn [rbind]. apply IH; [exact Hx'|split; [exact He|auto]|exact Hee].
      * cbn [rbind]. destruct cur as [c|]; (apply IH; [exact Hx'|split; [exact He|exact HR]|discriminate]).
    + (* end *)
      unfold handle. rewrite Hg, Htop. cbn [ogid_in]. destruct HR as [He HR]. rewrite He, Ea. cbn [is_start records].
      destruct on; cbn [negb].
      * unfold dispatch. rewrite Ea. unfold do_end. rewrite Hg.
        destruct cur as [c|].
        -- rewrite HR. cbn [rc_path]. rewrite path_eqb_refl. cbn [negb rbind].
           etransitivity; [apply (IH _ (Some c) false); [exact Hx'| |discriminate]|reflexivity].
           split; [|exact HR]. cbn. now rewrite gid_eqb_refl.
        -- specialize (Hee eq_refl eq_refl). discriminate.
      * cbn [rbind]. destruct cur as [c|]; (apply IH; [exact Hx'|split; [exact He|exact HR]|discriminate]).
Qed.

Theorem one_group e xs main :
  Forall of_group xs -> no_early_end (map ev_of xs) = true ->
  results_of (make_results F runf k2i e [] [map (fun x => [x]) xs] main)
  = saves (records (map ev_of xs) None true) main.
Proof.
  intros Hx Hee. unfold make_results. cbn [save_vars sort_paths fold_right rfold rbind].
  unfold run_groups. cbn [rfold].
  pose proof (run_events xs (set_rec F (init_state F e main) (rec0 F)) None true Hx) as H.
  cbn [init_state set_rec s_results] in H. unfold set_rec, init_state in *. cbn [s_results s_started s_ended s_cache s_env s_rec] in *.
  rewrite <- H.
  - destruct (rfold step_item _ _); reflexivity.
  - split; [reflexivity|]. split; reflexivity.
  - auto.
Qed.
End OneGroup.
End Machine.
