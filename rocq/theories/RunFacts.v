(** * RunFacts: closed forms for runs of one group. *)
From Verif Require Import PyBase DictFacts Regex Tree Results SpecTree ResultsFacts ResultsHist PathFacts
  SpecRecords MachineFacts.

(** ** records are well-formed dictionaries *)
Definition ev_wf (e : ev) : Prop := match e with EStart r | EAdd r => dwf r | _ => True end.

Lemma records_wf evs : forall cur on, Forall ev_wf evs ->
  match cur with Some r => dwf r | None => True end -> Forall dwf (records evs cur on).
Proof.
  assert (Hcl : forall cur : option dict, match cur with Some r => dwf r | None => True end ->
    Forall dwf (match cur with Some r => [r] | None => [] end)).
  { intros [r|] H; auto. }
  induction evs as [|e evs IH]; intros cur on Hw Hc; [now apply Hcl|].
  inversion Hw as [|? ? He Hw']; subst. destruct e as [r| | |r|]; cbn [records].
  - apply Forall_app. split; [now apply Hcl|]. apply IH; auto.
  - apply Forall_app. split; [now apply Hcl|]. apply IH; auto. apply dwf_nil.
  - apply IH; auto.
  - destruct on, cur as [c|]; apply IH; auto. unfold first_wins_merge. now apply dwf_dupdate.
  - apply IH; auto.
Qed.

Lemma filter_sub {A B} (f : A -> B) p l x : In x (map f (filter p l)) -> In x (map f l).
Proof. rewrite !in_map_iff. intros (y & <- & H). apply filter_In in H as [H _]. eauto. Qed.
Lemma NoDup_map_filter {A B} (f : A -> B) p l : NoDup (map f l) -> NoDup (map f (filter p l)).
Proof.
  induction l as [|x l IH]; [auto|]. simpl. intros H. inversion H as [|? ? H1 H2]; subst.
  destruct (p x); simpl; [|auto]. constructor; [|auto]. intros Hi. apply H1. eapply filter_sub; eauto.
Qed.
Lemma with_defaults_wf r D : dwf r -> dwf D -> dwf (with_defaults r D).
Proof.
  intros Hr HD. unfold with_defaults, dwf, dkeys. rewrite map_app. 
  induction r as [|[k v] r IH] in Hr |- *.
  - simpl. now apply NoDup_map_filter.
  - inversion Hr as [|? ? H1 H2]; subst. simpl. constructor.
    + intros Hi. apply in_app_or in Hi as [Hi|Hi]; [contradiction|].
      apply in_map_iff in Hi as ([k' v'] & E & Hi). simpl in E. subst k'. apply filter_In in Hi as [_ Hi].
      simpl in Hi. unfold dmem in Hi. simpl in Hi. rewrite key_eqb_refl in Hi. discriminate.
    + specialize (IH H2). (* the filter with fewer keys is larger *)
      revert IH. generalize (map fst r) as ks. intros ks.
      assert (Hsub : forall D0 : dict, filter (fun kv => negb (dmem ((k, v) :: r) (fst kv))) D0 =
        filter (fun kv => negb (key_eqb (fst kv) k)) (filter (fun kv => negb (dmem r (fst kv))) D0)).
      { intros D0. induction D0 as [|[k0 v0] D0 IHD]; [reflexivity|]. simpl. unfold dmem at 1. simpl.
        destruct (key_eqb k0 k) eqn:E0.
        - simpl. destruct (dmem r k0); simpl; [exact IHD|]. rewrite E0. simpl. exact IHD.
        - fold (dmem r k0). destruct (dmem r k0); simpl; [exact IHD|]. rewrite E0. simpl. now rewrite IHD. }
      rewrite Hsub. generalize (filter (fun kv => negb (dmem r (fst kv))) D) as D1. intros D1.
      induction ks as [|a ks IHk]; simpl; intros HN.
      * now apply NoDup_map_filter.
      * inversion HN as [|? ? HN1 HN2]; subst. constructor; [|auto]. intros Hi. apply HN1.
        apply in_or_app. apply in_app_or in Hi as [Hi|Hi]; [auto|right]. eapply filter_sub; eauto.
Qed.

(** ** contents of a record *)
(** fold of the lines after the start line *)
Definition accumulate (r0 : dict) (rs : list dict) : dict := fold_left (fun c r => first_wins_merge r c) rs r0.

Lemma records_one rs : forall c, records (map EAdd rs) (Some c) true = [accumulate c rs].
Proof. induction rs as [|r rs IH]; intros c; [reflexivity|]. cbn [map records]. apply IH. Qed.

Lemma accumulate_wf rs : forall r0, dwf r0 -> Forall dwf rs -> dwf (accumulate r0 rs).
Proof.
  induction rs as [|r rs IH]; intros r0 H0 Hr; [exact H0|]. inversion Hr; subst. cbn. apply IH; [|assumption].
  now apply dwf_dupdate.
Qed.
Lemma accumulate_get rs : forall r0 k, dwf r0 -> Forall dwf rs ->
  dget (accumulate r0 rs) k = first_wins (r0 :: rs) k.
Proof.
  induction rs as [|r rs IH]; intros r0 k H0 Hr.
  - cbn. now destruct (dget r0 k).
  - inversion Hr; subst. cbn [accumulate fold_left]. fold (accumulate (first_wins_merge r r0) rs).
    rewrite IH; [|now apply dwf_dupdate|assumption].
    cbn [first_wins]. unfold first_wins_merge. rewrite dget_dupdate by exact H0.
    destruct (dget r0 k); reflexivity.
Qed.
Lemma dget_app (a b : dict) k : dget (a ++ b) k = match dget a k with Some v => Some v | None => dget b k end.
Proof. induction a as [|[j w] a IH]; [reflexivity|]. simpl. destruct (key_eqb k j); [reflexivity|exact IH]. Qed.
Lemma with_defaults_get r D k : dget (with_defaults r D) k = match dget r k with Some v => Some v | None => dget D k end.
Proof.
  unfold with_defaults. rewrite dget_app. destruct (dget r k) eqn:E; [reflexivity|].
  induction D as [|[j w] D IH]; [reflexivity|]. simpl. destruct (dmem r j) eqn:Ej; simpl.
  - destruct (key_eqb_spec k j) as [->|]; [|exact IH]. unfold dmem in Ej. rewrite E in Ej. discriminate.
  - destruct (key_eqb k j); [reflexivity|exact IH].
Qed.

Section Run.
Variable F : Type.
Variable runf : F -> fstate -> res (fstate * bool).
Variable k2i : bool.
Variable g : group F.
Hypothesis Hstatic : static_path (g_path F g).
Hypothesis Hne : g_path F g <> [].
Hypothesis Hnof : g_funcs F g = [].
Hypothesis Htop : g_parent F g = None.
Hypothesis HD : dwf (g_runs F g).
Notation rstate := (rstate F).
Notation item := (item F).

(** the records of a run, completed with the defaults *)
Definition full_records (xs : list item) : list dict :=
  map (fun r => with_defaults r (g_runs F g)) (records (map (ev_of F) xs) None true).

Definition item_wf (x : item) : Prop := match snd x with Some r => dwf r | None => True end.

Lemma ev_of_wf x : item_wf x -> ev_wf (ev_of F x).
Proof. unfold item_wf, ev_of, ev_wf. destruct (snd x); auto. destruct (r_action F (fst x)); auto. Qed.

Lemma full_records_wf xs : Forall item_wf xs -> Forall dwf (full_records xs).
Proof.
  intros H. unfold full_records. apply Forall_map.
  assert (Hr : Forall dwf (records (map (ev_of F) xs) None true)).
  { apply records_wf; [|exact I]. apply Forall_map. eapply Forall_impl; [|exact H]. apply ev_of_wf. }
  eapply Forall_impl; [|exact Hr]. intros r Hr0. now apply with_defaults_wf.
Qed.

Lemma saves_save_all rs t : saves F k2i g rs t =
  save_all k2i (map split_stars (g_path F g)) (map (fun r => with_defaults r (g_runs F g)) rs) t.
Proof.
  revert t; induction rs as [|r rs IH]; intros t; [reflexivity|].
  unfold saves, save_all in *. cbn [map rfold]. rewrite add_defaults_spec by exact HD. fold (path F g).
  destruct (save_cur k2i false t (path F g) _); [|reflexivity]. cbn [rbind]. apply IH.
Qed.

(** every run of one group saves exactly its records, in order *)
Theorem run_one e xs main :
  Forall (of_group F g) xs -> no_early_end (map (ev_of F) xs) = true ->
  results_of (make_results F runf k2i e [] [map (fun x => [x]) xs] main)
  = save_all k2i (map split_stars (g_path F g)) (full_records xs) main.
Proof.
  intros Hx Hee. rewrite (one_group F runf k2i g Hstatic Hne Hnof Htop e xs main Hx Hee).
  apply saves_save_all.
Qed.

(** with a single list path and empty results: the list of the non-empty records *)
Theorem run_star name e xs :
  map split_stars (g_path F g) = [(name, 1)] -> plain k2i [(name, 1)] ->
  Forall (of_group F g) xs -> Forall item_wf xs -> no_early_end (map (ev_of F) xs) = true ->
  results_of (make_results F runf k2i e [] [map (fun x => [x]) xs] (VDict []))
  = Ok (VDict (match full_records xs with
               | [] => []
               | rs => [(KS name, VList (map VDict (filter nonempty rs)))]
               end)).
Proof.
  intros HP Hp Hx Hw Hee. rewrite (run_one e xs _ Hx Hee), HP.
  pose proof (full_records_wf xs Hw) as Hrw. destruct (full_records xs) as [|r rs]; [reflexivity|].
  inversion Hrw as [|? ? Hr _]; subst.
  pose proof (hist_star k2i [] [] name 1 (VDict []) [] [] Hp) as H. cbn [app] in H.
  rewrite H; [reflexivity| |reflexivity|reflexivity|exact Hr].
  exists [], [], (VDict []). repeat split; constructor.
Qed.

(** same, no asterisk *)
Theorem run_plain name e xs :
  map split_stars (g_path F g) = [(name, 0)] -> plain k2i [(name, 0)] ->
  Forall (of_group F g) xs -> Forall item_wf xs -> no_early_end (map (ev_of F) xs) = true ->
  Forall (fun r => r <> []) (full_records xs) ->
  results_of (make_results F runf k2i e [] [map (fun x => [x]) xs] (VDict []))
  = Ok (VDict (match full_records xs with
               | [] => []
               | [r] => [(KS name, VDict r)]
               | rs => [(KS name, VList (map VDict rs))]
               end)).
Proof.
  intros HP Hp Hx Hw Hee Hnn. rewrite (run_one e xs _ Hx Hee), HP.
  pose proof (full_records_wf xs Hw) as Hrw. destruct (full_records xs) as [|r rs]; [reflexivity|].
  inversion Hrw as [|? ? Hr _]; subst.
  pose proof (hist_plain k2i [] [] name 0 (VDict []) [] [] Hp) as H. cbn [app] in H.
  rewrite H; [destruct rs; reflexivity| |reflexivity| | | |exact Hr|exact Hnn].
  - exists [], [], (VDict []). repeat split; constructor.
  - cbn. lia.
  - cbn. lia.
  - reflexivity.
Qed.

(** one start line and any number of normal lines *)
Theorem run_content e start lines r0 rs main :
  of_group F g start -> r_action F (fst start) = AStart -> snd start = Some r0 ->
  Forall2 (fun x r => of_group F g x /\ r_action F (fst x) = AAdd /\ snd x = Some r) lines rs ->
  dwf r0 -> Forall dwf rs ->
  exists content,
    results_of (make_results F runf k2i e [] [map (fun x => [x]) (start :: lines)] main)
    = save_cur k2i false main (map split_stars (g_path F g)) (VDict content) /\
    forall k, dget content k = match first_wins (r0 :: rs) k with
                               | Some v => Some v
                               | None => dget (g_runs F g) k
                               end.
Proof.
  intros Hg Ha Hr Hl Hw0 Hw.
  assert (Hl1 : Forall (of_group F g) lines /\ map (ev_of F) lines = map EAdd rs).
  { induction Hl as [|x r lines rs (H1 & H2 & H3) Hl IH]; [auto|]. inversion Hw; subst. destruct (IH) as [IH1 IH2]; [assumption|].
    split; [constructor; auto|]. cbn [map]. unfold ev_of at 1. rewrite H3, H2. now rewrite IH2. }
  destruct Hl1 as [Hl1 Hl2].
  exists (with_defaults (accumulate r0 rs) (g_runs F g)). split.
  - rewrite run_one.
    + unfold full_records. cbn [map]. unfold ev_of at 1. rewrite Hr, Ha, Hl2. cbn [records]. rewrite records_one.
      cbn [app map]. unfold save_all. cbn [rfold]. destruct (save_cur _ _ _ _ _); reflexivity.
    + constructor; assumption.
    + cbn [map]. unfold ev_of at 1. rewrite Hr, Ha. reflexivity.
  - intros k. rewrite with_defaults_get, accumulate_get by assumption. reflexivity.
Qed.

(** ** joinmatches *)
Definition join_all (jc : str) (r0 : dict) (rs : list dict) : res dict :=
  rfold (fun rr r => rfold (fun rr kv => join_one jc rr (fst kv) (snd kv)) r rr) rs r0.

Lemma run_joins jc lines rs : forall s r0 r',
  Forall2 (fun x r => r_group F (fst x) = g /\ r_action F (fst x) = AJoin /\ snd x = Some r /\ joinchar (r_joins F (fst x)) r = jc) lines rs ->
  Rel F g s (Some r0) true -> join_all jc r0 rs = Ok r' ->
  exists s', rfold (step_item F runf k2i) (map (fun x => [x]) lines) s = Ok s' /\ Rel F g s' (Some r') true
    /\ s_results F s' = s_results F s.
Proof.
  intros s r0 r' Hl. revert s r0. induction Hl as [|x r lines rs (H1 & H2 & H3 & H4) Hl IH]; intros s r0 HR HJ.
  - cbn in HJ. injection HJ as <-. exists s. auto.
  - unfold join_all in HJ. cbn [rfold] in HJ. destruct (rfold _ r r0) as [r1|] eqn:E1; [|discriminate]. cbn [rbind] in HJ.
    destruct x as [rd d]. cbn [fst snd] in *. subst d. cbn [map rfold]. unfold step_item at 1. cbn [choose].
    destruct HR as [He HR]. unfold handle. rewrite H1, Htop. cbn [ogid_in]. rewrite He, H2. cbn [negb]. unfold dispatch.
    rewrite H2. unfold do_join. rewrite H1, HR. cbn [rc_path rc_result]. rewrite path_eqb_refl, H4, E1. cbn [rbind].
    destruct (IH (upd_rec_result F s r1) r1) as (s' & Hs1 & Hs2 & Hs3).
    + split; [exact He|]. unfold upd_rec_result. cbn. rewrite HR. reflexivity.
    + exact HJ.
    + exists s'. split; [exact Hs1|]. split; [exact Hs2|exact Hs3].
Qed.

Theorem run_join e start lines r0 rs jc r' main :
  r_group F (fst start) = g -> r_action F (fst start) = AStart -> snd start = Some r0 ->
  Forall2 (fun x r => r_group F (fst x) = g /\ r_action F (fst x) = AJoin /\ snd x = Some r /\ joinchar (r_joins F (fst x)) r = jc) lines rs ->
  join_all jc r0 rs = Ok r' ->
  results_of (make_results F runf k2i e [] [map (fun x => [x]) (start :: lines)] main)
  = save_cur k2i false main (map split_stars (g_path F g)) (VDict (with_defaults r' (g_runs F g))).
Proof.
  intros Hg Ha Hr Hl HJ. unfold make_results. cbn [save_vars sort_paths fold_right rfold rbind].
  unfold run_groups. cbn [rfold map]. unfold step_item at 1. cbn [choose]. destruct start as [rd d]. cbn [fst snd] in *. subst d.
  set (s0 := set_rec F (init_state F e main) (rec0 F)).
  assert (HR0 : Rel F g s0 None true) by (repeat split).
  rewrite (handle_start F runf k2i g Htop s0 true None rd r0 HR0 Hg) by (rewrite Ha; reflexivity).
  unfold dispatch. rewrite Ha. rewrite Hg.
  pose proof (start_case F runf k2i g Hstatic Hne Hnof) as SC.
  specialize (SC s0 None true rd r0 (fun v => save_cur k2i false v (map split_stars (g_path F g)) (VDict (with_defaults r' (g_runs F g))))
    (fun s' => do s2 <- rfold (step_item F runf k2i) (map (fun x => [x]) lines) s'; flush F runf k2i s2) HR0 Hg).
  cbn [rbind saves rfold] in SC. change (s_results F s0) with main in SC. rewrite <- SC.
  - destruct (do_start _ _ _ _ _ _ _ _) as [s1|]; [|reflexivity]. cbn [rbind].
    destruct (rfold (step_item F runf k2i) _ s1); reflexivity.
  - intros s' HR'. destruct (run_joins jc lines rs s' r0 r' Hl HR' HJ) as (s2 & Hs1 & Hs2 & Hs3).
    rewrite Hs1. cbn [rbind]. rewrite (flush_rel F runf k2i g Hstatic Hne s2 _ _ Hs2). cbn [saves rfold].
    rewrite add_defaults_spec by exact HD. fold (path F g). rewrite Hs3. destruct (save_cur k2i false (s_results F s') _ _); reflexivity.
Qed.
End Run.

(** ** what joining computes *)
Lemma join_strings jc k ms : forall r m, dget r k = Some (VStr m) ->
  exists r', join_all jc r (map (fun x => [(k, VStr x)]) ms) = Ok r' /\
    dget r' k = Some (VStr (join jc (m :: ms))) /\ (forall k', k' <> k -> dget r' k' = dget r k').
Proof.
  induction ms as [|x ms IH]; intros r m H.
  - exists r. repeat split; auto.
  - unfold join_all. cbn [map rfold fst snd]. unfold join_one at 1. rewrite H. cbn [rbind].
    destruct (IH (dset r k (VStr (m ++ jc ++ x))) (m ++ jc ++ x)) as (r' & H1 & H2 & H3); [apply dget_dset_same|].
    exists r'. split; [exact H1|]. split.
    + rewrite H2. f_equal. f_equal. destruct ms; cbn [join]; [reflexivity|]. now rewrite <- !app_assoc.
    + intros k' Hk. rewrite H3 by exact Hk. apply dget_dset_other; congruence.
Qed.
Lemma join_lists jc k ms : forall r l, dget r k = Some (VList l) ->
  exists r', join_all jc r (map (fun x => [(k, VList x)]) ms) = Ok r' /\
    dget r' k = Some (VList (l ++ concat ms)) /\ (forall k', k' <> k -> dget r' k' = dget r k').
Proof.
  induction ms as [|x ms IH]; intros r l H.
  - exists r. cbn. rewrite app_nil_r. repeat split; auto.
  - unfold join_all. cbn [map rfold fst snd]. unfold join_one at 1. rewrite H. cbn [rbind].
    destruct (IH (dset r k (VList (l ++ x))) (l ++ x)) as (r' & H1 & H2 & H3); [apply dget_dset_same|].
    exists r'. split; [exact H1|]. split.
    + rewrite H2. cbn [concat]. now rewrite app_assoc.
    + intros k' Hk. rewrite H3 by exact Hk. apply dget_dset_other; congruence.
Qed.
(** other values: the first two become a list, then each is appended (a list is concatenated) *)
Definition to_items (v : val) : list val := match v with VList l => l | _ => [v] end.
Lemma join_others jc k vs : forall r l, dget r k = Some (VList l) ->
  exists r', join_all jc r (map (fun x => [(k, x)]) vs) = Ok r' /\
    dget r' k = Some (VList (l ++ concat (map to_items vs))) /\ (forall k', k' <> k -> dget r' k' = dget r k').
Proof.
  induction vs as [|x vs IH]; intros r l H.
  - exists r. cbn. rewrite app_nil_r. repeat split; auto.
  - unfold join_all. cbn [map rfold fst snd].
    assert (HJ : join_one jc r k x = Ok (dset r k (VList (l ++ to_items x)))).
    { unfold join_one. rewrite H. destruct x; reflexivity. }
    rewrite HJ. cbn [rbind].
    destruct (IH (dset r k (VList (l ++ to_items x))) (l ++ to_items x)) as (r' & H1 & H2 & H3); [apply dget_dset_same|].
    exists r'. split; [exact H1|]. split.
    + rewrite H2. cbn [map concat]. now rewrite app_assoc.
    + intros k' Hk. rewrite H3 by exact Hk. apply dget_dset_other; congruence.
Qed.
