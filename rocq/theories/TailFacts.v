(** * TailFacts: when a tail match can be merged, and what happens otherwise. *)
From Verif Require Import PyBase DictFacts Regex Tree Results SpecTree ResultsFacts ResultsHist PathFacts SpecRecords MachineFacts MergeFacts SpecMerge OverlayFacts FrameFacts SaveSpec.

Lemma merge_step_err e kv x : merge_step e kv = Raise x -> exists o v, kv = (fst kv, v) /\ nested (dget e (fst kv)) v = Some o /\ merge_rec o v = Raise x.
Proof.
  destruct kv as [k v]. unfold merge_step, nested. cbn [fst snd]. destruct (dget e k) as [old|]; [|destruct v; discriminate].
  destruct v; try discriminate. destruct (truthy old) eqn:Et; [|discriminate]. destruct (merge_rec old (VDict d)) as [o'|y] eqn:E; [discriminate|]. intros [= <-].
  exists old, (VDict d). auto.
Qed.
Lemma merge_err data : deep_wf data -> is_dict data = true -> forall el x, merge_rec el data = Raise x -> x = AttributeError.
Proof.
  induction data as [|b|z|s|l IHl|nd IHd|o] using val_rect'; intros Hw Hi el x H; try discriminate.
  destruct nd as [|kv nd]; [discriminate|]. apply deep_wf_dict in Hw as [_ Hw2].
  destruct el as [| | | | |e|]; try (destruct kv; cbn in H; congruence). rewrite merge_rec_dict in H.
  assert (HG : forall l e, Forall (fun kv => In kv ((kv :: nd))) l \/ True -> (forall kv0, In kv0 l -> In kv0 (kv :: nd)) -> rfold merge_step l e = Raise x -> x = AttributeError).
  { induction l as [|kv0 l IHl2]; intros e0 _ Hin HR; [discriminate|]. cbn [rfold] in HR. destruct (merge_step e0 kv0) as [e1|y] eqn:E1; cbn [rbind] in HR.
    - apply (IHl2 e1); [now right| |exact HR]. intros. apply Hin. now right.
    - injection HR as ->. apply merge_step_err in E1 as (o & v & Ekv & Hn & Hm). specialize (Hin kv0 (or_introl eq_refl)).
      rewrite Forall_forall in IHd, Hw2. specialize (IHd _ Hin). specialize (Hw2 _ Hin). rewrite Ekv in IHd, Hw2. cbn [snd] in *.
      apply (IHd Hw2) with (el := o); [|exact Hm]. unfold nested in Hn. destruct v; try discriminate. reflexivity. }
  destruct (rfold merge_step (kv :: nd) e) as [e'|y] eqn:E; cbn [rbind] in H; [discriminate|]. injection H as ->.
  apply (HG (kv :: nd) e); auto.
Qed.
Lemma steps_total nd : forall e, dwf nd ->
  (forall k v o, dget nd k = Some v -> nested (dget e k) v = Some o -> exists w, merge_rec o v = Ok w) ->
  exists e', rfold merge_step nd e = Ok e'.
Proof.
  induction nd as [|[k v] nd IH]; intros e Hw H; [eexists; reflexivity|]. inversion Hw as [|? ? Hn Hw']; subst. cbn [rfold].
  destruct (merge_step e (k, v)) as [e1|x] eqn:E1.
  - cbn [rbind]. apply merge_step_ok in E1 as (w & -> & _). apply IH; [exact Hw'|]. intros k' v' o Hk Hne.
    assert (k' <> k). { intros ->. apply dget_In in Hk. apply Hn. change k with (fst (k, v')). now apply in_map. }
    rewrite dget_dset_other in Hne by congruence. apply (H k' v' o); [|exact Hne]. cbn [dget]. now rewrite (proj2 (key_eqb_neq k' k)).
  - apply merge_step_err in E1 as (o & v' & Ekv & Hne & Hm). cbn [fst] in *. injection Ekv as <-.
    destruct (H k v o) as [w Hw2]; [cbn [dget]; now rewrite key_eqb_refl|exact Hne|]. congruence.
Qed.
Lemma overlay_merges data : deep_wf data -> forall el m, overlay el data m -> exists v, merge_rec el data = Ok v.
Proof.
  induction data as [|b|z|s|l IHl|nd IHd|o] using val_rect'; intros Hw el m H; try (inversion H; fail).
  apply deep_wf_dict in Hw as [Hw1 Hw2]. inversion H as [w|d r m' H1 H2 H3]; subst; [eexists; reflexivity|].
  rewrite merge_rec_dict. destruct (steps_total nd d Hw1) as [e' ->]; [|eexists; reflexivity].
  intros k v o Hk Hn. destruct (H3 k v o Hk Hn) as (w & _ & Ho). apply dget_In in Hk. rewrite Forall_forall in IHd, Hw2.
  apply (IHd _ Hk (Hw2 _ Hk) o w Ho).
Qed.
Lemma rebuilt_merges (d r : dict) m : deep_wf (VDict d) -> deep_wf (VDict r) -> overlay (VDict d) (VDict r) m ->
  exists v, merge_rec (VDict d) (VDict (dupdate d r)) = Ok v.
Proof.
  intros Hd Hr H. apply deep_wf_dict in Hd as [Hd1 Hd2]. apply deep_wf_dict in Hr as [Hr1 Hr2]. rewrite merge_rec_dict.
  destruct (steps_total (dupdate d r) d) as [e' ->]; [now apply dwf_dupdate| |eexists; reflexivity].
  intros k v o Hk Hn. rewrite dget_dupdate in Hk by exact Hr1. destruct (dget r k) as [x|] eqn:Ex.
  - injection Hk as ->. inversion H as [w|d' r' m' H1 H2 H3]; subst; [discriminate|]. destruct (H3 k v o Ex Hn) as (w & _ & Ho).
    apply dget_In in Ex. rewrite Forall_forall in Hr2. apply (overlay_merges v (Hr2 _ Ex) o w Ho).
  - rewrite Hk in Hn. unfold nested in Hn. destruct v; try discriminate. destruct (truthy (VDict d0)); [|discriminate]. injection Hn as <-.
    eexists. apply merge_idem; [|reflexivity]. apply dget_In in Hk. rewrite Forall_forall in Hd2. apply (Hd2 _ Hk).
Qed.
Lemma deep_wf_dupdate d r : deep_wf (VDict d) -> deep_wf (VDict r) -> deep_wf (VDict (dupdate d r)).
Proof.
  intros Hd Hr. apply deep_wf_dict in Hd as [Hd1 Hd2]. apply deep_wf_dict in Hr as [Hr1 Hr2]. apply deep_wf_dict.
  split; [now apply dwf_dupdate|]. rewrite Forall_forall in *. intros [k v] Hin.
  assert (Hg : dget (dupdate d r) k = Some v) by (apply In_dget; [now apply dwf_dupdate|exact Hin]).
  rewrite dget_dupdate in Hg by exact Hr1. destruct (dget r k) as [x|] eqn:Ex.
  - injection Hg as ->. apply dget_In in Ex. apply (Hr2 _ Ex).
  - apply dget_In in Hg. apply (Hd2 _ Hg).
Qed.

Lemma merge_fresh (r : dict) : dwf r -> merge_rec (VDict []) (VDict r) = Ok (VDict r).
Proof.
  intros Hw. rewrite merge_rec_dict.
  assert (HG : forall r e, dwf (e ++ r) -> rfold merge_step r e = Ok (e ++ r)).
  { clear. induction r as [|[k v] r IH]; intros e H; [now rewrite app_nil_r|]. cbn [rfold]. unfold merge_step at 1.
    assert (dget e k = None) as ->.
    { apply dget_None_notin. unfold dwf, dkeys in H. rewrite map_app in H. cbn [map fst] in H. apply NoDup_remove_2 in H. intros Hi. apply H. apply in_or_app. now left. }
    assert (HD : dset e k v = e ++ [(k, v)]).
    { apply dset_fresh. apply dget_None_notin. unfold dwf, dkeys in H. rewrite map_app in H. cbn [map fst] in H. apply NoDup_remove_2 in H. intros Hi. apply H. apply in_or_app. now left. }
    rewrite HD. destruct v; cbn [rbind]; rewrite IH; rewrite <- app_assoc; try reflexivity; exact H. }
  rewrite (HG r [] Hw). reflexivity.
Qed.

Section Flush.
Variable F : Type.
Variable runf : F -> fstate -> res (fstate * bool).
Variable k2i : bool.
Notation flush := (flush F runf k2i).
(** the merge outcome decides *)
Theorem tail_list s P a l d :
  let r := s_rec F s in
  static_path (rc_path F r) -> P = map split_stars (rc_path F r) -> P <> [] -> plain k2i P ->
  rc_funcs F r = [] -> rc_mwl F r = true -> rc_defaults F r = [] ->
  reaches (names P) (s_results F s) a (VList (l ++ [VDict d])) ->
  deep_wf (VDict d) -> deep_wf (VDict (rc_result F r)) -> rc_result F r <> [] ->
  (exists m, results_of (flush s) = Ok (upd_at a (fun _ => VList (l ++ [VDict m])) (s_results F s)) /\ overlay (VDict d) (VDict (rc_result F r)) (VDict m)) \/
  ((forall m, ~ overlay (VDict d) (VDict (rc_result F r)) m) /\ results_of (flush s) = Raise AttributeError).
Proof.
  intros r Hs HP Hne Hp Hf Hm Hd Hr Hw Hrw Hrn.
  pose proof (tail_into_list F runf k2i s P a l d) as HT. cbn zeta in HT.
  destruct (results_of (flush s)) as [E'|x] eqn:E.
  - destruct (HT E') as (m & -> & Ho); auto. left. eauto.
  - right. rewrite (flush_merge F runf k2i s P (s_results F s) (dupdate d (rc_result F r))) in E; auto.
    2:{ unfold reconstruct. rewrite (dbp_full k2i P _ a _ Hp Hr). cbn [rbind]. rewrite (reaches_get _ _ _ _ Hr), opt_last_app. reflexivity. }
    unfold save_cur in E. rewrite (dbp_full k2i P _ a _ Hp Hr) in E. cbn [rbind] in E. rewrite (reaches_get _ _ _ _ Hr) in E.
    destruct (truthy (VDict (dupdate d (rc_result F r)))); [|discriminate]. rewrite opt_last_app in E.
    destruct (merge_rec (VDict d) (VDict (dupdate d (rc_result F r)))) as [m|y] eqn:Em; [discriminate|]. cbn [rbind] in E. injection E as <-.
    assert (y = AttributeError) as -> by (eapply merge_err; [| |exact Em]; [now apply deep_wf_dupdate|reflexivity]).
    split; [|reflexivity]. intros m Ho. destruct (rebuilt_merges d (rc_result F r) m Hw Hrw Ho) as [v Hv]. congruence.
Qed.
Theorem tail_dict s P a d :
  let r := s_rec F s in
  static_path (rc_path F r) -> P = map split_stars (rc_path F r) -> P <> [] -> plain k2i P ->
  rc_funcs F r = [] -> rc_mwl F r = true -> rc_defaults F r = [] ->
  reaches (names P) (s_results F s) a (VDict d) ->
  deep_wf (VDict d) -> deep_wf (VDict (rc_result F r)) ->
  (exists m, results_of (flush s) = Ok (upd_at a (fun _ => VDict m) (s_results F s)) /\ overlay (VDict d) (VDict (rc_result F r)) (VDict m)) \/
  ((forall m, ~ overlay (VDict d) (VDict (rc_result F r)) m) /\ results_of (flush s) = Raise AttributeError).
Proof.
  intros r Hs HP Hne Hp Hf Hm Hd Hr Hw Hrw.
  pose proof (tail_into_dict F runf k2i s P a d) as HT. cbn zeta in HT.
  destruct (results_of (flush s)) as [E'|x] eqn:E.
  - destruct (HT E') as (m & -> & Ho); auto. left. eauto.
  - right. rewrite (flush_merge F runf k2i s P (s_results F s) (dupdate d (rc_result F r))) in E; auto.
    2:{ unfold reconstruct. rewrite (dbp_full k2i P _ a _ Hp Hr). cbn [rbind]. rewrite (reaches_get _ _ _ _ Hr). reflexivity. }
    unfold save_cur in E. rewrite (dbp_full k2i P _ a _ Hp Hr) in E. cbn [rbind] in E. rewrite (reaches_get _ _ _ _ Hr) in E.
    destruct (merge_rec (VDict d) (VDict (dupdate d (rc_result F r)))) as [m|y] eqn:Em; [discriminate|]. cbn [rbind] in E. injection E as <-.
    assert (y = AttributeError) as -> by (eapply merge_err; [| |exact Em]; [now apply deep_wf_dupdate|reflexivity]).
    split; [|reflexivity]. intros m Ho. destruct (rebuilt_merges d (rc_result F r) m Hw Hrw Ho) as [v Hv]. congruence.
Qed.
(** an empty list: its last item does not exist *)
Lemma flush_reconstruct_raise s P x :
  let r := s_rec F s in
  static_path (rc_path F r) -> P = map split_stars (rc_path F r) -> P <> [] -> rc_mwl F r = true -> rc_defaults F r = [] ->
  reconstruct k2i (s_results F s) P (rc_result F r) = Raise x -> results_of (flush s) = Raise x.
Proof.
  intros r Hs HP Hne Hm Hd HR. unfold Results.flush, processgrp. fold r. rewrite Hm, Hd.
  cbn [add_defaults fold_left]. rewrite form_path_static by exact Hs. cbn [rbind]. rewrite <- HP.
  destruct P as [|p P0] eqn:EP; [congruence|]. rewrite HR. reflexivity.
Qed.
Theorem tail_empty s P a :
  let r := s_rec F s in
  static_path (rc_path F r) -> P = map split_stars (rc_path F r) -> P <> [] -> plain k2i P ->
  rc_mwl F r = true -> rc_defaults F r = [] ->
  reaches (names P) (s_results F s) a (VList []) -> results_of (flush s) = Raise IndexError.
Proof.
  intros r Hs HP Hne Hp Hm Hd Hr. apply (flush_reconstruct_raise s P IndexError); auto.
  unfold reconstruct. rewrite (dbp_full k2i P _ a _ Hp Hr). cbn [rbind]. rewrite (reaches_get _ _ _ _ Hr). reflexivity.
Qed.
Theorem tail_missing s P Q n st R a d :
  let r := s_rec F s in
  static_path (rc_path F r) -> P = map split_stars (rc_path F r) -> P = Q ++ (n, st) :: R -> plain k2i P ->
  rc_funcs F r = [] -> rc_mwl F r = true -> rc_defaults F r = [] ->
  arrives (names Q) (s_results F s) a (VDict d) -> dget d (KS n) = None -> deep_wf (VDict (rc_result F r)) ->
  results_of (flush s) = if Nat.eqb (stars P) 1 then Raise IndexError else save_cur k2i false (s_results F s) P (VDict (rc_result F r)).
Proof.
  intros r Hs HP EP Hp Hf Hm Hd Hr Hn Hw. assert (Hne : P <> []) by (rewrite EP; destruct Q; discriminate).
  pose proof Hp as Hp0. rewrite EP in Hp0. apply plain_app in Hp0 as [HpQ HpR].
  set (E1 := upd_at a (fun _ => VDict (d ++ [(KS n, skeleton st R)])) (s_results F s)).
  set (b := a ++ SKey (KS n) :: skel_addr st R).
  assert (HD : dict_by_path k2i P (s_results F s) = Ok (E1, Some b)).
  { rewrite EP, (dbp_arrives k2i Q _ _ _ _ a (VDict d) HpQ Hr), dbp_missing by assumption. reflexivity. }
  assert (HG : get_at b E1 = Some (if Nat.eqb (stars P) 1 then VList [] else VDict [])).
  { unfold b, E1. rewrite get_at_app. rewrite (get_upd_same a _ _ (VDict d)) by (eapply arrives_get; eauto).
    rewrite <- (dset_fresh d (KS n) (skeleton st R)) by exact Hn.
    cbn [get_at]. rewrite dget_dset_same, skel_get. rewrite EP. now rewrite stars_last. }
  destruct (Nat.eqb (stars P) 1) eqn:Est.
  - apply (flush_reconstruct_raise s P IndexError); auto. unfold reconstruct. rewrite HD. cbn [rbind]. rewrite HG. reflexivity.
  - apply deep_wf_dict in Hw as [Hw1 Hw2].
    rewrite (flush_merge F runf k2i s P E1 (rc_result F r)); auto.
    2:{ unfold reconstruct. rewrite HD. cbn [rbind]. rewrite HG. now rewrite dupdate_empty. }
    rewrite (save_fresh k2i (s_results F s) P E1 b (rc_result F r)); auto; [|now rewrite Est]. rewrite Est.
    unfold save_cur. assert (dict_by_path k2i P E1 = Ok (E1, Some b)) as ->.
    { rewrite EP. rewrite (dbp_arrives k2i Q _ _ _ E1 a (VDict (d ++ [(KS n, skeleton st R)])) HpQ).
      - apply plain_cons in HpR as (H1 & H2 & H3). cbn [fst] in *. rewrite dbp_key by assumption. unfold dict_step.
        rewrite <- (dset_fresh d (KS n) (skeleton st R)) by exact Hn. rewrite dget_dset_same. rewrite (skel_dbp k2i R st H3). cbn [rbind option_map].
        rewrite dset_dset. unfold E1. rewrite upd_at_twice. rewrite <- (dset_fresh d (KS n) (skeleton st R)) by exact Hn. reflexivity.
      - unfold E1. eapply arrives_upd; eauto. }
    cbn [rbind]. rewrite HG. cbn [truthy].
    rewrite merge_fresh by exact Hw1. reflexivity.
Qed.
End Flush.
