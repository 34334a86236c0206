(** * OverlayFacts: merging is laying over (SpecMerge). *)
From Verif Require Import PyBase DictFacts Regex Tree Results SpecTree ResultsFacts PathFacts SpecRecords MachineFacts MergeFacts SpecMerge.

Lemma merge_step_ok e k v e' : merge_step e (k, v) = Ok e' ->
  exists w, e' = dset e k w /\ match nested (dget e k) v with Some o => merge_rec o v = Ok w | None => w = v end.
Proof.
  unfold merge_step, nested. destruct (dget e k) as [old|].
  - destruct v; try (intros [= <-]; eexists; now split).
    destruct (truthy old); [|intros [= <-]; eexists; now split].
    destruct (merge_rec old (VDict d)) as [o'|] eqn:E; [|discriminate]. cbn [rbind]. intros [= <-]. exists o'. now split.
  - destruct v; intros [= <-]; eexists; now split.
Qed.
Lemma merge_keys nd : forall (e e' : dict), dwf nd -> rfold merge_step nd e = Ok e' ->
  forall k, match dget nd k with
            | None => dget e' k = dget e k
            | Some v => match nested (dget e k) v with
                        | Some o => exists w, merge_rec o v = Ok w /\ dget e' k = Some w
                        | None => dget e' k = Some v
                        end
            end.
Proof.
  induction nd as [|[k0 v0] nd IH]; intros e e' Hw H k; [cbn in H |- *; congruence|].
  inversion Hw as [|? ? Hn Hw']; subst. cbn [rfold] in H. destruct (merge_step e (k0, v0)) as [e1|] eqn:E1; [|discriminate]. cbn [rbind] in H.
  apply merge_step_ok in E1 as (w & -> & Hm). specialize (IH _ _ Hw' H k). cbn [dget] in *.
  destruct (key_eqb k k0) eqn:Ek.
  - apply key_eqb_eq in Ek as ->. assert (dget nd k0 = None) as En by (apply dget_None_notin; exact Hn). rewrite En, dget_dset_same in IH.
    destruct (nested (dget e k0) v0) as [o|]; [exists w; now split|]. now subst.
  - assert (k <> k0) by (intros ->; now rewrite key_eqb_refl in Ek). rewrite !dget_dset_other in IH by congruence. exact IH.
Qed.
Lemma merge_overlay data : deep_wf data -> forall el v, merge_rec el data = Ok v -> overlay el data v.
Proof.
  induction data as [|b|z|s|l IHl|nd IHd|o] using val_rect'; intros Hw el v H; try discriminate.
  destruct nd as [|kv nd].
  - cbn in H. injection H as <-. apply ov_nothing.
  - assert (exists e, el = VDict e) as [e ->]. { destruct kv. destruct el; try discriminate. now eexists. }
    apply deep_wf_dict in Hw as [Hw1 Hw2]. rewrite merge_rec_dict in H. destruct (rfold merge_step (kv :: nd) e) as [e'|] eqn:E; [|discriminate]. cbn [rbind] in H. injection H as <-.
    pose proof (merge_keys _ _ _ Hw1 E) as K. apply ov_dict.
    + intros k Hk. specialize (K k). now rewrite Hk in K.
    + intros k x Hk Hn. specialize (K k). now rewrite Hk, Hn in K.
    + intros k x o Hk Hn. specialize (K k). rewrite Hk, Hn in K. destruct K as (w & K1 & K2). exists w. split; [exact K2|].
      apply dget_In in Hk. rewrite Forall_forall in IHd, Hw2. apply (IHd _ Hk); [apply (Hw2 _ Hk)|exact K1].
Qed.
Lemma overlay_dict d r m : overlay (VDict d) (VDict r) m -> exists m', m = VDict m'.
Proof. intros H. inversion H; subst; now eexists. Qed.

(** the record rebuilt from the saved one and the new values *)
Lemma merge_rebuilt (d r : dict) m :
  deep_wf (VDict d) -> deep_wf (VDict r) -> merge_rec (VDict d) (VDict (dupdate d r)) = Ok m -> overlay (VDict d) (VDict r) m.
Proof.
  intros Hd Hr H. apply deep_wf_dict in Hd as [Hd1 Hd2]. apply deep_wf_dict in Hr as [Hr1 Hr2].
  assert (Hu : dwf (dupdate d r)) by (now apply dwf_dupdate).
  rewrite merge_rec_dict in H. destruct (rfold merge_step (dupdate d r) d) as [e'|] eqn:E; [|discriminate]. cbn [rbind] in H. injection H as <-.
  pose proof (merge_keys _ _ _ Hu E) as K. apply ov_dict; intros k.
  - intros Hk. specialize (K k). rewrite dget_dupdate, Hk in K by exact Hr1. destruct (dget d k) as [v|] eqn:Ek; [|exact K].
    destruct (nested (Some v) v) as [o|] eqn:En; [|exact K]. destruct K as (w & K1 & K2).
    unfold nested in En. destruct v; try discriminate. destruct (truthy _); [|discriminate]. injection En as <-.
    rewrite merge_idem in K1; [congruence| |reflexivity]. apply dget_In in Ek. rewrite Forall_forall in Hd2. apply (Hd2 _ Ek).
  - intros v Hk Hn. specialize (K k). rewrite dget_dupdate, Hk, Hn in K by exact Hr1. exact K.
  - intros v o Hk Hn. specialize (K k). rewrite dget_dupdate, Hk, Hn in K by exact Hr1. destruct K as (w & K1 & K2). exists w. split; [exact K2|].
    apply merge_overlay; [|exact K1]. apply dget_In in Hk. rewrite Forall_forall in Hr2. apply (Hr2 _ Hk).
Qed.

(** saving with merge *)
Lemma save_merge_dict k2i P E a d r E' :
  plain k2i P -> reaches (names P) E a (VDict d) -> deep_wf (VDict r) -> save_cur k2i true E P (VDict r) = Ok E' ->
  exists m, E' = upd_at a (fun _ => VDict m) E /\ overlay (VDict d) (VDict r) (VDict m).
Proof.
  intros Hp Hr Hw H. unfold save_cur in H. rewrite (dbp_full k2i P _ a _ Hp Hr) in H. cbn [rbind] in H. rewrite (reaches_get _ _ _ _ Hr) in H.
  destruct (merge_rec (VDict d) (VDict r)) as [m|] eqn:Em; [|discriminate]. cbn [rbind] in H. injection H as <-.
  apply (merge_overlay _ Hw) in Em. destruct (overlay_dict _ _ _ Em) as [m' ->]. exists m'. now split.
Qed.
Lemma save_merge_list k2i P E a l d r E' :
  plain k2i P -> reaches (names P) E a (VList (l ++ [VDict d])) -> deep_wf (VDict r) -> save_cur k2i true E P (VDict r) = Ok E' ->
  exists m, (E' = upd_at a (fun _ => VList (l ++ [VDict m])) E \/ r = [] /\ E' = E) /\ overlay (VDict d) (VDict r) (VDict m).
Proof.
  intros Hp Hr Hw H. unfold save_cur in H. rewrite (dbp_full k2i P _ a _ Hp Hr) in H. cbn [rbind] in H. rewrite (reaches_get _ _ _ _ Hr) in H.
  destruct r as [|kv r].
  - cbn in H. injection H as <-. exists d. split; [now right|apply ov_nothing].
  - cbn [truthy] in H. rewrite opt_last_app in H.
    destruct (merge_rec (VDict d) (VDict (kv :: r))) as [m|] eqn:Em; [|discriminate]. cbn [rbind] in H. rewrite set_last_app in H. injection H as <-.
    apply (merge_overlay _ Hw) in Em. destruct (overlay_dict _ _ _ Em) as [m' ->]. exists m'. split; [now left|exact Em].
Qed.

Section Flush.
Variable F : Type.
Variable runf : F -> fstate -> res (fstate * bool).
Variable k2i : bool.
Notation flush := (flush F runf k2i).
(** a tail record of any values *)
Theorem tail_into_list s P a l d E' :
  let r := s_rec F s in
  static_path (rc_path F r) -> P = map split_stars (rc_path F r) -> P <> [] -> plain k2i P ->
  rc_funcs F r = [] -> rc_mwl F r = true -> rc_defaults F r = [] ->
  reaches (names P) (s_results F s) a (VList (l ++ [VDict d])) ->
  deep_wf (VDict d) -> deep_wf (VDict (rc_result F r)) -> rc_result F r <> [] ->
  results_of (flush s) = Ok E' ->
  exists m, E' = upd_at a (fun _ => VList (l ++ [VDict m])) (s_results F s) /\ overlay (VDict d) (VDict (rc_result F r)) (VDict m).
Proof.
  intros r Hs HP Hne Hp Hf Hm Hd Hr Hw Hrw Hrn H.
  rewrite (flush_merge F runf k2i s P (s_results F s) (dupdate d (rc_result F r))) in H; auto.
  - unfold save_cur in H. rewrite (dbp_full k2i P _ a _ Hp Hr) in H. cbn [rbind] in H. rewrite (reaches_get _ _ _ _ Hr) in H.
    assert (truthy (VDict (dupdate d (rc_result F r))) = true) as Ht.
    { destruct (dupdate d (rc_result F r)) eqn:E; [|reflexivity]. exfalso.
      apply deep_wf_dict in Hrw as [Hrw _]. destruct (rc_result F r) as [|[k v] r'] eqn:Er; [congruence|].
      assert (dget (dupdate d ((k, v) :: r')) k = Some v) as Hk. { rewrite dget_dupdate by exact Hrw. cbn [dget]. now rewrite key_eqb_refl. }
      rewrite E in Hk. discriminate. }
    rewrite Ht, opt_last_app in H. destruct (merge_rec (VDict d) (VDict (dupdate d (rc_result F r)))) as [m|] eqn:Em; [|discriminate].
    cbn [rbind] in H. rewrite set_last_app in H. injection H as <-.
    apply merge_rebuilt in Em; [|exact Hw|exact Hrw]. destruct (overlay_dict _ _ _ Em) as [m' ->]. exists m'. now split.
  - unfold reconstruct. rewrite (dbp_full k2i P _ a _ Hp Hr). cbn [rbind]. rewrite (reaches_get _ _ _ _ Hr), opt_last_app. reflexivity.
Qed.
Theorem tail_into_dict s P a d E' :
  let r := s_rec F s in
  static_path (rc_path F r) -> P = map split_stars (rc_path F r) -> P <> [] -> plain k2i P ->
  rc_funcs F r = [] -> rc_mwl F r = true -> rc_defaults F r = [] ->
  reaches (names P) (s_results F s) a (VDict d) ->
  deep_wf (VDict d) -> deep_wf (VDict (rc_result F r)) ->
  results_of (flush s) = Ok E' ->
  exists m, E' = upd_at a (fun _ => VDict m) (s_results F s) /\ overlay (VDict d) (VDict (rc_result F r)) (VDict m).
Proof.
  intros r Hs HP Hne Hp Hf Hm Hd Hr Hw Hrw H.
  rewrite (flush_merge F runf k2i s P (s_results F s) (dupdate d (rc_result F r))) in H; auto.
  - unfold save_cur in H. rewrite (dbp_full k2i P _ a _ Hp Hr) in H. cbn [rbind] in H. rewrite (reaches_get _ _ _ _ Hr) in H.
    destruct (merge_rec (VDict d) (VDict (dupdate d (rc_result F r)))) as [m|] eqn:Em; [|discriminate].
    cbn [rbind] in H. injection H as <-.
    apply merge_rebuilt in Em; [|exact Hw|exact Hrw]. destruct (overlay_dict _ _ _ Em) as [m' ->]. exists m'. now split.
  - unfold reconstruct. rewrite (dbp_full k2i P _ a _ Hp Hr). cbn [rbind]. rewrite (reaches_get _ _ _ _ Hr). reflexivity.
Qed.
End Flush.
