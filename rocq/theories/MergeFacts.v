(** * MergeFacts: tail matches are merged into the last saved record. *)
From Verif Require Import PyBase DictFacts Regex Tree Results SpecTree ResultsFacts PathFacts SpecRecords MachineFacts.

(** one step of [_merge_recursively] *)
Definition merge_step (e : dict) (kv : key * val) : res dict :=
  let '(nk, v) := kv in
  match dget e nk with
  | Some old =>
      match v with
      | VDict _ => if truthy old then do old' <- merge_rec old v; Ok (dset e nk old') else Ok (dset e nk v)
      | _ => Ok (dset e nk v)
      end
  | None => Ok (dset e nk v)
  end.

Lemma merge_rec_dict nd : forall e,
  merge_rec (VDict e) (VDict nd) = do e' <- rfold merge_step nd e; Ok (VDict e').
Proof.
  induction nd as [|[nk v] nd IH]; intros e; [reflexivity|].
  cbn [rfold merge_step]. specialize (IH). cbn [merge_rec] in IH |- *.
  destruct (dget e nk) as [old|].
  - destruct v as [| | | | |vd|]; try apply IH.
    destruct (truthy old); [|apply IH].
    destruct (merge_rec old (VDict vd)) as [o'|]; [|reflexivity]. apply IH.
  - destruct v; apply IH.
Qed.

(** no duplicate key in a dictionary or in the dictionaries nested in it *)
Fixpoint deep_wf (v : val) : Prop :=
  match v with
  | VDict d => dwf d /\ (fix go (d : list (key * val)) : Prop :=
      match d with [] => True | kv :: t => deep_wf (snd kv) /\ go t end) d
  | _ => True
  end.
Lemma deep_wf_dict d : deep_wf (VDict d) <-> dwf d /\ Forall (fun kv => deep_wf (snd kv)) d.
Proof.
  cbn [deep_wf]. split; intros [H1 H2]; split; auto; clear H1.
  - induction d as [|kv d IH]; constructor; [tauto|apply IH; tauto].
  - induction d as [|kv d IH]; [exact I|]. inversion H2; subst. split; [assumption|apply IH; assumption].
Qed.
Definition is_dict (v : val) : bool := match v with VDict _ => true | _ => false end.

Lemma merge_same_or_scalar nd : forall e,
  dwf nd ->
  Forall (fun kv => is_dict (snd kv) = false \/
                    (dget e (fst kv) = Some (snd kv) /\ merge_rec (snd kv) (snd kv) = Ok (snd kv))) nd ->
  rfold merge_step nd e = Ok (dupdate e nd).
Proof.
  induction nd as [|[k v] nd IH]; intros e Hw Hf; [reflexivity|].
  inversion Hw as [|? ? Hn Hw']; subst. inversion Hf as [|? ? H1 Hf']; subst. cbn [fst snd] in H1.
  assert (HS : merge_step e (k, v) = Ok (dset e k v)).
  { unfold merge_step. destruct H1 as [H1|[H1 H2]].
    - destruct (dget e k); [|reflexivity]. destruct v; try reflexivity. discriminate.
    - rewrite H1. destruct v; try reflexivity. rewrite H2. now destruct (truthy _). }
  cbn [rfold]. rewrite HS. cbn [rbind]. rewrite dupdate_cons. apply IH; [exact Hw'|].
  rewrite Forall_forall in *. intros [k' v'] Hi. specialize (Hf' _ Hi). cbn [fst snd] in *.
  destruct Hf' as [H|[H H2]]; [auto|]. right. split; [|exact H2].
  rewrite dget_dset_other; [exact H|]. intros ->. apply Hn. change k' with (fst (k', v')). now apply in_map.
Qed.

Lemma dupdate_self_part (nd e : dict) : (forall k v, In (k, v) nd -> dget e k = Some v) -> dupdate e nd = e.
Proof.
  induction nd as [|[k v] nd IH]; intros H; [reflexivity|]. rewrite dupdate_cons.
  rewrite dset_same by (apply H; simpl; auto). apply IH. intros k' v' Hi. apply H. simpl; auto.
Qed.

Lemma merge_idem v : deep_wf v -> is_dict v = true -> merge_rec v v = Ok v.
Proof.
  induction v as [|b|z|s|l IHl|d IHd|o] using val_rect'; intros Hw Hd; try discriminate.
  apply deep_wf_dict in Hw as [Hw1 Hw2]. rewrite merge_rec_dict, merge_same_or_scalar; [cbn [rbind]|exact Hw1|].
  - rewrite dupdate_self_part; [reflexivity|]. intros k v Hi. now apply In_dget.
  - rewrite Forall_forall in *. intros [k v] Hi. cbn [fst snd].
    destruct (is_dict v) eqn:E; [right|auto]. split; [now apply In_dget|]. apply (IHd _ Hi); [apply (Hw2 _ Hi)|exact E].
Qed.

(** merging [d.copy().update(r)] into [d] overrides with [r] *)
Lemma merge_update d r :
  deep_wf (VDict d) -> dwf r -> Forall (fun kv => is_dict (snd kv) = false) r ->
  exists m, merge_rec (VDict d) (VDict (dupdate d r)) = Ok (VDict m) /\ dwf m /\
    forall k, dget m k = match dget r k with Some v => Some v | None => dget d k end.
Proof.
  intros Hd Hr Hs. apply deep_wf_dict in Hd as [Hd1 Hd2].
  assert (Hu : dwf (dupdate d r)) by (now apply dwf_dupdate).
  assert (Hg : forall k, dget (dupdate d r) k = match dget r k with Some v => Some v | None => dget d k end).
  { intros k. rewrite dget_dupdate by exact Hr. reflexivity. }
  exists (dupdate d (dupdate d r)). split; [|split].
  - rewrite merge_rec_dict, merge_same_or_scalar; [reflexivity|exact Hu|].
    rewrite Forall_forall in *. intros [k v] Hi. cbn [fst snd]. apply (In_dget _ _ _ Hu) in Hi. rewrite Hg in Hi.
    destruct (dget r k) as [w|] eqn:Er.
    + injection Hi as ->. left. apply dget_In in Er. apply (Hs _ Er).
    + destruct (is_dict v) eqn:Ev; [right|auto]. split; [exact Hi|]. apply merge_idem; [|exact Ev].
      apply dget_In in Hi. apply (Hd2 _ Hi).
  - now apply dwf_dupdate.
  - intros k. rewrite dget_dupdate by exact Hu. rewrite Hg. destruct (dget r k); [reflexivity|]. now destruct (dget d k).
Qed.

Section Merge.
Variable F : Type.
Variable runf : F -> fstate -> res (fstate * bool).
Variable k2i : bool.
Notation rstate := (rstate F).
Notation flush := (flush F runf k2i).

(** a tail match found in the text starts a merging record *)
Theorem tail_starts s rd r :
  r_action F rd = AAdd -> ogid_in (g_parent F (r_group F rd)) (s_ended F s) = false ->
  gid_in (g_id F (r_group F rd)) (s_ended F s) = false ->
  rc_path F (s_rec F s) <> g_path F (r_group F rd) -> In (g_id F (r_group F rd)) (s_started F s) ->
  handle F runf k2i s (rd, Some r) =
  do s1 <- flush (set_started F s (trace F (s_started F s) (r_group F rd) (r_isline F rd)));
  Ok (set_rec F s1 {| rc_result := r; rc_path := g_path F (r_group F rd); rc_funcs := g_funcs F (r_group F rd);
                      rc_defaults := []; rc_gid := Some (g_id F (r_group F rd)); rc_mwl := true |}).
Proof.
  intros Ha Hp Hg Hne Hs. unfold handle. rewrite Hp, Hg. unfold dispatch. rewrite Ha. unfold do_add.
  destruct (path_eqb_spec (rc_path F (s_rec F s)) (g_path F (r_group F rd))) as [E|_]; [congruence|].
  apply gid_in_spec in Hs. rewrite Hs. reflexivity.
Qed.

Lemma flush_merge s P results1 data :
  let r := s_rec F s in
  static_path (rc_path F r) -> P = map split_stars (rc_path F r) -> P <> [] -> rc_funcs F r = [] -> rc_mwl F r = true -> rc_defaults F r = [] ->
  reconstruct k2i (s_results F s) P (rc_result F r) = Ok (results1, data) ->
  results_of (flush s) = save_cur k2i true results1 P (VDict data).
Proof.
  intros r Hs HP Hne Hf Hm Hd Hr. unfold Results.flush, processgrp. fold r. rewrite Hm, Hf, Hd.
  cbn [add_defaults fold_left]. rewrite form_path_static by exact Hs. cbn [rbind]. rewrite <- HP.
  destruct P as [|p P0] eqn:EP; [congruence|]. rewrite Hr. cbn [rbind run_funcs fs_env fs_path fs_data fs_cache fs_results].
  rewrite form_path_static by exact Hs. cbn [rbind]. rewrite <- HP. cbn [s_results].
  destruct (save_cur k2i true results1 (p :: P0) (VDict data)) eqn:Es; cbn [rbind s_results]; rewrite Es; reflexivity.
Qed.

(** the merging record when the group's last record is the last item of a list *)
Theorem merge_into_list s P a l d :
  let r := s_rec F s in
  static_path (rc_path F r) -> P = map split_stars (rc_path F r) -> P <> [] -> plain k2i P ->
  rc_funcs F r = [] -> rc_mwl F r = true -> rc_defaults F r = [] ->
  reaches (names P) (s_results F s) a (VList (l ++ [VDict d])) ->
  deep_wf (VDict d) -> dwf (rc_result F r) -> Forall (fun kv => is_dict (snd kv) = false) (rc_result F r) ->
  rc_result F r <> [] ->
  exists m, results_of (flush s) = Ok (upd_at a (fun _ => VList (l ++ [VDict m])) (s_results F s)) /\
    forall k, dget m k = match dget (rc_result F r) k with Some v => Some v | None => dget d k end.
Proof.
  intros r Hs HP Hne Hp Hf Hm Hd Hr Hw Hrw Hrs Hrn.
  destruct (merge_update d (rc_result F r) Hw Hrw Hrs) as (m & H1 & _ & H2).
  exists m. split; [|exact H2].
  rewrite (flush_merge s P (s_results F s) (dupdate d (rc_result F r))); auto.
  - unfold save_cur. rewrite (dbp_full k2i P _ a _ Hp Hr). cbn [rbind]. rewrite (reaches_get _ _ _ _ Hr).
    assert (truthy (VDict (dupdate d (rc_result F r))) = true) as ->.
    { fold r in Hrn, Hrw, Hrs |- *. destruct (dupdate d (rc_result F r)) eqn:E; [|reflexivity]. exfalso.
      destruct (rc_result F r) as [|[k v] r'] eqn:Er; [congruence|].
      assert (dget (dupdate d ((k, v) :: r')) k = Some v) as Hk.
      { rewrite dget_dupdate by exact Hrw. simpl. now rewrite key_eqb_refl. }
      rewrite E in Hk. discriminate. }
    rewrite opt_last_app. fold r. rewrite H1. cbn [rbind]. rewrite set_last_app. reflexivity.
  - unfold reconstruct. rewrite (dbp_full k2i P _ a _ Hp Hr). cbn [rbind]. rewrite (reaches_get _ _ _ _ Hr), opt_last_app. reflexivity.
Qed.

(** ... and when it is a dictionary *)
Theorem merge_into_dict s P a d :
  let r := s_rec F s in
  static_path (rc_path F r) -> P = map split_stars (rc_path F r) -> P <> [] -> plain k2i P ->
  rc_funcs F r = [] -> rc_mwl F r = true -> rc_defaults F r = [] ->
  reaches (names P) (s_results F s) a (VDict d) ->
  deep_wf (VDict d) -> dwf (rc_result F r) -> Forall (fun kv => is_dict (snd kv) = false) (rc_result F r) ->
  exists m, results_of (flush s) = Ok (upd_at a (fun _ => VDict m) (s_results F s)) /\
    forall k, dget m k = match dget (rc_result F r) k with Some v => Some v | None => dget d k end.
Proof.
  intros r Hs HP Hne Hp Hf Hm Hd Hr Hw Hrw Hrs.
  destruct (merge_update d (rc_result F r) Hw Hrw Hrs) as (m & H1 & _ & H2).
  exists m. split; [|exact H2].
  rewrite (flush_merge s P (s_results F s) (dupdate d (rc_result F r))); auto.
  - unfold save_cur. rewrite (dbp_full k2i P _ a _ Hp Hr). cbn [rbind]. rewrite (reaches_get _ _ _ _ Hr).
    fold r. rewrite H1. reflexivity.
  - unfold reconstruct. rewrite (dbp_full k2i P _ a _ Hp Hr). cbn [rbind]. rewrite (reaches_get _ _ _ _ Hr). reflexivity.
Qed.
End Merge.
