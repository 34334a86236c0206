(** * ChainFacts: functions that add fields, function names that are not match functions, let, copy, void, macro. *)
From Verif Require Import PyBase DictFacts Results MatchFuncs Parser SpecParser ParserFacts MatchFacts2.

Lemma dget_app2 (a b : dict) k : dget (a ++ b) k = match dget a k with Some v => Some v | None => dget b k end.
Proof. induction a as [|[k' v] a IH]; [reflexivity|]. cbn [app dget]. destruct (key_eqb k k'); [reflexivity|exact IH]. Qed.
Lemma dget_dupdate_any (r : dict) : forall d k, dget (dupdate d r) k = match dget (rev r) k with Some v => Some v | None => dget d k end.
Proof.
  induction r as [|[k' v] r IH]; intros d k; [reflexivity|]. change (dupdate d ((k', v) :: r)) with (dupdate (dset d k' v) r).
  rewrite IH. cbn [rev]. rewrite dget_app2. destruct (dget (rev r) k); [reflexivity|]. cbn [dget].
  destruct (key_eqb_spec k k') as [->|H]; [apply dget_dset_same|]. apply dget_dset_other. congruence.
Qed.
Lemma fold_fields nfs : forall (d : dict) k, dget (fold_left dupdate nfs d) k = match dget (rev (concat nfs)) k with Some v => Some v | None => dget d k end.
Proof.
  induction nfs as [|n nfs IH]; intros d k; [reflexivity|]. cbn [fold_left concat]. rewrite IH, rev_app_distr, dget_app2, dget_dupdate_any.
  destruct (dget (rev (concat nfs)) k); reflexivity.
Qed.
Lemma dset_wf (d : dict) k v : dwf d -> dwf (dset d k v).
Proof. apply dwf_dset. Qed.
Lemma dwf_fields nfs : forall (d : dict), dwf d -> dwf (fold_left dupdate nfs d).
Proof. induction nfs as [|n nfs IH]; intros d H; [exact H|]. cbn [fold_left]. apply IH. now apply dwf_dupdate. Qed.
Lemma wf_rev (d : dict) k : dwf d -> dget (rev d) k = dget d k.
Proof.
  intros H. destruct (dget d k) as [v|] eqn:E.
  - apply In_dget; [|apply in_rev; rewrite rev_involutive; now apply dget_In].
    unfold dwf, dkeys in *. rewrite map_rev. now apply NoDup_rev.
  - apply dget_None_notin. apply dget_None_notin in E. unfold dkeys in *. rewrite map_rev. now rewrite <- in_rev.
Qed.
Lemma run_vars_pure vars spec temp : vars_pure vars spec temp -> forall env result,
  match line_writes spec temp with
  | Some l => exists d, run_vars vars temp env result = Ok (env, Some d) /\
      forall k, dget d k = match last_written l k with Some v => Some v | None => dget result k end
  | None => run_vars vars temp env result = Ok (env, None)
  end.
Proof.
  induction temp as [|[n x] temp IH]; intros H env result; [exists result; split; reflexivity|].
  destruct (H n x (or_introl eq_refl)) as (v & k & gs & Hv & Hs & Hk & Hf).
  cbn [run_vars line_writes]. rewrite Hv, Hs. rewrite (run_chain_pure _ _ Hf). cbn [rbind].
  destruct (through gs x) as [w|]; [|reflexivity].
  specialize (IH (fun n' d' Hi => H n' d' (or_intror Hi)) env (dupdate (dset result (pv_orig v) w) (fold_left dupdate (new_fields gs x) []))).
  destruct (line_writes spec temp) as [l|]; [|exact IH]. destruct IH as (d & Hd & HG). exists d. split; [exact Hd|].
  intros q. rewrite HG. unfold last_written. rewrite rev_app_distr, dget_app2. destruct (dget (rev l) q); [reflexivity|].
  rewrite dget_dupdate_any, wf_rev by (apply dwf_fields; constructor). rewrite fold_fields. cbn [rev]. rewrite dget_app2.
  destruct (dget (rev (concat (new_fields gs x))) q); [reflexivity|]. cbn [dget]. rewrite Hk.
  destruct (key_eqb_spec q k) as [->|Hq]; [apply dget_dset_same|]. apply dget_dset_other. congruence.
Qed.
Section L.
Variable F : Type.
Theorem line_fields (R : pregex F) start env rs m spec :
  vars_pure (p_vars F R) spec (temp_of F R m) ->
  let pos := (start + Z.of_nat (pm_start m))%Z in
  match line_writes spec (temp_of F R m) with
  | Some l => exists d, check_one F R start (env, rs) m = Ok (env, add_at F pos (p_re F R, Some d) rs) /\ forall k, dget d k = last_written l k
  | None => check_one F R start (env, rs) m =
      Ok (env, if is_start (r_action F (p_re F R)) then add_at F pos (p_re F R, None) rs else rs)
  end.
Proof.
  intros H pos. pose proof (run_vars_pure _ _ _ H env []) as HV. unfold check_one.
  destruct (line_writes spec (temp_of F R m)) as [l|].
  - destruct HV as (d & Hd & HG). exists d. rewrite Hd. split; [reflexivity|]. intros k. rewrite HG. now destruct (last_written l k).
  - rewrite HV. cbn [rbind]. now destruct (is_start _).
Qed.
End L.

(** ** names that are not match functions *)
Theorem fallback f env d : mf_call f env d = Raise KeyError -> run_func f env d =
  match mf_attr f d with
  | Ok v => Ok (env, match v with VBool b => (d, FBool b) | _ => (v, FNone) end)
  | Raise AttributeError => Ok (env, (d, FNone))
  | Raise e => Raise e
  end.
Proof.
  intros H. unfold run_func. rewrite H. destruct (mf_attr f d) as [v|e]; [|destruct e; reflexivity].
  destruct v as [|[]| | | | |]; reflexivity.
Qed.
Theorem no_fallback f env d : mf_call f env d <> Raise KeyError -> run_func f env d = mf_call f env d.
Proof. intros H. unfold run_func. destruct (mf_call f env d) as [x|[]]; try reflexivity. congruence. Qed.
