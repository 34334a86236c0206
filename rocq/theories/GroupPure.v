(** * GroupPure: groups whose functions only test or rewrite the record. *)
From Verif Require Import PyBase DictFacts Regex Tree Results SpecTree ResultsFacts PathFacts SpecRecords MachineFacts GroupRun GroupFuncs.

Lemma dwf_add_defaults D : forall r, dwf r -> dwf (add_defaults r D).
Proof.
  unfold add_defaults. induction D as [|[k v] D IH]; intros r Hr; [exact Hr|]. cbn [fold_left fst snd]. apply IH.
  unfold dsetdefault. destruct (dmem r k); [exact Hr|now apply dwf_dset].
Qed.

Section Pure.
Variable F : Type.
Variable runf : F -> fstate -> res (fstate * bool).
Variable k2i : bool.
Variable D : dict.       (* the group's default values *)
Variable e : env.

(** [f] behaves as [h] on the records of a group with defaults [D]: [None]
    rejects the record, [Some d'] replaces it, nothing else is touched *)
Definition behaves (f : F) (h : dict -> option dict) : Prop :=
  forall st d, fs_data st = VDict d -> dwf d -> fs_defaults st = D -> fs_env st = e ->
  match h d with
  | Some d' => dwf d' /\ runf f st = Ok (with_data st (VDict d'), true)
  | None => exists v, runf f st = Ok (with_data st v, false)
  end.

Fixpoint chain (hs : list (dict -> option dict)) (d : dict) : option dict :=
  match hs with
  | [] => Some d
  | h :: t => match h d with Some d' => chain t d' | None => None end
  end.
Definition keep_some {A B} (f : A -> option B) (l : list A) : list B :=
  flat_map (fun x => match f x with Some y => [y] | None => [] end) l.

Lemma run_pure fs : forall hs st d, Forall2 behaves fs hs -> fs_data st = VDict d -> dwf d -> fs_defaults st = D -> fs_env st = e ->
  match chain hs d with
  | Some d' => run_funcs F runf fs st = Ok (with_data st (VDict d'), true)
  | None => exists v, run_funcs F runf fs st = Ok (with_data st v, false)
  end.
Proof.
  induction fs as [|f fs IH]; intros hs st d H Hd Hw HD He.
  - inversion H; subst. cbn. destruct st; cbn in *; now rewrite Hd.
  - inversion H as [|? h ? hs' H1 H2]; subst. cbn [chain run_funcs]. specialize (H1 st d Hd Hw HD He).
    destruct (h d) as [w|].
    + destruct H1 as [Hw' H1]. rewrite H1. cbn [rbind].
      specialize (IH hs' (with_data st (VDict w)) w H2 eq_refl Hw' HD He).
      destruct (chain hs' w); exact IH.
    + destruct H1 as (v & Hv). exists v. rewrite Hv. reflexivity.
Qed.

Variable path : list str.
Hypothesis Hstatic : static_path path.
Hypothesis Hne : path <> [].
Hypothesis HD : dwf D.

Lemma commit_pure fs hs tree cache r : Forall2 behaves fs hs -> dwf (with_defaults r D) ->
  commit F runf k2i path fs D (tree, cache, e) r =
  match chain hs (with_defaults r D) with
  | None => Ok (tree, cache, e)
  | Some v => do t <- save_cur k2i false tree (map split_stars path) (VDict v); Ok (t, cache, e)
  end.
Proof.
  intros H Hw. unfold commit. rewrite (add_defaults_spec r D HD).
  set (st := {| fs_data := _ |}). pose proof (run_pure fs hs st _ H eq_refl Hw eq_refl eq_refl) as Hr. cbn [st fs_data] in Hr.
  destruct (chain hs (with_defaults r D)) as [v|].
  - rewrite Hr. cbn [rbind]. cbn [with_data fs_env fs_path fs_data fs_cache fs_results st].
    rewrite form_path_static by exact Hstatic. cbn [rbind]. destruct path as [|p ps]; [congruence|]. reflexivity.
  - destruct Hr as (v & Hv). rewrite Hv. reflexivity.
Qed.

Theorem pure_run (g : group F) hs xs main :
  g_path F g = path -> g_runs F g = D -> g_parent F g = None -> Forall2 behaves (g_funcs F g) hs ->
  Forall (of_group F g) xs -> no_early_end (map (ev_of F) xs) = true ->
  Forall dwf (records (map (ev_of F) xs) None true) ->
  results_of (make_results F runf k2i e [] [map (fun x => [x]) xs] main)
  = rfold (fun t v => save_cur k2i false t (map split_stars path) (VDict v))
          (keep_some (fun r => chain hs (with_defaults r D)) (records (map (ev_of F) xs) None true)) main.
Proof.
  intros Hp Hd Ht Hf Hx Hee Hrw.
  assert (K : forall r, results_of r = match rworld F r with Ok (t, _, _) => Ok t | Raise x => Raise x end) by (intros []; reflexivity).
  rewrite K, (group_run F runf k2i g); [|now rewrite Hp|exact Ht|exact Hx|exact Hee].
  unfold commits. rewrite Hp, Hd. revert Hrw. generalize (records (map (ev_of F) xs) None true) as rs. generalize ([] : dict) as cache.
  intros cache rs Hrw. revert main cache. induction Hrw as [|r rs Hr Hrw IH]; intros tree cache; [reflexivity|].
  cbn [rfold]. unfold keep_some. cbn [flat_map]. fold (keep_some (fun r => chain hs (with_defaults r D)) rs).
  rewrite (commit_pure _ hs); [|exact Hf|rewrite <- add_defaults_spec by exact HD; now apply dwf_add_defaults]. destruct (chain hs (with_defaults r D)) as [v|].
  - cbn [app rfold]. destruct (save_cur k2i false tree _ (VDict v)); [|reflexivity]. cbn [rbind]. apply IH.
  - cbn [app rbind]. apply IH.
Qed.
End Pure.
