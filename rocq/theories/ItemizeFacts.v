(** * ItemizeFacts: a group with the itemize function. *)
From Verif Require Import PyBase DictFacts Regex Tree Results SpecTree ResultsFacts ResultsHist PathFacts SaveSpec SpecRecords
  MachineFacts GroupRun MatchFuncs GroupFuncs SpecGroup.

Section AnyStar.
Variable k2i : bool.
Variables (Q R : list pitem) (n : str) (st : nat) (E : val) (a : addr) (d : dict).
Hypothesis Hp : plain k2i (Q ++ (n, st) :: R).
Hypothesis Ha : arrives (names Q) E a (VDict d).
Hypothesis Hd : dget d (KS n) = None.
Let P := Q ++ (n, st) :: R.
Let b := a ++ SKey (KS n) :: skel_addr st R.
Hypothesis Hs : stars P = 1.

Lemma dbp_grown : dict_by_path k2i P E = Ok (grown E a d n st R (VList []), Some b).
Proof.
  pose proof Hp as Hp0. apply plain_app in Hp0 as [HpQ HpR].
  unfold P. rewrite (dbp_arrives k2i Q _ _ _ E a (VDict d) HpQ Ha), dbp_missing by assumption.
  cbn [rbind option_map]. f_equal. f_equal. unfold grown. apply upd_at_ext. intros _. do 4 f_equal.
  unfold graft. symmetry. apply upd_at_id. rewrite skel_get, <- (stars_last Q n st R). unfold P in Hs. now rewrite Hs.
Qed.

Lemma save_first_any v :
  save_cur k2i false E P v = Ok (grown E a d n st R (VList (if truthy v then [v] else []))).
Proof.
  unfold save_cur. rewrite dbp_grown. cbn [rbind]. unfold b.
  rewrite (reaches_get _ _ _ _ (grown_reaches Q R n st E a d Ha Hd (VList []))).
  destruct (truthy v); [|reflexivity]. cbn [app]. f_equal. apply (grown_upd R n st E a d Hd).
Qed.
Lemma save_more_any vs : forall old,
  rfold (fun t v => save_cur k2i false t P v) vs (grown E a d n st R (VList old)) =
  Ok (grown E a d n st R (VList (old ++ filter truthy vs))).
Proof.
  induction vs as [|v vs IH]; intros old; [cbn; now rewrite app_nil_r|]. cbn [rfold].
  rewrite (save_list k2i P _ b old v Hp (grown_reaches Q R n st E a d Ha Hd (VList old))). cbn [rbind filter].
  destruct (truthy v).
  - rewrite (grown_upd R n st E a d Hd), IH, <- app_assoc. reflexivity.
  - apply IH.
Qed.
Lemma save_values v vs :
  rfold (fun t x => save_cur k2i false t P x) (v :: vs) E = Ok (grown E a d n st R (VList (filter truthy (v :: vs)))).
Proof.
  cbn [rfold]. rewrite save_first_any. cbn [rbind]. rewrite save_more_any. cbn [filter]. destruct (truthy v); reflexivity.
Qed.
End AnyStar.

Lemma one_star_single p : split_stars (one_star p) = (fst (split_stars p), 1).
Proof.
  unfold one_star. cbn zeta. unfold split_stars at 2 3. cbn [fst snd].
  set (bs := rstrip_p (is_c star_c) p).
  assert (Hbs : rstrip_p (is_c star_c) bs = bs).
  { unfold bs, rstrip_p. rewrite rev_involutive. f_equal.
    generalize (rev p). intros l. induction l as [|c l IH]; [reflexivity|]. cbn [lstrip_p].
    destruct (is_c star_c c) eqn:E; [exact IH|]. cbn [lstrip_p]. now rewrite E. }
  assert (Hs : rstrip_p (is_c star_c) (bs ++ [star_c]) = bs).
  { unfold rstrip_p at 1. rewrite rev_app_distr. cbn [rev app lstrip_p].
    assert (is_c star_c star_c = true) as -> by (vm_compute; reflexivity). exact Hbs. }
  destruct (Nat.leb 2 (length p - length bs) || Nat.eqb (length p - length bs) 0)%bool eqn:E.
  - change (fst (split_stars p)) with bs. unfold split_stars. rewrite Hs, app_length. cbn [length fst]. f_equal. lia.
  - change (split_stars p) with (bs, length p - length bs). cbn [fst]. f_equal.
    apply orb_false_iff in E as [E1 E2]. apply Nat.leb_gt in E1. apply Nat.eqb_neq in E2. lia.
Qed.

Section Itemize.
Variable F : Type.
Variable runf : F -> fstate -> res (fstate * bool).
Variable k2i : bool.
Variable f : F.
Variable k : str.
Hypothesis Hf : forall st, runf f st = g_itemize k2i k [] st.
Variable pre : list str.
Variable last : str.
Let path := pre ++ [last].
Hypothesis Hstatic : static_path path.
Definition item_path : list pitem := map split_stars pre ++ [(fst (split_stars last), 1)].

Lemma static_one_star : static_path (pre ++ [one_star last]).
Proof.
  unfold static_path, path in *. apply Forall_app in Hstatic as [H1 H2]. apply Forall_app. split; [exact H1|].
  constructor; [|constructor]. inversion H2 as [|? ? H _]; subst. rewrite one_star_single. exact H.
Qed.

Lemma map_split_one_star : map split_stars (pre ++ [one_star last]) = item_path.
Proof. rewrite map_app. cbn [map]. now rewrite one_star_single. Qed.

Lemma commit_itemize D tree cache e r : dwf D ->
  commit F runf k2i path [f] D (tree, cache, e) r =
  match dget (with_defaults r D) (KS k) with
  | None => Ok (tree, cache, e)
  | Some v => do t <- save_cur k2i false tree item_path v; Ok (t, dupdate cache (with_defaults r D), e)
  end.
Proof.
  intros HD. unfold commit. cbn [run_funcs]. rewrite Hf. unfold g_itemize. cbn [fs_data py_in rbind]. unfold dmem.
  rewrite (add_defaults_spec r D HD).
  destruct (dget (with_defaults r D) (KS k)) as [v|] eqn:E; [|reflexivity].
  cbn [negb fs_path fs_cache]. unfold one_star_last, path. rewrite opt_last_app, set_last_app. cbn [rbind update_any].
  unfold keep. cbn [rbind fs_env fs_path fs_data fs_cache fs_results].
  rewrite form_path_static by apply static_one_star. cbn [rbind]. rewrite map_split_one_star.
  unfold item_path. destruct (map split_stars pre ++ [(fst (split_stars last), 1)]) eqn:Ep.
  { destruct (map split_stars pre); discriminate. }
  reflexivity.
Qed.

Lemma commits_itemize D rs : dwf D -> forall tree cache e,
  match rfold (commit F runf k2i path [f] D) rs (tree, cache, e) with
  | Ok (t, _, _) => Ok t | Raise x => Raise x end
  = rfold (fun t v => save_cur k2i false t item_path v) (values_of k (map (fun r => with_defaults r D) rs)) tree.
Proof.
  intros HD. induction rs as [|r rs IH]; intros tree cache e; [reflexivity|].
  cbn [rfold map]. unfold values_of. cbn [flat_map]. fold (values_of k (map (fun r => with_defaults r D) rs)).
  rewrite commit_itemize by exact HD. destruct (dget (with_defaults r D) (KS k)) as [v|].
  - cbn [app rfold]. destruct (save_cur k2i false tree item_path v) as [t|x]; [|reflexivity]. cbn [rbind]. apply IH.
  - cbn [app rbind]. apply IH.
Qed.

Variable g : group F.
Hypothesis Hpath : g_path F g = path.
Hypothesis Hfuncs : g_funcs F g = [f].
Hypothesis Htop : g_parent F g = None.
Hypothesis Hwf : dwf (g_runs F g).

Lemma results_rworld (r : res (rstate F)) :
  results_of r = match rworld F r with Ok (t, _, _) => Ok t | Raise x => Raise x end.
Proof. destruct r; reflexivity. Qed.

Definition item_values (xs : list (item F)) : list val :=
  values_of k (map (fun r => with_defaults r (g_runs F g)) (records (map (ev_of F) xs) None true)).

Theorem itemize_run e xs main :
  Forall (of_group F g) xs -> no_early_end (map (ev_of F) xs) = true ->
  results_of (make_results F runf k2i e [] [map (fun x => [x]) xs] main)
  = rfold (fun t v => save_cur k2i false t item_path v) (item_values xs) main.
Proof.
  intros Hx Hee. rewrite results_rworld, (group_run F runf k2i g).
  - unfold commits. rewrite Hpath, Hfuncs. apply commits_itemize. exact Hwf.
  - rewrite Hpath. unfold path. destruct pre; discriminate.
  - exact Htop.
  - exact Hx.
  - exact Hee.
Qed.

Theorem itemize_list e xs main Q n st R a d :
  Forall (of_group F g) xs -> no_early_end (map (ev_of F) xs) = true ->
  item_path = Q ++ (n, st) :: R -> plain k2i item_path ->
  arrives (names Q) main a (VDict d) -> dget d (KS n) = None ->
  item_values xs <> [] ->
  exists tree b,
    results_of (make_results F runf k2i e [] [map (fun x => [x]) xs] main) = Ok tree /\
    reaches (names item_path) tree b (VList (filter truthy (item_values xs))) /\
    changes_only (a ++ [SKey (KS n)]) main tree.
Proof.
  intros Hx Hee HP Hpl Ha Hd Hne. rewrite itemize_run by assumption.
  destruct (item_values xs) as [|v vs] eqn:Ev; [congruence|].
  assert (Hs : stars (Q ++ (n, st) :: R) = 1).
  { rewrite <- HP. unfold stars, item_path. rewrite opt_last_app. reflexivity. }
  rewrite HP in *. rewrite (save_values k2i Q R n st main a d Hpl Ha Hd Hs).
  destruct (grown_spec Q R n st main a d (VList (filter truthy (v :: vs))) Ha Hd) as [(b & H1 & _) H3].
  eexists _, b. split; [reflexivity|]. split; [exact H1|exact H3].
Qed.
Theorem itemize_nothing e xs main :
  Forall (of_group F g) xs -> no_early_end (map (ev_of F) xs) = true -> item_values xs = [] ->
  results_of (make_results F runf k2i e [] [map (fun x => [x]) xs] main) = Ok main.
Proof. intros Hx Hee Hv. rewrite itemize_run by assumption. now rewrite Hv. Qed.
End Itemize.
