(** * Properties_Group: C51-C55, C74-C79 - the group functions.

    [g_xxx] model /repo/ttp/group/*.py (GroupFuncs.v): a call takes the state a
    group function can see ([fs_data] is the record) and returns the new state
    and whether the record is kept.  Specifications: SpecGroup.v. *)
From Verif Require Import PyBase DictFacts StrFacts Regex Tree Results SpecTree PathFacts SpecRecords MachineFacts MatchFuncs SpecMatch
  GroupFuncs SpecGroup GroupFacts GroupRun GroupPure ItemizeFacts Properties_Save Properties_Machine MatchFacts GroupExact.
Local Open Scope string_scope.
Local Open Scope list_scope.

(** a state to run the examples in *)
Definition gst (data defaults vars gvars : dict) : fstate :=
  {| fs_data := VDict data; fs_path := [$"interfaces"]; fs_defaults := defaults; fs_cache := [];
     fs_results := VDict []; fs_env := {| e_vars := vars; e_gvars := gvars |} |}.
Definition flag (r : gres) : res bool := match r with Ok (_, b) => Ok b | Raise e => Raise e end.
Definition gdata (r : gres) : res val := match r with Ok (s, _) => Ok (fs_data s) | Raise e => Raise e end.
Definition names_ (l : list string) : list str := map (fun s => $s) l.

(** ** C51 *)
Theorem C51_containsall : forall args st d, fs_data st = VDict d ->
  exists b, g_containsall args st = Ok (st, b) /\ (b = true <-> Forall (matched d (fs_defaults st)) args).
Proof. exact containsall_spec. Qed.
Print Assumptions C51_containsall.
Theorem C51_contains : forall args st d, fs_data st = VDict d -> Forall (no_default (fs_defaults st)) args ->
  exists b, g_contains args st = Ok (st, b) /\ (b = true <-> Exists (present d) args).
Proof. exact contains_plain. Qed.
Print Assumptions C51_contains.
Theorem C51_exclude : forall args st d, fs_data st = VDict d -> Forall (no_default (fs_defaults st)) args ->
  exists b, g_exclude args st = Ok (st, b) /\ (b = true <-> ~ Exists (present d) args).
Proof. exact exclude_plain. Qed.
Print Assumptions C51_exclude.
Theorem C51_excludeall : forall args st d, fs_data st = VDict d -> Forall (no_default (fs_defaults st)) args ->
  exists b, g_excludeall args st = Ok (st, b) /\ (b = true <-> ~ Forall (present d) args).
Proof. exact excludeall_plain. Qed.
Print Assumptions C51_excludeall.
(** ** C74: with default values, what the tests decide in every case *)
Theorem C74_contains : forall args st d, fs_data st = VDict d ->
  exists b, g_contains args st = Ok (st, b) /\
  (b = true <-> exists before v after, args = before ++ v :: after /\ Forall (fun w => ~ present d w) before /\
                                       matched d (fs_defaults st) v).
Proof. exact contains_spec. Qed.
Print Assumptions C74_contains.
Theorem C74_exclude : forall args st d, fs_data st = VDict d ->
  exists b, g_exclude args st = Ok (st, b) /\
  (b = true <-> Forall (fun v => present d v -> ~ no_default (fs_defaults st) v) args).
Proof. exact exclude_spec. Qed.
Print Assumptions C74_exclude.
Theorem C74_excludeall : forall args st d, fs_data st = VDict d ->
  exists b, g_excludeall args st = Ok (st, b) /\
  (b = false <-> Forall (fun v => present d v /\ no_default (fs_defaults st) v) args).
Proof. exact excludeall_spec. Qed.
Print Assumptions C74_excludeall.
Definition x51 := gst (r_ [("ip", s_ "1.1.1.1"); ("mtu", s_ "1500")]) (r_ [("mtu", s_ "1500")]) [] [].
Example C51_ex :
  no_default (fs_defaults x51) $"ip" /\
  flag (g_contains (names_ ["vrf"; "ip"]) x51) = Ok true /\ flag (g_contains (names_ ["vrf"]) x51) = Ok false /\
  flag (g_containsall (names_ ["ip"; "vrf"]) x51) = Ok false /\ flag (g_containsall (names_ ["ip"]) x51) = Ok true /\
  flag (g_containsall (names_ ["ip"; "mtu"]) x51) = Ok false /\
  flag (g_exclude (names_ ["vrf"; "ip"]) x51) = Ok false /\ flag (g_exclude (names_ ["vrf"]) x51) = Ok true /\
  flag (g_excludeall (names_ ["vrf"; "ip"]) x51) = Ok true /\ flag (g_excludeall (names_ ["ip"]) x51) = Ok false.
Proof. repeat split; vm_compute; reflexivity. Qed.

(** in a run: the records that do not pass are not saved, the others are saved
    unchanged, in order *)
Theorem C51_run : forall F runf k2i D e path (g : group F) hs xs main,
  static_path path -> path <> [] -> dwf D ->
  g_path F g = path -> g_runs F g = D -> g_parent F g = None -> Forall2 (behaves F runf D e) (g_funcs F g) hs ->
  Forall (of_group F g) xs -> no_early_end (map (ev_of F) xs) = true ->
  Forall dwf (records (map (ev_of F) xs) None true) ->
  results_of (make_results F runf k2i e [] [map (fun x => [x]) xs] main)
  = rfold (fun t d => save_cur k2i false t (map split_stars path) (VDict d))
          (keep_some (fun r => chain hs (with_defaults r D)) (records (map (ev_of F) xs) None true)) main.
Proof. intros F runf k2i D e path g hs xs main H1 H2 H3. exact (pure_run F runf k2i D e path H1 H2 H3 g hs xs main). Qed.
Print Assumptions C51_run.
(** function number 0 is contains("ip"), the others are del("ip") *)
Definition xrun51 (f : nat) : fstate -> gres := match f with 0 => g_contains [$"ip"] | _ => g_del [$"ip"] end.
Definition g51 : group nat := xgroup "interfaces*" None ["interfaces*"] [] [0; 1].
Example C51_run_ex : Forall2 (behaves nat xrun51 [] xenv) (g_funcs nat g51)
  [(fun d => if dmem d (KS $"ip") then Some d else None); (fun d => Some (without d [$"ip"]))].
Proof.
  constructor; [|constructor; [|constructor]]; intros st d Hd Hw HD He.
  - unfold xrun51. cbn [g_contains]. rewrite Hd, py_in_dict. cbn [rbind]. destruct (dmem d (KS $"ip")).
    + split; [exact Hw|]. unfold is_default. rewrite HD. cbn [dget rbind]. unfold keep. destruct st; cbn in *. now rewrite Hd.
    + exists (VDict d). unfold reject. destruct st; cbn in *. now rewrite Hd.
  - split; [|now apply del_spec]. unfold without, dwf, dkeys. clear - Hw. induction d as [|[k v] d IH]; [constructor|].
    inversion Hw as [|? ? Hn Hw']; subst. cbn [filter fst]. destruct (negb _); [|now apply IH]. cbn [map fst]. constructor; [|now apply IH].
    intros Hc. apply in_map_iff in Hc as (x & Hx & Hi). apply filter_In in Hi as [Hi _]. apply Hn.
    apply in_map_iff. now exists x.
Qed.
Example C51_run_ex2 :
  results_of (make_results nat xrun51 true xenv [] [map (fun x => [x])
    [xit AStart g51 (r_ [("n", s_ "a"); ("ip", s_ "1.1.1.1")]); xit AStart g51 (r_ [("n", s_ "b")]);
     xit AStart g51 (r_ [("ip", s_ "2.2.2.2"); ("n", s_ "c")])]] (VDict []))
  = Ok (d_ [("interfaces", VList [d_ [("n", s_ "a")]; d_ [("n", s_ "c")]])]).
Proof. vm_compute. reflexivity. Qed.

(** so they do not decide whether a value was matched, when some variable has a default *)
Theorem C74_contains_limits :
  ~ (forall args st d, fs_data st = VDict d ->
     exists b, g_contains args st = Ok (st, b) /\ (b = true <-> Exists (matched d (fs_defaults st)) args)).
Proof.
  intros H. destruct (H (names_ ["mtu"; "ip"]) x51 _ eq_refl) as (b & Hb & Hi). vm_compute in Hb. injection Hb as <-.
  enough (false = true) by discriminate. apply Hi. right. left. eexists. split; [vm_compute; reflexivity|].
  intros y Hy. vm_compute in Hy. discriminate.
Qed.
Print Assumptions C74_contains_limits.
Definition x74 := gst (r_ [("mtu", s_ "9000")]) (r_ [("mtu", s_ "1500")]) [] [].
Theorem C74_exclude_limits :
  ~ (forall args st d, fs_data st = VDict d ->
     exists b, g_exclude args st = Ok (st, b) /\ (b = true <-> ~ Exists (matched d (fs_defaults st)) args)).
Proof.
  intros H. destruct (H (names_ ["mtu"]) x74 _ eq_refl) as (b & Hb & Hi). vm_compute in Hb. injection Hb as <-.
  destruct Hi as [Hi _]. apply (Hi eq_refl). left. eexists. split; [vm_compute; reflexivity|].
  intros y Hy. vm_compute in Hy. injection Hy as <-. vm_compute. reflexivity.
Qed.
Print Assumptions C74_exclude_limits.
Theorem C74_excludeall_limits :
  ~ (forall args st d, fs_data st = VDict d ->
     exists b, g_excludeall args st = Ok (st, b) /\ (b = true <-> ~ Forall (matched d (fs_defaults st)) args)).
Proof.
  intros H. destruct (H (names_ ["mtu"]) x74 _ eq_refl) as (b & Hb & Hi). vm_compute in Hb. injection Hb as <-.
  destruct Hi as [Hi _]. apply (Hi eq_refl). constructor; [|constructor]. eexists. split; [vm_compute; reflexivity|].
  intros y Hy. vm_compute in Hy. injection Hy as <-. vm_compute. reflexivity.
Qed.
Print Assumptions C74_excludeall_limits.

(** ** C52 *)
Theorem C52_equal : forall k s st d, fs_data st = VDict d ->
  g_equal k (VStr s) st = Ok (st, py_eq (value_or d k VNone) (resolve (e_vars (fs_env st)) s)).
Proof. exact equal_spec. Qed.
Print Assumptions C52_equal.
Theorem C52_exclude_val : forall k s st d, fs_data st = VDict d ->
  g_exclude_val k (VStr s) st =
  Ok (st, match dget d (KS k) with Some x => negb (py_eq x (resolve (e_vars (fs_env st)) s)) | None => true end).
Proof. exact exclude_val_spec. Qed.
Print Assumptions C52_exclude_val.
Theorem C52_contains_val_text : forall k s t st d, fs_data st = VDict d -> dget d (KS k) = Some (VStr t) ->
  forall p, resolve (e_vars (fs_env st)) s = VStr p ->
  exists b, g_contains_val k (VStr s) st = Ok (st, b) /\ (b = true <-> exists u w, t = u ++ p ++ w).
Proof. exact contains_val_text. Qed.
Print Assumptions C52_contains_val_text.
Theorem C52_contains_val_list : forall k s l st d, fs_data st = VDict d -> dget d (KS k) = Some (VList l) ->
  exists b, g_contains_val k (VStr s) st = Ok (st, b) /\
  (b = true <-> exists x, In x l /\ py_eq (resolve (e_vars (fs_env st)) s) x = true).
Proof. exact contains_val_list. Qed.
Print Assumptions C52_contains_val_list.
Theorem C52_contains_val_missing : forall k s st d, fs_data st = VDict d -> dget d (KS k) = None ->
  forall p, resolve (e_vars (fs_env st)) s = VStr p ->
  g_contains_val k (VStr s) st = Ok (st, match p with [] => true | _ => false end).
Proof. exact contains_val_missing. Qed.
Print Assumptions C52_contains_val_missing.
Definition x52 := gst (r_ [("ip", s_ "1.1.1.1"); ("vlans", VList [s_ "1"; s_ "2"])]) [] (r_ [("my_ip", s_ "1.1.1.1")]) [].
Example C52_ex :
  flag (g_equal $"ip" (s_ "my_ip") x52) = Ok true /\ flag (g_equal $"ip" (s_ "1.1.1.2") x52) = Ok false /\
  flag (g_equal $"vrf" (s_ "1.1.1.2") x52) = Ok false /\
  flag (g_exclude_val $"ip" (s_ "my_ip") x52) = Ok false /\ flag (g_exclude_val $"vrf" (s_ "x") x52) = Ok true /\
  flag (g_contains_val $"ip" (s_ "1.1") x52) = Ok true /\ flag (g_contains_val $"vlans" (s_ "2") x52) = Ok true /\
  flag (g_contains_val $"vlans" (s_ "3") x52) = Ok false.
Proof. repeat split; vm_compute; reflexivity. Qed.

(** ** C75: equal and exclude_val always answer (C52); contains_val answers exactly when the given value can be
    searched in the record's value *)
Theorem C75_answers : forall k s st d, fs_data st = VDict d ->
  ((exists r, g_contains_val k (VStr s) st = Ok r) <-> searchable (value_or d k (VStr [])) (resolve (e_vars (fs_env st)) s)) /\
  (~ searchable (value_or d k (VStr [])) (resolve (e_vars (fs_env st)) s) -> g_contains_val k (VStr s) st = Raise TypeError).
Proof. exact contains_val_answers. Qed.
Print Assumptions C75_answers.
Theorem C75_equal : forall k s st d, fs_data st = VDict d ->
  (exists b, g_equal k (VStr s) st = Ok (st, b)) /\ (exists b, g_exclude_val k (VStr s) st = Ok (st, b)).
Proof. intros k s st d Hd. split; eexists; [exact (C52_equal k s st d Hd)|exact (C52_exclude_val k s st d Hd)]. Qed.
Print Assumptions C75_equal.
(** a number (after to_int) cannot be searched *)
Example C75_ex : ~ searchable (VInt 1500) (s_ "15") /\
  flag (g_contains_val $"mtu" (s_ "15") (gst [(KS $"mtu", VInt 1500)] [] [] [])) = Raise TypeError /\
  searchable (s_ "1500") (s_ "15") /\ flag (g_contains_val $"mtu" (s_ "15") (gst (r_ [("mtu", s_ "1500")]) [] [] [])) = Ok true.
Proof. repeat split; try (vm_compute; reflexivity); [intros H; exact H|eexists; reflexivity]. Qed.

(** ** C53 *)
Theorem C53_del : forall args st d, fs_data st = VDict d -> dwf d ->
  g_del args st = Ok (with_data st (VDict (without d args)), true).
Proof. exact del_spec. Qed.
Print Assumptions C53_del.
Theorem C53_items2dict : forall kn vn st d x v k, fs_data st = VDict d -> dwf d -> kn <> vn ->
  dget d (KS kn) = Some x -> dget d (KS vn) = Some v -> key_of x = Ok k ->
  exists d', g_items2dict kn vn st = Ok (with_data st (VDict d'), true) /\
  forall q, dget d' q = if key_eqb q k then Some v
                        else if (key_eqb q (KS kn) || key_eqb q (KS vn))%bool then None else dget d q.
Proof.
  intros kn vn st d x v k Hd Hw Hne H1 H2 H3. eexists. split; [eapply items2dict_spec; eassumption|].
  apply dget_moved; [exact Hw|congruence].
Qed.
Print Assumptions C53_items2dict.
Theorem C53_items2dict_missing : forall kn vn st d, fs_data st = VDict d ->
  (dget d (KS kn) = None \/ dget d (KS vn) = None) -> g_items2dict kn vn st = Ok (st, false).
Proof. exact items2dict_missing. Qed.
Print Assumptions C53_items2dict_missing.
(** set: the variable's value (template variables, then global variables), else
    the default, else the name itself *)
Theorem C53_set : forall source target default st d, fs_data st = VDict d ->
  exists v, g_set source target default st =
    Ok (with_data st (VDict (dset d (KS (match target with Some t => t | None => source end)) v)), true) /\
  (forall x, dget (e_vars (fs_env st)) (KS source) = Some x -> v = x) /\
  (forall x, dget (e_vars (fs_env st)) (KS source) = None -> dget (e_gvars (fs_env st)) (KS source) = Some x -> v = x) /\
  (dget (e_vars (fs_env st)) (KS source) = None -> dget (e_gvars (fs_env st)) (KS source) = None ->
     v = match default with Some x => x | None => VStr source end).
Proof.
  intros source target default st d Hd. unfold g_set. rewrite Hd. eexists. split; [reflexivity|].
  repeat split; intros; repeat match goal with H : dget _ _ = _ |- _ => rewrite H; clear H end; reflexivity.
Qed.
Print Assumptions C53_set.
(** record: the record is unchanged, the value is visible to later functions as
    a template variable and as a global variable *)
Theorem C53_record : forall source target st d v, fs_data st = VDict d -> dget d (KS source) = Some v ->
  exists st', g_record source target st = Ok (st', true) /\
  fs_data st' = fs_data st /\ fs_path st' = fs_path st /\ fs_cache st' = fs_cache st /\ fs_results st' = fs_results st /\
  let t := KS (match target with Some t => t | None => source end) in
  dget (e_vars (fs_env st')) t = Some v /\ dget (e_gvars (fs_env st')) t = Some v /\
  same_but [t] (e_vars (fs_env st)) (e_vars (fs_env st')) /\ same_but [t] (e_gvars (fs_env st)) (e_gvars (fs_env st')).
Proof.
  intros source target st d v Hd Hv. unfold g_record. rewrite Hd, py_in_dict. unfold dmem. rewrite Hv. cbn [rbind sub_data]. rewrite Hv.
  eexists. split; [reflexivity|]. cbn [fs_data fs_path fs_cache fs_results fs_env e_vars e_gvars].
  set (t := KS _).
  repeat split; try (symmetry; exact Hd); try apply dget_dset_same;
    intros q Hq; apply dget_dset_other; intros <-; apply Hq; now left.
Qed.
Print Assumptions C53_record.
Theorem C53_record_missing : forall source target st d, fs_data st = VDict d -> dget d (KS source) = None ->
  g_record source target st = Ok (st, true).
Proof. intros source target st d Hd Hv. unfold g_record. rewrite Hd, py_in_dict. unfold dmem. now rewrite Hv. Qed.
Print Assumptions C53_record_missing.
(** to_int: only the named keys (all keys if none is named) change; a text that
    [int()] accepts becomes that integer, other numeric text a float, the rest stays *)
Theorem C53_to_int : forall fos ioo foo keys il st d, fs_data st = VDict d -> keys <> [] -> NoDup keys ->
  exists d', g_to_int fos ioo foo keys il st = Ok (with_data st (VDict d'), true) /\
  dkeys d' = dkeys d /\
  (forall k, In k keys -> dget d' (KS k) = option_map (conv_value fos ioo foo il) (dget d (KS k))) /\
  same_but (map KS keys) d d'.
Proof. exact to_int_named. Qed.
Print Assumptions C53_to_int.
Theorem C53_to_int_all : forall fos ioo foo il st d, fs_data st = VDict d -> dwf d ->
  g_to_int fos ioo foo [] il st =
  Ok (with_data st (VDict (map (fun kv => (fst kv, conv_value fos ioo foo il (snd kv))) d)), true).
Proof. exact to_int_all. Qed.
Print Assumptions C53_to_int_all.
Theorem C53_to_int_text : forall fos ioo foo il s,
  (forall z, py_int s = Some z -> conv_value fos ioo foo il (VStr s) = VInt z) /\
  (py_int s = None -> fos s = None -> conv_value fos ioo foo il (VStr s) = VStr s).
Proof. intros. split; [intros z; apply conv_value_str|apply conv_value_other]. Qed.
Print Assumptions C53_to_int_text.
Definition x53 := gst (r_ [("k", s_ "mtu"); ("v", s_ "1500"); ("d", s_ "text")]) [] (r_ [("host", s_ "r1")]) [].
Definition nofloat (s : str) : option nat := None.
Definition noobj {A} (n : nat) : option A := None.
Example C53_ex :
  gdata (g_del (names_ ["k"; "zz"]) x53) = Ok (d_ [("v", s_ "1500"); ("d", s_ "text")]) /\
  gdata (g_items2dict $"k" $"v" x53) = Ok (d_ [("d", s_ "text"); ("mtu", s_ "1500")]) /\
  gdata (g_set $"host" (Some $"hostname") None x53) = Ok (d_ [("k", s_ "mtu"); ("v", s_ "1500"); ("d", s_ "text"); ("hostname", s_ "r1")]) /\
  gdata (g_to_int nofloat noobj noobj [] false x53) = Ok (d_ [("k", s_ "mtu"); ("v", VInt 1500); ("d", s_ "text")]) /\
  match g_record $"k" (Some $"t") x53 with Ok (s, true) => e_vars (fs_env s) = r_ [("host", s_ "r1"); ("t", s_ "mtu")] | _ => False end.
Proof. repeat split; vm_compute; reflexivity. Qed.

(** ** C54 *)
Theorem C54_expand : forall e st, fs_data st = VDict (named e) -> unrelated_keys (map fst e) ->
  exists r, g_expand st = Ok (with_data st r, true) /\
  (forall k v, In (k, v) e -> follow (split $"." k) r = Some v) /\
  (forall p x, p <> [] -> follow p r = Some x ->
     exists k v, In (k, v) e /\ (prefix_of p (split $"." k) \/ exists q, p = split $"." k ++ q /\ follow q v = Some x)).
Proof. exact expand_spec. Qed.
Print Assumptions C54_expand.
Definition e54 : list (str * val) := [($"a.b", s_ "1"); ($"c", s_ "2"); ($"a.d.e", s_ "3")].
Example C54_ex :
  unrelated_keys (map fst e54) /\
  gdata (g_expand (gst (named e54) [] [] [])) = Ok (d_ [("a", d_ [("b", s_ "1"); ("d", d_ [("e", s_ "3")])]); ("c", s_ "2")]).
Proof.
  split; [|vm_compute; reflexivity].
  cbn [e54 map fst]. repeat constructor; intros [r Hr]; vm_compute in Hr; discriminate.
Qed.
(** ** C76: expand succeeds and every value can be read back, exactly when no key is a dotted prefix of another *)
Theorem C76_gives_back : forall e st, fs_data st = VDict (named e) -> NoDup (map fst e) ->
  Forall (fun kv => forall d, snd kv <> VDict d) e ->
  ((exists r, g_expand st = Ok (with_data st r, true) /\ forall k v, In (k, v) e -> follow (split $"." k) r = Some v)
   <-> unrelated_keys (map fst e)).
Proof. exact expand_gives_back. Qed.
Print Assumptions C76_gives_back.
(** otherwise a value is lost, or expand raises *)
Theorem C76_loses_limits :
  ~ (forall e st r, fs_data st = VDict (named e) -> NoDup (map fst e) -> g_expand st = Ok (with_data st r, true) ->
     forall k v, In (k, v) e -> follow (split $"." k) r = Some v).
Proof.
  intros H. set (e := [($"a", s_ "1"); ($"a.b", s_ "2")]).
  specialize (H e (gst (named e) [] [] []) (d_ [("a", s_ "1")]) eq_refl).
  assert (Hn : NoDup (map fst e)) by (repeat constructor; cbn; intuition discriminate).
  specialize (H Hn ltac:(vm_compute; reflexivity) $"a.b" (s_ "2") ltac:(now (right; left))).
  vm_compute in H. discriminate.
Qed.
Print Assumptions C76_loses_limits.
Theorem C76_raises_limits :
  ~ (forall e st, fs_data st = VDict (named e) -> NoDup (map fst e) -> exists s, g_expand st = Ok s).
Proof.
  intros H. set (e := [($"a", s_ "1"); ($"a.b.c", s_ "2")]).
  destruct (H e (gst (named e) [] [] []) eq_refl) as (s & Hs).
  - repeat constructor; cbn; intuition discriminate.
  - vm_compute in Hs. discriminate.
Qed.
Print Assumptions C76_raises_limits.

(** ** C55: the group's results are the list of the (non-empty) values of [k] in
    its records, at the group's path with a single asterisk *)
Theorem C55_itemize : forall F runf k2i (f : F) k,
  (forall st, runf f st = g_itemize k2i k [] st) ->
  forall pre last, static_path (pre ++ [last]) ->
  forall g : group F, g_path F g = pre ++ [last] -> g_funcs F g = [f] -> g_parent F g = None -> dwf (g_runs F g) ->
  forall e xs main Q n st R a d,
  Forall (of_group F g) xs -> no_early_end (map (ev_of F) xs) = true ->
  let path := map split_stars pre ++ [(fst (split_stars last), 1)] in
  let values := values_of k (map (fun r => with_defaults r (g_runs F g)) (records (map (ev_of F) xs) None true)) in
  path = Q ++ (n, st) :: R -> plain k2i path ->
  arrives (names Q) main a (VDict d) -> dget d (KS n) = None ->
  values <> [] ->
  exists tree b,
    results_of (make_results F runf k2i e [] [map (fun x => [x]) xs] main) = Ok tree /\
    reaches (names path) tree b (VList (filter truthy values)) /\
    changes_only (a ++ [SKey (KS n)]) main tree.
Proof.
  intros F runf k2i f k Hf pre last Hs g Hp Hfu Ht Hw e xs main Q n st R a d.
  exact (itemize_list F runf k2i f k Hf pre last Hs g Hp Hfu Ht Hw e xs main Q n st R a d).
Qed.
Print Assumptions C55_itemize.
Theorem C55_no_key : forall F runf k2i (f : F) k,
  (forall st, runf f st = g_itemize k2i k [] st) ->
  forall pre last, static_path (pre ++ [last]) ->
  forall g : group F, g_path F g = pre ++ [last] -> g_funcs F g = [f] -> g_parent F g = None -> dwf (g_runs F g) ->
  forall e xs main,
  Forall (of_group F g) xs -> no_early_end (map (ev_of F) xs) = true ->
  values_of k (map (fun r => with_defaults r (g_runs F g)) (records (map (ev_of F) xs) None true)) = [] ->
  results_of (make_results F runf k2i e [] [map (fun x => [x]) xs] main) = Ok main.
Proof.
  intros F runf k2i f k Hf pre last Hs g Hp Hfu Ht Hw e xs main.
  exact (itemize_nothing F runf k2i f k Hf pre last Hs g Hp Hfu Ht Hw e xs main).
Qed.
Print Assumptions C55_no_key.
Definition xrun55 (f : nat) : fstate -> gres := g_itemize true $"ip" [].
Definition g55 : group nat := xgroup "hosts" None ["hosts"] [] [0].
Example C55_ex :
  results_of (make_results nat xrun55 true xenv [] [map (fun x => [x])
    [xit AStart g55 (r_ [("n", s_ "a"); ("ip", s_ "1.1.1.1")]); xit AStart g55 (r_ [("n", s_ "b")]);
     xit AStart g55 (r_ [("ip", s_ "2.2.2.2")])]] (VDict []))
  = Ok (d_ [("hosts", VList [s_ "1.1.1.1"; s_ "2.2.2.2"])]).
Proof. vm_compute. reflexivity. Qed.

(** ** C77 *)
Theorem C77_lookup_found : forall table path k add rep upd st d t x kk f,
  fs_data st = VDict d -> follow path table = Some (VDict t) ->
  dget d (KS k) = Some x -> key_of x = Ok kk -> dget t kk = Some f ->
  group_lookup_in table path k add rep upd st =
  Ok (with_data st (VDict
        match add with
        | Some n => dset d (KS n) f
        | None => match upd, f with
                  | true, VDict e => dupdate d e
                  | _, _ => if rep then dset d (KS k) f else d
                  end
        end), true).
Proof. intros until f. intros H1 H2. apply lookup_in_found; [exact H1|now apply walk_follow]. Qed.
Print Assumptions C77_lookup_found.
Theorem C77_lookup_missing : forall table path k add rep upd st d t,
  fs_data st = VDict d -> follow path table = Some (VDict t) ->
  (dget d (KS k) = None \/ exists x kk, dget d (KS k) = Some x /\ key_of x = Ok kk /\ dget t kk = None) ->
  group_lookup_in table path k add rep upd st = Ok (st, true).
Proof. intros until t. intros H1 H2. apply lookup_in_missing with (t := t); [exact H1|now apply walk_follow]. Qed.
Print Assumptions C77_lookup_missing.
Definition t77 : val := d_ [("aux", d_ [("asns", d_ [("65000", s_ "Customer_1")])])].
Example C77_ex :
  gdata (group_lookup_in t77 (names_ ["aux"; "asns"]) $"as" (Some $"name") true false (gst (r_ [("as", s_ "65000")]) [] [] []))
  = Ok (d_ [("as", s_ "65000"); ("name", s_ "Customer_1")]) /\
  gdata (group_lookup_in t77 (names_ ["aux"; "asns"]) $"as" None true false (gst (r_ [("as", s_ "65000")]) [] [] []))
  = Ok (d_ [("as", s_ "Customer_1")]) /\
  gdata (group_lookup_in t77 (names_ ["aux"; "asns"]) $"as" None true false (gst (r_ [("as", s_ "1")]) [] [] []))
  = Ok (d_ [("as", s_ "1")]).
Proof. repeat split; vm_compute; reflexivity. Qed.

(** ** C78: lookups whose name leads to no table.  A name that leads nowhere leaves the record unchanged ... *)
Theorem C78_nowhere : forall table path k add rep upd st d, fs_data st = VDict d -> no_table path table ->
  (forall x, dget d (KS k) = Some x -> exists kk, key_of x = Ok kk) ->
  group_lookup_in table path k add rep upd st = Ok (st, true).
Proof. exact group_lookup_no_table. Qed.
Print Assumptions C78_nowhere.
(** ... and a name that leads to something else than a dictionary stores None *)
Theorem C78_none : forall table path k add rep upd st d x, fs_data st = VDict d ->
  follow path table = Some x -> (forall t, x <> VDict t) ->
  group_lookup_in table path k add rep upd st =
  Ok (with_data st (VDict match add with Some n => dset d (KS n) VNone | None => if rep then dset d (KS k) VNone else d end), true).
Proof. exact group_lookup_not_table. Qed.
Print Assumptions C78_none.
(** ... and a name that goes through something else than a dictionary raises: with C77 these are all the cases *)
Theorem C78_raises : forall table path k add rep upd st, follow path table = None -> ~ no_table path table ->
  group_lookup_in table path k add rep upd st = Raise AttributeError.
Proof.
  intros table path k add rep upd st Hf Hn. unfold group_lookup_in. assert (E : walk_get path table = Raise AttributeError); [|now rewrite E].
  revert table Hf Hn. induction path as [|i path IH]; intros table Hf Hn; [discriminate|]. cbn [follow no_table walk_get] in *.
  destruct table; try reflexivity. destruct (dget d (KS i)); [now apply IH|tauto].
Qed.
Print Assumptions C78_raises.
Example C78_ex : no_table (names_ ["aux"; "zz"; "yy"]) t77 /\
  group_lookup_in t77 (names_ ["aux"; "zz"; "yy"]) $"as" None true false (gst (r_ [("as", s_ "7")]) [] [] []) = Ok (gst (r_ [("as", s_ "7")]) [] [] [], true).
Proof. split; vm_compute; [exact I|reflexivity]. Qed.
(** so the record is not always left unchanged when nothing is found *)
Theorem C78_limits :
  ~ (forall table path k st d, fs_data st = VDict d ->
     (forall t x kk, follow path table = Some (VDict t) -> dget d (KS k) = Some x -> key_of x = Ok kk -> dget t kk = None) ->
     group_lookup_in table path k None true false st = Ok (st, true)).
Proof.
  intros H. specialize (H t77 (names_ ["aux"; "asns"; "65000"]) $"as" (gst (r_ [("as", s_ "7")]) [] [] []) _ eq_refl).
  assert (K : group_lookup_in t77 (names_ ["aux"; "asns"; "65000"]) $"as" None true false (gst (r_ [("as", s_ "7")]) [] [] [])
     = Ok (gst (r_ [("as", s_ "7")]) [] [] [], true)).
  { apply H. intros t x kk Ht. vm_compute in Ht. discriminate. }
  vm_compute in K. discriminate.
Qed.
Print Assumptions C78_limits.
(** ** C79 *)
Theorem C79_sformat : forall fmt s n st d, fs_data st = VDict d -> text_keys d -> text_keys (e_vars (fs_env st)) -> text_keys (e_gvars (fs_env st)) ->
  g_sformat fmt s n st =
  match fmt s d with
  | Ok t => Ok (with_data st (VDict (dset d (KS n) (VStr t))), true)
  | Raise KeyError =>
      match fmt s (dupdate (dupdate (e_gvars (fs_env st)) (e_vars (fs_env st))) d) with
      | Ok t => Ok (with_data st (VDict (dset d (KS n) (VStr t))), true)
      | Raise KeyError => Ok (st, true)
      | Raise e => Raise e
      end
  | Raise e => Raise e
  end.
Proof. exact sformat_spec. Qed.
Print Assumptions C79_sformat.
(** the names the second attempt sees: the record first, then template
    variables, then global variables *)
Theorem C79_precedence : forall (d vars gvars : dict) k, dwf d -> dwf vars ->
  dget (dupdate (dupdate gvars vars) d) k =
  match dget d k with Some v => Some v | None => match dget vars k with Some v => Some v | None => dget gvars k end end.
Proof. intros d vars gvars k H1 H2. rewrite dget_dupdate by exact H1. destruct (dget d k); [reflexivity|]. rewrite dget_dupdate by exact H2. reflexivity. Qed.
Print Assumptions C79_precedence.

(** ** C80 *)
Theorem C80_macro : forall macros args st v ok, NoDup (map fst macros) ->
  (exists st', g_macro macros args st = Ok (st', ok) /\ st' = with_data st v) <->
  macro_chain macros (macro_names args) (fs_data st) v ok.
Proof.
  intros macros args st v ok Hnd. rewrite <- (macro_spec macros _ Hnd). unfold g_macro.
  destruct (run_macros macros (macro_names args) (fs_data st)) as [[w b]|x]; cbn [rbind].
  - split.
    + intros (st' & H & E). injection H as H1 H2. subst. assert (Hwv : fs_data (with_data st w) = fs_data (with_data st v)) by now rewrite E.
      cbn [with_data fs_data] in Hwv. now rewrite Hwv.
    + intros H. injection H as -> ->. now eexists.
  - split; [intros (st' & H & _); discriminate|discriminate].
Qed.
Print Assumptions C80_macro.
Example C80_ex : 
  macro_names (names_ ["a, b"; "c"]) = names_ ["a"; "b"; "c"] /\
  flag (g_macro [($"a", fun v => Ok (MNew (VList [v]))); ($"c", fun v => Ok MFalse)] (names_ ["a, b"; "c"]) (gst [] [] [] [])) = Ok false /\
  gdata (g_macro [($"a", fun v => Ok (MNew (VList [v]))); ($"c", fun v => Ok MGoOn)] (names_ ["a, b"; "c"]) (gst [] [] [] [])) = Ok (VList [VDict []]).
Proof. repeat split; vm_compute; reflexivity. Qed.
