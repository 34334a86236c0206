(** * Properties_Save: C01-C04, C11, C12 - saving one record.

    [save_cur k2i mwl E path data] is the model of [save_curelements]
    (/repo/ttp/ttp.py 3009-3032): the results tree [E] after saving [data] under
    [path], a list of (key, number of asterisks).  The vocabulary of the
    statements ([reaches], [arrives], [changes_only], [branch], ...) is in
    SpecTree.v and Tree.v and does not mention the code. *)
From Verif Require Import PyBase Tree Results SpecTree ResultsFacts ResultsHist FrameFacts SaveSpec NestFacts NullFacts SpecKeys RenumberFacts MergeFacts SpecMerge OverlayFacts.

Local Open Scope string_scope.
Local Open Scope list_scope.
Ltac one_item := match goal with
  | He : ?l ++ [_] = [_] |- _ => destruct l as [|? [|]]; try discriminate He; cbn [app] in He; injection He as ?; subst
  end.
Definition s_ (x : string) : val := VStr $x.
Definition d_ (l : list (string * val)) : val := VDict (map (fun kv => (KS $(fst kv), snd kv)) l).
Definition r_ (l : list (string * val)) : dict := map (fun kv => (KS $(fst kv), snd kv)) l.
Definition p_ (l : list (string * nat)) : list (str * nat) := map (fun kv => ($(fst kv), snd kv)) l.

(** ** C01 *)
(** the list is there: the record is appended to it, everything else reads the same *)
Theorem C01_append : forall k2i P E a l r,
  plain k2i P -> reaches (names P) E a (VList l) -> r <> [] ->
  exists E', save_cur k2i false E P (VDict r) = Ok E' /\
    reaches (names P) E' a (VList (l ++ [VDict r])) /\
    changes_only a E E' /\
    (forall c w, get_at c E = Some w -> ~ above c a -> get_at c E' = Some w).
Proof. exact append_existing. Qed.
Print Assumptions C01_append.
Example C01_append_ex :
  let E := d_ [("z", s_ "1"); ("a", d_ [("b", VList [d_ [("x", s_ "1")]])])] in
  exists a, reaches (names (p_ [("a", 0); ("b", 1)])) E a (VList [d_ [("x", s_ "1")]]) /\
  plain true (p_ [("a", 0); ("b", 1)]).
Proof.
  eexists. split.
  - eapply reach_key; [reflexivity|]. eapply reach_key; [reflexivity|]. apply reach_here.
  - repeat constructor; discriminate.
Qed.

(** a key of the path is missing: the missing branch is created with a one-item
    list at its end, everything else reads the same *)
Theorem C01_create : forall k2i Q n st R E a d r,
  plain k2i (Q ++ (n, st) :: R) -> stars (Q ++ (n, st) :: R) = 1 ->
  arrives (names Q) E a (VDict d) -> dget d (KS n) = None -> dwf r -> r <> [] ->
  exists E' b, save_cur k2i false E (Q ++ (n, st) :: R) (VDict r) = Ok E' /\
    reaches (names (Q ++ (n, st) :: R)) E' b (VList [VDict r]) /\ above (a ++ [SKey (KS n)]) b /\
    get_at (a ++ [SKey (KS n)]) E' = Some (branch st R r) /\
    changes_only (a ++ [SKey (KS n)]) E E'.
Proof. exact append_created. Qed.
Print Assumptions C01_create.

(** the path goes through a list that is still empty *)
Theorem C01_create_in_list : forall k2i Q n st R E a r,
  plain k2i (Q ++ (n, st) :: R) -> stars (Q ++ (n, st) :: R) = 1 ->
  arrives (names Q) E a (VList []) -> dwf r -> r <> [] ->
  exists E', save_cur k2i false E (Q ++ (n, st) :: R) (VDict r) = Ok E' /\
    get_at a E' = Some (VList [VDict [(KS n, branch st R r)]]) /\
    changes_only a E E'.
Proof. exact append_in_empty_list. Qed.
Print Assumptions C01_create_in_list.

(** any number of saves on a path that does not exist yet *)
Theorem C01_history : forall k2i Q n st R E a d r rs,
  plain k2i (Q ++ (n, st) :: R) -> stars (Q ++ (n, st) :: R) = 1 ->
  arrives (names Q) E a (VDict d) -> dget d (KS n) = None -> dwf r ->
  exists E' b, save_all k2i (Q ++ (n, st) :: R) (r :: rs) E = Ok E' /\
    reaches (names (Q ++ (n, st) :: R)) E' b (VList (map VDict (filter nonempty (r :: rs)))) /\
    above (a ++ [SKey (KS n)]) b /\ changes_only (a ++ [SKey (KS n)]) E E'.
Proof. exact star_history. Qed.
Print Assumptions C01_history.
Example C01_history_ex :
  let E := d_ [("z", s_ "1"); ("a", VList [d_ [("q", s_ "0")]])] in
  arrives (names (p_ [("a", 0)])) E [SKey (KS $"a"); SIdx 0] (VDict (r_ [("q", s_ "0")])) /\
  save_all true (p_ [("a", 0); ("b", 1); ("c", 1)]) [r_ [("x", s_ "1")]; []; r_ [("x", s_ "2")]] E
  = Ok (d_ [("z", s_ "1"); ("a", VList [d_ [("q", s_ "0");
        ("b", VList [d_ [("c", VList [d_ [("x", s_ "1")]; d_ [("x", s_ "2")]])]])]])]).
Proof.
  split; [|vm_compute; reflexivity].
  eexists [SKey (KS $"a")], [SIdx 0], _. split; [|split; [|reflexivity]].
  - eapply reach_key; [reflexivity|]. apply reach_here.
  - apply (enter_last [] _). apply enter_here.
Qed.

(** ** C02 *)
Theorem C02_first : forall k2i Q n st R E a d r,
  plain k2i (Q ++ (n, st) :: R) -> arrives (names Q) E a (VDict d) -> dget d (KS n) = None -> dwf r ->
  save_cur k2i false E (Q ++ (n, st) :: R) (VDict r) =
  Ok (upd_at a (fun _ => VDict (d ++ [(KS n, branch st R r)])) E).
Proof. exact save_missing. Qed.
Print Assumptions C02_first.

Theorem C02_second : forall k2i P E a e r,
  stars P <> 2 -> plain k2i P -> reaches (names P) E a (VDict e) -> e <> [] -> flat a = true -> P <> [] ->
  exists E', save_cur k2i false E P (VDict r) = Ok E' /\
    reaches (names P) E' a (VList [VDict e; VDict r]) /\ changes_only a E E'.
Proof. exact plain_second. Qed.
Print Assumptions C02_second.

Theorem C02_history : forall k2i Q n st R E a d r rs,
  plain k2i (Q ++ (n, st) :: R) -> stars (Q ++ (n, st) :: R) = 0 ->
  arrives (names Q) E a (VDict d) -> dget d (KS n) = None -> flat a = true -> dwf r ->
  Forall (fun r => r <> []) (r :: rs) ->
  exists E' b, save_all k2i (Q ++ (n, st) :: R) (r :: rs) E = Ok E' /\
    reaches (names (Q ++ (n, st) :: R)) E' b (match rs with [] => VDict r | _ => VList (map VDict (r :: rs)) end) /\
    above (a ++ [SKey (KS n)]) b /\ changes_only (a ++ [SKey (KS n)]) E E'.
Proof. exact plain_history. Qed.
Print Assumptions C02_history.
Example C02_history_ex :
  let E := d_ [("z", s_ "1")] in
  save_all true (p_ [("a", 1); ("b", 0)]) [r_ [("x", s_ "1")]; r_ [("x", s_ "2")]; r_ [("x", s_ "3")]] E
  = Ok (d_ [("z", s_ "1"); ("a", VList [d_ [("b", VList [d_ [("x", s_ "1")]; d_ [("x", s_ "2")]; d_ [("x", s_ "3")]])]])]) /\
  stars (p_ [("a", 1); ("b", 0)]) = 0 /\ arrives [] E [] E.
Proof.
  split; [vm_compute; reflexivity|]. split; [reflexivity|].
  eexists [], [], _. split; [apply reach_here|]. split; [apply enter_here|reflexivity].
Qed.

(** ** C03 *)
Theorem C03_history : forall k2i Q n st R E a d r rs,
  plain k2i (Q ++ (n, st) :: R) -> stars (Q ++ (n, st) :: R) = 2 ->
  arrives (names Q) E a (VDict d) -> dget d (KS n) = None -> Forall dwf (r :: rs) ->
  exists E' b m, save_all k2i (Q ++ (n, st) :: R) (r :: rs) E = Ok E' /\
    reaches (names (Q ++ (n, st) :: R)) E' b (VDict m) /\ dwf m /\
    (forall k, dget m k = first_wins (r :: rs) k) /\
    above (a ++ [SKey (KS n)]) b /\ changes_only (a ++ [SKey (KS n)]) E E'.
Proof. exact starstar_history. Qed.
Print Assumptions C03_history.

Theorem C03_step : forall k2i P E a e r,
  stars P = 2 -> plain k2i P -> reaches (names P) E a (VDict e) -> dwf e -> dwf r ->
  exists E' m, save_cur k2i false E P (VDict r) = Ok E' /\ reaches (names P) E' a (VDict m) /\
    (forall k, dget m k = match dget e k with Some v => Some v | None => dget r k end) /\ changes_only a E E'.
Proof. exact starstar_existing. Qed.
Print Assumptions C03_step.
Example C03_history_ex :
  save_all true (p_ [("a", 2)]) [r_ [("x", s_ "1")]; r_ [("x", s_ "2"); ("y", s_ "3")]; r_ [("y", s_ "4")]] (d_ [("z", s_ "1")])
  = Ok (d_ [("z", s_ "1"); ("a", d_ [("x", s_ "1"); ("y", s_ "3")])]) /\
  stars (p_ [("a", 2)]) = 2.
Proof. split; vm_compute; reflexivity. Qed.

(** ** C04 *)
(** every save (merging or not, any path) that succeeds keeps every value outside
    the addressed element, provided no list lies directly in a list on the way *)
Theorem C04_frame : forall k2i mwl P E data E',
  P <> [] -> plain k2i P -> (forall a w, reaches (names P) E a w -> flat a = true) ->
  save_cur k2i mwl E P data = Ok E' -> keeps (addressed P E) E E'.
Proof. exact save_keeps. Qed.
Print Assumptions C04_frame.

(** ... and it does succeed *)
Theorem C04_total : forall k2i P E r,
  P <> [] -> plain k2i P -> (forall a w, reaches (names P) E a w -> flat a = true) -> dwf r ->
  exists E', save_cur k2i false E P (VDict r) = Ok E'.
Proof. exact save_total. Qed.
Print Assumptions C04_total.

(** a scalar in the way: nothing changes (the record is silently dropped) *)
Theorem C04_blocked : forall k2i Q n st R E a w data,
  plain k2i Q -> arrives (names Q) E a w -> scalar w = true ->
  save_cur k2i false E (Q ++ (n, st) :: R) data = Ok E.
Proof. exact save_blocked. Qed.
Print Assumptions C04_blocked.

Example C04_frame_ex :
  let E := d_ [("a", VList [d_ [("b", d_ [("x", s_ "1")])]]); ("z", s_ "5")] in
  (forall a w, reaches (names (p_ [("a", 0); ("b", 0)])) E a w -> flat a = true) /\
  save_cur true false E (p_ [("a", 0); ("b", 0)]) (d_ [("x", s_ "2")]) =
  Ok (d_ [("a", VList [d_ [("b", VList [d_ [("x", s_ "1")]; d_ [("x", s_ "2")]])]]); ("z", s_ "5")]).
Proof.
  split; [|vm_compute; reflexivity]. intros a w H.
  inversion H as [|n P d0 x0 a0 w0 Hg Hr|]; subst. vm_compute in Hg. injection Hg as <-.
  inversion Hr as [| |n2 P2 l2 x2 a2 w2 Hr2]; subst.
  one_item.
  inversion Hr2 as [|n3 P3 d3 x3 a3 w3 Hg3 Hr3|]; subst.
  vm_compute in Hg3. injection Hg3 as <-.
  inversion Hr3; subst. reflexivity.
Qed.

(** below the addressed element: a merging save lays the record over what is there ([overlay], SpecMerge.v) *)
Theorem C04_merge_dict : forall k2i P E a d r E',
  plain k2i P -> reaches (names P) E a (VDict d) -> deep_wf (VDict r) -> save_cur k2i true E P (VDict r) = Ok E' ->
  exists m, E' = upd_at a (fun _ => VDict m) E /\ overlay (VDict d) (VDict r) (VDict m).
Proof. exact save_merge_dict. Qed.
Print Assumptions C04_merge_dict.
Theorem C04_merge_list : forall k2i P E a l d r E',
  plain k2i P -> reaches (names P) E a (VList (l ++ [VDict d])) -> deep_wf (VDict r) -> save_cur k2i true E P (VDict r) = Ok E' ->
  exists m, (E' = upd_at a (fun _ => VList (l ++ [VDict m])) E \/ r = [] /\ E' = E) /\ overlay (VDict d) (VDict r) (VDict m).
Proof. exact save_merge_list. Qed.
Print Assumptions C04_merge_list.
Example C04_merge_ex :
  save_cur true true (d_ [("a", VList [d_ [("x", d_ [("p", s_ "1"); ("q", s_ "2")]); ("y", s_ "3")]])]) (p_ [("a", 1)]) (d_ [("x", d_ [("q", s_ "5")])])
  = Ok (d_ [("a", VList [d_ [("x", d_ [("p", s_ "1"); ("q", s_ "5")]); ("y", s_ "3")]])]).
Proof. vm_compute. reflexivity. Qed.

(** a list lies directly in a list only if a record has one: along every history of saves (merging or not, any
    paths) of records without such lists, every save keeps everything outside the element it addresses *)
Definition saves (k2i : bool) (ops : list (bool * list pitem * val)) (E : val) : res val :=
  rfold (fun E op => save_cur k2i (fst (fst op)) E (snd (fst op)) (snd op)) ops E.
Definition good_save (k2i : bool) (op : bool * list pitem * val) : Prop :=
  snd (fst op) <> [] /\ plain k2i (snd (fst op)) /\ unnested (snd op) /\ is_list (snd op) = false.
Theorem C04_history : forall k2i ops mwl P data E E',
  Forall (good_save k2i) ops -> saves k2i ops (VDict []) = Ok E ->
  P <> [] -> plain k2i P -> save_cur k2i mwl E P data = Ok E' -> keeps (addressed P E) E E'.
Proof.
  intros k2i ops mwl P data E E' Ho H Hne Hp Hs.
  assert (HE : unnested E).
  { revert H. assert (H0 : unnested (VDict [])) by exact I. revert H0. generalize (VDict []). unfold saves. induction Ho as [|[[m Q] x] ops (H1 & H2 & H3 & H4) Ho IH]; intros E0 HE0 H.
    - injection H as <-. exact HE0.
    - cbn [rfold fst snd] in *. destruct (save_cur k2i m E0 Q x) as [E1|] eqn:E1s; [|discriminate]. cbn [rbind] in H.
      apply (IH E1); [|exact H]. exact (save_unnested k2i m Q E0 x E1 H1 H2 HE0 H3 H4 E1s). }
  eapply save_keeps; eauto. intros a w Hr. exact (reaches_flat _ _ _ _ Hr HE).
Qed.
Print Assumptions C04_history.
Example C04_history_ex :
  let ops := [(false, p_ [("a", 0); ("b", 1)], d_ [("x", VList [s_ "1"; s_ "2"])]); (false, p_ [("a", 0); ("b", 1)], d_ [("x", s_ "3")]);
              (true, p_ [("a", 0); ("b", 1)], d_ [("y", s_ "4")]); (false, p_ [("a", 0)], d_ [("z", s_ "5")])] in
  Forall (good_save true) ops /\
  saves true ops (VDict []) = Ok (d_ [("a", VList [d_ [("b", VList [d_ [("x", VList [s_ "1"; s_ "2"])]; d_ [("x", s_ "3"); ("y", s_ "4")]])]; d_ [("z", s_ "5")]])]).
Proof.
  split; [|vm_compute; reflexivity].
  repeat (constructor; [split; [discriminate|]; split; [repeat constructor; discriminate|]; split; [cbn; tauto|reflexivity]|]). constructor.
Qed.

(** Without the hypothesis the claim is false: with a list directly inside a list
    on the way, saving a second record on a plain path replaces everything under
    the first key by None. *)
Theorem C04_limits : exists E P data E' c w,
  P <> [] /\ plain true P /\ save_cur true false E P data = Ok E' /\
  get_at c E = Some w /\ scalar w = true /\ ~ addressed P E c /\ get_at c E' = None.
Proof.
  exists (d_ [("a", VList [VList [d_ [("b", d_ [("x", s_ "1")]); ("k", s_ "2")]]])]),
    (p_ [("a", 0); ("b", 0)]), (d_ [("x", s_ "9")]), (d_ [("a", VNone)]),
    [SKey (KS $"a"); SIdx 0; SIdx 0; SKey (KS $"k")], (s_ "2").
  split; [discriminate|]. split; [repeat constructor; discriminate|].
  split; [vm_compute; reflexivity|]. split; [vm_compute; reflexivity|].
  split; [reflexivity|]. split; [|vm_compute; reflexivity].
  intros (a & w & H & Ha).
  inversion H as [|n P d0 x0 a0 w0 Hg Hr|]; subst. vm_compute in Hg. injection Hg as <-.
  inversion Hr as [| |n2 P2 l2 x2 a2 w2 Hr2]; subst.
  one_item.
  inversion Hr2 as [| |n3 P3 l3 x3 a3 w3 Hr3]; subst.
  one_item.
  inversion Hr3 as [|n4 P4 d4 x4 a4 w4 Hg4 Hr4|]; subst.
  cbn in Ha. destruct Ha as (_ & _ & _ & Hk & _). discriminate Hk.
Qed.
Print Assumptions C04_limits.

(** ** C11 *)
(** where the keys in front of it lead to a dictionary - in particular at the beginning of a path - a null item
    followed by a key is as if it were not there *)
Theorem C11_skipped : forall k2i mwl Q s n st R E a d data,
  plain k2i Q -> plain k2i ((n, st) :: R) -> arrives (names Q) E a (VDict d) ->
  save_cur k2i mwl E (Q ++ ($"_", s) :: (n, st) :: R) data = save_cur k2i mwl E (Q ++ (n, st) :: R) data.
Proof. exact null_between. Qed.
Print Assumptions C11_skipped.
Example C11_skipped_ex :
  let E := d_ [("a", VList [d_ [("x", s_ "1")]])] in
  arrives [$"a"] E [SKey (KS $"a"); SIdx 0] (VDict (r_ [("x", s_ "1")])) /\
  save_cur true false E (p_ [("a", 0); ("_", 0); ("b", 1)]) (d_ [("y", s_ "2")])
  = Ok (d_ [("a", VList [d_ [("x", s_ "1"); ("b", VList [d_ [("y", s_ "2")]])]])]).
Proof.
  split; [|vm_compute; reflexivity]. exists [SKey (KS $"a")], [SIdx 0], (VList ([] ++ [d_ [("x", s_ "1")]])). split; [|split; [|reflexivity]].
  - eapply reach_key; [reflexivity|apply reach_here].
  - apply (enter_last []). apply enter_here.
Qed.

(** a trailing null item merges the record into the dictionary found at the path;
    no level and no [_] key is created *)
Theorem C11_trailing : forall k2i Q st E a d r,
  Q <> [] -> plain k2i Q -> st <> 2 -> reaches (names Q) E a (VDict d) -> flat a = true ->
  save_cur k2i false E (Q ++ [($"_", st)]) (VDict r) = Ok (upd_at a (fun _ => VDict (dupdate d r)) E).
Proof. exact null_merges. Qed.
Print Assumptions C11_trailing.
Example C11_ex :
  save_cur true false (d_ [("a", d_ [("x", s_ "1")]); ("z", s_ "0")]) (p_ [("a", 0); ("_", 0)]) (d_ [("y", s_ "2")])
  = Ok (d_ [("a", d_ [("x", s_ "1"); ("y", s_ "2")]); ("z", s_ "0")]) /\
  reaches [$"a"] (d_ [("a", d_ [("x", s_ "1")]); ("z", s_ "0")]) [SKey (KS $"a")] (VDict (r_ [("x", s_ "1")])).
Proof. split; [vm_compute; reflexivity|]. eapply reach_key; [reflexivity|apply reach_here]. Qed.

(** ... or, where the path leads to a list, into the list's last item *)
Theorem C11_trailing_list : forall k2i Q st E a l d r,
  Q <> [] -> plain k2i Q -> st <> 2 -> reaches (names Q) E a (VList (l ++ [VDict d])) -> flat a = true ->
  save_cur k2i false E (Q ++ [($"_", st)]) (VDict r) = Ok (upd_at a (fun _ => VList (l ++ [VDict (dupdate d r)])) E).
Proof. exact null_merges_last. Qed.
Print Assumptions C11_trailing_list.
Example C11_trailing_list_ex :
  save_cur true false (d_ [("a", VList [d_ [("x", s_ "1")]; d_ [("x", s_ "2")]])]) (p_ [("a", 1); ("_", 0)]) (d_ [("y", s_ "3")])
  = Ok (d_ [("a", VList [d_ [("x", s_ "1")]; d_ [("x", s_ "2"); ("y", s_ "3")]])]).
Proof. vm_compute. reflexivity. Qed.

(** where the path in front of the null item does not exist yet, the null item is first created like any other key,
    holding the (empty) rest of the path; then the record is saved as above *)
Theorem C11_missing : forall k2i mwl Q n st R s T E a d data,
  plain k2i (Q ++ (n, st) :: R) -> plain k2i T -> arrives (names Q) E a (VDict d) -> dget d (KS n) = None ->
  save_cur k2i mwl E (Q ++ (n, st) :: R ++ ($"_", s) :: T) data =
  do E1 <- save_cur k2i false E (Q ++ (n, st) :: R) (VDict [(KS $"_", branch s T [])]);
  save_cur k2i mwl E1 (Q ++ (n, st) :: R ++ ($"_", s) :: T) data.
Proof.
  intros. assert (branch s T [] = skeleton s T) as ->; [|eapply null_missing; eauto].
  clear. revert s. induction T as [|[m t] T IH]; intros s; cbn [branch skeleton]; [reflexivity|now rewrite IH].
Qed.
Print Assumptions C11_missing.
Example C11_missing_ex :
  save_cur true false (d_ []) (p_ [("a", 0); ("_", 0); ("b", 0)]) (d_ [("x", s_ "1")])
  = Ok (d_ [("a", d_ [("_", d_ [("b", d_ [])]); ("b", d_ [("x", s_ "1")])])]).
Proof. vm_compute. reflexivity. Qed.

(** so [_] can become a key *)
Theorem C11_limits : exists P E data E' v,
  save_cur true false E P data = Ok E' /\ get_at [SKey (KS $"a"); SKey (KS $"_")] E' = Some v.
Proof.
  exists (p_ [("a", 0); ("_", 0)]), (d_ []), (d_ [("x", s_ "1")]).
  eexists _, _. split; vm_compute; reflexivity.
Qed.
Print Assumptions C11_limits.

(** ** C12 *)
Theorem C12_no_digits : forall mwl E P data,
  Forall (fun p => isdigit (fst p) = false) P -> save_cur true mwl E P data = save_cur false mwl E P data.
Proof. exact k2i_irrelevant. Qed.
Print Assumptions C12_no_digits.
Example C12_ex : Forall (fun p => isdigit (fst p) = false) (p_ [("Gi1", 0); ("b", 1)]).
Proof. repeat constructor. Qed.

(** With the option a save does what it does without it, with digit keys made numbers throughout
    (same outcome when it raises), as long as no second record has to be put next to a first one. *)
Theorem C12_same_up_to_numbers : forall mwl P E data,
  P <> [] ->
  Forall (fun p => usual (fst p) /\ fst p <> $"_") P ->
  keys_all usual_key E -> keys_all usual_key data ->
  (mwl = false -> stars P <> 2 -> forall a e, reaches (names P) E a (VDict e) -> e = []) ->
  match save_cur false mwl E P data with
  | Ok E' => save_cur true mwl (renumber E) P (renumber data) = Ok (renumber E') /\ keys_all usual_key E'
  | Raise e => save_cur true mwl (renumber E) P (renumber data) = Raise e
  end.
Proof.
  intros mwl P E data HP HU HE Hd HN.
  assert (HN' : mwl = false -> stars P <> 2 -> ~ turns_into_list P E).
  { intros H1 H2 (a & e & Hr & He). exact (He (HN H1 H2 a e Hr)). }
  pose proof (save_rn mwl P E data HP HU HE Hd HN') as H. unfold agreev in H.
  destruct (save_cur false mwl E P data), (save_cur true mwl (renumber E) P (renumber data)); try contradiction.
  - destruct H as [-> H]. now split.
  - now rewrite H.
Qed.
Print Assumptions C12_same_up_to_numbers.
Example C12_same_ex :
  let P := p_ [("vlans", 0); ("10", 1)] in let E := d_ [("vlans", d_ [("20", VList [d_ [("x", s_ "0")]])])] in
  (forall a e, reaches (names P) E a (VDict e) -> e = []) /\
  save_cur false false E P (d_ [("x", s_ "1")]) = Ok (d_ [("vlans", d_ [("20", VList [d_ [("x", s_ "0")]]); ("10", VList [d_ [("x", s_ "1")]])])]) /\
  save_cur true false (renumber E) P (d_ [("x", s_ "1")])
  = Ok (VDict [(KS $"vlans", VDict [(KI 20, VList [d_ [("x", s_ "0")]]); (KI 10, VList [d_ [("x", s_ "1")]])])]).
Proof.
  split; [|split; vm_compute; reflexivity]. intros a e H. inversion H as [|? ? ? ? ? ? Hg H1|]; subst.
  vm_compute in Hg. injection Hg as <-. inversion H1 as [|? ? ? ? ? ? Hg2 H2|]; subst. vm_compute in Hg2. discriminate.
Qed.

(** The other case: a second record for a path with a digit key destroys what the names in front of
    the first digit key lead to - it becomes None, the first record and everything near it are gone. *)
Theorem C12_second_lost : forall Q n st R E b e data,
  Forall (fun p => fst p <> $"_" /\ isdigit (fst p) = false) Q -> isdigit n = true ->
  Forall (fun p => usual (fst p) /\ fst p <> $"_") (Q ++ (n, st) :: R) ->
  keys_all usual_key E -> stars (Q ++ (n, st) :: R) <> 2 ->
  reaches (names (Q ++ (n, st) :: R)) E b (VDict e) -> e <> [] -> flat b = true ->
  exists a w, reaches (names Q) (renumber E) a w /\ above a b /\
    save_cur true false (renumber E) (Q ++ (n, st) :: R) data = Ok (upd_at a (fun _ => VNone) (renumber E)).
Proof.
  intros Q n st R E b e data HQ. apply save_lost. eapply Forall_impl; [|exact HQ]. cbn. intros p [H1 H2]. split; auto.
Qed.
Print Assumptions C12_second_lost.
Example C12_lost_ex : let E := d_ [("vlans", d_ [("20", d_ [("x", s_ "0")])]); ("host", s_ "h")] in
  reaches (names (p_ [("vlans", 0); ("20", 0)])) E [SKey (KS $"vlans"); SKey (KS $"20")] (d_ [("x", s_ "0")]) /\
  save_cur true false (renumber E) (p_ [("vlans", 0); ("20", 0)]) (d_ [("x", s_ "1")]) = Ok (d_ [("vlans", VNone); ("host", s_ "h")]).
Proof.
  split; [|vm_compute; reflexivity]. eapply reach_key; [vm_compute; reflexivity|]. eapply reach_key; [vm_compute; reflexivity|]. apply reach_here.
Qed.

(** Two records on one numeric key: with the option the whole results become None
    (without it they become the list of the two records). *)
Theorem C12_limits : exists P r1 r2,
  save_all true P [r1; r2] (VDict []) = Ok VNone /\
  save_all false P [r1; r2] (VDict []) = Ok (VDict [(KS $"10", VList [VDict r1; VDict r2])]).
Proof.
  exists (p_ [("10", 0)]), (r_ [("x", s_ "1")]), (r_ [("x", s_ "2")]). split; vm_compute; reflexivity.
Qed.
Print Assumptions C12_limits.

(** A key that [str.isdigit] accepts but [int] does not: ValueError. *)
Theorem C12_raises_limits : exists P r,
  save_all true P [r] (VDict []) = Raise ValueError /\ exists v, save_all false P [r] (VDict []) = Ok v.
Proof.
  exists [([chr 178], 0)], (r_ [("x", s_ "1")]). split; [vm_compute; reflexivity|]. eexists. vm_compute. reflexivity.
Qed.
Print Assumptions C12_raises_limits.

(** Two ways to write one number are one key. *)
Theorem C12_collide_limits : exists E E1 E2,
  save_cur true false (d_ []) (p_ [("01", 0); ("a", 0)]) (d_ [("x", s_ "1")]) = Ok E /\
  save_cur true false E (p_ [("1", 0); ("b", 0)]) (d_ [("x", s_ "2")]) = Ok (VDict [(KI 1, E1)]) /\
  save_cur false false (d_ [("01", d_ [("a", d_ [("x", s_ "1")])])]) (p_ [("1", 0); ("b", 0)]) (d_ [("x", s_ "2")]) = Ok (d_ [("01", E2); ("1", d_ [("b", d_ [("x", s_ "2")])])]).
Proof. eexists _, _, _. repeat split; vm_compute; reflexivity. Qed.
Print Assumptions C12_collide_limits.
