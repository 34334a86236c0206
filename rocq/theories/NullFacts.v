(** * NullFacts: the null path item, in the middle, at the end, and where the path does not exist yet. *)
From Verif Require Import PyBase DictFacts Regex Tree Results SpecTree ResultsFacts ResultsHist FrameFacts SaveSpec.

Section Null.
Variable k2i : bool.
Notation dbp := (dict_by_path k2i).
Notation U := $"_".

Lemma dbp_null_dict s n st R d : n <> U -> (k2i = true -> isdigit n = false) ->
  dbp ((U, s) :: (n, st) :: R) (VDict d) = dbp ((n, st) :: R) (VDict d).
Proof.
  intros Hn Hd. rewrite (dbp_key k2i n st R d Hn Hd). cbn [dict_by_path to_last]. rewrite path_key_plain by reflexivity.
  cbn [rbind]. change (key_eqb (KS U) (KS underscore)) with true. cbn [upd_at].
  destruct (dict_step k2i d (KS n) ((n, st) :: R) (dict_by_path k2i R)) as [[T b]|]; [|reflexivity].
  cbn [rbind]. now destruct b.
Qed.
Lemma vtl_null_mid s n st R r : n <> U -> forall Q D, plain false Q ->
  value_to_list D (Q ++ (U, s) :: (n, st) :: R) r = value_to_list D (Q ++ (n, st) :: R) r.
Proof.
  intros Hn. induction Q as [|[m t] Q IH]; intros D Hp.
  - cbn [app value_to_list]. change (str_eqb U underscore) with true. cbv iota. now rewrite (proj2 (str_eqb_neq n underscore)) by exact Hn.
  - apply plain_cons in Hp as (Hm & _ & Hp). cbn [fst] in Hm. cbn [app value_to_list]. rewrite (proj2 (str_eqb_neq m underscore)) by exact Hm.
    unfold vstep. destruct D as [| | | |l|d|]; try reflexivity.
    + destruct (opt_last l) as [x|]; [|reflexivity]. destruct (py_in m x) as [b|]; [|reflexivity]. cbn [rbind]. destruct b; [|reflexivity].
      destruct x as [| | | | |dx|]; try reflexivity. destruct (dget dx (KS m)); [|reflexivity]. now rewrite IH.
    + destruct (dget d (KS m)); [|reflexivity]. now rewrite IH.
Qed.
Lemma opt_last_tail {A} (l : list A) x m : opt_last (l ++ x :: m) = opt_last (x :: m).
Proof.
  destruct (opt_last (x :: m)) as [y|] eqn:E; [|apply opt_last_None in E; discriminate].
  apply opt_last_Some in E as [m' E]. rewrite E, app_assoc. apply opt_last_app.
Qed.
Lemma popped_cons n st P E : n <> U -> popped ((n, st) :: P) E = (n, st) :: P.
Proof.
  intros Hn. unfold popped. destruct P; [reflexivity|]. destruct (snd (to_last E)); try reflexivity; now rewrite (proj2 (str_eqb_neq n underscore)).
Qed.
Lemma enters_to_last u a w : enters u a w -> is_list w = false -> snd (to_last u) = w.
Proof.
  induction 1 as [v|l x a w H IH]; intros Hw.
  - destruct v; try reflexivity. discriminate.
  - rewrite to_last_snoc. cbn [snd]. now apply IH.
Qed.

(** where the keys in front of it lead to a dictionary, a null item followed by a key is as if it were not there *)
Theorem null_between mwl Q s n st R E a d data :
  plain k2i Q -> plain k2i ((n, st) :: R) -> arrives (names Q) E a (VDict d) ->
  save_cur k2i mwl E (Q ++ (U, s) :: (n, st) :: R) data = save_cur k2i mwl E (Q ++ (n, st) :: R) data.
Proof.
  intros HQ HR Ha. pose proof HR as HR'. apply plain_cons in HR' as (Hn & Hk & _). cbn [fst] in *. unfold save_cur.
  rewrite (dbp_arrives k2i Q U s _ E a _ HQ Ha), (dbp_arrives k2i Q n st R E a _ HQ Ha), dbp_null_dict by assumption.
  assert (HP : popped (Q ++ (U, s) :: (n, st) :: R) E = match Q with [] => (n, st) :: R | _ => Q ++ (U, s) :: (n, st) :: R end).
  { destruct Q as [|[m t] Q].
    - cbn [app]. unfold popped. destruct Ha as (a1 & a2 & u & Hr & He & _). inversion Hr; subst.
      rewrite (enters_to_last _ _ _ He eq_refl). reflexivity.
    - apply plain_cons in HQ as (Hm & _ & _). cbn [app]. now apply popped_cons. }
  assert (HP2 : popped (Q ++ (n, st) :: R) E = Q ++ (n, st) :: R).
  { destruct Q as [|[m t] Q]; [now apply popped_cons|]. apply plain_cons in HQ as (Hm & _ & _). cbn [app]. now apply popped_cons. }
  rewrite HP, HP2. destruct (dbp ((n, st) :: R) (VDict d)) as [[w' oa]|]; [|reflexivity]. cbn [rbind].
  destruct (option_map (app a) oa) as [b|]; [|reflexivity]. destruct (get_at b _) as [[| | | |l|e|]|]; try reflexivity.
  destruct mwl; [reflexivity|].
  assert (HL : opt_last (match Q with [] => (n, st) :: R | _ => Q ++ (U, s) :: (n, st) :: R end) = opt_last (Q ++ (n, st) :: R)).
  { destruct Q as [|q Q]; [reflexivity|]. rewrite !opt_last_tail. now rewrite opt_last_cons. }
  rewrite HL. destruct (opt_last (Q ++ (n, st) :: R)) as [[m t]|]; [|reflexivity]. destruct (Nat.eqb t 2); [reflexivity|].
  destruct e as [|kv e]; [reflexivity|]. destruct Q as [|q Q]; [reflexivity|]. apply vtl_null_mid; [exact Hn|]. now apply (plain_false k2i).
Qed.

(** at the end of a path that leads to a list, a null item merges the record into the list's last item *)
Lemma vtl_null_list Q : forall E a l d st r, plain false Q -> reaches (names Q) E a (VList (l ++ [VDict d])) -> flat a = true ->
  value_to_list E (Q ++ [(U, st)]) (VDict r) = Ok (upd_at a (fun _ => VList (l ++ [VDict (dupdate d r)])) E).
Proof.
  induction Q as [|[n s] Q IH]; intros E a l0 d0 st r Hp Hr Hf.
  - inversion Hr; subst. cbn [app value_to_list]. change (str_eqb U underscore) with true. cbv iota.
    rewrite opt_last_app. cbn [update_val rbind]. now rewrite set_last_app.
  - apply plain_cons in Hp as (Hn & _ & Hp). cbn [fst] in Hn.
    cbn [app value_to_list]. rewrite (proj2 (str_eqb_neq n underscore)) by exact Hn.
    inversion Hr as [|n0 P0 d x a1 w Hg Hr'|n0 P0 l x a1 w Hr']; subst.
    + cbn [vstep]. rewrite Hg. rewrite (IH x a1 l0 d0 st r Hp Hr') by exact Hf. cbn [rbind upd_at]. now rewrite Hg.
    + inversion Hr' as [|n1 P1 d x1 a2 w1 Hg Hr''|n1 P1 l1 x1 a2 w1 Hr'']; subst; [|discriminate].
      cbn [vstep]. rewrite opt_last_app. cbn [py_in rbind]. cbn [flat] in Hf.
      unfold dmem. rewrite Hg. rewrite (IH x1 a2 l0 d0 st r Hp Hr'') by exact Hf.
      cbn [rbind upd_at]. rewrite list_upd_app, set_last_app. cbn [upd_at]. now rewrite Hg.
Qed.
Theorem null_merges_last Q st E a l d r :
  Q <> [] -> plain k2i Q -> st <> 2 -> reaches (names Q) E a (VList (l ++ [VDict d])) -> flat a = true ->
  save_cur k2i false E (Q ++ [(U, st)]) (VDict r) = Ok (upd_at a (fun _ => VList (l ++ [VDict (dupdate d r)])) E).
Proof.
  intros Hne Hp Hst Hr Hf. unfold save_cur.
  rewrite (dbp_reaches k2i Q [(U, st)] E a _ Hp Hr).
  assert (dict_by_path k2i [(U, st)] (VList (l ++ [VDict d])) = Ok (VList (l ++ [VDict d]), Some [SIdx (length l)])) as ->.
  { rewrite dbp_last. cbn [dict_by_path to_last]. rewrite path_key_plain by reflexivity. reflexivity. }
  cbn [rbind option_map]. rewrite upd_at_id by (eapply reaches_get; eauto).
  rewrite get_at_app, (reaches_get _ _ _ _ Hr). cbn [get_at]. rewrite nth_error_mid.
  assert (popped (Q ++ [(U, st)]) E = Q ++ [(U, st)]) as ->.
  { destruct Q as [|[n s] Q]; [congruence|]. apply plain_cons in Hp as (Hn & _ & _). cbn [app]. now apply popped_cons. }
  rewrite opt_last_app. destruct (Nat.eqb_spec st 2); [congruence|].
  destruct d as [|kv d].
  - cbn [update_val rbind]. rewrite upd_at_app. f_equal. apply (upd_at_ext_at a _ _ E _ (reaches_get _ _ _ _ Hr)). cbn [upd_at]. now rewrite list_upd_app.
  - apply vtl_null_list; auto. now apply (plain_false k2i).
Qed.

(** where the path does not exist yet, the null item is created like any other key - with the branch below it -
    and only then passed over *)
Lemma ltd_skel' n st R : Forall (fun p => k2i = true -> isdigit (fst p) = false) ((n, st) :: R) ->
  list_to_dict_fwd k2i ((n, st) :: R) = Ok (VDict [(KS n, skeleton st R)]).
Proof.
  revert n st; induction R as [|[n' st'] R IH]; intros n st H; inversion H as [|? ? Hk Hp]; subst; cbn [fst] in Hk.
  - cbn [list_to_dict_fwd]. rewrite (path_key_plain k2i n Hk). cbn [rbind].
    simpl. destruct (Nat.eqb st 1); reflexivity.
  - specialize (IH n' st' Hp). remember ((n', st') :: R) as R' eqn:ER.
    cbn [list_to_dict_fwd]. rewrite (path_key_plain k2i n Hk). cbn [rbind].
    rewrite IH. cbn [rbind].
    destruct R' as [|r0 R0]; [discriminate|]. injection ER as -> ->.
    cbn [skeleton]. destruct (Nat.eqb st 1); reflexivity.
Qed.
Lemma skel_branch R s T : forall st, skeleton st (R ++ (U, s) :: T) = branch st R [(KS U, skeleton s T)].
Proof.
  induction R as [|[n st'] R IH]; intros st; cbn [app skeleton branch]; [reflexivity|]. now rewrite IH.
Qed.
Theorem null_missing mwl Q n st R s T E a d data :
  plain k2i (Q ++ (n, st) :: R) -> plain k2i T -> arrives (names Q) E a (VDict d) -> dget d (KS n) = None ->
  save_cur k2i mwl E (Q ++ (n, st) :: R ++ (U, s) :: T) data =
  do E1 <- save_cur k2i false E (Q ++ (n, st) :: R) (VDict [(KS U, skeleton s T)]);
  save_cur k2i mwl E1 (Q ++ (n, st) :: R ++ (U, s) :: T) data.
Proof.
  intros Hp HT Ha Hm. assert (Hw : dwf [(KS U, skeleton s T)]) by (repeat constructor; intros []).
  rewrite (save_missing k2i Q n st R E a d _ Hp Ha Hm Hw). cbn [rbind].
  pose proof Hp as Hp0. apply plain_app in Hp0 as [HpQ HpR]. pose proof HpR as HpR0. apply plain_cons in HpR0 as (Hn & Hk & HpR'). cbn [fst] in *.
  assert (Hdg : Forall (fun p => k2i = true -> isdigit (fst p) = false) ((n, st) :: R ++ (U, s) :: T)).
  { constructor; [exact Hk|]. apply Forall_app. split; [eapply Forall_impl; [|exact HpR']; cbn; tauto|].
    constructor; [reflexivity|]. eapply Forall_impl; [|exact HT]. cbn; tauto. }
  set (E1 := upd_at a (fun _ => VDict (d ++ [(KS n, branch st R [(KS U, skeleton s T)])])) E).
  assert (Ha1 : arrives (names Q) E1 a (VDict (d ++ [(KS n, branch st R [(KS U, skeleton s T)])]))).
  { unfold E1. exact (arrives_upd _ _ _ _ _ Ha). }
  unfold save_cur.
  assert (HD : dbp (Q ++ (n, st) :: R ++ (U, s) :: T) E = dbp (Q ++ (n, st) :: R ++ (U, s) :: T) E1).
  { rewrite (dbp_arrives k2i Q n st _ E a _ HpQ Ha), (dbp_arrives k2i Q n st _ E1 a _ HpQ Ha1).
    rewrite !dbp_key by assumption. unfold dict_step. rewrite Hm, (ltd_skel' n st _ Hdg), skel_branch. cbn [rbind].
    rewrite dupdate_cons. change (dupdate (dset d (KS n) (branch st R [(KS U, skeleton s T)])) []) with (dset d (KS n) (branch st R [(KS U, skeleton s T)])).
    rewrite <- (dset_fresh d) by exact Hm. rewrite dget_dset_same.
    destruct (dbp (R ++ (U, s) :: T) (branch st R [(KS U, skeleton s T)])) as [[v' oa]|]; [|reflexivity]. cbn [rbind].
    f_equal. f_equal. unfold E1. rewrite upd_at_twice. apply upd_at_ext. reflexivity. }
  rewrite HD. assert (HPp : popped (Q ++ (n, st) :: R ++ (U, s) :: T) E = popped (Q ++ (n, st) :: R ++ (U, s) :: T) E1).
  { destruct Q as [|[m t] Q]; cbn [app]; [rewrite !popped_cons by exact Hn; reflexivity|]. apply plain_cons in HpQ as (Hm' & _ & _). now rewrite !popped_cons. }
  now rewrite HPp.
Qed.
End Null.
