(** * SaveSpec: what a save does, in terms of reads before and after. *)
From Verif Require Import PyBase DictFacts Tree Results SpecTree ResultsFacts ResultsHist.

Lemma dget_app_other (d : dict) k k' v : k <> k' -> dget (d ++ [(k', v)]) k = dget d k.
Proof.
  intros H. induction d as [|[a x] d IH]; cbn [app dget].
  - destruct (key_eqb_spec k k') as [->|]; [congruence|reflexivity].
  - destruct (key_eqb k a); [reflexivity|exact IH].
Qed.

Lemma upd_changes_only a f : forall E, changes_only a E (upd_at a f E).
Proof.
  induction a as [|s a IH]; intros E c [H1 H2].
  - exfalso. apply H1. exact I.
  - destruct c as [|t c]; [exfalso; apply H2; exact I|].
    assert (HT : s <> t \/ s = t /\ unrelated a c).
    { destruct s as [k|i], t as [k'|i'].
      - destruct (key_eqb_spec k k') as [->|Hn].
        + right. split; [reflexivity|]. split; intros Hx; [apply H1|apply H2]; split; auto.
        + left. congruence.
      - left; discriminate.
      - left; discriminate.
      - destruct (Nat.eq_dec i i') as [->|Hn].
        + right. split; [reflexivity|]. split; intros Hx; [apply H1|apply H2]; split; auto.
        + left. congruence. }
    destruct s as [k|i].
    + cbn [upd_at]. destruct E as [| | | | |d|]; try reflexivity.
      destruct (dget d k) as [x|] eqn:Ek; [|reflexivity].
      destruct t as [k'|i']; cbn [get_at]; [|reflexivity].
      destruct HT as [Hn|[He Hu]].
      * rewrite dget_dset_other by congruence. reflexivity.
      * injection He as <-. rewrite dget_dset_same, Ek. now apply IH.
    + cbn [upd_at]. destruct E as [| | | |l| |]; try reflexivity.
      destruct t as [k'|i']; cbn [get_at]; [reflexivity|].
      rewrite nth_error_list_upd. destruct HT as [Hn|[He Hu]].
      * destruct (Nat.eqb_spec i i'); [congruence|reflexivity].
      * injection He as <-. rewrite Nat.eqb_refl. destruct (nth_error l i); cbn [option_map]; [|reflexivity]. now apply IH.
Qed.

Lemma above_app a b : above a (a ++ b).
Proof. induction a; simpl; auto. Qed.
Lemma above_refl a : above a a.
Proof. induction a; simpl; auto. Qed.

(** adding a fresh key below address [a] *)
Lemma grow_changes_only a : forall E d n x, get_at a E = Some (VDict d) -> dget d (KS n) = None ->
  changes_only (a ++ [SKey (KS n)]) E (upd_at a (fun _ => VDict (d ++ [(KS n, x)])) E).
Proof.
  intros E d n x Hg Hd c Hu.
  assert (upd_at a (fun _ => VDict (d ++ [(KS n, x)])) E =
          upd_at (a ++ [SKey (KS n)]) (fun _ => x) (upd_at a (fun _ => VDict (d ++ [(KS n, VNone)])) E)) as ->.
  { rewrite upd_at_app, upd_at_twice. apply upd_at_ext. intros y; clear y. cbn [upd_at].
    rewrite <- !(dset_fresh d) by exact Hd. rewrite dget_dset_same, dset_dset. reflexivity. }
  rewrite upd_changes_only by exact Hu.
  (* c is unrelated to the new key: either off [a], or above nothing *)
  revert E Hg c Hu. induction a as [|s a IH]; intros E Hg c Hu; cbn [app] in *.
  - injection Hg as ->. cbn [upd_at]. destruct Hu as [H1 H2].
    destruct c as [|[k|i] c]; [exfalso; apply H2; exact I| |reflexivity].
    cbn [get_at]. rewrite dget_app_other; [reflexivity|]. intros ->. apply H1. simpl; auto.
  - destruct c as [|t c]; [exfalso; apply (proj2 Hu); exact I|].
    destruct s as [k|i]; cbn [get_at upd_at] in *.
    + destruct E as [| | | | |e|]; try discriminate. destruct (dget e k) as [y|] eqn:Ek; [|discriminate].
      destruct t as [k'|i']; cbn [get_at]; [|reflexivity].
      destruct (key_eqb_spec k k') as [->|Hn].
      * rewrite dget_dset_same, Ek. apply IH; [exact Hg|]. destruct Hu as [H1 H2].
        split; intros Hx; [apply H1|apply H2]; split; auto.
      * rewrite dget_dset_other by congruence. reflexivity.
    + destruct E as [| | | |l| |]; try discriminate. destruct (nth_error l i) as [y|] eqn:Ek; [|discriminate].
      destruct t as [k'|i']; cbn [get_at]; [reflexivity|]. rewrite nth_error_list_upd.
      destruct (Nat.eqb_spec i i') as [->|Hn]; [|reflexivity].
      rewrite Ek. cbn [option_map]. apply IH; [exact Hg|]. destruct Hu as [H1 H2].
      split; intros Hx; [apply H1|apply H2]; split; auto.
Qed.

(** items of the list at [a] other than the appended one read the same *)
Lemma append_keeps_items a : forall E l x c w,
  get_at a E = Some (VList l) -> get_at c E = Some w -> ~ above c a ->
  get_at c (upd_at a (fun _ => VList (l ++ [x])) E) = Some w.
Proof.
  induction a as [|s a IH]; intros E l x c w Hg Hc Hn.
  - injection Hg as ->. destruct c as [|[k|i] c]; [exfalso; apply Hn; exact I|discriminate|].
    cbn [get_at upd_at] in *. destruct (nth_error l i) as [y|] eqn:Ei; [|discriminate].
    rewrite nth_error_app1, Ei; [exact Hc|]. apply nth_error_Some. congruence.
  - destruct c as [|t c]; [exfalso; apply Hn; exact I|].
    destruct s as [k|i]; cbn [get_at upd_at] in *.
    + destruct E as [| | | | |e|]; try discriminate. destruct (dget e k) as [y|] eqn:Ek; [|discriminate].
      destruct t as [k'|i']; cbn [get_at] in *; [|discriminate].
      destruct (key_eqb_spec k k') as [->|Hne].
      * rewrite dget_dset_same. rewrite Ek in Hc. apply IH; auto. intros Hx. apply Hn. split; auto.
      * rewrite dget_dset_other by congruence. exact Hc.
    + destruct E as [| | | |l0| |]; try discriminate. destruct (nth_error l0 i) as [y|] eqn:Ek; [|discriminate].
      destruct t as [k'|i']; cbn [get_at] in *; [discriminate|]. rewrite nth_error_list_upd.
      destruct (Nat.eqb_spec i i') as [->|Hne]; [|exact Hc].
      rewrite Ek in *. cbn [option_map]. apply IH; auto. intros Hx. apply Hn. split; auto.
Qed.

Section Save.
Variable k2i : bool.
Notation save := (save_cur k2i false).

(** C01, the list exists *)
Theorem append_existing P E a l r :
  plain k2i P -> reaches (names P) E a (VList l) -> r <> [] ->
  exists E', save E P (VDict r) = Ok E' /\
    reaches (names P) E' a (VList (l ++ [VDict r])) /\
    changes_only a E E' /\
    (forall c w, get_at c E = Some w -> ~ above c a -> get_at c E' = Some w).
Proof.
  intros Hp Hr Hn. exists (upd_at a (fun _ => VList (l ++ [VDict r])) E). split; [|split; [|split]].
  - rewrite (save_list k2i P E a l (VDict r) Hp Hr). destruct r; [congruence|reflexivity].
  - eapply reaches_upd; eauto.
  - apply upd_changes_only.
  - intros c w Hc Ha. apply append_keeps_items; auto. eapply reaches_get; eauto.
Qed.

(** C01, some key of the path is missing *)
Theorem append_created Q n st R E a d r :
  plain k2i (Q ++ (n, st) :: R) -> stars (Q ++ (n, st) :: R) = 1 ->
  arrives (names Q) E a (VDict d) -> dget d (KS n) = None -> dwf r -> r <> [] ->
  exists E' b, save E (Q ++ (n, st) :: R) (VDict r) = Ok E' /\
    reaches (names (Q ++ (n, st) :: R)) E' b (VList [VDict r]) /\ above (a ++ [SKey (KS n)]) b /\
    get_at (a ++ [SKey (KS n)]) E' = Some (branch st R r) /\
    changes_only (a ++ [SKey (KS n)]) E E'.
Proof.
  intros Hp Hst Ha Hd Hw Hn.
  exists (upd_at a (fun _ => VDict (d ++ [(KS n, branch st R r)])) E), (a ++ SKey (KS n) :: skel_addr st R).
  split; [|split; [|split; [|split]]].
  - now apply save_missing.
  - rewrite branch_graft. rewrite stars_last in Hst. rewrite Hst. cbn [Nat.eqb].
    destruct r as [|kv r]; [congruence|].
    apply (grown_reaches Q R n st E a d Ha Hd (VList [VDict (kv :: r)])).
  - replace (a ++ SKey (KS n) :: skel_addr st R) with ((a ++ [SKey (KS n)]) ++ skel_addr st R)
      by (rewrite <- app_assoc; reflexivity). apply above_app.
  - rewrite get_at_app. rewrite (get_upd_same a _ E (VDict d)) by (eapply arrives_get; eauto).
    rewrite <- (dset_fresh d) by exact Hd. cbn [get_at]. now rewrite dget_dset_same.
  - apply grow_changes_only; [eapply arrives_get; eauto|exact Hd].
Qed.

(** C01, the path goes on into a list that is still empty *)
Theorem append_in_empty_list Q n st R E a r :
  plain k2i (Q ++ (n, st) :: R) -> stars (Q ++ (n, st) :: R) = 1 ->
  arrives (names Q) E a (VList []) -> dwf r -> r <> [] ->
  exists E', save E (Q ++ (n, st) :: R) (VDict r) = Ok E' /\
    get_at a E' = Some (VList [VDict [(KS n, branch st R r)]]) /\
    changes_only a E E'.
Proof.
  intros Hp Hst Ha Hw Hn.
  exists (upd_at a (fun _ => VList [VDict [(KS n, branch st R r)]]) E). split; [|split].
  - now apply save_empty_list.
  - erewrite get_upd_same; [reflexivity|]. eapply arrives_get; eauto.
  - apply upd_changes_only.
Qed.

(** the tree after a whole history: what is at the path, and nothing else moved *)
Lemma grown_spec Q R n st E a d leaf :
  arrives (names Q) E a (VDict d) -> dget d (KS n) = None ->
  (exists b, reaches (names (Q ++ (n, st) :: R)) (grown E a d n st R leaf) b leaf /\ above (a ++ [SKey (KS n)]) b) /\
  changes_only (a ++ [SKey (KS n)]) E (grown E a d n st R leaf).
Proof.
  intros Ha Hd. split.
  - exists (a ++ SKey (KS n) :: skel_addr st R). split; [now apply grown_reaches|].
    replace (a ++ SKey (KS n) :: skel_addr st R) with ((a ++ [SKey (KS n)]) ++ skel_addr st R)
      by (rewrite <- app_assoc; reflexivity). apply above_app.
  - apply grow_changes_only; [eapply arrives_get; eauto|exact Hd].
Qed.

Theorem star_history Q n st R E a d r rs :
  plain k2i (Q ++ (n, st) :: R) -> stars (Q ++ (n, st) :: R) = 1 ->
  arrives (names Q) E a (VDict d) -> dget d (KS n) = None -> dwf r ->
  exists E' b, save_all k2i (Q ++ (n, st) :: R) (r :: rs) E = Ok E' /\
    reaches (names (Q ++ (n, st) :: R)) E' b (VList (map VDict (filter nonempty (r :: rs)))) /\
    above (a ++ [SKey (KS n)]) b /\ changes_only (a ++ [SKey (KS n)]) E E'.
Proof.
  intros Hp Hst Ha Hd Hw.
  destruct (grown_spec Q R n st E a d (VList (map VDict (filter nonempty (r :: rs)))) Ha Hd) as [(b & H1 & H2) H3].
  eexists _, b. split; [|split; [exact H1|split; [exact H2|exact H3]]]. now apply hist_star.
Qed.

Theorem plain_history Q n st R E a d r rs :
  plain k2i (Q ++ (n, st) :: R) -> stars (Q ++ (n, st) :: R) = 0 ->
  arrives (names Q) E a (VDict d) -> dget d (KS n) = None -> flat a = true -> dwf r ->
  Forall (fun r => r <> []) (r :: rs) ->
  exists E' b, save_all k2i (Q ++ (n, st) :: R) (r :: rs) E = Ok E' /\
    reaches (names (Q ++ (n, st) :: R)) E' b (match rs with [] => VDict r | _ => VList (map VDict (r :: rs)) end) /\
    above (a ++ [SKey (KS n)]) b /\ changes_only (a ++ [SKey (KS n)]) E E'.
Proof.
  intros Hp Hst Ha Hd Hf Hw Hn.
  destruct (grown_spec Q R n st E a d (plain_value (r :: rs)) Ha Hd) as [(b & H1 & H2) H3].
  eexists _, b. split; [|split; [|split; [exact H2|exact H3]]].
  - apply hist_plain; auto; rewrite Hst; discriminate.
  - destruct rs; exact H1.
Qed.

Theorem starstar_history Q n st R E a d r rs :
  plain k2i (Q ++ (n, st) :: R) -> stars (Q ++ (n, st) :: R) = 2 ->
  arrives (names Q) E a (VDict d) -> dget d (KS n) = None -> Forall dwf (r :: rs) ->
  exists E' b m, save_all k2i (Q ++ (n, st) :: R) (r :: rs) E = Ok E' /\
    reaches (names (Q ++ (n, st) :: R)) E' b (VDict m) /\ dwf m /\
    (forall k, dget m k = first_wins (r :: rs) k) /\
    above (a ++ [SKey (KS n)]) b /\ changes_only (a ++ [SKey (KS n)]) E E'.
Proof.
  intros Hp Hst Ha Hd Hw. destruct (hist_starstar k2i Q R n st E a d Hp Ha Hd r rs Hst Hw) as (m & H & Hm & Hk).
  destruct (grown_spec Q R n st E a d (VDict m) Ha Hd) as [(b & H1 & H2) H3].
  eexists _, b, m. split; [exact H|]. auto 10.
Qed.

(** second record on a plain path *)
Theorem plain_second P E a e r :
  stars P <> 2 -> plain k2i P -> reaches (names P) E a (VDict e) -> e <> [] -> flat a = true -> P <> [] ->
  exists E', save E P (VDict r) = Ok E' /\
    reaches (names P) E' a (VList [VDict e; VDict r]) /\ changes_only a E E'.
Proof.
  intros H1 H2 H3 H4 H5 H6. exists (upd_at a (fun _ => VList [VDict e; VDict r]) E). split; [|split].
  - now apply save_dict_full.
  - eapply reaches_upd; eauto.
  - apply upd_changes_only.
Qed.

Theorem starstar_existing P E a e r :
  stars P = 2 -> plain k2i P -> reaches (names P) E a (VDict e) -> dwf e -> dwf r ->
  exists E' m, save E P (VDict r) = Ok E' /\ reaches (names P) E' a (VDict m) /\
    (forall k, dget m k = match dget e k with Some v => Some v | None => dget r k end) /\ changes_only a E E'.
Proof.
  intros H1 H2 H3 H4 H5. exists (upd_at a (fun _ => VDict (dupdate e (dupdate r e))) E), (dupdate e (dupdate r e)).
  split; [|split; [|split]].
  - now apply save_starstar.
  - eapply reaches_upd; eauto.
  - intros k. now apply union_get.
  - apply upd_changes_only.
Qed.

(** ** The null path item at the end of a path *)
Lemma vtl_null Q : forall E a d st r, plain false Q -> reaches (names Q) E a (VDict d) -> flat a = true ->
  value_to_list E (Q ++ [($"_", st)]) (VDict r) = Ok (upd_at a (fun _ => VDict (dupdate d r)) E).
Proof.
  induction Q as [|[n s] Q IH]; intros E a d st r Hp Hr Hf.
  - inversion Hr; subst. reflexivity.
  - apply plain_cons in Hp as (Hn & _ & Hp). cbn [fst] in Hn.
    cbn [app value_to_list]. rewrite (proj2 (str_eqb_neq n underscore)) by exact Hn.
    cbn [names map fst] in Hr. inversion Hr as [|? ? d0 x a0 w Hg Hr'|? ? l x a0 w Hr']; subst.
    + cbn [vstep]. rewrite Hg. rewrite (IH x a0 d st r Hp Hr') by exact Hf.
      cbn [rbind upd_at]. now rewrite Hg.
    + inversion Hr' as [|? ? d0 y a1 w Hg Hr''|? ? l' y a1 w Hr'']; subst; [|discriminate].
      cbn [vstep]. rewrite opt_last_app. cbn [py_in rbind].
      unfold dmem. rewrite Hg. rewrite (IH y a1 d st r Hp Hr'') by exact Hf.
      cbn [rbind upd_at]. rewrite list_upd_app, set_last_app. cbn [upd_at]. now rewrite Hg.
Qed.

Theorem null_merges Q st E a d r :
  Q <> [] -> plain k2i Q -> st <> 2 -> reaches (names Q) E a (VDict d) -> flat a = true ->
  save E (Q ++ [($"_", st)]) (VDict r) = Ok (upd_at a (fun _ => VDict (dupdate d r)) E).
Proof.
  intros Hne Hp Hst Hr Hf. unfold save_cur.
  rewrite (dbp_reaches k2i Q [($"_", st)] E a (VDict d) Hp Hr).
  assert (dict_by_path k2i [($"_", st)] (VDict d) = Ok (VDict d, Some [])) as ->.
  { cbn [dict_by_path to_last]. rewrite path_key_plain by reflexivity. reflexivity. }
  cbn [rbind option_map]. rewrite app_nil_r, upd_at_id by (eapply reaches_get; eauto).
  rewrite (reaches_get _ _ _ _ Hr).
  assert (popped (Q ++ [($"_", st)]) E = Q ++ [($"_", st)]) as ->.
  { destruct Q as [|[n s] Q]; [congruence|]. apply plain_cons in Hp as (Hn & _ & _). cbn [fst] in Hn.
    unfold popped. cbn [app]. rewrite (proj2 (str_eqb_neq n underscore)) by exact Hn.
    destruct (Q ++ [($"_", st)]); [reflexivity|]. destruct (snd (to_last E)); reflexivity. }
  rewrite opt_last_app. destruct (Nat.eqb_spec st 2); [congruence|].
  destruct d as [|kv d].
  - reflexivity.
  - apply vtl_null; auto. now apply (plain_false k2i).
Qed.

(** ** The null path item in front of a path *)
Theorem null_first st P n s R d data :
  P = (n, s) :: R -> n <> $"_" -> (k2i = true -> isdigit n = false) ->
  save (VDict d) (($"_", st) :: P) data = save (VDict d) P data.
Proof.
  intros -> Hn Hd. unfold save_cur.
  assert (dict_by_path k2i (($"_", st) :: (n, s) :: R) (VDict d) = dict_by_path k2i ((n, s) :: R) (VDict d)) as ->.
  { rewrite (dbp_key k2i n s R d Hn Hd). cbn [dict_by_path to_last]. rewrite path_key_plain by reflexivity.
    cbn [rbind]. change (key_eqb (KS $"_") (KS underscore)) with true. cbn [upd_at].
    destruct (dict_step k2i d (KS n) ((n, s) :: R) (dict_by_path k2i R)) as [[T b]|]; [|reflexivity].
    cbn [rbind]. now destruct b. }
  assert (popped (($"_", st) :: (n, s) :: R) (VDict d) = popped ((n, s) :: R) (VDict d)) as ->.
  { unfold popped. cbn [to_last snd]. change (str_eqb $"_" underscore) with true. cbv iota.
    destruct R; [reflexivity|]. now rewrite (proj2 (str_eqb_neq n underscore)). }
  reflexivity.
Qed.
End Save.

(** ** dynamic_path_key_to_int changes nothing for paths without digit-only keys *)
Lemma path_key_k2i n : isdigit n = false -> path_key true n = path_key false n.
Proof. intros H. unfold path_key. now rewrite H. Qed.
Lemma ltd_k2i P : Forall (fun p => isdigit (fst p) = false) P -> list_to_dict_fwd true P = list_to_dict_fwd false P.
Proof.
  induction P as [|[n st] P IH]; intros H; [reflexivity|]. inversion H as [|? ? Hn HP]; subst. cbn [fst] in Hn.
  cbn [list_to_dict_fwd]. rewrite (path_key_k2i n Hn), (IH HP). reflexivity.
Qed.
Lemma dict_step_ext k2 d k P f g : (forall x, f x = g x) -> dict_step k2 d k P f = dict_step k2 d k P g.
Proof.
  intros H. unfold dict_step. destruct (dget d k); [now rewrite H|].
  destruct (list_to_dict_fwd k2 P) as [nb|]; [|reflexivity]. cbn [rbind]. destruct nb; try reflexivity.
  destruct (dget _ k); [now rewrite H|reflexivity].
Qed.
Lemma dict_step_k2i d k P f : Forall (fun p => isdigit (fst p) = false) P ->
  dict_step true d k P f = dict_step false d k P f.
Proof. intros H. unfold dict_step. now rewrite (ltd_k2i P H). Qed.
Lemma dbp_k2i_aux m : forall P E, length P <= m -> Forall (fun p => isdigit (fst p) = false) P ->
  dict_by_path true P E = dict_by_path false P E.
Proof.
  induction m as [|m IH]; intros P E Hl H; destruct P as [|[n st] P1]; try reflexivity; cbn [length] in Hl; [lia|].
  pose proof H as H0. inversion H as [|? ? Hn HP]; subst. cbn [fst] in Hn.
  cbn [dict_by_path]. rewrite (path_key_k2i n Hn), (ltd_k2i _ H0).
  destruct (to_last E) as [a0 T].
  assert (HD : forall d,
    (do k0 <- path_key false n;
     if key_eqb k0 (KS underscore)
     then match P1 with [] => Ok (VDict d, Some []) | (n2, _) :: P2 => dict_step true d (KS n2) P1 (dict_by_path true P2) end
     else dict_step true d k0 ((n, st) :: P1) (dict_by_path true P1)) =
    (do k0 <- path_key false n;
     if key_eqb k0 (KS underscore)
     then match P1 with [] => Ok (VDict d, Some []) | (n2, _) :: P2 => dict_step false d (KS n2) P1 (dict_by_path false P2) end
     else dict_step false d k0 ((n, st) :: P1) (dict_by_path false P1))).
  { intros d. destruct (path_key false n) as [k0|]; [|reflexivity]. cbn [rbind].
    destruct (key_eqb k0 (KS underscore)).
    - destruct P1 as [|[n2 s2] P2]; [reflexivity|]. rewrite (dict_step_k2i _ _ _ _ HP).
      apply dict_step_ext. intros x. inversion HP; subst. apply IH; [cbn [length] in Hl; lia|assumption].
    - rewrite (dict_step_k2i _ _ _ _ H0). apply dict_step_ext. intros x. apply IH; [lia|assumption]. }
  destruct T as [| | | |l|d|]; try reflexivity.
  - destruct (list_to_dict_fwd false ((n, st) :: P1)) as [nb|]; [|reflexivity]. cbn [rbind].
    destruct nb; try reflexivity. now rewrite HD.
  - now rewrite HD.
Qed.

Theorem k2i_irrelevant mwl E P data :
  Forall (fun p => isdigit (fst p) = false) P -> save_cur true mwl E P data = save_cur false mwl E P data.
Proof. intros H. unfold save_cur. rewrite (dbp_k2i_aux (length P) P E (le_n _) H). reflexivity. Qed.
