From Verif Require Import PyBase DictFacts Regex Tree Results SpecTree.

Section TreeFacts.
Lemma list_upd_app {A} (l : list A) x f : list_upd (l ++ [x]) (length l) f = l ++ [f x].
Proof. induction l as [|y l IH]; simpl; congruence. Qed.
Lemma nth_error_mid {A} (l : list A) x : nth_error (l ++ [x]) (length l) = Some x.
Proof. rewrite nth_error_app2 by lia. now rewrite PeanoNat.Nat.sub_diag. Qed.
Lemma nth_error_list_upd {A} (l : list A) i j f :
  nth_error (list_upd l i f) j = if Nat.eqb i j then option_map f (nth_error l j) else nth_error l j.
Proof.
  revert i j; induction l as [|x l IH]; intros [|i] [|j]; simpl; auto.
  now destruct (Nat.eqb i j).
Qed.
Lemma list_upd_twice {A} (l : list A) i f g : list_upd (list_upd l i f) i g = list_upd l i (fun x => g (f x)).
Proof. revert i; induction l as [|x l IH]; intros [|i]; simpl; congruence. Qed.
Lemma list_upd_ext {A} (l : list A) i f g : (forall x, f x = g x) -> list_upd l i f = list_upd l i g.
Proof. intros H. revert i; induction l as [|x l IH]; intros [|i]; simpl; congruence. Qed.

Lemma get_at_app a b v : get_at (a ++ b) v = match get_at a v with Some w => get_at b w | None => None end.
Proof.
  revert v; induction a as [|[k|i] a IH]; intros v; simpl; auto.
  - destruct v; auto. destruct (dget d k); auto.
  - destruct v; auto. destruct (nth_error l i); auto.
Qed.
Lemma upd_at_ext a f g v : (forall x, f x = g x) -> upd_at a f v = upd_at a g v.
Proof.
  intros H; revert v; induction a as [|[k|i] a IH]; intros v; simpl; auto.
  - destruct v; auto. destruct (dget d k); auto. now rewrite IH.
  - destruct v; auto. f_equal. now apply list_upd_ext.
Qed.
Lemma upd_at_app a b f v : upd_at (a ++ b) f v = upd_at a (upd_at b f) v.
Proof.
  revert v; induction a as [|[k|i] a IH]; intros v; simpl; auto.
  - destruct v; auto. destruct (dget d k); auto. now rewrite IH.
  - destruct v; auto. f_equal. apply list_upd_ext. auto.
Qed.
Lemma get_upd_same a f v w : get_at a v = Some w -> get_at a (upd_at a f v) = Some (f w).
Proof.
  revert v; induction a as [|[k|i] a IH]; intros v; simpl; [congruence| |].
  - destruct v; try discriminate. destruct (dget d k) eqn:E; try discriminate. intros H.
    simpl. rewrite dget_dset_same. auto.
  - destruct v; try discriminate. destruct (nth_error l i) eqn:E; try discriminate. intros H.
    simpl. rewrite nth_error_list_upd, PeanoNat.Nat.eqb_refl, E. simpl. auto.
Qed.
Lemma upd_at_twice a f g v : upd_at a g (upd_at a f v) = upd_at a (fun x => g (f x)) v.
Proof.
  revert v; induction a as [|[k|i] a IH]; intros v; simpl; auto.
  - destruct v; auto. destruct (dget d k) eqn:E.
    + simpl. now rewrite dget_dset_same, dset_dset, IH.
    + simpl. now rewrite E.
  - destruct v; auto. simpl. rewrite list_upd_twice. f_equal. apply list_upd_ext. auto.
Qed.
Lemma upd_at_id a v w : get_at a v = Some w -> upd_at a (fun _ => w) v = v.
Proof.
  revert v; induction a as [|[k|i] a IH]; intros v; simpl; [congruence| |].
  - destruct v; auto. destruct (dget d k) eqn:E; auto. intros H. rewrite (IH _ H). now rewrite dset_same.
  - destruct v; auto. destruct (nth_error l i) as [x|] eqn:E; [|discriminate]. intros H. f_equal.
    revert i E; induction l as [|y l IHl]; intros [|i] E; simpl in *; try discriminate.
    + injection E as ->. f_equal. auto.
    + f_equal. auto.
Qed.
Lemma get_upd_frame a b f v w :
  unrelated a b -> get_at b v = Some w -> get_at b (upd_at a f v) = Some w.
Proof.
  revert b v; induction a as [|s a IH]; intros b v [Hab Hba] Hg; [exfalso; apply Hab; exact I|].
  destruct b as [|t b]; [exfalso; apply Hba; exact I|].
  destruct s as [k|i], t as [k'|j]; simpl in Hg |- *.
  - destruct v; try discriminate. destruct (dget d k) eqn:E; [|exact Hg].
    rewrite dget_dset. destruct (key_eqb_spec k' k) as [->|Hk].
    + rewrite E in Hg. apply IH; [|exact Hg]. split; intros H; [apply Hab | apply Hba]; simpl; auto.
    + exact Hg.
  - destruct v; try discriminate. exact Hg.
  - destruct v; try discriminate. exact Hg.
  - destruct v; try discriminate. rewrite nth_error_list_upd. destruct (Nat.eqb_spec i j) as [->|Hij]; [|exact Hg].
    destruct (nth_error l j) eqn:E; [|discriminate]. simpl.
    apply IH; [|exact Hg]. split; intros H; [apply Hab | apply Hba]; simpl; auto.
Qed.
End TreeFacts.

Lemma reaches_get P v a w : reaches P v a w -> get_at a v = Some w.
Proof.
  induction 1; simpl; auto.
  - now rewrite H.
  - now rewrite nth_error_mid.
Qed.

(** ** to_last and dict_by_path on lists *)
Lemma to_last_snoc l x : to_last (VList (l ++ [x])) = (SIdx (length l) :: fst (to_last x), snd (to_last x)).
Proof.
  simpl.
  assert (H : forall l i, (fix go (l0 : list val) (i : nat) {struct l0} : addr * val :=
     match l0 with
     | [] => ([], VList [])
     | [x0] => let (a, t) := to_last x0 in (SIdx i :: a, t)
     | x0 :: (_ :: _) as t => go t (S i)
     end) (l ++ [x]) i = (SIdx (i + length l) :: fst (to_last x), snd (to_last x))).
  { clear l. induction l as [|y l IH]; intros i; simpl.
    - destruct (to_last x). simpl. now rewrite PeanoNat.Nat.add_0_r.
    - rewrite IH. rewrite PeanoNat.Nat.add_succ_r. destruct l; reflexivity. }
  apply H.
Qed.

Lemma enters_get v a w : enters v a w -> get_at a v = Some w.
Proof. induction 1; simpl; auto. now rewrite nth_error_mid. Qed.
Lemma arrives_get P v a w : arrives P v a w -> get_at a v = Some w.
Proof.
  intros (a1 & a2 & u & Hr & He & ->). rewrite get_at_app, (reaches_get _ _ _ _ Hr). now apply enters_get.
Qed.
Lemma upd_at_ext_at a f g v w : get_at a v = Some w -> f w = g w -> upd_at a f v = upd_at a g v.
Proof.
  revert v; induction a as [|[k|i] a IH]; intros v; simpl; [congruence| |].
  - destruct v; auto. destruct (dget d k); auto. intros H1 H2. now rewrite (IH _ H1 H2).
  - destruct v as [| | | |l| |]; auto. destruct (nth_error l i) as [x|] eqn:E; [|discriminate]. intros H1 H2. f_equal.
    revert i E; induction l as [|y l IHl]; intros [|i] E; simpl in *; try discriminate.
    + injection E as ->. f_equal. auto.
    + f_equal. auto.
Qed.

Section Save.
Variable k2i : bool.
Notation dbp := (dict_by_path k2i).

Lemma dbp_last n st P l x :
  dbp ((n, st) :: P) (VList (l ++ [x])) =
  do (x', a) <- dbp ((n, st) :: P) x;
  Ok (VList (l ++ [x']), option_map (cons (SIdx (length l))) a).
Proof.
  set (Q := (n, st) :: P). unfold Q. cbn [dict_by_path]. fold Q.
  rewrite to_last_snoc. destruct (to_last x) as [a0 T] eqn:ET. cbn [fst snd].
  destruct T; try (cbn [rbind option_map]; reflexivity).
  - (* empty list *)
    destruct (list_to_dict_fwd k2i Q) as [[| | | | |nd|]|] eqn:EL; try reflexivity. cbn [rbind].
    match goal with |- context [rbind ?m _] => destruct m as [[T' a]|] eqn:EM end; [|reflexivity].
    cbn [rbind upd_at]. rewrite list_upd_app. f_equal. f_equal.
    destruct a; reflexivity.
  - match goal with |- context [rbind ?m _] => destruct m as [[T' a]|] eqn:EM end; [|reflexivity].
    cbn [rbind upd_at]. rewrite list_upd_app. f_equal. f_equal.
    destruct a; reflexivity.
Qed.

Lemma dbp_nil_list n st P :
  dbp ((n, st) :: P) (VList []) =
  do nb <- list_to_dict_fwd k2i ((n, st) :: P);
  match nb with
  | VDict nd => do (T', a) <- dbp ((n, st) :: P) (VDict nd);
                Ok (VList [T'], option_map (cons (SIdx 0)) a)
  | _ => Raise TypeError
  end.
Proof.
  set (Q := (n, st) :: P). unfold Q. cbn [dict_by_path to_last]. fold Q.
  destruct (list_to_dict_fwd k2i Q) as [[| | | | |nd|]|]; try reflexivity. cbn [rbind].
  match goal with |- rbind ?m _ = _ => destruct m as [[T' [a|]]|]; reflexivity end.
Qed.

Lemma path_key_plain n : (k2i = true -> isdigit n = false) -> path_key k2i n = Ok (KS n).
Proof.
  unfold path_key. destruct k2i; simpl; [|reflexivity]. intros H. now rewrite H.
Qed.

Lemma dbp_key n st P d :
  n <> $"_" -> (k2i = true -> isdigit n = false) ->
  dbp ((n, st) :: P) (VDict d) = dict_step k2i d (KS n) ((n, st) :: P) (dbp P).
Proof.
  intros Hn Hd. cbn [dict_by_path to_last]. rewrite (path_key_plain _ Hd). cbn [rbind].
  assert (key_eqb (KS n) (KS underscore) = false) as ->.
  { apply key_eqb_neq. unfold underscore. congruence. }
  destruct (dict_step k2i d (KS n) ((n, st) :: P) (dbp P)) as [[T' a]|]; [|reflexivity].
  cbn [rbind upd_at]. destruct a; reflexivity.
Qed.

Lemma plain_cons p P : plain k2i (p :: P) ->
  fst p <> $"_" /\ (k2i = true -> isdigit (fst p) = false) /\ plain k2i P.
Proof. intros H. inversion H; subst. tauto. Qed.
Lemma plain_app P Q : plain k2i (P ++ Q) <-> plain k2i P /\ plain k2i Q.
Proof. apply Forall_app. Qed.

(** composition: first follow the existing part of the path *)
Lemma dbp_reaches Q R E a w :
  plain k2i Q -> reaches (names Q) E a w ->
  dbp (Q ++ R) E =
  do (w', b) <- dbp R w; Ok (upd_at a (fun _ => w') E, option_map (app a) b).
Proof.
  intros Hp Hr. remember (names Q) as NQ eqn:HN. revert Q HN Hp.
  induction Hr as [v|n P d x a w Hd Hr IH|n P l x a w Hr IH]; intros Q HN Hp.
  - destruct Q; [|discriminate]. simpl app.
    destruct (dbp R v) as [[w' b]|]; [|reflexivity]. simpl. destruct b; reflexivity.
  - destruct Q as [|[n' st] Q]; [discriminate|]. injection HN as -> ->.
    apply plain_cons in Hp as (Hn & Hk & Hp). simpl fst in *.
    cbn [app]. rewrite dbp_key by assumption. unfold dict_step. rewrite Hd.
    rewrite (IH Q eq_refl Hp). destruct (dbp R w) as [[w' b]|]; [|reflexivity].
    cbn [rbind upd_at]. rewrite Hd. destruct b; reflexivity.
  - destruct Q as [|[n' st] Q]; [discriminate|]. injection HN as -> HP.
    cbn [app]. rewrite dbp_last.
    specialize (IH ((n', st) :: Q)). cbn [app] in IH. rewrite IH; [|simpl; congruence|exact Hp].
    destruct (dbp R w) as [[w' b]|]; [|reflexivity].
    cbn [rbind upd_at]. rewrite list_upd_app. destruct b; reflexivity.
Qed.

Lemma dbp_enters n st R u a w : enters u a w ->
  dbp ((n, st) :: R) u =
  do (w', b) <- dbp ((n, st) :: R) w; Ok (upd_at a (fun _ => w') u, option_map (app a) b).
Proof.
  induction 1 as [v|l x a w H IH].
  - destruct (dbp ((n, st) :: R) v) as [[w' [b|]]|]; reflexivity.
  - rewrite dbp_last, IH. destruct (dbp ((n, st) :: R) w) as [[w' b]|]; [|reflexivity].
    cbn [rbind upd_at]. rewrite list_upd_app. destruct b; reflexivity.
Qed.

Lemma dbp_arrives Q n st R E a w :
  plain k2i Q -> arrives (names Q) E a w ->
  dbp (Q ++ (n, st) :: R) E =
  do (w', b) <- dbp ((n, st) :: R) w; Ok (upd_at a (fun _ => w') E, option_map (app a) b).
Proof.
  intros Hp (a1 & a2 & u & Hr & He & ->). rewrite (dbp_reaches Q _ E a1 u Hp Hr).
  rewrite (dbp_enters n st R u a2 w He). destruct (dbp ((n, st) :: R) w) as [[w' b]|]; [|reflexivity].
  cbn [rbind]. rewrite upd_at_app. f_equal. f_equal.
  - apply (upd_at_ext_at a1 _ _ E u); [now apply (reaches_get _ _ _ _ Hr)|reflexivity].
  - destruct b as [b|]; [|reflexivity]. cbn [option_map]. now rewrite app_assoc.
Qed.

(** the freshly created branch, and where its end is *)
Fixpoint skeleton (st : nat) (rest : list pitem) : val :=
  match rest with
  | [] => if Nat.eqb st 1 then VList [] else VDict []
  | (n, st') :: rest' =>
      let inner := VDict [(KS n, skeleton st' rest')] in
      if Nat.eqb st 1 then VList [inner] else inner
  end.
Fixpoint skel_addr (st : nat) (rest : list pitem) : addr :=
  match rest with
  | [] => []
  | (n, st') :: rest' =>
      let inner := SKey (KS n) :: skel_addr st' rest' in
      if Nat.eqb st 1 then SIdx 0 :: inner else inner
  end.

Definition last_st (R : list pitem) (st : nat) : nat :=
  match opt_last R with Some p => snd p | None => st end.
Lemma last_st_cons n' st' R st : last_st ((n', st') :: R) st = last_st R st'.
Proof.
  unfold last_st. destruct R as [|p R]; [reflexivity|]. rewrite opt_last_cons.
  destruct (opt_last (p :: R)) eqn:E; [reflexivity|]. apply opt_last_None in E; discriminate.
Qed.
Lemma stars_last Q n st R : stars (Q ++ (n, st) :: R) = last_st R st.
Proof.
  unfold stars, last_st. destruct (opt_last R) as [[m x]|] eqn:E.
  - apply opt_last_Some in E as [R' ->].
    replace (Q ++ (n, st) :: R' ++ [(m, x)]) with ((Q ++ (n, st) :: R') ++ [(m, x)]) by now rewrite <- app_assoc.
    rewrite opt_last_app. reflexivity.
  - apply opt_last_None in E as ->. rewrite opt_last_app. reflexivity.
Qed.

Lemma ltd_skel n st R : plain k2i ((n, st) :: R) ->
  list_to_dict_fwd k2i ((n, st) :: R) = Ok (VDict [(KS n, skeleton st R)]).
Proof.
  revert n st; induction R as [|[n' st'] R IH]; intros n st H; apply plain_cons in H as (Hn & Hk & Hp).
  - cbn [list_to_dict_fwd]. simpl fst in *. rewrite (path_key_plain _ Hk). cbn [rbind].
    simpl. destruct (Nat.eqb st 1); reflexivity.
  - specialize (IH n' st' Hp). remember ((n', st') :: R) as R' eqn:ER.
    cbn [list_to_dict_fwd]. simpl fst in *. rewrite (path_key_plain _ Hk). cbn [rbind].
    rewrite IH. cbn [rbind].
    destruct R' as [|r0 R0]; [discriminate|]. injection ER as -> ->.
    cbn [skeleton]. destruct (Nat.eqb st 1); reflexivity.
Qed.

Lemma skel_dbp R : forall st, plain k2i R ->
  dbp R (skeleton st R) = Ok (skeleton st R, Some (skel_addr st R)).
Proof.
  induction R as [|[n' st'] R IH]; intros st H.
  - cbn [dict_by_path skeleton skel_addr]. reflexivity.
  - apply plain_cons in H as (Hn & Hk & Hp). simpl fst in *. cbn [skeleton skel_addr].
    assert (HD : dbp ((n', st') :: R) (VDict [(KS n', skeleton st' R)])
            = Ok (VDict [(KS n', skeleton st' R)], Some (SKey (KS n') :: skel_addr st' R))).
    { rewrite dbp_key by assumption. unfold dict_step. cbn [dget]. rewrite key_eqb_refl.
      rewrite (IH st' Hp). cbn [rbind dset]. rewrite key_eqb_refl. reflexivity. }
    destruct (Nat.eqb st 1); [|exact HD].
    change [VDict [(KS n', skeleton st' R)]] with ([] ++ [VDict [(KS n', skeleton st' R)]]).
    rewrite dbp_last, HD. reflexivity.
Qed.

Lemma skel_get R : forall st, get_at (skel_addr st R) (skeleton st R)
   = Some (if Nat.eqb (last_st R st) 1 then VList [] else VDict []).
Proof.
  induction R as [|[n' st'] R IH]; intros st.
  - reflexivity.
  - cbn [skeleton skel_addr].
    assert (HD : get_at (SKey (KS n') :: skel_addr st' R) (VDict [(KS n', skeleton st' R)]) =
        Some (if Nat.eqb (last_st ((n', st') :: R) st) 1 then VList [] else VDict [])).
    { cbn [get_at dget]. rewrite key_eqb_refl, IH, last_st_cons. reflexivity. }
    destruct (Nat.eqb st 1); [|exact HD]. cbn [get_at nth_error]. exact HD.
Qed.

Lemma dset_fresh (d : dict) k v : dget d k = None -> dset d k v = d ++ [(k, v)].
Proof.
  induction d as [|[j w] d IH]; simpl; [reflexivity|]. destruct (key_eqb k j) eqn:E; [discriminate|].
  intros H. now rewrite IH.
Qed.

Lemma dbp_missing n st R d :
  plain k2i ((n, st) :: R) -> dget d (KS n) = None ->
  dbp ((n, st) :: R) (VDict d) =
  Ok (VDict (d ++ [(KS n, skeleton st R)]), Some (SKey (KS n) :: skel_addr st R)).
Proof.
  intros H Hd. pose proof H as H0. apply plain_cons in H0 as (Hn & Hk & Hp). simpl fst in *.
  rewrite dbp_key by assumption. unfold dict_step. rewrite Hd, (ltd_skel _ _ _ H). cbn [rbind].
  rewrite dupdate_single, dget_dset_same, (skel_dbp R st Hp). cbn [rbind option_map].
  rewrite dset_dset. now rewrite dset_fresh.
Qed.

Lemma dbp_empty_list n st R :
  plain k2i ((n, st) :: R) ->
  dbp ((n, st) :: R) (VList []) =
  Ok (VList [VDict [(KS n, skeleton st R)]], Some (SIdx 0 :: SKey (KS n) :: skel_addr st R)).
Proof.
  intros H. pose proof (dbp_missing n st R [] H eq_refl) as HM.
  pose proof H as H0. apply plain_cons in H0 as (Hn & Hk & Hp). simpl fst in *.
  assert (HD : dbp ((n, st) :: R) (VDict [(KS n, skeleton st R)])
            = Ok (VDict [(KS n, skeleton st R)], Some (SKey (KS n) :: skel_addr st R))).
  { rewrite dbp_key by assumption. unfold dict_step. cbn [dget]. rewrite key_eqb_refl.
    rewrite (skel_dbp R st Hp). cbn [rbind dset]. rewrite key_eqb_refl. reflexivity. }
  rewrite dbp_nil_list, (ltd_skel n st R H). cbn [rbind]. rewrite HD. reflexivity.
Qed.

Lemma dbp_scalar n st R v : scalar v = true -> dbp ((n, st) :: R) v = Ok (v, None).
Proof. destruct v; simpl; try discriminate; reflexivity. Qed.

Lemma popped_plain P E : plain k2i P -> popped P E = P.
Proof.
  destruct P as [|[n st] [|p P]]; try reflexivity. intros H. apply plain_cons in H as (Hn & _ & _).
  simpl. assert (str_eqb n underscore = false) as -> by (apply str_eqb_neq; exact Hn).
  destruct (snd (to_last E)); reflexivity.
Qed.

(** ** the save cases *)
Notation save := (save_cur k2i false).

(** filling the end of a fresh branch gives [branch] *)
Lemma fill_branch R : forall st r,
  upd_at (skel_addr st R)
    (fun _ => if Nat.eqb (last_st R st) 1
              then VList (match r with [] => [] | _ => [VDict r] end) else VDict r) (skeleton st R)
  = branch st R r.
Proof.
  induction R as [|[n' st'] R IH]; intros st r.
  - cbn. reflexivity.
  - cbn [skeleton skel_addr branch].
    assert (HD : upd_at (SKey (KS n') :: skel_addr st' R)
       (fun _ => if Nat.eqb (last_st ((n', st') :: R) st) 1
              then VList (match r with [] => [] | _ => [VDict r] end) else VDict r)
       (VDict [(KS n', skeleton st' R)]) = VDict [(KS n', branch st' R r)]).
    { cbn [upd_at dget]. rewrite key_eqb_refl. cbn [dset]. rewrite key_eqb_refl.
      rewrite <- (IH st' r), last_st_cons. reflexivity. }
    destruct (Nat.eqb st 1); [|exact HD]. cbn [upd_at] in HD. cbn [upd_at list_upd]. rewrite HD. reflexivity.
Qed.

Lemma dupdate_nil (d : dict) : dupdate d [] = d. Proof. reflexivity. Qed.

Lemma dupdate_fresh_wf (e : dict) : forall d, dwf (d ++ e) -> dupdate d e = d ++ e.
Proof.
  induction e as [|[k v] e IH]; intros d H; [now rewrite app_nil_r|].
  rewrite dupdate_cons, dset_fresh.
  - rewrite IH; rewrite <- app_assoc; [reflexivity|exact H].
  - apply dget_None_notin. unfold dwf, dkeys in H. rewrite map_app in H. simpl in H.
    apply NoDup_remove_2 in H. unfold dkeys. intros Hi. apply H. apply in_or_app. auto.
Qed.
Lemma dupdate_empty (e : dict) : dwf e -> dupdate [] e = e.
Proof. intros H. now rewrite dupdate_fresh_wf. Qed.

(** generic: after dict_by_path found a fresh (empty) end *)
Lemma save_fresh E P E1 a r :
  plain k2i P -> P <> [] -> dbp P E = Ok (E1, Some a) ->
  get_at a E1 = Some (if Nat.eqb (stars P) 1 then VList [] else VDict []) -> dwf r ->
  save E P (VDict r) = Ok (upd_at a (fun _ => if Nat.eqb (stars P) 1
        then VList (match r with [] => [] | _ => [VDict r] end) else VDict r) E1).
Proof.
  intros Hp Hne Hd Hg Hw. unfold save_cur. rewrite Hd. cbn [rbind]. rewrite Hg.
  rewrite (popped_plain _ _ Hp). unfold stars in *.
  destruct (opt_last P) as [[n st]|] eqn:EL; [|apply opt_last_None in EL; congruence].
  destruct (Nat.eqb_spec st 1) as [->|Hst].
  - destruct r as [|kv r]; [|reflexivity]. cbn [truthy]. now rewrite upd_at_id.
  - destruct (Nat.eqb_spec st 2) as [->|Hst2].
    + rewrite dupdate_nil, dupdate_empty by exact Hw. reflexivity.
    + cbn [update_val]. rewrite dupdate_empty by exact Hw. reflexivity.
Qed.

Theorem save_missing Q n st R E a d r :
  plain k2i (Q ++ (n, st) :: R) -> arrives (names Q) E a (VDict d) -> dget d (KS n) = None -> dwf r ->
  save E (Q ++ (n, st) :: R) (VDict r) =
  Ok (upd_at a (fun _ => VDict (d ++ [(KS n, branch st R r)])) E).
Proof.
  intros Hp Hr Hd Hw. pose proof Hp as Hp0. apply plain_app in Hp0 as [HpQ HpR].
  rewrite (save_fresh E (Q ++ (n, st) :: R)
     (upd_at a (fun _ => VDict (d ++ [(KS n, skeleton st R)])) E) (a ++ SKey (KS n) :: skel_addr st R) r).
  - rewrite upd_at_app, upd_at_twice. f_equal. apply upd_at_ext. intros x; clear x.
    rewrite <- (dset_fresh d (KS n) (skeleton st R)) by exact Hd.
    cbn [upd_at]. rewrite dget_dset_same, dset_dset, dset_fresh by exact Hd. repeat f_equal.
    rewrite <- (fill_branch R st r). f_equal.
    now rewrite stars_last.
  - exact Hp.
  - destruct Q; discriminate.
  - rewrite (dbp_arrives Q _ _ _ E a (VDict d) HpQ Hr), dbp_missing by assumption. reflexivity.
  - rewrite get_at_app. rewrite (get_upd_same a _ E (VDict d)) by (eapply arrives_get; eauto).
    rewrite <- (dset_fresh d (KS n) (skeleton st R)) by exact Hd.
    cbn [get_at]. rewrite dget_dset_same, skel_get. now rewrite stars_last.
  - exact Hw.
Qed.

Theorem save_empty_list Q n st R E a r :
  plain k2i (Q ++ (n, st) :: R) -> arrives (names Q) E a (VList []) -> dwf r ->
  save E (Q ++ (n, st) :: R) (VDict r) =
  Ok (upd_at a (fun _ => VList [VDict [(KS n, branch st R r)]]) E).
Proof.
  intros Hp Hr Hw. pose proof Hp as Hp0. apply plain_app in Hp0 as [HpQ HpR].
  rewrite (save_fresh E (Q ++ (n, st) :: R)
     (upd_at a (fun _ => VList [VDict [(KS n, skeleton st R)]]) E) (a ++ SIdx 0 :: SKey (KS n) :: skel_addr st R) r).
  - rewrite upd_at_app, upd_at_twice. f_equal. apply upd_at_ext. intros x; clear x.
    cbn [upd_at list_upd dget]. rewrite key_eqb_refl. cbn [dset]. rewrite key_eqb_refl. repeat f_equal.
    rewrite <- (fill_branch R st r). f_equal.
    now rewrite stars_last.
  - exact Hp.
  - destruct Q; discriminate.
  - rewrite (dbp_arrives Q _ _ _ E a (VList []) HpQ Hr), dbp_empty_list by assumption. reflexivity.
  - rewrite get_at_app. rewrite (get_upd_same a _ E (VList [])) by (eapply arrives_get; eauto).
    cbn [get_at nth_error dget]. rewrite key_eqb_refl, skel_get. now rewrite stars_last.
  - exact Hw.
Qed.

Lemma dbp_full P E a w : plain k2i P -> reaches (names P) E a w -> dbp P E = Ok (E, Some a).
Proof.
  intros Hp Hr. rewrite <- (app_nil_r P) at 1. rewrite (dbp_reaches P [] E a w Hp Hr).
  cbn [dict_by_path rbind option_map]. rewrite app_nil_r, upd_at_id; [reflexivity|]. eapply reaches_get; eauto.
Qed.

Theorem save_list P E a l data :
  plain k2i P -> reaches (names P) E a (VList l) ->
  save E P data = Ok (if truthy data then upd_at a (fun _ => VList (l ++ [data])) E else E).
Proof.
  intros Hp Hr. unfold save_cur. rewrite (dbp_full P E a _ Hp Hr). cbn [rbind].
  rewrite (reaches_get _ _ _ _ Hr). destruct (truthy data); reflexivity.
Qed.

Theorem save_blocked Q n st R E a w data :
  plain k2i Q -> arrives (names Q) E a w -> scalar w = true ->
  save E (Q ++ (n, st) :: R) data = Ok E.
Proof.
  intros Hp Hr Hs. unfold save_cur. rewrite (dbp_arrives Q _ _ _ E a w Hp Hr), dbp_scalar by exact Hs.
  cbn [rbind option_map]. rewrite upd_at_id; [reflexivity|]. eapply arrives_get; eauto.
Qed.

Theorem save_scalar P E a w data :
  plain k2i P -> reaches (names P) E a w -> scalar w = true -> save E P data = Ok E.
Proof.
  intros Hp Hr Hs. unfold save_cur. rewrite (dbp_full P E a _ Hp Hr). cbn [rbind].
  rewrite (reaches_get _ _ _ _ Hr). destruct w; try discriminate; reflexivity.
Qed.

Theorem save_dict_empty P E a r :
  P <> [] -> plain k2i P -> reaches (names P) E a (VDict []) -> dwf r ->
  save E P (VDict r) = Ok (upd_at a (fun _ => VDict r) E).
Proof.
  intros Hne Hp Hr Hw. unfold save_cur. rewrite (dbp_full P E a _ Hp Hr). cbn [rbind].
  rewrite (reaches_get _ _ _ _ Hr), (popped_plain _ _ Hp).
  destruct (opt_last P) as [[n st]|] eqn:EL; [|apply opt_last_None in EL; congruence].
  destruct (Nat.eqb st 2).
  - rewrite dupdate_nil, dupdate_empty by exact Hw. reflexivity.
  - cbn [update_val]. rewrite dupdate_empty by exact Hw. reflexivity.
Qed.

Theorem save_starstar P E a e r :
  stars P = 2 -> plain k2i P -> reaches (names P) E a (VDict e) ->
  save E P (VDict r) = Ok (upd_at a (fun _ => VDict (dupdate e (dupdate r e))) E).
Proof.
  intros Hst Hp Hr. unfold save_cur. rewrite (dbp_full P E a _ Hp Hr). cbn [rbind].
  rewrite (reaches_get _ _ _ _ Hr), (popped_plain _ _ Hp).
  unfold stars in Hst. destruct (opt_last P) as [[n st]|] eqn:EL; [|discriminate]. subst st. reflexivity.
Qed.

Lemma vtl_reaches P : forall E a w data, plain false P -> reaches (names P) E a w -> flat a = true ->
  value_to_list E P data = Ok (upd_at a (fun _ => VList [w; data]) E).
Proof.
  induction P as [|[n st] P IH]; intros E a w data Hp Hr Hf.
  - inversion Hr; subst. reflexivity.
  - inversion Hp as [|? ? [Hn _] Hp']; subst. cbn [fst] in Hn.
    assert (Hu : str_eqb n underscore = false) by (apply str_eqb_neq; exact Hn).
    cbn [value_to_list]. rewrite Hu.
    inversion Hr as [|? ? d x a' ? Hd Hr'|? ? l x a' ? Hr']; subst.
    + cbn [vstep upd_at]. rewrite Hd. cbn [flat] in Hf. rewrite (IH _ _ _ _ Hp' Hr' Hf). reflexivity.
    + inversion Hr' as [|? ? d x' a'' ? Hd Hr''|? ? l' x' a'' ? Hr'']; subst.
      * cbn [vstep]. rewrite opt_last_app. cbn [py_in rbind]. unfold dmem. rewrite Hd.
        cbn [flat] in Hf. rewrite (IH _ _ _ _ Hp' Hr'' Hf). cbn [rbind upd_at].
        rewrite set_last_app, list_upd_app. cbn [upd_at]. rewrite Hd. reflexivity.
      * cbn [flat] in Hf. discriminate.
Qed.

Lemma plain_false P : plain k2i P -> plain false P.
Proof. apply Forall_impl. intros p [H _]. split; [exact H|discriminate]. Qed.

Theorem save_dict_full P E a e data :
  stars P <> 2 -> plain k2i P -> reaches (names P) E a (VDict e) -> e <> [] -> flat a = true -> P <> [] ->
  save E P data = Ok (upd_at a (fun _ => VList [VDict e; data]) E).
Proof.
  intros Hst Hp Hr He Hf Hne. unfold save_cur. rewrite (dbp_full P E a _ Hp Hr). cbn [rbind].
  rewrite (reaches_get _ _ _ _ Hr), (popped_plain _ _ Hp).
  unfold stars in Hst. destruct (opt_last P) as [[n st]|] eqn:EL; [|apply opt_last_None in EL; congruence].
  destruct (Nat.eqb_spec st 2); [congruence|].
  destruct e as [|kv e]; [congruence|]. apply vtl_reaches; auto. apply plain_false; exact Hp.
Qed.

(** every plain path either exists, or stops at a dictionary lacking the next
    key, at an empty list, or at a scalar *)
Inductive path_status (P : list pitem) (E : val) : Prop :=
| st_full a w : reaches (names P) E a w -> path_status P E
| st_missing Q n st R a d : P = Q ++ (n, st) :: R -> arrives (names Q) E a (VDict d) ->
    dget d (KS n) = None -> path_status P E
| st_empty Q n st R a : P = Q ++ (n, st) :: R -> arrives (names Q) E a (VList []) -> path_status P E
| st_scalar Q n st R a w : P = Q ++ (n, st) :: R -> arrives (names Q) E a w -> scalar w = true -> path_status P E.

Lemma enters_total v : exists a w, enters v a w /\ (scalar w = true \/ w = VList [] \/ exists d, w = VDict d).
Proof.
  induction v as [|b|z|s|l IHl|d IHd|o] using val_rect';
    try (eexists [], _; split; [constructor|left; reflexivity]).
  - destruct (opt_last l) as [x|] eqn:EL.
    + apply opt_last_Some in EL as [l' ->]. apply Forall_app in IHl as [_ Hx]. inversion Hx as [|? ? Hx0 _]; subst.
      destruct Hx0 as (a & w & He & Hc). exists (SIdx (length l') :: a), w. split; [now constructor|exact Hc].
    + apply opt_last_None in EL as ->. exists [], (VList []). split; [constructor|auto].
  - exists [], (VDict d). split; [constructor|eauto].
Qed.

Lemma reaches_enters n P v a w b u : enters v a w -> reaches (n :: P) w b u -> reaches (n :: P) v (a ++ b) u.
Proof. induction 1; simpl; auto. intros Hr. constructor. auto. Qed.

Lemma arrives_step n P v a d x b w :
  enters v a (VDict d) -> dget d (KS n) = Some x -> arrives P x b w ->
  arrives (n :: P) v (a ++ SKey (KS n) :: b) w.
Proof.
  intros He Hd (a1 & a2 & u & Hr & Hu & ->).
  exists (a ++ SKey (KS n) :: a1), a2, u. split; [|split; [exact Hu|]].
  - eapply reaches_enters; [exact He|]. econstructor; eauto.
  - rewrite <- app_assoc. reflexivity.
Qed.

Lemma path_cases P : forall E, path_status P E.
Proof.
  induction P as [|[n st] P IH]; intros E.
  - eapply st_full. constructor.
  - destruct (enters_total E) as (a & w & He & [Hs|[->|[d ->]]]).
    + eapply (st_scalar _ _ [] n st P a w); [reflexivity| |exact Hs].
      exists [], a, E. repeat split; [constructor|exact He].
    + eapply (st_empty _ _ [] n st P a); [reflexivity|]. exists [], a, E. repeat split; [constructor|exact He].
    + destruct (dget d (KS n)) as [x|] eqn:Hd.
      * destruct (IH x) as [b w Hr|Q n' st' R b d' HP Hr Hd'|Q n' st' R b HP Hr|Q n' st' R b w HP Hr Hs].
        -- eapply st_full. cbn [names map fst]. eapply reaches_enters; [exact He|]. econstructor; eauto.
        -- subst P. eapply (st_missing _ _ ((n, st) :: Q) n' st' R _ d'); [reflexivity| |exact Hd'].
           cbn [names map fst]. eapply arrives_step; eauto.
        -- subst P. eapply (st_empty _ _ ((n, st) :: Q) n' st' R); [reflexivity|].
           cbn [names map fst]. eapply arrives_step; eauto.
        -- subst P. eapply (st_scalar _ _ ((n, st) :: Q) n' st' R _ w); [reflexivity| |exact Hs].
           cbn [names map fst]. eapply arrives_step; eauto.
      * eapply (st_missing _ _ [] n st P a d); [reflexivity| |exact Hd].
        exists [], a, E. repeat split; [constructor|exact He].
Qed.
End Save.
