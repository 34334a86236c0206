(** * Histories of saves on one path. *)
From Verif Require Import PyBase DictFacts Regex Tree Results SpecTree ResultsFacts.

Lemma reaches_app Q R E a u b w :
  reaches Q E a u -> reaches R u b w -> reaches (Q ++ R) E (a ++ b) w.
Proof.
  induction 1 as [v|n P d x a u Hd Hr IH|n P l x a u Hr IH]; intros H2; simpl.
  - exact H2.
  - econstructor; eauto.
  - constructor. exact (IH H2).
Qed.

Lemma reaches_upd Q E a w w' : reaches Q E a w -> reaches Q (upd_at a (fun _ => w') E) a w'.
Proof.
  induction 1 as [v|n P d x a u Hd Hr IH|n P l x a u Hr IH]; simpl.
  - constructor.
  - rewrite Hd. econstructor; [apply dget_dset_same|exact IH].
  - rewrite list_upd_app. constructor. exact IH.
Qed.

Lemma enters_upd v a w w' : enters v a w -> enters (upd_at a (fun _ => w') v) a w'.
Proof.
  induction 1; simpl; [constructor|]. rewrite list_upd_app. constructor. assumption.
Qed.

Lemma arrives_upd Q E a w w' : arrives Q E a w -> arrives Q (upd_at a (fun _ => w') E) a w'.
Proof.
  intros (a1 & a2 & u & Hr & He & ->). exists a1, a2, (upd_at a2 (fun _ => w') u).
  split; [|split; [now apply (enters_upd u a2 w)|reflexivity]].
  rewrite upd_at_app.
  replace (upd_at a1 (upd_at a2 (fun _ => w')) E) with (upd_at a1 (fun _ => upd_at a2 (fun _ => w') u) E).
  - now apply (reaches_upd Q E a1 u).
  - apply (upd_at_ext_at a1 _ _ E u); [now apply (reaches_get _ _ _ _ Hr)|reflexivity].
Qed.

(** arriving somewhere with keys left is reaching *)
Lemma arrives_reaches Q n R E a u b w :
  arrives Q E a u -> reaches (n :: R) u b w -> reaches (Q ++ n :: R) E (a ++ b) w.
Proof.
  intros (a1 & a2 & v & Hr & He & ->) H. rewrite <- app_assoc.
  eapply reaches_app; [exact Hr|]. eapply reaches_enters; eauto.
Qed.

(** a fresh branch with an arbitrary value at its end *)
Definition graft (st : nat) (R : list pitem) (leaf : val) : val :=
  upd_at (skel_addr st R) (fun _ => leaf) (skeleton st R).

Lemma skel_reaches R : forall st, exists w, reaches (names R) (skeleton st R) (skel_addr st R) w.
Proof.
  induction R as [|[n' st'] R IH]; intros st.
  - eexists. constructor.
  - destruct (IH st') as [w Hw]. exists w. cbn [names map fst skeleton skel_addr].
    assert (reaches (n' :: names R) (VDict [(KS n', skeleton st' R)]) (SKey (KS n') :: skel_addr st' R) w).
    { econstructor; [|exact Hw]. simpl. now rewrite str_eqb_refl. }
    destruct (Nat.eqb st 1); [|assumption].
    change [VDict [(KS n', skeleton st' R)]] with ([] ++ [VDict [(KS n', skeleton st' R)]]).
    constructor. assumption.
Qed.

Lemma graft_reaches st R leaf : reaches (names R) (graft st R leaf) (skel_addr st R) leaf.
Proof. destruct (skel_reaches R st) as [w Hw]. eapply reaches_upd; eauto. Qed.

Lemma graft_upd st R leaf leaf' : upd_at (skel_addr st R) (fun _ => leaf') (graft st R leaf) = graft st R leaf'.
Proof. unfold graft. now rewrite upd_at_twice. Qed.

Lemma branch_graft st R r : branch st R r =
  graft st R (if Nat.eqb (last_st R st) 1 then VList (match r with [] => [] | _ => [VDict r] end) else VDict r).
Proof. unfold graft. now rewrite fill_branch. Qed.

Lemma flat_app_key a k b : flat a = true -> flat b = true -> flat (a ++ SKey k :: b) = true.
Proof.
  intros Ha Hb. induction a as [|[k'|i] a IH]; simpl; [exact Hb|apply IH; exact Ha|].
  destruct a as [|[k'|j] a]; simpl in *; [exact Hb|apply IH; exact Ha|discriminate].
Qed.
Lemma flat_skel R : forall st, flat (skel_addr st R) = true.
Proof.
  induction R as [|[n st'] R IH]; intros st; [reflexivity|]. cbn [skel_addr].
  destruct (Nat.eqb st 1); simpl; apply IH.
Qed.

Section Hist.
Variable k2i : bool.
Notation save := (save_cur k2i false).

Definition save_all (P : list pitem) (rs : list dict) (E : val) : res val :=
  rfold (fun t r => save t P (VDict r)) rs E.

(** the tree after grafting value [leaf] under the missing key *)
Definition grown (E : val) (a : addr) (d : dict) (n : str) (st : nat) (R : list pitem) (leaf : val) : val :=
  upd_at a (fun _ => VDict (d ++ [(KS n, graft st R leaf)])) E.

Section Grown.
Variables (Q R : list pitem) (n : str) (st : nat) (E : val) (a : addr) (d : dict).
Hypothesis Hp : plain k2i (Q ++ (n, st) :: R).
Hypothesis Ha : arrives (names Q) E a (VDict d).
Hypothesis Hd : dget d (KS n) = None.

Let P := Q ++ (n, st) :: R.
Let b := a ++ SKey (KS n) :: skel_addr st R.

Lemma grown_reaches leaf : reaches (names P) (grown E a d n st R leaf) b leaf.
Proof.
  unfold P, names. rewrite map_app. cbn [map fst].
  eapply arrives_reaches.
  - apply (arrives_upd _ _ _ _ (VDict (d ++ [(KS n, graft st R leaf)])) Ha).
  - econstructor; [|apply graft_reaches]. rewrite <- (dset_fresh d) by exact Hd. apply dget_dset_same.
Qed.

Lemma grown_upd leaf leaf' : upd_at b (fun _ => leaf') (grown E a d n st R leaf) = grown E a d n st R leaf'.
Proof.
  unfold b, grown. rewrite upd_at_app, upd_at_twice. apply upd_at_ext. intros x; clear x.
  rewrite <- !(dset_fresh d) by exact Hd. cbn [upd_at]. rewrite dget_dset_same, dset_dset, graft_upd. reflexivity.
Qed.

Lemma save_first r : dwf r ->
  save E P (VDict r) = Ok (grown E a d n st R
    (if Nat.eqb (stars P) 1 then VList (match r with [] => [] | _ => [VDict r] end) else VDict r)).
Proof.
  intros Hw. unfold P. rewrite (save_missing k2i Q n st R E a d r Hp Ha Hd Hw).
  rewrite branch_graft, stars_last. reflexivity.
Qed.

(** existing addresses other than the ancestors of the insertion point survive *)
Lemma grown_frame leaf c w : get_at c E = Some w -> ~ above c a -> get_at c (grown E a d n st R leaf) = Some w.
Proof.
  intros Hg Hc. unfold grown. pose proof (arrives_get _ _ _ _ Ha) as Hga. clear Ha.
  revert c E Hg Hc Hga. induction a as [|s a' IH]; intros c E0 Hg Hc Hga.
  - simpl in Hga. injection Hga as ->. simpl. destruct c as [|[k|i] c]; [exfalso; apply Hc; exact I| |discriminate].
    simpl in *. destruct (dget d k) as [x|] eqn:Ex; [|discriminate].
    assert (dget (d ++ [(KS n, graft st R leaf)]) k = Some x) as ->; [|exact Hg].
    rewrite <- (dset_fresh d) by exact Hd. rewrite dget_dset_other; [exact Ex|congruence].
  - destruct c as [|t c]; [exfalso; apply Hc; exact I|].
    destruct s as [k|i]; simpl in Hga |- *.
    + destruct E0 as [| | | | |d0|]; try discriminate. destruct (dget d0 k) as [x|] eqn:Ex; [|discriminate].
      destruct t as [k'|j]; [|discriminate]. simpl in *. rewrite dget_dset.
      destruct (key_eqb_spec k' k) as [->|Hk]; [|exact Hg]. rewrite Ex in Hg.
      apply IH; auto.
    + destruct E0 as [| | | |l0| |]; try discriminate. destruct (nth_error l0 i) as [x|] eqn:Ex; [|discriminate].
      destruct t as [k'|j]; [discriminate|]. simpl in *. rewrite nth_error_list_upd.
      destruct (Nat.eqb_spec i j) as [<-|Hij]; [|exact Hg]. rewrite Ex in Hg |- *. simpl. apply IH; auto.
Qed.

(** ** single asterisk: the list of all non-empty records *)
Definition nonempty (r : dict) : bool := match r with [] => false | _ => true end.

Lemma hist_star_more rs : forall old, stars P = 1 ->
  save_all P rs (grown E a d n st R (VList old)) =
  Ok (grown E a d n st R (VList (old ++ map VDict (filter nonempty rs)))).
Proof.
  induction rs as [|r rs IH]; intros old Hs; [cbn; now rewrite app_nil_r|].
  unfold save_all. cbn [rfold].
  rewrite (save_list k2i P _ b old (VDict r) Hp (grown_reaches (VList old))).
  cbn [rbind]. destruct r as [|kv r]; cbn [truthy nonempty filter].
  - apply IH; exact Hs.
  - rewrite grown_upd. cbn [map]. change (VDict (kv :: r) :: map VDict (filter nonempty rs)) with ([VDict (kv :: r)] ++ map VDict (filter nonempty rs)).
    rewrite app_assoc. apply IH; exact Hs.
Qed.

Lemma hist_star r rs : stars P = 1 -> dwf r ->
  save_all P (r :: rs) E = Ok (grown E a d n st R (VList (map VDict (filter nonempty (r :: rs))))).
Proof.
  intros Hs Hw. unfold save_all. cbn [rfold]. rewrite (save_first r Hw), Hs. cbn [rbind Nat.eqb].
  etransitivity; [apply (hist_star_more rs _ Hs)|]. destruct r; reflexivity.
Qed.

(** ** no asterisk: a dictionary, then a list *)
Definition plain_value (rs : list dict) : val :=
  match rs with [r] => VDict r | _ => VList (map VDict rs) end.

Lemma hist_plain_list rs : forall old, Forall (fun r => r <> []) rs ->
  save_all P rs (grown E a d n st R (VList old)) = Ok (grown E a d n st R (VList (old ++ map VDict rs))).
Proof.
  induction rs as [|r rs IH]; intros old Hf; [cbn; now rewrite app_nil_r|].
  inversion Hf as [|? ? Hr Hf']; subst.
  unfold save_all. cbn [rfold].
  rewrite (save_list k2i P _ b old (VDict r) Hp (grown_reaches (VList old))).
  cbn [rbind]. destruct r as [|kv r]; [congruence|]. cbn [truthy]. rewrite grown_upd.
  replace (old ++ map VDict ((kv :: r) :: rs)) with ((old ++ [VDict (kv :: r)]) ++ map VDict rs) by now rewrite <- app_assoc.
  apply IH; exact Hf'.
Qed.

Lemma hist_plain r rs : stars P <> 1 -> stars P <> 2 -> flat a = true -> dwf r ->
  Forall (fun r => r <> []) (r :: rs) ->
  save_all P (r :: rs) E = Ok (grown E a d n st R (plain_value (r :: rs))).
Proof.
  intros Hs1 Hs2 Hfl Hw Hf. inversion Hf as [|? ? Hr Hf']; subst.
  unfold save_all. cbn [rfold]. rewrite (save_first r Hw). destruct (Nat.eqb_spec (stars P) 1) as [H|_]; [congruence|].
  cbn [rbind]. destruct rs as [|r2 rs]; [reflexivity|]. cbn [rfold].
  rewrite (save_dict_full k2i P _ b r (VDict r2) Hs2 Hp (grown_reaches (VDict r)) Hr).
  - rewrite grown_upd. cbn [rbind]. inversion Hf' as [|? ? Hr2 Hf'']; subst.
    etransitivity; [apply (hist_plain_list rs _ Hf'')|]. reflexivity.
  - apply flat_app_key; [exact Hfl|apply flat_skel].
  - unfold P. destruct Q; discriminate.
Qed.

(** ** two asterisks: union, first wins *)
Fixpoint first_wins (rs : list dict) (k : key) : option val :=
  match rs with
  | [] => None
  | r :: rs' => match dget r k with Some v => Some v | None => first_wins rs' k end
  end.

Lemma union_get (e r : dict) k : dwf e -> dwf r ->
  dget (dupdate e (dupdate r e)) k = match dget e k with Some v => Some v | None => dget r k end.
Proof.
  intros He Hr. rewrite dget_dupdate by (now apply dwf_dupdate).
  rewrite dget_dupdate by exact He. destruct (dget e k) eqn:Ek; [reflexivity|].
  now destruct (dget r k).
Qed.

Lemma hist_starstar_more rs : forall m, stars P = 2 -> dwf m -> Forall dwf rs ->
  exists m', save_all P rs (grown E a d n st R (VDict m)) = Ok (grown E a d n st R (VDict m')) /\ dwf m' /\
    forall k, dget m' k = match dget m k with Some v => Some v | None => first_wins rs k end.
Proof.
  induction rs as [|r rs IH]; intros m Hs Hm Hf.
  - exists m. split; [reflexivity|]. split; [exact Hm|]. intros k. simpl. now destruct (dget m k).
  - inversion Hf as [|? ? Hr Hf']; subst.
    destruct (IH (dupdate m (dupdate r m)) Hs) as (m' & H1 & H2 & H3).
    + now apply dwf_dupdate.
    + exact Hf'.
    + exists m'. split; [|split; [exact H2|]].
      * unfold save_all. cbn [rfold]. rewrite (save_starstar k2i P _ b m r Hs Hp (grown_reaches (VDict m))).
        cbn [rbind]. rewrite grown_upd. exact H1.
      * intros k. rewrite H3, union_get by assumption. simpl. destruct (dget m k); [reflexivity|].
        now destruct (dget r k).
Qed.

Lemma hist_starstar r rs : stars P = 2 -> Forall dwf (r :: rs) ->
  exists m, save_all P (r :: rs) E = Ok (grown E a d n st R (VDict m)) /\ dwf m /\
    forall k, dget m k = first_wins (r :: rs) k.
Proof.
  intros Hs Hf. inversion Hf as [|? ? Hr Hf']; subst.
  destruct (hist_starstar_more rs r Hs Hr Hf') as (m & H1 & H2 & H3).
  exists m. split; [|split; [exact H2|exact H3]].
  unfold save_all. cbn [rfold]. rewrite (save_first r Hr), Hs. exact H1.
Qed.
End Grown.
End Hist.
