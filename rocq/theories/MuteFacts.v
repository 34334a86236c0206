(** * MuteFacts: rejected starts, ended groups, choice between candidates,
    function chains. *)
From Verif Require Import PyBase DictFacts Regex Tree Results SpecTree ResultsFacts PathFacts SpecRecords MachineFacts.

Section Mute.
Variable F : Type.
Variable runf : F -> fstate -> res (fstate * bool).
Variable k2i : bool.
Notation rstate := (rstate F).
Notation group := (group F).
Notation item := (item F).
Notation flush := (flush F runf k2i).
Notation step_item := (step_item F runf k2i).
Notation handle := (handle F runf k2i).
Notation gid_of x := (g_id F (r_group F (fst x))).
Notation parent_of x := (g_parent F (r_group F (fst x))).
Notation action_of x := (r_action F (fst x)).
Notation accepted x := (match snd x with Some _ => true | None => false end).

(** ** choose *)
Lemma find_in {A} (p : A -> bool) l x : find p l = Some x -> In x l /\ p x = true.
Proof. intros H. split; [apply (find_some _ _ H)|apply (find_some _ _ H)]. Qed.
Lemma last_in {A} (l : list A) x : opt_last l = Some x -> In x l.
Proof. intros H. apply opt_last_Some in H as [l' ->]. apply in_or_app. simpl; auto. Qed.

Lemma pick_start_in s l x : pick_start F s l = Some x -> In x l.
Proof.
  unfold pick_start. destruct (first_that _ _ l) eqn:E1; [intros [= <-]; eapply find_in; eauto|].
  destruct (first_that _ _ l) eqn:E2 in |- *; [intros [= <-]; eapply find_in; eauto|]. apply last_in.
Qed.
Lemma pick_normal_in s l x : pick_normal F s l = Some x -> In x l.
Proof.
  unfold pick_normal. destruct (first_that _ _ l) eqn:E1; [intros [= <-]; eapply find_in; eauto|].
  destruct (first_that _ _ l) eqn:E2 in |- *; [intros [= <-]; eapply find_in; eauto|]. apply last_in.
Qed.
Lemma pick_line_in s l x : pick_line F s l = Some x -> In x l.
Proof.
  unfold pick_line. destruct (first_that _ _ l) eqn:E1; [intros [= <-]; eapply find_in; eauto|]. apply last_in.
Qed.

Lemma last_total {A} (l : list A) : l <> [] -> exists x, opt_last l = Some x.
Proof. intros H. destruct (opt_last l) eqn:E; eauto. apply opt_last_None in E. congruence. Qed.
Lemma pick_start_total s l : l <> [] -> exists x, pick_start F s l = Some x.
Proof.
  intros H. unfold pick_start. destruct (first_that _ _ l); eauto. destruct (first_that _ _ l); eauto. now apply last_total.
Qed.
Lemma pick_normal_total s l : l <> [] -> exists x, pick_normal F s l = Some x.
Proof.
  intros H. unfold pick_normal. destruct (first_that _ _ l); eauto. destruct (first_that _ _ l); eauto. now apply last_total.
Qed.
Lemma pick_line_total s l : l <> [] -> exists x, pick_line F s l = Some x.
Proof. intros H. unfold pick_line. destruct (first_that _ _ l); eauto. now apply last_total. Qed.

(** preference class of a candidate *)
Definition cls (x : item) : nat :=
  if r_isline F (fst x) then 3
  else match action_of x with AStartEmpty => 0 | AStart => 1 | _ => 2 end.

Definition lines (c : list item) := filter (fun '(rd, _) => r_isline F rd) c.
Definition rest (c : list item) := filter (fun '(rd, _) => negb (r_isline F rd)) c.

Lemma filter_cls0 c : filter (fun '(rd, _) => is_a (r_action F rd) AStartEmpty) (rest c) = filter (fun x => Nat.eqb (cls x) 0) c.
Proof.
  unfold rest. induction c as [|[rd d] c IH]; [reflexivity|]. simpl. unfold cls at 1. simpl.
  destruct (r_isline F rd); simpl; [exact IH|]. destruct (r_action F rd); simpl; rewrite IH; reflexivity.
Qed.
Lemma filter_cls1 c : filter (fun '(rd, _) => is_a (r_action F rd) AStart) (rest c) = filter (fun x => Nat.eqb (cls x) 1) c.
Proof.
  unfold rest. induction c as [|[rd d] c IH]; [reflexivity|]. simpl. unfold cls at 1. simpl.
  destruct (r_isline F rd); simpl; [exact IH|]. destruct (r_action F rd); simpl; rewrite IH; reflexivity.
Qed.
Lemma filter_cls2 c : filter (fun '(rd, _) => negb (is_start (r_action F rd))) (rest c) = filter (fun x => Nat.eqb (cls x) 2) c.
Proof.
  unfold rest. induction c as [|[rd d] c IH]; [reflexivity|]. simpl. unfold cls at 1. simpl.
  destruct (r_isline F rd); simpl; [exact IH|]. destruct (r_action F rd); simpl; rewrite IH; reflexivity.
Qed.
Lemma filter_cls3 c : lines c = filter (fun x => Nat.eqb (cls x) 3) c.
Proof.
  unfold lines. induction c as [|[rd d] c IH]; [reflexivity|]. simpl. unfold cls at 1. simpl.
  destruct (r_isline F rd); simpl; [now rewrite IH|]. destruct (r_action F rd); simpl; exact IH.
Qed.

Definition of_cls (n : nat) (c : list item) := filter (fun x => Nat.eqb (cls x) n) c.

Lemma choose_unfold s c : length c <> 1 -> choose F s c =
  match of_cls 0 c, of_cls 1 c, of_cls 2 c with
  | _ :: _, _, _ => pick_start F s (of_cls 0 c)
  | [], _ :: _, _ => pick_start F s (of_cls 1 c)
  | [], [], _ :: _ => pick_normal F s (of_cls 2 c)
  | [], [], [] => pick_line F s (of_cls 3 c)
  end.
Proof.
  intros H. unfold of_cls. rewrite <- filter_cls0, <- filter_cls1, <- filter_cls2, <- filter_cls3.
  unfold choose. destruct c as [|x [|y c]]; [|simpl in H; congruence|]; reflexivity.
Qed.

Lemma of_cls_nil n c : of_cls n c = [] -> forall y, In y c -> cls y <> n.
Proof.
  intros H y Hy Hn. assert (Hi : In y (of_cls n c)). { apply filter_In. split; [exact Hy|]. now apply Nat.eqb_eq. }
  rewrite H in Hi. exact Hi.
Qed.
Lemma cls_le3 x : cls x <= 3.
Proof. unfold cls. destruct (r_isline F (fst x)); [lia|]. destruct (action_of x); lia. Qed.

Theorem choose_priority s c x : choose F s c = Some x -> In x c /\ forall y, In y c -> cls x <= cls y.
Proof.
  destruct (Nat.eq_dec (length c) 1) as [H1|H1].
  - destruct c as [|y [|z c]]; simpl in H1; try congruence. intros [= <-]. split; [simpl; auto|].
    intros y' [<-|[]]. lia.
  - rewrite choose_unfold by exact H1. destruct (of_cls 0 c) as [|x0 l0] eqn:E0.
    + pose proof (of_cls_nil 0 c E0) as N0. destruct (of_cls 1 c) as [|x1 l1] eqn:E1.
      * pose proof (of_cls_nil 1 c E1) as N1. destruct (of_cls 2 c) as [|x2 l2] eqn:E2.
        -- pose proof (of_cls_nil 2 c E2) as N2. intros H. apply pick_line_in in H.
           apply filter_In in H as [Hi Hc]. apply Nat.eqb_eq in Hc. split; [exact Hi|]. intros y Hy.
           specialize (N0 y Hy); specialize (N1 y Hy); specialize (N2 y Hy). lia.
        -- rewrite <- E2. intros H. apply pick_normal_in in H. apply filter_In in H as [Hi Hc]. apply Nat.eqb_eq in Hc.
           split; [exact Hi|]. intros y Hy. specialize (N0 y Hy); specialize (N1 y Hy). lia.
      * rewrite <- E1. intros H. apply pick_start_in in H. apply filter_In in H as [Hi Hc]. apply Nat.eqb_eq in Hc.
        split; [exact Hi|]. intros y Hy. specialize (N0 y Hy). lia.
    + rewrite <- E0. intros H. apply pick_start_in in H. apply filter_In in H as [Hi Hc]. apply Nat.eqb_eq in Hc.
      split; [exact Hi|]. intros y Hy. lia.
Qed.

Theorem choose_total s c : c <> [] -> exists x, choose F s c = Some x.
Proof.
  intros Hne. destruct (Nat.eq_dec (length c) 1) as [H1|H1].
  - destruct c as [|y [|z c]]; simpl in H1; try congruence. eexists; reflexivity.
  - rewrite choose_unfold by exact H1. destruct (of_cls 0 c) eqn:E0; [|rewrite <- E0; apply pick_start_total; congruence].
    destruct (of_cls 1 c) eqn:E1; [|rewrite <- E1; apply pick_start_total; congruence].
    destruct (of_cls 2 c) eqn:E2; [|rewrite <- E2; apply pick_normal_total; congruence].
    apply pick_line_total. destruct (of_cls 3 c) eqn:E3; [|congruence].
    destruct c as [|y c]; [congruence|]. exfalso.
    assert (Hy : In y (y :: c)) by (simpl; auto).
    pose proof (of_cls_nil 0 _ E0 y Hy). pose proof (of_cls_nil 1 _ E1 y Hy).
    pose proof (of_cls_nil 2 _ E2 y Hy). pose proof (of_cls_nil 3 _ E3 y Hy). pose proof (cls_le3 y). lia.
Qed.

(** [y] belongs to the group of the record being collected *)
Definition is_current (s : rstate) (y : item) : Prop := rc_gid F (s_rec F s) = Some (gid_of y).

Lemma is_current_spec s y : is_current s y <-> cur_gid_is F s (gid_of y) = true.
Proof.
  unfold is_current, cur_gid_is. destruct (rc_gid F (s_rec F s)) as [g|]; [|split; discriminate].
  destruct (gid_eqb_spec (gid_of y) g); split; congruence.
Qed.

Lemma find_total {A} (p : A -> bool) l y : In y l -> p y = true -> exists x, find p l = Some x.
Proof.
  intros Hi Hp. destruct (find p l) eqn:E; eauto. exfalso. pose proof (find_none _ _ E y Hi). congruence.
Qed.

Lemma find_current {A} (p : A -> bool) l y x (o : option A) :
  In y l -> p y = true -> match find p l with Some z => Some z | None => o end = Some x -> p x = true.
Proof.
  intros Hi Hp. destruct (find p l) as [z|] eqn:E.
  - intros [= <-]. now apply find_in in E.
  - pose proof (find_none _ _ E y Hi). congruence.
Qed.

Lemma pick_start_current s l x y :
  pick_start F s l = Some x -> In y l -> accepted y = true -> is_current s y -> accepted x = true /\ is_current s x.
Proof.
  intros H Hi Ha Hc. unfold pick_start, first_that in H.
  apply (find_current _ _ y) in H; [|exact Hi|].
  - destruct x as [rd [d|]]; [|discriminate]. split; [reflexivity|]. now apply is_current_spec.
  - destruct y as [rd [d|]]; [|discriminate]. now apply is_current_spec in Hc.
Qed.
Lemma pick_normal_current s l x y : pick_normal F s l = Some x -> In y l -> is_current s y -> is_current s x.
Proof.
  intros H Hi Hc. unfold pick_normal, first_that in H.
  apply (find_current _ _ y) in H; [|exact Hi|].
  - destruct x as [rd d]. now apply is_current_spec.
  - destruct y as [rd d]. now apply is_current_spec in Hc.
Qed.
Lemma pick_line_current s l x y : pick_line F s l = Some x -> In y l -> is_current s y -> is_current s x.
Proof.
  intros H Hi Hc. unfold pick_line, first_that in H.
  apply (find_current _ _ y) in H; [|exact Hi|].
  - destruct x as [rd d]. now apply is_current_spec.
  - destruct y as [rd d]. now apply is_current_spec in Hc.
Qed.

(** a candidate of the best class for the current group (and, for start lines,
    accepted) is preferred to all others *)
Theorem choose_current s c x y :
  choose F s c = Some x -> In y c -> cls y = cls x -> is_current s y ->
  (cls x < 2 -> accepted y = true) -> is_current s x /\ (cls x < 2 -> accepted x = true).
Proof.
  destruct (Nat.eq_dec (length c) 1) as [H1|H1].
  - destruct c as [|u [|z c]]; simpl in H1; try congruence. intros [= ->] [->|[]] _ Hc Ha. auto.
  - rewrite choose_unfold by exact H1. intros H Hi Hcl Hc Ha.
    assert (Hin : forall n, cls x = n -> In y (of_cls n c)).
    { intros n <-. apply filter_In. split; [exact Hi|]. now apply Nat.eqb_eq. }
    assert (Hx : forall n, In x (of_cls n c) -> cls x = n).
    { intros n Hn. apply filter_In in Hn as [_ Hn]. now apply Nat.eqb_eq in Hn. }
    destruct (of_cls 0 c) as [|x0 l0] eqn:E0.
    + destruct (of_cls 1 c) as [|x1 l1] eqn:E1.
      * destruct (of_cls 2 c) as [|x2 l2] eqn:E2.
        -- pose proof (Hx 3 (pick_line_in _ _ _ H)) as H3. split; [|lia].
           eapply pick_line_current; eauto.
        -- rewrite <- E2 in H. pose proof (Hx 2 (pick_normal_in _ _ _ H)) as H3. split; [|lia].
           eapply pick_normal_current; eauto.
      * rewrite <- E1 in H. pose proof (Hx 1 (pick_start_in _ _ _ H)) as H3.
        destruct (pick_start_current s _ x y H) as [A B]; auto. apply Ha; lia.
    + rewrite <- E0 in H. pose proof (Hx 0 (pick_start_in _ _ _ H)) as H3.
      destruct (pick_start_current s _ x y H) as [A B]; auto. apply Ha; lia.
Qed.

(** ** muting *)
(** an accepted match that belongs to group [g] or to a child of [g] *)
Definition muted_by (g : gid) (x : item) : bool :=
  (accepted x && (gid_eqb (gid_of x) g || match parent_of x with Some p => gid_eqb p g | None => false end))%bool.

(** [x] is an accepted start line of group [g] *)
Definition restarts (g : gid) (x : item) : bool :=
  (accepted x && gid_eqb (gid_of x) g && is_start (action_of x))%bool.

Lemma handle_muted s g x :
  In g (s_ended F s) -> muted_by g x = true -> restarts g x = false -> handle s x = Ok s.
Proof.
  destruct x as [rd [r|]]; [|discriminate]. unfold muted_by, restarts, Results.handle. cbn [fst snd andb].
  intros Hg Hm Hr. apply gid_in_spec in Hg.
  destruct (ogid_in (g_parent F (r_group F rd)) (s_ended F s)) eqn:Ep; [reflexivity|].
  destruct (gid_eqb_spec (g_id F (r_group F rd)) g) as [E|E].
  - rewrite E, Hg. cbn [andb] in Hr. now rewrite Hr.
  - cbn [orb] in Hm. destruct (g_parent F (r_group F rd)) as [p|]; [|discriminate].
    destruct (gid_eqb_spec p g) as [Ex|]; [|discriminate]. rewrite Ex in Ep. cbn [ogid_in] in Ep. congruence.
Qed.

Lemma flush_ended s s' : flush s = Ok s' -> s_ended F s' = s_ended F s.
Proof.
  unfold Results.flush. intros H. destruct (processgrp F runf k2i s) as [[s1 o]|] eqn:E; [|discriminate].
  assert (s_ended F s1 = s_ended F s).
  { unfold processgrp in E.
    destruct (if rc_mwl F (s_rec F s) then _ else _) as [[[? ?] ?]|]; [|discriminate]. cbn [rbind] in E.
    destruct (run_funcs F runf _ _) as [[fs [|]]|]; cbn [rbind] in E; [| |discriminate].
    - destruct (form_path _ _ _ _) as [[[op ?] ?]|]; [|discriminate]. cbn [rbind] in E.
      destruct op as [[|? ?]|]; injection E as <- _; reflexivity.
    - injection E as <- _; reflexivity. }
  cbn [rbind] in H. destruct o as [[data pp]|].
  - destruct (save_cur _ _ _ _ _) as [v|]; [|discriminate]. injection H as <-. exact H0.
  - injection H as <-. exact H0.
Qed.

Lemma do_start_ended s rd r mwl D s' : do_start F runf k2i s rd r mwl D = Ok s' -> s_ended F s' = s_ended F s.
Proof.
  unfold do_start. intros H.
  destruct (flush _) as [s2|] eqn:E; [|discriminate]. injection H as <-. apply flush_ended in E. exact E.
Qed.

Lemma dispatch_ended s rd r s' g : dispatch F runf k2i s rd r = Ok s' -> In g (s_ended F s) -> In g (s_ended F s').
Proof.
  unfold dispatch. destruct (r_action F rd).
  - intros H. apply do_start_ended in H. now rewrite H.
  - intros H. apply do_start_ended in H. now rewrite H.
  - unfold do_add. destruct (path_eqb _ _); [intros [= <-]; auto|]. destruct (gid_in _ _); [|intros [= <-]; auto].
    intros H. apply do_start_ended in H. now rewrite H.
  - unfold do_join. destruct (path_eqb _ _).
    + destruct (rfold _ _ _); [|discriminate]. intros [= <-]; auto.
    + destruct (gid_in _ _); [|intros [= <-]; auto]. intros H. apply do_start_ended in H. now rewrite H.
  - unfold do_end. destruct (negb _).
    + destruct (s_started F s); [discriminate|]. destruct (gid_eqb _ _); intros [= <-]; cbn; auto.
    + intros [= <-]; cbn; auto.
Qed.

Lemma handle_keeps s x s' g :
  handle s x = Ok s' -> In g (s_ended F s) -> restarts g x = false -> In g (s_ended F s').
Proof.
  destruct x as [rd [r|]]; unfold Results.handle, restarts; cbn [fst snd andb].
  2:{ intros [= <-] H _. cbn. auto. }
  intros H Hg Hr. destruct (ogid_in _ _); [injection H as <-; exact Hg|].
  destruct (gid_in _ _) eqn:Ei.
  - destruct (is_start (r_action F rd)); [|injection H as <-; exact Hg].
    rewrite andb_true_r in Hr. eapply dispatch_ended; [exact H|]. cbn.
    apply filter_In. split; [exact Hg|]. now rewrite Hr.
  - eapply dispatch_ended; eauto.
Qed.

Theorem mute_erase g css : forall s,
  In g (s_ended F s) ->
  Forall (fun c => c <> [] /\ Forall (fun x => restarts g x = false) c) css ->
  rfold step_item css s = rfold step_item (filter (fun c => negb (forallb (muted_by g) c)) css) s.
Proof.
  induction css as [|c css IH]; intros s Hg Hc; [reflexivity|].
  inversion Hc as [|? ? [Hne Hr] Hc']; subst. cbn [filter].
  destruct (choose_total s c Hne) as [x Hx]. pose proof (choose_priority s c x Hx) as [Hin _].
  rewrite Forall_forall in Hr. specialize (Hr x Hin).
  destruct (forallb (muted_by g) c) eqn:Em; cbn [negb].
  - cbn [rfold]. unfold Results.step_item at 1. rewrite Hx.
    rewrite forallb_forall in Em. rewrite (handle_muted s g x Hg (Em x Hin) Hr). cbn [rbind]. now apply IH.
  - cbn [rfold]. destruct (step_item s c) as [s'|e] eqn:Es; [|reflexivity]. cbn [rbind]. apply IH; [|exact Hc'].
    unfold Results.step_item in Es. rewrite Hx in Es. eapply handle_keeps; eauto.
Qed.

(** a rejected start changes nothing but marks its group *)
Lemma handle_reject s rd : handle s (rd, None) = Ok (set_ended F s (g_id F (r_group F rd) :: s_ended F s)).
Proof. reflexivity. Qed.

(** ** independence of other groups *)
(** equal except for the ended mark of [g] *)
Definition same_but (g : gid) (s s' : rstate) : Prop :=
  s_results F s = s_results F s' /\ s_started F s = s_started F s' /\ s_rec F s = s_rec F s' /\
  s_cache F s = s_cache F s' /\ s_env F s = s_env F s' /\
  forall h, h <> g -> gid_in h (s_ended F s) = gid_in h (s_ended F s').

Definition foreign (g : gid) (x : item) : Prop := gid_of x <> g /\ parent_of x <> Some g.

Definition rel_res (R : rstate -> rstate -> Prop) (a b : res rstate) : Prop :=
  match a, b with Ok x, Ok y => R x y | Raise e, Raise e' => e = e' | _, _ => False end.

Lemma same_rebuild g s s' : same_but g s s' -> s' = set_ended F s (s_ended F s').
Proof. intros (H1 & H2 & H3 & H4 & H5 & _). destruct s, s'; simpl in *; subst; reflexivity. Qed.

Lemma flush_set_ended s l : flush (set_ended F s l) =
  match flush s with Ok s' => Ok (set_ended F s' l) | Raise e => Raise e end.
Proof.
  unfold Results.flush, processgrp. cbn [s_rec s_env s_results s_cache set_ended s_started s_ended].
  destruct (if rc_mwl F (s_rec F s) then _ else _) as [[[? ?] ?]|]; [|reflexivity]. cbn [rbind].
  destruct (run_funcs F runf _ _) as [[fs [|]]|]; cbn [rbind]; [| |reflexivity].
  - destruct (form_path _ _ _ _) as [[[op ?] ?]|]; [|reflexivity]. cbn [rbind].
    destruct op as [[|? ?]|]; try reflexivity. cbn [rbind s_results].
    destruct (save_cur _ _ _ _ _); reflexivity.
  - reflexivity.
Qed.

Lemma do_start_set_ended s rd r mwl D l : do_start F runf k2i (set_ended F s l) rd r mwl D =
  match do_start F runf k2i s rd r mwl D with Ok s' => Ok (set_ended F s' l) | Raise e => Raise e end.
Proof.
  unfold do_start. cbn [s_started set_ended].
  match goal with |- rbind (flush ?a) _ = match rbind (flush ?b) _ with _ => _ end =>
    change a with (set_ended F b l) end.
  rewrite flush_set_ended. destruct (flush _); reflexivity.
Qed.

Lemma dispatch_same g s s' rd r : same_but g s s' ->
  rel_res (same_but g) (dispatch F runf k2i s rd r) (dispatch F runf k2i s' rd r).
Proof.
  intros H. pose proof (same_rebuild g s s' H) as E. destruct H as (H1 & H2 & H3 & H4 & H5 & H6).
  set (l := s_ended F s') in *. clearbody l.
  assert (HS : forall r mwl D, rel_res (same_but g) (do_start F runf k2i s rd r mwl D) (do_start F runf k2i s' rd r mwl D)).
  { intros r0 mwl D. rewrite E, do_start_set_ended. destruct (do_start F runf k2i s rd r0 mwl D) as [s1|] eqn:ES; [|reflexivity].
    apply do_start_ended in ES. simpl. repeat split; auto. intros h Hh. cbn. rewrite ES. apply H6, Hh. }
  unfold dispatch. destruct (r_action F rd); [apply HS|apply HS| | |].
  - unfold do_add. rewrite E. cbn [s_rec s_started set_ended].
    destruct (path_eqb _ _); [simpl; repeat split; auto|]. destruct (gid_in _ _); [rewrite <- E; apply HS|simpl; repeat split; auto].
  - unfold do_join. rewrite E. cbn [s_rec s_started set_ended].
    destruct (path_eqb _ _).
    + destruct (rfold _ _ _); simpl; repeat split; auto.
    + destruct (gid_in _ _); [rewrite <- E; apply HS|simpl; repeat split; auto].
  - unfold do_end. rewrite E. cbn [s_rec s_started set_ended s_ended].
    destruct (negb _).
    + destruct (s_started F s); [reflexivity|]. destruct (gid_eqb _ _); simpl; repeat split; auto.
      intros h Hh. cbn. specialize (H6 h Hh). unfold gid_in in H6. now rewrite H6.
    + simpl; repeat split; auto. intros h Hh. cbn. specialize (H6 h Hh). unfold gid_in in H6. now rewrite H6.
Qed.

Lemma handle_same g s s' x : same_but g s s' -> foreign g x ->
  rel_res (same_but g) (handle s x) (handle s' x).
Proof.
  intros H [Hf1 Hf2]. pose proof H as (H1 & H2 & H3 & H4 & H5 & H6). destruct x as [rd [r|]]; unfold Results.handle; cbn [fst] in *.
  - assert (ogid_in (g_parent F (r_group F rd)) (s_ended F s') = ogid_in (g_parent F (r_group F rd)) (s_ended F s)) as ->.
    { destruct (g_parent F (r_group F rd)) as [p|]; [|reflexivity]. simpl. symmetry. apply H6. congruence. }
    destruct (ogid_in _ _); [exact H|].
    rewrite <- (H6 _ Hf1). destruct (gid_in _ (s_ended F s)).
    + destruct (is_start _); [|exact H]. apply dispatch_same.
      repeat split; auto. intros h Hh. cbn [s_ended set_ended].
      destruct (gid_eqb_spec h (g_id F (r_group F rd))) as [->|Hd].
      * now rewrite !gid_in_filter.
      * rewrite !gid_in_filter_other by exact Hd. apply H6, Hh.
    + apply dispatch_same, H.
  - simpl. repeat split; auto. intros h Hh. cbn. specialize (H6 h Hh). unfold gid_in in H6. now rewrite H6.
Qed.

Lemma choose_same g s s' c : same_but g s s' -> choose F s c = choose F s' c.
Proof.
  intros H. rewrite (same_rebuild g s s' H). reflexivity.
Qed.

Theorem others_unaffected g css : forall s s',
  same_but g s s' -> Forall (Forall (foreign g)) css ->
  rel_res (same_but g) (rfold step_item css s) (rfold step_item css s').
Proof.
  induction css as [|c css IH]; intros s s' H Hf; [exact H|].
  inversion Hf as [|? ? Hc Hf']; subst. cbn [rfold]. unfold Results.step_item at 1 3.
  rewrite <- (choose_same g s s' c H). destruct (choose F s c) as [x|] eqn:Ex; [|reflexivity].
  pose proof (choose_priority s c x Ex) as [Hin _]. rewrite Forall_forall in Hc.
  pose proof (handle_same g s s' x H (Hc x Hin)) as Hh.
  destruct (handle s x) as [s1|e1], (handle s' x) as [s2|e2]; cbn [rel_res] in Hh; try contradiction.
  - cbn [rbind]. now apply IH.
  - subst. reflexivity.
Qed.

Lemma rel_results g a b : rel_res (same_but g) a b -> results_of a = results_of b.
Proof.
  destruct a, b; simpl; try contradiction; [|congruence]. intros (H & _). congruence.
Qed.

Lemma flush_same g s s' : same_but g s s' -> results_of (flush s) = results_of (flush s').
Proof.
  intros H. rewrite (same_rebuild g s s' H), flush_set_ended. destruct (flush s); reflexivity.
Qed.

(** ** the end line *)
Theorem end_keeps_record s rd r :
  r_action F rd = AEnd -> rc_path F (s_rec F s) = g_path F (r_group F rd) ->
  ogid_in (g_parent F (r_group F rd)) (s_ended F s) = false ->
  gid_in (g_id F (r_group F rd)) (s_ended F s) = false ->
  handle s (rd, Some r) = Ok (set_ended F s (g_id F (r_group F rd) :: s_ended F s)).
Proof.
  intros Ha Hp Hpa Hg. unfold Results.handle. rewrite Hpa, Hg. unfold dispatch. rewrite Ha. unfold do_end.
  rewrite Hp, path_eqb_refl. reflexivity.
Qed.

(** ** function chains *)
Inductive chain : list F -> fstate -> fstate -> bool -> Prop :=
| chain_nil st : chain [] st st true
| chain_cons f fs st st1 st2 b : runf f st = Ok (st1, true) -> chain fs st1 st2 b -> chain (f :: fs) st st2 b
| chain_stop f fs st st1 : runf f st = Ok (st1, false) -> chain (f :: fs) st st1 false.

Lemma chain_run fs st st' b : chain fs st st' b -> run_funcs F runf fs st = Ok (st', b).
Proof.
  induction 1 as [st|f fs st st1 st2 b H1 H2 IH|f fs st st1 H1]; cbn [run_funcs]; [reflexivity| |]; rewrite H1; [exact IH|reflexivity].
Qed.

(** the state in which the functions of a record start *)
Definition fstart (s : rstate) : fstate :=
  {| fs_data := VDict (add_defaults (rc_result F (s_rec F s)) (rc_defaults F (s_rec F s)));
     fs_path := rc_path F (s_rec F s); fs_defaults := rc_defaults F (s_rec F s);
     fs_cache := s_cache F s; fs_results := s_results F s; fs_env := s_env F s |}.

Theorem chain_false_discards s st' :
  rc_mwl F (s_rec F s) = false -> chain (rc_funcs F (s_rec F s)) (fstart s) st' false ->
  exists s', flush s = Ok s' /\ s_results F s' = fs_results st'.
Proof.
  intros Hm Hc. apply chain_run in Hc. unfold fstart in Hc. unfold Results.flush, processgrp. rewrite Hm. cbn [rbind].
  rewrite Hc. cbn [rbind]. eexists; split; [reflexivity|reflexivity].
Qed.

Theorem chain_true_saves s st' :
  rc_mwl F (s_rec F s) = false -> chain (rc_funcs F (s_rec F s)) (fstart s) st' true ->
  static_path (fs_path st') -> fs_path st' <> [] ->
  results_of (flush s) = save_cur k2i false (fs_results st') (map split_stars (fs_path st')) (fs_data st').
Proof.
  intros Hm Hc Hs Hne. apply chain_run in Hc. unfold fstart in Hc. unfold Results.flush, processgrp. rewrite Hm. cbn [rbind].
  rewrite Hc. cbn [rbind]. rewrite form_path_static by exact Hs. cbn [rbind].
  destruct (fs_path st') as [|p ps]; [congruence|]. cbn [map].
  cbn [rbind s_results]. destruct (save_cur _ _ _ _ _); reflexivity.
Qed.
End Mute.
