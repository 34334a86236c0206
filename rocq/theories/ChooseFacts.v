(** * ChooseFacts: the code's choice is the best one. *)
From Verif Require Import PyBase DictFacts Regex Tree Results SpecChoice MachineFacts.

Section Choose.
Variable F : Type.
Notation item := (item F).
Notation rstate := (rstate F).
Notation gid_of x := (g_id F (r_group F (fst x))).
Notation cls := (cls F).
Notation level := (level F).

Definition of_cls (n : nat) (c : list item) := filter (fun x => Nat.eqb (cls x) n) c.

(** computable level *)
Definition curb (s : rstate) (x : item) : bool := cur_gid_is F s (gid_of x).
Definition childb (s : rstate) (x : item) : bool :=
  (match rc_gid F (s_rec F s) with
   | Some g => startswith (fst (gid_of x)) (fst g)
   | None => false end
   || ogid_in (g_parent F (r_group F (fst x))) (s_started F s))%bool.
Definition passb (x : item) : bool := match snd x with Some _ => true | None => false end.
Definition lev (s : rstate) (x : item) : nat :=
  match cls x with
  | 0 | 1 => if passb x then if curb s x then 0 else if childb s x then 1 else 2 else 2
  | 2 => if curb s x then 0 else if gid_in (gid_of x) (s_started F s) then 1 else 2
  | _ => if curb s x then 0 else 2
  end.

Lemma curb_spec s y : is_current F s y <-> curb s y = true.
Proof.
  unfold is_current, curb, cur_gid_is. destruct (rc_gid F (s_rec F s)) as [g|]; [|split; discriminate].
  destruct (gid_eqb_spec (gid_of y) g); split; congruence.
Qed.
Lemma childb_spec s y : is_child F s y <-> childb s y = true.
Proof.
  unfold is_child, childb. rewrite orb_true_iff. split.
  - intros [(g & -> & H)|(p & Hp & H)]; [auto|]. right. rewrite Hp. simpl. now apply gid_in_spec.
  - intros [H|H].
    + left. destruct (rc_gid F (s_rec F s)) as [g|]; [|discriminate]. exists g; auto.
    + right. destruct (g_parent F (r_group F (fst y))) as [p|]; [|discriminate]. exists p. split; [reflexivity|]. now apply gid_in_spec.
Qed.
Lemma passb_spec x : passed F x <-> passb x = true.
Proof. unfold passed, passb. destruct (snd x); split; congruence. Qed.
Lemma cls_le3 x : cls x <= 3.
Proof. unfold SpecChoice.cls. destruct (r_isline F (fst x)); [lia|]. destruct (r_action F (fst x)); lia. Qed.

Lemma bool_cases (b : bool) (P : Prop) : (P <-> b = true) -> {P /\ b = true} + {~ P /\ b = false}.
Proof. destruct b; intros H; [left|right]; split; auto; [now apply H|]. intros HP. apply H in HP. discriminate. Qed.

Lemma lev_level s x : level s x (lev s x).
Proof.
  unfold lev. pose proof (cls_le3 x) as H3.
  destruct (bool_cases _ _ (curb_spec s x)) as [[Hc Ec]|[Hc Ec]];
  destruct (bool_cases _ _ (childb_spec s x)) as [[Hd Ed]|[Hd Ed]];
  destruct (bool_cases _ _ (passb_spec x)) as [[Hp Ep]|[Hp Ep]];
  destruct (bool_cases _ _ (iff_sym (gid_in_spec (gid_of x) (s_started F s)))) as [[Hs Es]|[Hs Es]];
  destruct (cls x) as [|[|[|[|?]]]] eqn:E; try lia;
  rewrite ?Ec, ?Ed, ?Ep, ?Es;
  try (solve [apply lvl_start_current; auto; lia | apply lvl_start_child; auto; lia
             | apply lvl_start_other; [lia|tauto] | apply lvl_normal_current; auto
             | apply lvl_normal_open; auto | apply lvl_normal_other; auto
             | apply lvl_line_current; auto | apply lvl_line_other; auto]).
Qed.
Lemma level_fun s x n m : level s x n -> level s x m -> n = m.
Proof.
  intros H1 H2. inversion H1; inversion H2; subst; try reflexivity; try lia; try tauto.
Qed.

Lemma filter_cls0 c : filter (fun '(rd, _) => is_a (r_action F rd) AStartEmpty)
  (filter (fun '(rd, _) => negb (r_isline F rd)) c) = of_cls 0 c.
Proof.
  unfold of_cls. induction c as [|[rd d] c IH]; [reflexivity|]. simpl. unfold SpecChoice.cls at 1. simpl.
  destruct (r_isline F rd); simpl; [exact IH|]. destruct (r_action F rd); simpl; rewrite IH; reflexivity.
Qed.
Lemma filter_cls1 c : filter (fun '(rd, _) => is_a (r_action F rd) AStart)
  (filter (fun '(rd, _) => negb (r_isline F rd)) c) = of_cls 1 c.
Proof.
  unfold of_cls. induction c as [|[rd d] c IH]; [reflexivity|]. simpl. unfold SpecChoice.cls at 1. simpl.
  destruct (r_isline F rd); simpl; [exact IH|]. destruct (r_action F rd); simpl; rewrite IH; reflexivity.
Qed.
Lemma filter_cls2 c : filter (fun '(rd, _) => negb (is_start (r_action F rd)))
  (filter (fun '(rd, _) => negb (r_isline F rd)) c) = of_cls 2 c.
Proof.
  unfold of_cls. induction c as [|[rd d] c IH]; [reflexivity|]. simpl. unfold SpecChoice.cls at 1. simpl.
  destruct (r_isline F rd); simpl; [exact IH|]. destruct (r_action F rd); simpl; rewrite IH; reflexivity.
Qed.
Lemma filter_cls3 c : filter (fun '(rd, _) => r_isline F rd) c = of_cls 3 c.
Proof.
  unfold of_cls. induction c as [|[rd d] c IH]; [reflexivity|]. simpl. unfold SpecChoice.cls at 1. simpl.
  destruct (r_isline F rd); simpl; [now rewrite IH|]. destruct (r_action F rd); simpl; exact IH.
Qed.

(** a generic two-pass scan: first of level 0, else first of level 1, else last *)
Definition scan (lv : item -> nat) (l : list item) : option item :=
  match find (fun x => Nat.eqb (lv x) 0) l with
  | Some x => Some x
  | None => match find (fun x => Nat.eqb (lv x) 1) l with Some x => Some x | None => opt_last l end
  end.

Lemma find_ext {A} (p q : A -> bool) l : (forall x, In x l -> p x = q x) -> find p l = find q l.
Proof.
  induction l as [|x l IH]; intros H; [reflexivity|]. simpl. rewrite <- (H x) by (simpl; auto).
  destruct (p x); [reflexivity|]. apply IH. intros y Hy. apply H. simpl; auto.
Qed.
Lemma find_none_imp {A} (p q : A -> bool) l : find p l = None -> find q l = find (fun x => negb (p x) && q x)%bool l.
Proof.
  intros H. apply find_ext. intros x Hx. rewrite (find_none _ _ H x Hx). reflexivity.
Qed.

Lemma scan_start s l : Forall (fun x => cls x < 2) l -> pick_start F s l = scan (lev s) l.
Proof.
  intros H. rewrite Forall_forall in H. unfold pick_start, scan, first_that, last_item.
  rewrite (find_ext _ (fun x => Nat.eqb (lev s x) 0) l).
  2:{ intros [rd d] Hx. specialize (H _ Hx). unfold lev. destruct (cls (rd, d)) as [|[|]]; [| |lia];
      destruct d; unfold passb, curb; cbn; try reflexivity; destruct (cur_gid_is F s _); try reflexivity; destruct (childb s _); reflexivity. }
  destruct (find _ l) eqn:E0; [reflexivity|].
  rewrite (find_ext _ (fun x => Nat.eqb (lev s x) 1) l); [reflexivity|].
  intros [rd d] Hx. pose proof (find_none _ _ E0 _ Hx) as HN. specialize (H _ Hx). cbn [snd fst] in *. revert HN.
  unfold lev. destruct (cls (rd, d)) as [|[|]]; [| |lia];
      destruct d; unfold passb, curb, childb; cbn [snd fst]; try reflexivity; destruct (cur_gid_is F s _); try discriminate;
      destruct (_ || _)%bool; reflexivity.
Qed.
Lemma scan_normal s l : Forall (fun x => cls x = 2) l -> pick_normal F s l = scan (lev s) l.
Proof.
  intros H. rewrite Forall_forall in H. unfold pick_normal, scan, first_that, last_item.
  rewrite (find_ext _ (fun x => Nat.eqb (lev s x) 0) l).
  2:{ intros [rd d] Hx. specialize (H _ Hx). unfold lev. rewrite H. unfold curb. cbn.
      destruct (cur_gid_is F s _); try reflexivity. destruct (gid_in _ _); reflexivity. }
  destruct (find _ l) eqn:E0; [reflexivity|].
  rewrite (find_ext _ (fun x => Nat.eqb (lev s x) 1) l); [reflexivity|].
  intros [rd d] Hx. pose proof (find_none _ _ E0 _ Hx) as HN. specialize (H _ Hx). cbn [snd fst] in *. revert HN.
  unfold lev. rewrite H. unfold curb. cbn [fst snd]. destruct (cur_gid_is F s _); try discriminate. destruct (gid_in _ _); reflexivity.
Qed.
Lemma find_all_false {A} (p : A -> bool) l : (forall x, In x l -> p x = false) -> find p l = None.
Proof.
  induction l as [|x l IH]; intros H; [reflexivity|]. simpl. rewrite (H x) by (simpl; auto). apply IH. intros y Hy. apply H. simpl; auto.
Qed.
Lemma scan_line s l : Forall (fun x => cls x = 3) l -> pick_line F s l = scan (lev s) l.
Proof.
  intros H. rewrite Forall_forall in H. unfold pick_line, scan, first_that, last_item.
  rewrite (find_ext _ (fun x => Nat.eqb (lev s x) 0) l).
  2:{ intros [rd d] Hx. specialize (H _ Hx). unfold lev. rewrite H. unfold curb. cbn.
      destruct (cur_gid_is F s _); reflexivity. }
  destruct (find _ l) eqn:E0; [reflexivity|].
  rewrite (find_all_false (fun x => Nat.eqb (lev s x) 1) l); [reflexivity|].
  intros x Hx. unfold lev. rewrite (H _ Hx). destruct (curb s x); reflexivity.
Qed.

Lemma find_split {A} (p : A -> bool) l x : find p l = Some x ->
  exists l1 l2, l = l1 ++ x :: l2 /\ p x = true /\ forall y, In y l1 -> p y = false.
Proof.
  induction l as [|y l IH]; [discriminate|]. simpl. destruct (p y) eqn:E.
  - intros [= <-]. exists [], l. repeat split; auto. intros z [].
  - intros H. destruct (IH H) as (l1 & l2 & -> & H1 & H2). exists (y :: l1), l2. repeat split; auto.
    intros z [<-|Hz]; auto.
Qed.

Lemma scan_spec lv l x : (forall y, lv y <= 2) -> scan lv l = Some x ->
  exists l1 l2, l = l1 ++ x :: l2 /\ (forall y, In y l -> lv x <= lv y) /\
    (lv x < 2 -> forall y, In y l1 -> lv x < lv y) /\ (lv x = 2 -> l2 = []).
Proof.
  intros Hb. unfold scan. destruct (find (fun x => Nat.eqb (lv x) 0) l) as [z|] eqn:E0.
  - intros [= <-]. apply find_split in E0 as (l1 & l2 & -> & H1 & H2). apply Nat.eqb_eq in H1.
    exists l1, l2. repeat split; [lia| |lia]. intros _ y Hy. specialize (H2 y Hy). apply Nat.eqb_neq in H2. lia.
  - assert (N0 : forall y, In y l -> lv y <> 0). { intros y Hy. pose proof (find_none _ _ E0 y Hy) as HN. now apply Nat.eqb_neq in HN. }
    destruct (find (fun x => Nat.eqb (lv x) 1) l) as [z|] eqn:E1.
    + intros [= <-]. apply find_split in E1 as (l1 & l2 & -> & H1 & H2). apply Nat.eqb_eq in H1.
      exists l1, l2. repeat split; [| |lia].
      * intros y Hy. specialize (N0 y Hy). lia.
      * intros _ y Hy. specialize (H2 y Hy). apply Nat.eqb_neq in H2.
        assert (In y (l1 ++ z :: l2)) as Hi by (apply in_or_app; auto). specialize (N0 y Hi). lia.
    + assert (N1 : forall y, In y l -> lv y <> 1). { intros y Hy. pose proof (find_none _ _ E1 y Hy) as HN. now apply Nat.eqb_neq in HN. }
      intros H. apply opt_last_Some in H as [l' ->]. exists l', []. repeat split; auto.
      * intros y Hy. specialize (N0 y Hy). specialize (N1 y Hy). specialize (Hb x). lia.
      * intros Hx. exfalso. assert (Hi : In x (l' ++ [x])) by (apply in_or_app; simpl; auto).
        specialize (N0 x Hi). specialize (N1 x Hi). lia.
Qed.

Lemma lev_le2 s x : lev s x <= 2.
Proof.
  unfold lev. destruct (cls x) as [|[|[|?]]]; destruct (passb x), (curb s x), (childb s x), (gid_in (gid_of x) (s_started F s)); lia.
Qed.

Lemma choose_scan s c : c <> [] -> exists n, (forall y, In y c -> n <= cls y) /\ (exists y, In y c /\ cls y = n) /\
  choose F s c = scan (lev s) (of_cls n c).
Proof.
  intros Hne.
  assert (Hcl : forall n, Forall (fun x => cls x = n) (of_cls n c)).
  { intros n. apply Forall_forall. intros x Hx. apply filter_In in Hx as [_ Hx]. now apply Nat.eqb_eq. }
  assert (Hnil : forall n, of_cls n c = [] -> forall y, In y c -> cls y <> n).
  { intros n Hn y Hy Hc. assert (Hi : In y (of_cls n c)) by (apply filter_In; split; [exact Hy|now apply Nat.eqb_eq]).
    rewrite Hn in Hi. exact Hi. }
  assert (Hex : forall n x l, of_cls n c = x :: l -> exists y, In y c /\ cls y = n).
  { intros n x l Hn. assert (Hi : In x (of_cls n c)) by (rewrite Hn; simpl; auto). apply filter_In in Hi as [Hi Hx].
    exists x. split; [exact Hi|now apply Nat.eqb_eq]. }
  destruct (Nat.eq_dec (length c) 1) as [H1|H1].
  - destruct c as [|y [|z c]]; simpl in H1; try congruence. exists (cls y). repeat split.
    + intros z [<-|[]]; lia.
    + exists y. simpl; auto.
    + simpl. rewrite Nat.eqb_refl. unfold scan. simpl. destruct (Nat.eqb _ 0); [reflexivity|]. destruct (Nat.eqb _ 1); reflexivity.
  - assert (choose F s c = match of_cls 0 c, of_cls 1 c, of_cls 2 c with
      | _ :: _, _, _ => pick_start F s (of_cls 0 c)
      | [], _ :: _, _ => pick_start F s (of_cls 1 c)
      | [], [], _ :: _ => pick_normal F s (of_cls 2 c)
      | [], [], [] => pick_line F s (of_cls 3 c)
      end) as ->.
    { rewrite <- filter_cls0, <- filter_cls1, <- filter_cls2, <- filter_cls3.
      unfold choose. destruct c as [|x [|y c]]; [congruence|simpl in H1; congruence|]; reflexivity. }
    destruct (of_cls 0 c) as [|x0 l0] eqn:E0.
    + pose proof (Hnil 0 E0) as N0. destruct (of_cls 1 c) as [|x1 l1] eqn:E1.
      * pose proof (Hnil 1 E1) as N1. destruct (of_cls 2 c) as [|x2 l2] eqn:E2.
        -- pose proof (Hnil 2 E2) as N2. exists 3. repeat split.
           ++ intros y Hy. specialize (N0 y Hy); specialize (N1 y Hy); specialize (N2 y Hy). lia.
           ++ destruct c as [|y c]; [congruence|]. exists y. split; [simpl; auto|].
              assert (Hy : In y (y :: c)) by (simpl; auto).
              specialize (N0 y Hy); specialize (N1 y Hy); specialize (N2 y Hy). pose proof (cls_le3 y). lia.
           ++ apply scan_line, Hcl.
        -- exists 2. repeat split.
           ++ intros y Hy. specialize (N0 y Hy); specialize (N1 y Hy). lia.
           ++ eapply Hex; eauto.
           ++ rewrite <- E2. apply scan_normal, Hcl.
      * exists 1. repeat split.
        -- intros y Hy. specialize (N0 y Hy). lia.
        -- eapply Hex; eauto.
        -- rewrite <- E1. apply scan_start. eapply Forall_impl; [|apply Hcl]. cbn. intros; lia.
    + exists 0. repeat split.
      * intros y Hy. lia.
      * eapply Hex; eauto.
      * rewrite <- E0. apply scan_start. eapply Forall_impl; [|apply Hcl]. cbn. intros; lia.
Qed.

Lemma filter_split {A} (p : A -> bool) c l1 x l2 : filter p c = l1 ++ x :: l2 ->
  p x = true /\ exists c1 c2, c = c1 ++ x :: c2 /\ filter p c1 = l1 /\ filter p c2 = l2.
Proof.
  revert l1; induction c as [|y c IH]; intros l1 H; [destruct l1; discriminate|]. simpl in H. destruct (p y) eqn:E.
  - destruct l1 as [|z l1].
    + injection H as -> <-. split; [exact E|]. exists [], c. auto.
    + injection H as -> H. destruct (IH l1 H) as (Hx & c1 & c2 & -> & H1 & H2). split; [exact Hx|].
      exists (z :: c1), c2. repeat split; auto. simpl. rewrite E. congruence.
  - destruct (IH l1 H) as (Hx & c1 & c2 & -> & H1 & H2). split; [exact Hx|].
    exists (y :: c1), c2. repeat split; auto. simpl. now rewrite E.
Qed.

Theorem choose_best s c : c <> [] -> exists x, choose F s c = Some x /\ best_choice F s c x.
Proof.
  intros Hne. destruct (choose_scan s c Hne) as (n & Hmin & (y & Hy & Hyn) & ->).
  assert (Hin : forall y, In y c -> cls y = n -> In y (of_cls n c)).
  { intros z Hz Hzn. apply filter_In; split; [exact Hz|now apply Nat.eqb_eq]. }
  destruct (scan (lev s) (of_cls n c)) as [x|] eqn:ES.
  2:{ exfalso. specialize (Hin y Hy Hyn). unfold scan in ES. destruct (find _ _); [discriminate|]. destruct (find _ _); [discriminate|].
      apply opt_last_None in ES. rewrite ES in Hin. exact Hin. }
  exists x. split; [reflexivity|].
  apply scan_spec in ES as (l1 & l2 & HL & H1 & H2 & H3); [|apply lev_le2].
  apply filter_split in HL as (Hx & c1 & c2 & Hc & HL1 & HL2). apply Nat.eqb_eq in Hx.
  split; [intros z Hz; rewrite Hx; auto|].
  exists c1, c2, (lev s x). split; [exact Hc|]. split; [apply lev_level|]. rewrite Hx. repeat split.
  - intros z m Hz Hzn Hl. rewrite (level_fun s z m (lev s z) Hl (lev_level s z)). apply H1. auto.
  - intros Hl z m Hz Hzn Hm. rewrite (level_fun s z m (lev s z) Hm (lev_level s z)). apply H2; [exact Hl|].
    rewrite <- HL1. apply filter_In. split; [exact Hz|]. now apply Nat.eqb_eq.
  - intros Hl z Hz Hzn. specialize (H3 Hl). assert (Hi : In z l2).
    { rewrite <- HL2. apply filter_In. split; [exact Hz|]. now apply Nat.eqb_eq. }
    rewrite H3 in Hi. exact Hi.
Qed.
End Choose.
