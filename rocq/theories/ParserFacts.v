(** * ParserFacts: proofs about the parser. *)
From Verif Require Import PyBase DictFacts Results MatchFuncs Parser SpecParser.
From Coq Require Import Sorting.Sorted Sorting.Permutation.

(** ** the function chain *)
Lemma run_chain_app a : forall b env d nf,
  run_chain (a ++ b) env d nf =
  do (env', o) <- run_chain a env d nf;
  match o with None => Ok (env', None) | Some (d', nf') => run_chain b env' d' nf' end.
Proof.
  induction a as [|f a IH]; intros b env d nf; [reflexivity|].
  cbn [app run_chain]. destruct (run_func f env d) as [[env' [d' fl]]|e]; cbn [rbind]; [|reflexivity].
  destruct fl as [|[]|n]; try apply IH. reflexivity.
Qed.

Lemma run_chain_pure fs gs : Forall2 pure_func fs gs -> forall env d nf,
  run_chain fs env d nf =
  Ok (env, match through gs d with Some v => Some (v, fold_left dupdate (new_fields gs d) nf) | None => None end).
Proof.
  induction 1 as [|f g fs gs Hf Hfs IH]; intros env d nf; [reflexivity|].
  cbn [run_chain through new_fields]. rewrite Hf. cbn [rbind]. destruct (g d) as [d' fl]. cbn [fst snd].
  destruct fl as [|[]|n]; try rewrite IH; reflexivity.
Qed.

(** ** all variables of a match, functions pure and without new fields *)
Lemma new_fields_none fs gs : Forall2 plain_func fs gs -> forall d, new_fields gs d = [].
Proof.
  induction 1 as [|f g fs gs [_ Hg] _ IH]; intros d; [reflexivity|]. cbn [new_fields]. rewrite IH, app_nil_r.
  specialize (Hg d). destruct (snd (g d)); try reflexivity. now destruct (Hg fields).
Qed.
Lemma plain_pure fs gs : Forall2 plain_func fs gs -> Forall2 pure_func fs gs.
Proof. induction 1 as [|f g fs gs [H _] _ IH]; constructor; auto. Qed.

Lemma run_vars_plain vars spec temp : vars_are vars spec temp ->
  forall env result,
  run_vars vars temp env result =
  Ok (env, match line_values spec temp with Some l => Some (dupdate result l) | None => None end).
Proof.
  unfold vars_are. induction temp as [|[n d] temp IH]; intros H env result; [reflexivity|].
  destruct (H n d (or_introl eq_refl)) as (v & k & gs & Hv & Hs & Hk & Hf).
  cbn [run_vars line_values]. rewrite Hv, Hs. rewrite (run_chain_pure _ _ (plain_pure _ _ Hf)). cbn [rbind].
  destruct (through gs d) as [w|]; [|reflexivity]. rewrite (new_fields_none _ _ Hf). cbn [fold_left].
  rewrite IH; [|intros n' d' Hi; apply (H n' d'); now right]. rewrite Hk.
  destruct (line_values spec temp); reflexivity.
Qed.

(** ** positions *)
Section PF.
Variable F : Type.
Notation found := (list (Z * list (item F))).

Lemma add_at_at p x (rs : found) q y : at_pos (add_at F p x rs) q y <-> (q = p /\ y = x) \/ at_pos rs q y.
Proof.
  unfold at_pos. induction rs as [|[r l] rs IH].
  - simpl. split.
    + intros (l & [Hl|[]] & Hy). injection Hl as <- <-. destruct Hy as [<-|[]]. auto.
    + intros [[-> ->]|(l & [] & _)]. exists [x]. split; [now left|now left].
  - cbn [add_at]. destruct (Z.eqb_spec p r) as [->|Hp].
    + split.
      * intros (l' & [Hl|Hl] & Hy).
        -- injection Hl as <- <-. apply in_app_or in Hy as [Hy|[<-|[]]]; [right|left; auto]. exists l. split; [now left|exact Hy].
        -- right. exists l'. split; [now right|exact Hy].
      * intros [[-> ->]|(l' & [Hl|Hl] & Hy)].
        -- exists (l ++ [x]). split; [now left|]. apply in_or_app. right. now left.
        -- injection Hl as <- <-. exists (l ++ [x]). split; [now left|]. apply in_or_app. now left.
        -- exists l'. split; [now right|exact Hy].
    + split.
      * intros (l' & [Hl|Hl] & Hy).
        -- injection Hl as <- <-. right. exists l. split; [now left|exact Hy].
        -- destruct (proj1 IH) as [H|(l2 & H1 & H2)]; [exists l'; auto|now left|right; exists l2; split; [now right|exact H2]].
      * intros H. assert (H' : (q = r /\ In y l) \/ ((q = p /\ y = x) \/ exists l0, In (q, l0) rs /\ In y l0)).
        { destruct H as [H|(l' & [Hl|Hl] & Hy)]; [tauto| |].
          - injection Hl as <- <-. auto.
          - right. right. eauto. }
        destruct H' as [[-> Hy]|H'].
        -- exists l. split; [now left|exact Hy].
        -- destruct (proj2 IH H') as (l' & H1 & H2). exists l'. split; [now right|exact H2].
Qed.

(** everything in [rs'] was in [rs] or satisfies [P] *)
Definition new_in (P : Z -> item F -> Prop) (rs rs' : found) : Prop :=
  forall q y, at_pos rs' q y -> at_pos rs q y \/ P q y.
Lemma new_in_refl P rs : new_in P rs rs.
Proof. intros q y H. now left. Qed.
Lemma new_in_trans (P : Z -> item F -> Prop) a b c : new_in P a b -> new_in P b c -> new_in P a c.
Proof. intros H1 H2 q y H. destruct (H2 q y H) as [H'|H']; [now apply H1|now right]. Qed.
Lemma new_in_weaken (P Q : Z -> item F -> Prop) a b : (forall q y, P q y -> Q q y) -> new_in P a b -> new_in Q a b.
Proof. intros HPQ H q y Hy. destruct (H q y Hy); auto. Qed.

(** what the matches [ms] of [R], in a window that begins at [start], can add *)
Definition from (R : pregex F) (ms : list pmatch) (start : Z) (q : Z) (y : item F) : Prop :=
  exists m, In m ms /\ q = (start + Z.of_nat (pm_start m))%Z /\ fst y = p_re F R.

Lemma check_one_new R start st m st' : check_one F R start st m = Ok st' ->
  new_in (fun q y => q = (start + Z.of_nat (pm_start m))%Z /\ fst y = p_re F R) (snd st) (snd st') /\
  (forall q y, at_pos (snd st) q y -> at_pos (snd st') q y).
Proof.
  unfold check_one. destruct st as [env rs]. destruct (run_vars _ _ env []) as [[env' r]|e]; cbn [rbind]; [|discriminate].
  assert (HA : forall x, fst x = p_re F R ->
    new_in (fun q y => q = (start + Z.of_nat (pm_start m))%Z /\ fst y = p_re F R) rs (add_at F (start + Z.of_nat (pm_start m)) x rs) /\
    (forall q y, at_pos rs q y -> at_pos (add_at F (start + Z.of_nat (pm_start m)) x rs) q y)).
  { intros x Hx. split.
    - intros q y Hy. apply add_at_at in Hy as [[-> ->]|Hy]; auto.
    - intros q y Hy. apply add_at_at. now right. }
  destruct r as [d|]; intros H.
  - injection H as <-. now apply HA.
  - destruct (is_start _); injection H as <-; [now apply HA|]. split; [apply new_in_refl|auto].
Qed.
Lemma check_matches_new R start ms : forall st st', check_matches F R ms start st = Ok st' ->
  new_in (from R ms start) (snd st) (snd st') /\ (forall q y, at_pos (snd st) q y -> at_pos (snd st') q y).
Proof.
  unfold check_matches. induction ms as [|m ms IH]; intros st st' H.
  - injection H as <-. split; [apply new_in_refl|auto].
  - cbn [rfold] in H. destruct (check_one F R start st m) as [st1|e] eqn:E; cbn [rbind] in H; [|discriminate].
    apply check_one_new in E as [E1 E2]. destruct (IH _ _ H) as [H1 H2]. split.
    + eapply new_in_trans; [eapply new_in_weaken; [|exact E1]|eapply new_in_weaken; [|exact H1]].
      * intros q y [-> Hy]. exists m. split; [now left|auto].
      * intros q y (m' & Hm & Hq). exists m'. split; [now right|auto].
    + intros q y Hy. apply H2, E2, Hy.
Qed.

(** ** the start loop *)
Definition first_of (l : list (pregex F)) (w : str) (s : Z) : Prop :=
  (exists R m, In R l /\ In m (p_find F R w) /\ s = Z.of_nat (pm_start m)) /\
  (forall R m, In R l -> In m (p_find F R w) -> (s <= Z.of_nat (pm_start m))%Z).

Lemma finder_first f s m ms : finder_ok f -> f s = m :: ms -> forall x, In x (f s) -> pm_start m <= pm_start x.
Proof.
  intros H E x Hx. destruct (H s) as [_ Hs]. rewrite E in *. apply StronglySorted_inv in Hs as [_ Hs].
  destruct Hx as [<-|Hx]; [lia|]. rewrite Forall_forall in Hs. now apply Hs in Hx.
Qed.

Lemma starts_loop text start stop : forall l done a a',
  Forall (fun R => finder_ok (p_find F R)) l ->
  rfold (do_start F text start stop) l a = Ok a' ->
  (if sa_found F a then first_of done (slice text start stop) (sa_s F a)
   else sa_s F a = 0%Z /\ Forall (fun R => p_find F R (slice text start stop) = []) done) ->
  (if sa_found F a' then first_of (done ++ l) (slice text start stop) (sa_s F a')
   else sa_s F a' = 0%Z /\ Forall (fun R => p_find F R (slice text start stop) = []) (done ++ l)) /\
  new_in (fun q y => exists R, In R l /\ from R (p_find F R (slice text start stop)) start q y) (snd (sa_st F a)) (snd (sa_st F a')) /\
  (sa_found F a' = false -> a' = a).
Proof.
  induction l as [|R l IH]; intros done a a' Hok H HI.
  - injection H as <-. rewrite app_nil_r. split; [exact HI|]. split; [apply new_in_refl|auto].
  - inversion Hok as [|? ? HR Hl]; subst. cbn [rfold] in H. unfold do_start in H at 1.
    destruct (p_find F R (slice text start stop)) as [|m ms] eqn:E.
    + cbn [rbind] in H. destruct (IH (done ++ [R]) a a' Hl H) as (H1 & H2 & H3).
      * destruct (sa_found F a).
        -- destruct HI as [(R0 & m0 & A & B & C) HI]. split.
           ++ exists R0, m0. split; [apply in_or_app; now left|auto].
           ++ intros R1 m1 Hi Hm. apply in_app_or in Hi as [Hi|[<-|[]]]; [eauto|]. rewrite E in Hm. contradiction.
        -- destruct HI as [HI1 HI2]. split; [exact HI1|]. apply Forall_app. split; [exact HI2|]. now constructor.
      * rewrite <- app_assoc in H1. cbn [app] in H1. split; [exact H1|]. split; [|exact H3].
        eapply new_in_weaken; [|exact H2]. intros q y (R0 & A & B). exists R0. split; [now right|exact B].
    + destruct (check_matches F R (m :: ms) start (sa_st F a)) as [st1|e] eqn:EC; cbn [rbind] in H; [|discriminate].
      set (a1 := {| sa_found := true;
            sa_s := if (Z.ltb (Z.of_nat (pm_start m)) (sa_s F a) || negb (sa_found F a))%bool then Z.of_nat (pm_start m) else sa_s F a;
            sa_se := if (Z.ltb (sa_se F a) (Z.of_nat (pm_start (last (m :: ms) m))) && negb (r_isline F (p_re F R)))%bool
                     then (Z.of_nat (pm_end (last (m :: ms) m)) + start)%Z else sa_se F a;
            sa_st := st1 |}) in *.
      destruct (IH (done ++ [R]) a1 a' Hl H) as (H1 & H2 & H3).
      * cbn [sa_found sa_s a1].
        pose proof (finder_first _ _ _ _ HR E) as Hfirst. rewrite E in Hfirst.
        destruct (sa_found F a) eqn:Ef.
        -- destruct HI as [(R0 & m0 & A & B & C) HI]. cbn [negb]. rewrite orb_false_r.
           destruct (Z.ltb_spec (Z.of_nat (pm_start m)) (sa_s F a)) as [Hlt|Hge].
           ++ split.
              ** exists R, m. split; [apply in_or_app; right; now left|]. rewrite E. split; [now left|reflexivity].
              ** intros R1 m1 Hi Hm. apply in_app_or in Hi as [Hi|[<-|[]]].
                 --- specialize (HI R1 m1 Hi Hm). lia.
                 --- rewrite E in Hm. specialize (Hfirst m1 Hm). lia.
           ++ split.
              ** exists R0, m0. split; [apply in_or_app; now left|auto].
              ** intros R1 m1 Hi Hm. apply in_app_or in Hi as [Hi|[<-|[]]]; [eauto|].
                 rewrite E in Hm. specialize (Hfirst m1 Hm). lia.
        -- cbn [negb]. rewrite orb_true_r. destruct HI as [_ HI]. split.
           ++ exists R, m. split; [apply in_or_app; right; now left|]. rewrite E. split; [now left|reflexivity].
           ++ intros R1 m1 Hi Hm. apply in_app_or in Hi as [Hi|[<-|[]]].
              ** rewrite Forall_forall in HI. rewrite (HI R1 Hi) in Hm. contradiction.
              ** rewrite E in Hm. specialize (Hfirst m1 Hm). lia.
      * rewrite <- app_assoc in H1. cbn [app] in H1. split; [exact H1|]. split.
        -- eapply new_in_trans; [|eapply new_in_weaken; [|exact H2]].
           ++ apply check_matches_new in EC as [EC _]. eapply new_in_weaken; [|exact EC].
              intros q y Hy. exists R. split; [now left|]. rewrite E. exact Hy.
           ++ intros q y (R0 & A & B). exists R0. split; [now right|exact B].
        -- intros Hf. specialize (H3 Hf). subst a'. unfold a1 in Hf. cbn [sa_found] in Hf. discriminate.
Qed.

(** ** the end loop *)
Lemma last_In {A} (l : list A) d : l <> [] -> In (last l d) l.
Proof.
  induction l as [|x l IH]; [congruence|]. intros _. destruct l as [|y l]; [now left|].
  right. apply IH. congruence.
Qed.
Lemma sorted_last (l : list pmatch) d : StronglySorted (fun a b => pm_start a <= pm_start b /\ pm_end a <= pm_end b) l ->
  forall y, In y l -> pm_end y <= pm_end (last l d).
Proof.
  induction l as [|x l IH]; intros Hs y Hy; [contradiction|]. apply StronglySorted_inv in Hs as [Hs Hf].
  destruct l as [|z l]; [destruct Hy as [<-|[]]; reflexivity|].
  change (last (x :: z :: l) d) with (last (z :: l) d). destruct Hy as [<-|Hy]; [|now apply IH].
  inversion Hf as [|? ? Hz _]; subst. specialize (IH Hs z (or_introl eq_refl)). lia.
Qed.
Lemma ends_loop text start stop se : forall l a a',
  Forall (fun R => finder_ok (p_find F R)) l ->
  rfold (do_end F text start stop se) l a = Ok a' ->
  new_in (fun q y => exists R, In R l /\ from R (p_find F R (slice text start stop)) start q y) (snd (snd a)) (snd (snd a')) /\
  (fst a' = fst a \/ ((se < fst a')%Z /\ exists R m, In R l /\ In m (p_find F R (slice text start stop)) /\ fst a' = Z.of_nat (pm_end m))) /\
  (fst a <= fst a')%Z /\
  (forall R m, In R l -> In m (p_find F R (slice text start stop)) -> (se < Z.of_nat (pm_end m))%Z ->
     (Z.of_nat (pm_end m) <= fst a')%Z).
Proof.
  induction l as [|R l IH]; intros a a' Hok H.
  - injection H as <-. split; [apply new_in_refl|]. split; [now left|]. split; [lia|]. intros R m [].
  - inversion Hok as [|? ? HR Hl]; subst. cbn [rfold] in H. unfold do_end in H at 1.
    destruct (p_find F R (slice text start stop)) as [|m ms] eqn:E.
    + cbn [rbind] in H. destruct (IH a a' Hl H) as (H1 & H2 & H3 & H4). split; [|split; [|split]].
      * eapply new_in_weaken; [|exact H1]. intros q y (R0 & A & B). exists R0. split; [now right|exact B].
      * destruct H2 as [H2|(H2 & R0 & m0 & A & B)]; [now left|right]. split; [exact H2|]. exists R0, m0. split; [now right|exact B].
      * exact H3.
      * intros R0 m0 [<-|Hi] Hm Hlt; [rewrite E in Hm; contradiction|eauto].
    + destruct (check_matches F R (m :: ms) start (snd a)) as [st1|e] eqn:EC; cbn [rbind] in H; [|discriminate].
      set (x := Z.of_nat (pm_end (last (m :: ms) m))) in *.
      set (e1 := if (Z.ltb (fst a) x && Z.ltb se x)%bool then x else fst a) in *.
      destruct (IH (e1, st1) a' Hl H) as (H1 & H2 & H3 & H4). cbn [fst snd] in *.
      assert (Hlast : In (last (m :: ms) m) (m :: ms)).
      { apply last_In. discriminate. }
      assert (Hmax : forall y, In y (m :: ms) -> (Z.of_nat (pm_end y) <= x)%Z).
      { intros y Hy. subst x. destruct (HR (slice text start stop)) as [_ Hs]. rewrite E in Hs.
        enough (pm_end y <= pm_end (last (m :: ms) m)) by lia. now apply sorted_last. }
      split; [|split; [|split]].
      * eapply new_in_trans; [|eapply new_in_weaken; [|exact H1]].
        -- apply check_matches_new in EC as [EC _]. eapply new_in_weaken; [|exact EC].
           intros q y Hy. exists R. split; [now left|]. rewrite E. exact Hy.
        -- intros q y (R0 & A & B). exists R0. split; [now right|exact B].
      * destruct H2 as [H2|(H2 & R0 & m0 & A & B)].
        -- rewrite H2. subst e1. destruct (Z.ltb_spec (fst a) x); destruct (Z.ltb_spec se x); cbn [andb]; try now left.
           right. split; [assumption|]. exists R, (last (m :: ms) m). rewrite E. split; [now left|]. split; [exact Hlast|reflexivity].
        -- right. split; [exact H2|]. exists R0, m0. split; [now right|exact B].
      * subst e1. destruct (Z.ltb_spec (fst a) x); destruct (Z.ltb_spec se x); cbn [andb] in H3; lia.
      * intros R0 m0 [<-|Hi] Hm Hlt; [|eauto]. rewrite E in Hm. specialize (Hmax m0 Hm).
        enough (x <= e1)%Z by lia. subst e1. destruct (Z.ltb_spec (fst a) x); destruct (Z.ltb_spec se x); cbn [andb]; lia.
Qed.

(** ** cleaning *)
Lemma remove_iter_In {A} (p : A -> bool) : forall l x, In x (remove_iter p l) -> In x l.
Proof.
  intros l. induction l as [l IH] using (well_founded_induction (Wf_nat.well_founded_ltof _ (@length A))).
  intros x Hx. destruct l as [|y t]; [exact Hx|]. cbn [remove_iter] in Hx. destruct (p y).
  - destruct t as [|z t]; [contradiction|]. destruct Hx as [<-|Hx]; [right; now left|].
    right. right. apply (IH t); [unfold Wf_nat.ltof; simpl; lia|exact Hx].
  - destruct Hx as [<-|Hx]; [now left|]. right. apply (IH t); [unfold Wf_nat.ltof; simpl; lia|exact Hx].
Qed.
Lemma cleanup_at g stop (rs : found) q y : at_pos (cleanup F g stop rs) q y -> at_pos rs q y.
Proof.
  intros (l & Hl & Hy). unfold cleanup in Hl. apply filter_In in Hl as [Hl _]. apply in_map_iff in Hl as ([p k] & He & Hk).
  cbn [fst snd] in He. injection He as <- <-. exists k. split; [exact Hk|]. eapply remove_iter_In, Hy.
Qed.

Lemma free_key_ge (rs : found) n : forall k, (k <= free_key F n k rs)%Z.
Proof.
  induction n as [|n IH]; intros k; [simpl; lia|].
  cbn [free_key]. destruct (has_key F k rs); [specialize (IH (k + 1)%Z); lia|lia].
Qed.
Lemma place_default_at g starts (rs : found) q y : at_pos (place_default F g starts rs) q y ->
  at_pos rs q y \/ (is_default F y /\ (default_key <= q)%Z).
Proof.
  intros (l & Hl & Hy). unfold place_default in Hl. apply in_app_or in Hl as [Hl|[Hl|[]]].
  - left. exists l. auto.
  - right. apply pair_equal_spec in Hl as [<- <-]. destruct Hy as [<-|[]]. split; [reflexivity|].
    apply free_key_ge.
Qed.

(** ** windows *)
Lemma slice_length text start stop : (0 <= start <= stop_pos text stop)%Z ->
  (Z.of_nat (length (slice text start stop)) <= stop_pos text stop - start)%Z.
Proof.
  intros H. unfold slice, stop_pos in *. rewrite firstn_length. destruct (Z.ltb stop 0); lia.
Qed.

Lemma find_bound R text start stop m : finder_ok (p_find F R) -> (0 <= start <= stop_pos text stop)%Z ->
  In m (p_find F R (slice text start stop)) ->
  (start + Z.of_nat (pm_start m) <= stop_pos text stop)%Z /\ (start + Z.of_nat (pm_end m) <= stop_pos text stop)%Z.
Proof.
  intros HR Hw Hm. destruct (HR (slice text start stop)) as [Hf _]. rewrite Forall_forall in Hf.
  specialize (Hf m Hm). pose proof (slice_length text start stop Hw). lia.
Qed.

Lemma pgroup_ind' (P : pgroup F -> Prop) :
  (forall g a b c d cs, Forall P cs -> P (PG F g a b c d cs)) -> forall G, P G.
Proof.
  intros H. fix IH 1. intros [g a b c d cs]. apply H.
  induction cs as [|x cs IHc]; constructor; [apply IH|exact IHc].
Qed.

Lemma stop_pos_nonneg text z : (0 <= z)%Z -> stop_pos text z = z.
Proof. intros H. unfold stop_pos. destruct (Z.ltb_spec z 0); [lia|reflexivity]. Qed.

(** the bounds of everything a group adds *)
Definition within (lo hi : Z) (q : Z) (y : item F) : Prop :=
  (lo <= q <= hi)%Z \/ (is_default F y /\ (default_key <= q)%Z).

Lemma from_within R text start stop q y : finder_ok (p_find F R) -> (0 <= start <= stop_pos text stop)%Z ->
  from R (p_find F R (slice text start stop)) start q y -> within start (stop_pos text stop) q y.
Proof.
  intros HR Hw (m & Hm & -> & _). destruct (find_bound R text start stop m HR Hw Hm). left. lia.
Qed.

Lemma tree_ok_inv g a b c d cs : tree_ok F (PG F g a b c d cs) ->
  Forall (fun R => finder_ok (p_find F R)) a /\ Forall (fun R => finder_ok (p_find F R)) b /\
  Forall (fun R => finder_ok (p_find F R)) c /\ Forall (tree_ok F) cs.
Proof.
  unfold tree_ok. cbn [regexes]. rewrite !Forall_app. intros (H1 & H2 & H3 & H4). repeat split; auto.
  apply Forall_forall. intros x Hx. apply Forall_forall. intros R HR. rewrite Forall_forall in H4.
  apply H4. apply in_flat_map. eauto.
Qed.

Lemma normals_loop text start stop l : Forall (fun R => finder_ok (p_find F R)) l ->
  forall st st',
  rfold (fun st R => check_matches F R (p_find F R (slice text start stop)) start st) l st = Ok st' ->
  new_in (fun q y => exists R, In R l /\ from R (p_find F R (slice text start stop)) start q y) (snd st) (snd st').
Proof.
  induction l as [|R l IH]; intros Hok st st' H.
  - injection H as <-. apply new_in_refl.
  - inversion Hok as [|? ? HR Hl]; subst. cbn [rfold] in H.
    destruct (check_matches F R _ start st) as [st1|e] eqn:EC; cbn [rbind] in H; [|discriminate].
    apply check_matches_new in EC as [EC _].
    eapply new_in_trans; [eapply new_in_weaken; [|exact EC]|eapply new_in_weaken; [|exact (IH Hl _ _ H)]].
    + intros q y Hy. exists R. split; [now left|exact Hy].
    + intros q y (R0 & A & B). exists R0. split; [now right|exact B].
Qed.

(** the two loops over children *)
Fixpoint kids_all (text : str) (start stop : Z) (cs : list (pgroup F)) (st : menv * found) : res (menv * found) :=
  match cs with
  | [] => Ok st
  | c :: t => do st' <- run_re F text c st start stop; kids_all text start stop t st'
  end.
Fixpoint kids_def (text : str) (start stop : Z) (b : bool) (cs : list (pgroup F)) (st : menv * found) : res (menv * found) :=
  match cs with
  | [] => Ok st
  | c :: t => do st' <- (if (b || pg_default F c)%bool then run_re F text c st start stop else Ok st);
              kids_def text start stop b t st'
  end.
Lemma run_re_eq text g a b c d cs st start stop :
  run_re F text (PG F g a b c d cs) st start stop =
  (do acc <- rfold (do_start F text start stop) a {| sa_found := false; sa_s := 0; sa_se := 0; sa_st := st |};
   let start1 := (start + sa_s F acc)%Z in
   if negb (sa_found F acc) then
     kids_def text start1 stop (no_starts F a) cs
       (if d then (fst (sa_st F acc), place_default F g a (snd (sa_st F acc))) else sa_st F acc)
   else
     do (e, st1) <- rfold (do_end F text start1 stop (sa_se F acc)) b ((-1)%Z, sa_st F acc);
     let stop1 := if Z.eqb e (-1) then stop else (start1 + e)%Z in
     let st2 := if Z.eqb e (-1) then st1 else (fst st1, cleanup F (g_id F g) stop1 (snd st1)) in
     do st3 <- rfold (fun st R => check_matches F R (p_find F R (slice text start1 stop1)) start1 st) c st2;
     kids_all text start1 stop1 cs st3).
Proof.
  cbn [run_re]. destruct (rfold _ a _) as [acc|e]; cbn [rbind]; [|reflexivity].
  destruct (negb (sa_found F acc)).
  - generalize (if d then (fst (sa_st F acc), place_default F g a (snd (sa_st F acc))) else sa_st F acc).
    induction cs as [|x cs IH]; intros s; [reflexivity|]. cbn [kids_def].
    destruct (no_starts F a || pg_default F x)%bool; cbn [rbind].
    + destruct (run_re F text x s _ stop); cbn [rbind]; [apply IH|reflexivity].
    + apply IH.
  - destruct (rfold _ b _) as [[e st1]|e]; cbn [rbind]; [|reflexivity].
    destruct (rfold _ c _) as [st3|e']; cbn [rbind]; [|reflexivity].
    revert st3. induction cs as [|x cs IH]; intros s; [reflexivity|]. cbn [kids_all].
    destruct (run_re F text x s _ _); cbn [rbind]; [apply IH|reflexivity].
Qed.

Lemma kids_all_within text start stop cs :
  Forall (fun c => forall st st', run_re F text c st start stop = Ok st' ->
     new_in (within start (stop_pos text stop)) (snd st) (snd st')) cs ->
  forall st st', kids_all text start stop cs st = Ok st' -> new_in (within start (stop_pos text stop)) (snd st) (snd st').
Proof.
  induction 1 as [|x cs Hx Hcs IH]; intros st st' H; [injection H as <-; apply new_in_refl|].
  cbn [kids_all] in H. destruct (run_re F text x st start stop) as [s1|] eqn:E; cbn [rbind] in H; [|discriminate].
  eapply new_in_trans; [exact (Hx _ _ E)|exact (IH _ _ H)].
Qed.
Lemma kids_def_within text start stop b cs :
  Forall (fun c => forall st st', run_re F text c st start stop = Ok st' ->
     new_in (within start (stop_pos text stop)) (snd st) (snd st')) cs ->
  forall st st', kids_def text start stop b cs st = Ok st' -> new_in (within start (stop_pos text stop)) (snd st) (snd st').
Proof.
  induction 1 as [|x cs Hx Hcs IH]; intros st st' H; [injection H as <-; apply new_in_refl|].
  cbn [kids_def] in H. destruct (b || pg_default F x)%bool.
  - destruct (run_re F text x st start stop) as [s1|] eqn:E; cbn [rbind] in H; [|discriminate].
    eapply new_in_trans; [exact (Hx _ _ E)|exact (IH _ _ H)].
  - cbn [rbind] in H. exact (IH _ _ H).
Qed.

Lemma within_mono lo hi lo' hi' q y : (lo' <= lo)%Z -> (hi <= hi')%Z -> within lo hi q y -> within lo' hi' q y.
Proof. intros H1 H2 [H|H]; [left; lia|now right]. Qed.

(** no start line matches: the shape of what is done *)
Lemma run_re_no_start text g a b c d cs st start stop :
  Forall (fun R => finder_ok (p_find F R)) a ->
  (forall p, ~ start_at F text (PG F g a b c d cs) start stop p) ->
  run_re F text (PG F g a b c d cs) st start stop =
  kids_def text start stop (no_starts F a) cs (if d then (fst st, place_default F g a (snd st)) else st).
Proof.
  intros Hok Hno. rewrite run_re_eq.
  assert (Hnil : Forall (fun R => p_find F R (slice text start stop) = []) a).
  { apply Forall_forall. intros R HR. destruct (p_find F R (slice text start stop)) as [|m ms] eqn:E; [reflexivity|].
    exfalso. apply (Hno (start + Z.of_nat (pm_start m))%Z). exists R, m. split; [exact HR|]. rewrite E. split; [now left|reflexivity]. }
  assert (rfold (do_start F text start stop) a {| sa_found := false; sa_s := 0; sa_se := 0; sa_st := st |}
          = Ok {| sa_found := false; sa_s := 0; sa_se := 0; sa_st := st |}) as ->.
  { clear -Hnil. induction Hnil as [|R l HR Hl IH]; [reflexivity|]. cbn [rfold]. unfold do_start at 1. rewrite HR. exact IH. }
  cbn [rbind sa_s sa_found sa_st negb]. now rewrite Z.add_0_r.
Qed.

(** the end of the last start line: below every bound of the ends of the start
    lines that are not _line_ *)
Definition se_bound (a : list (pregex F)) (w : str) (start se : Z) : Prop :=
  forall x, (0 < x)%Z ->
    (forall R m, In R a -> r_isline F (p_re F R) = false -> In m (p_find F R w) -> (start + Z.of_nat (pm_end m) < x)%Z) ->
    (se < x)%Z.
Lemma starts_se text start stop : forall a acc acc',
  rfold (do_start F text start stop) a acc = Ok acc' ->
  forall x, (sa_se F acc < x)%Z ->
  (forall R m, In R a -> r_isline F (p_re F R) = false -> In m (p_find F R (slice text start stop)) -> (start + Z.of_nat (pm_end m) < x)%Z) ->
  (sa_se F acc' < x)%Z.
Proof.
  induction a as [|R a IH]; intros acc acc' H x Hx Hall; [injection H as <-; exact Hx|].
  cbn [rfold] in H. unfold do_start in H at 1. destruct (p_find F R (slice text start stop)) as [|m ms] eqn:E.
  - cbn [rbind] in H. eapply IH; [exact H|exact Hx|]. intros; eapply Hall; eauto; now right.
  - destruct (check_matches F R (m :: ms) start (sa_st F acc)) as [s1|]; cbn [rbind] in H; [|discriminate].
    eapply IH; [exact H| |intros; eapply Hall; eauto; now right]. cbn [sa_se].
    destruct (_ && _)%bool eqn:EB; [|exact Hx]. apply andb_prop in EB as [_ EB]. apply negb_true_iff in EB.
    rewrite Z.add_comm. apply (Hall R); [now left|exact EB|]. rewrite E. apply last_In. congruence.
Qed.

(** a start line matches: where the windows are *)
Lemma run_re_start text g a b c d cs st start stop st' :
  tree_ok F (PG F g a b c d cs) -> (0 <= start <= stop_pos text stop)%Z ->
  run_re F text (PG F g a b c d cs) st start stop = Ok st' ->
  (exists p, start_at F text (PG F g a b c d cs) start stop p) ->
  exists s, first_of a (slice text start stop) s /\
  exists stA e stB stop1 stC,
    new_in (fun q y => exists R, In R a /\ from R (p_find F R (slice text start stop)) start q y) (snd st) (snd stA) /\
    (exists acc, rfold (do_start F text start stop) a {| sa_found := false; sa_s := 0; sa_se := 0; sa_st := st |} = Ok acc /\
       sa_st F acc = stA /\ se_bound a (slice text start stop) start (sa_se F acc) /\
       rfold (do_end F text (start + s) stop (sa_se F acc)) b ((-1)%Z, stA) = Ok (e, stB)) /\
    stop1 = (if Z.eqb e (-1) then stop else (start + s + e)%Z) /\
    (0 <= start + s <= stop_pos text stop1)%Z /\ (stop_pos text stop1 <= stop_pos text stop)%Z /\
    rfold (fun st R => check_matches F R (p_find F R (slice text (start + s) stop1)) (start + s) st) c
      (if Z.eqb e (-1) then stB else (fst stB, cleanup F (g_id F g) stop1 (snd stB))) = Ok stC /\
    kids_all text (start + s) stop1 cs stC = Ok st'.
Proof.
  intros Hok Hw H (p & Hp). apply tree_ok_inv in Hok as (Ha & Hb & Hc & Hcs).
  rewrite run_re_eq in H.
  destruct (rfold (do_start F text start stop) a _) as [acc|] eqn:EA; cbn [rbind] in H; [|discriminate].
  pose proof (starts_loop text start stop a [] _ _ Ha EA) as HL. cbn [sa_found sa_s sa_st app] in HL.
  specialize (HL (conj eq_refl (Forall_nil _))). destruct HL as (HL1 & HL2 & _).
  destruct (sa_found F acc) eqn:Ef.
  2: { exfalso. destruct HL1 as [_ HL1]. destruct Hp as (R & m & HR & Hm & _). cbn [starts_of] in HR.
       rewrite Forall_forall in HL1. rewrite (HL1 R HR) in Hm. contradiction. }
  cbn [negb] in H. exists (sa_s F acc). split; [exact HL1|].
  destruct (rfold (do_end F text (start + sa_s F acc) stop (sa_se F acc)) b _) as [[e stB]|] eqn:EB; cbn [rbind] in H; [|discriminate].
  set (stop1 := if Z.eqb e (-1) then stop else (start + sa_s F acc + e)%Z) in *.
  destruct (rfold _ c _) as [stC|] eqn:EC; cbn [rbind] in H; [|discriminate].
  exists (sa_st F acc), e, stB, stop1, stC. split; [exact HL2|]. split.
  { exists acc. split; [reflexivity|]. split; [reflexivity|]. split; [|exact EB]. intros x Hx Hall. eapply starts_se; [exact EA|cbn [sa_se]; lia|exact Hall]. } split; [reflexivity|].
  assert (Hs : (0 <= start + sa_s F acc <= stop_pos text stop)%Z).
  { destruct HL1 as [(R & m & HR & Hm & ->) _]. rewrite Forall_forall in Ha.
    destruct (find_bound R text start stop m (Ha R HR) Hw Hm). lia. }
  assert (He : (0 <= start + sa_s F acc <= stop_pos text stop1)%Z /\ (stop_pos text stop1 <= stop_pos text stop)%Z).
  { subst stop1. destruct (Z.eqb_spec e (-1)) as [He|He]; [lia|].
    destruct (ends_loop text (start + sa_s F acc) stop (sa_se F acc) b _ _ Hb EB) as (_ & H2 & H3 & _). cbn [fst] in H2, H3.
    destruct H2 as [H2|(_ & R & m & HR & Hm & Hx)]; [congruence|]. rewrite Forall_forall in Hb.
    destruct (find_bound R text (start + sa_s F acc) stop m (Hb R HR) Hs Hm). rewrite stop_pos_nonneg by lia. lia. }
  split; [apply He|]. split; [apply He|]. split; [exact EC|exact H].
Qed.

Theorem run_re_within text G : tree_ok F G -> forall start stop st st',
  (0 <= start <= stop_pos text stop)%Z ->
  run_re F text G st start stop = Ok st' -> new_in (within start (stop_pos text stop)) (snd st) (snd st').
Proof.
  induction G as [g a b c d cs IH] using pgroup_ind'. intros Hok start stop st st' Hw H.
  destruct (tree_ok_inv _ _ _ _ _ _ Hok) as (Ha & Hb & Hc & Hcs).
  assert (Hdec : (exists p, start_at F text (PG F g a b c d cs) start stop p) \/ forall p, ~ start_at F text (PG F g a b c d cs) start stop p).
  { clear. unfold start_at. cbn [starts_of]. induction a as [|R l IH].
    - right. intros p (R & m & [] & _).
    - destruct IH as [(p & R0 & m & HR & Hm)|IH]; [left; exists p, R0, m; split; [now right|exact Hm]|].
      destruct (p_find F R (slice text start stop)) as [|m ms] eqn:E.
      + right. intros p (R0 & m & [<-|HR] & Hm & Hp); [rewrite E in Hm; contradiction|]. apply (IH p). exists R0, m. auto.
      + left. exists (start + Z.of_nat (pm_start m))%Z, R, m. split; [now left|]. rewrite E. split; [now left|reflexivity]. }
  destruct Hdec as [Hs|Hno].
  - destruct (run_re_start text g a b c d cs st start stop st' Hok Hw H Hs) as (s & Hf & stA & e & stB & stop1 & stC & H1 & (acc & _ & _ & _ & H2) & _ & H4 & H5 & H6 & H7).
    assert (Hs0 : (0 <= s)%Z) by (destruct Hf as [(R & m & _ & _ & ->) _]; lia).
    eapply new_in_trans; [eapply new_in_weaken; [|exact H1]|].
    { intros q y (R & HR & Hfr). rewrite Forall_forall in Ha. eapply from_within; [apply Ha, HR|exact Hw|exact Hfr]. }
    eapply new_in_trans.
    { destruct (ends_loop text (start + s) stop (sa_se F acc) b _ _ Hb H2) as (E1 & _). cbn [snd] in E1.
      eapply new_in_weaken; [|exact E1]. intros q y (R & HR & Hfr). rewrite Forall_forall in Hb.
      assert (Hw' : (0 <= start + s <= stop_pos text stop)%Z) by lia.
      eapply within_mono; [| |eapply from_within; [apply Hb, HR|exact Hw'|exact Hfr]]; lia. }
    eapply new_in_trans with (b := snd (if Z.eqb e (-1) then stB else (fst stB, cleanup F (g_id F g) stop1 (snd stB)))).
    { destruct (Z.eqb e (-1)); [apply new_in_refl|]. intros q y Hy. left. eapply cleanup_at, Hy. }
    eapply new_in_trans.
    { eapply new_in_weaken; [|exact (normals_loop text (start + s) stop1 c Hc _ _ H6)].
      intros q y (R & HR & Hfr). rewrite Forall_forall in Hc.
      eapply within_mono; [| |eapply from_within; [apply Hc, HR|exact H4|exact Hfr]]; lia. }
    eapply new_in_weaken; [|eapply kids_all_within; [|exact H7]].
    { intros q y. apply within_mono; lia. }
    rewrite Forall_forall in IH, Hcs |- *. intros x Hx s1 s2 Hr. exact (IH x Hx (Hcs x Hx) _ _ _ _ H4 Hr).
  - rewrite (run_re_no_start text g a b c d cs st start stop Ha Hno) in H.
    eapply new_in_trans; [|eapply kids_def_within; [|exact H]].
    + destruct d; [|apply new_in_refl]. intros q y Hy. cbn [snd] in Hy. apply place_default_at in Hy as [Hy|Hy]; [now left|].
      right. now right.
    + rewrite Forall_forall in IH, Hcs |- *. intros x Hx s1 s2 Hr. exact (IH x Hx (Hcs x Hx) _ _ _ _ Hw Hr).
Qed.
End PF.
