(** * TemplateFacts2: paths of whole trees, outputs of groups, extend filters *)
From Verif Require Import PyBase DictFacts StrFacts Regex Results Template SpecTemplate SessionFacts TemplateFacts.
From Coq Require Import Permutation.
Local Open Scope string_scope.
Local Open Scope list_scope.
Set Default Proof Using "Type".

(** ** paths *)
Section Paths.
Variable names_of : str -> list str.
Variable pc : str.
Hypothesis Hpc : pc <> [].

Lemma line_head p : forall e l, line_to p e = Some l -> exists l', l = e :: l'.
Proof.
  clear Hpc. destruct p as [|i p]; intros e l H; cbn in H; [injection H as <-; eauto|].
  destruct (nth_error _ _); [|discriminate]. destruct (line_to _ _); [|discriminate]. injection H as <-. eauto.
Qed.

Lemma path_absolute p e g above x below idx : Forall good_name (above ++ x :: below) ->
  (forall y, In y above -> ~ In $"_anonymous_" (segments pc y)) ->
  grp_at p (build names_of pc true [] idx None e) = Some g -> line_to p e = Some (above ++ x :: below) ->
  absolute x -> Forall (fun y => ~ absolute y) below ->
  gr_path g = segments pc x ++ concat (map (segments pc) below).
Proof using Hpc.
  intros Hg Ha Hat Hl Hx Hb. rewrite (at_path names_of pc Hpc _ _ _ _ _ _ _ _ Hg Hat Hl).
  apply Forall_app in Hg as [Hga Hgx]. inversion Hgx; subst.
  destruct above as [|a0 above].
  - cbn [app fold_path]. rewrite (abs_own pc true [] x Hx) by (auto; intros []). now apply fold_rel.
  - rewrite fold_path_app by discriminate. cbn [fold_path]. rewrite (abs_own pc false _ x Hx); [now apply fold_rel|assumption|].
    change (fold_path pc false (own_path pc true [] a0) above) with (fold_path pc true [] (a0 :: above)).
    apply fold_no_anon; [assumption|exact Ha|intros []].
Qed.

Lemma path_relative p e g below idx : Forall good_name (e :: below) ->
  grp_at p (build names_of pc true [] idx None e) = Some g -> line_to p e = Some (e :: below) ->
  Forall (fun y => ~ absolute y) (e :: below) ->
  gr_path g = (match name_of e with Some _ => [] | None => [$"_anonymous_*"] end) ++ concat (map (segments pc) (e :: below)).
Proof using Hpc.
  intros Hg Hat Hl Hb. rewrite (at_path names_of pc Hpc _ _ _ _ _ _ _ _ Hg Hat Hl). inversion Hb; subst. cbn [fold_path].
  rewrite fold_rel by assumption. cbn [map concat]. rewrite app_assoc. f_equal.
  destruct (name_of e) as [n|] eqn:E.
  - rewrite <- (not_abs_own pc [] e) by assumption. unfold own_path. now rewrite E.
  - unfold own_path, segments. rewrite E. reflexivity.
Qed.
End Paths.

(** ** outputs *)
Section Outs.
Context {O : Type}.
Variable oname : O -> str.
Notation gout := (@gout O).
Notation ostate := (@ostate O).
Notation nd l := (NoDup (map oname l)).

Lemma remove_at_app {A} (a : list A) x b : remove_at (length a) (a ++ x :: b) = a ++ b.
Proof.
  unfold remove_at. rewrite firstn_app, Nat.sub_diag, firstn_all, app_nil_r. f_equal.
  rewrite skipn_app. replace (S (length a) - length a) with 1 by lia. rewrite skipn_all2 by lia. reflexivity.
Qed.
Lemma set_at_app {A} (a : list A) x y b : set_at (length a) y (a ++ x :: b) = a ++ y :: b.
Proof.
  unfold set_at. rewrite firstn_app, Nat.sub_diag, firstn_all, app_nil_r. f_equal.
  rewrite skipn_app, skipn_all, Nat.sub_diag. reflexivity.
Qed.
Lemma nth_app {A} (a : list A) x b : nth_error (a ++ x :: b) (length a) = Some x.
Proof. rewrite nth_error_app2, Nat.sub_diag by lia. reflexivity. Qed.

Lemma is_named_iff n o : is_named oname (ByName n) o = true <-> oname o = n.
Proof. cbn. destruct (str_eqb_spec (oname o) n); split; congruence. Qed.
Lemma is_named_not n o : oname o <> n -> is_named oname (ByName n) o = false.
Proof. intros H. destruct (is_named _ _ _) eqn:E; [|reflexivity]. apply is_named_iff in E. contradiction. Qed.

Lemma sg_none n oi : forall fuel gi (s : ostate) pre post, o_glob s = pre ++ post -> length pre <= gi -> Forall (fun o => oname o <> n) post ->
  scan_glob oname fuel gi oi (ByName n) s = s.
Proof.
  induction fuel as [|f IH]; intros gi s pre post Hs Hl Hf; [reflexivity|]. cbn [scan_glob].
  destruct (nth_error (o_glob s) gi) as [o|] eqn:E; [|reflexivity].
  rewrite is_named_not; [eapply IH; [exact Hs|lia|exact Hf]|].
  rewrite Hs, nth_error_app2 in E by lia. apply nth_error_In in E. rewrite Forall_forall in Hf. auto.
Qed.
Lemma sg_some n oi o : oname o = n -> forall a fuel pre (s : ostate) b, o_glob s = pre ++ a ++ o :: b ->
  length a < fuel -> Forall (fun x => oname x <> n) a -> Forall (fun x => oname x <> n) b ->
  scan_glob oname fuel (length pre) oi (ByName n) s =
  {| o_glob := pre ++ a ++ b; o_grp := o_grp s ++ [o]; o_outs := set_at oi (Found o) (o_outs s); o_found := true |}.
Proof.
  intros Ho. induction a as [|x a IH]; intros fuel pre s b Hs Hf Ha Hb; (destruct fuel; [cbn in Hf; lia|]); cbn [scan_glob].
  - rewrite Hs at 1. cbn [app]. rewrite nth_app. destruct (is_named oname (ByName n) o) eqn:E; [|rewrite (proj2 (is_named_iff n o) Ho) in E; discriminate].
    cbn [app] in Hs. rewrite Hs, remove_at_app. eapply sg_none; [reflexivity| |exact Hb]. lia.
  - rewrite Hs at 1. cbn [app]. rewrite nth_app. inversion Ha; subst. rewrite is_named_not by assumption.
    replace (S (length pre)) with (length (pre ++ [x])) by (rewrite app_length; cbn; lia).
    rewrite (IH fuel (pre ++ [x]) s b); [now rewrite <- app_assoc| |cbn in Hf; lia|assumption|assumption].
    rewrite Hs, <- app_assoc. reflexivity.
Qed.

Lemma sgrp_none n oi l : forall s : ostate, Forall (fun o => oname o <> n) l ->
  fold_left (fun s o => if is_named oname (ByName n) o
                        then {| o_glob := o_glob s; o_grp := o_grp s; o_outs := set_at oi (Found o) (o_outs s); o_found := true |}
                        else s) l s = s.
Proof. induction l as [|o l IH]; intros s H; [reflexivity|]. inversion H; subst. cbn [fold_left]. rewrite is_named_not by assumption. now apply IH. Qed.

(** a name's output among a list with distinct names *)
Lemma find_named (l : list O) n : NoDup (map oname l) ->
  (Forall (fun o => oname o <> n) l) \/
  (exists a o b, l = a ++ o :: b /\ oname o = n /\ Forall (fun x => oname x <> n) a /\ Forall (fun x => oname x <> n) b).
Proof.
  induction l as [|o l IH]; intros H; [left; constructor|]. cbn in H. inversion H; subst. destruct (str_eqb_spec (oname o) n) as [E|E].
  - right. exists [], o, l. repeat split; [exact E|constructor|]. apply Forall_forall. intros x Hx E'. apply H2. rewrite E, <- E'. now apply in_map.
  - destruct (IH H3) as [Hl|(a & x & b & -> & Hx & Ha & Hb)]; [left; now constructor|].
    right. exists (o :: a), x, b. repeat split; try assumption. now constructor.
Qed.
Definition not_in (ns : list str) (o : O) : bool := negb (in_strs (oname o) ns).
Lemma filter_one (a : list O) n o b : oname o = n -> Forall (fun x => oname x <> n) a -> Forall (fun x => oname x <> n) b ->
  filter (not_in [n]) (a ++ o :: b) = a ++ b.
Proof.
  intros Ho Ha Hb. rewrite filter_app. cbn [filter]. unfold not_in at 2.
  assert (K : forall l, Forall (fun x => oname x <> n) l -> filter (not_in [n]) l = l).
  { induction 1 as [|x l Hx _ IH]; [reflexivity|]. cbn [filter]. unfold not_in at 1. destruct (in_strs (oname x) [n]) eqn:E.
    - apply in_strs_In in E as [E|[]]. congruence.
    - cbn [negb]. now rewrite IH. }
  rewrite (K a Ha), (K b Hb). destruct (in_strs (oname o) [n]) eqn:E; [reflexivity|].
  assert (In (oname o) [n]) as Hin by now left. apply in_strs_In in Hin. congruence.
Qed.
Lemma filter_none n (l : list O) : Forall (fun x => oname x <> n) l -> filter (not_in [n]) l = l.
Proof.
  induction 1 as [|x l Hx _ IH]; [reflexivity|]. cbn [filter]. unfold not_in at 1. destruct (in_strs (oname x) [n]) eqn:E.
  - apply in_strs_In in E as [E|[]]. congruence.
  - cbn [negb]. now rewrite IH.
Qed.
Lemma not_in_cons n ns o : not_in (n :: ns) o = (not_in [n] o && not_in ns o)%bool.
Proof. unfold not_in, in_strs. cbn [existsb]. rewrite Bool.orb_false_r. apply Bool.negb_orb. Qed.
Lemma filter_cons n ns (l : list O) : filter (not_in (n :: ns)) l = filter (not_in ns) (filter (not_in [n]) l).
Proof.
  induction l as [|x l IH]; [reflexivity|]. cbn [filter]. rewrite not_in_cons.
  destruct (not_in [n] x); cbn [andb filter]; [|exact IH]. destruct (not_in ns x); [now rewrite IH|exact IH].
Qed.

Lemma NoDup_app_l {A} (a b : list A) : NoDup (a ++ b) -> NoDup a.
Proof. induction a as [|x a IH]; intros H; [constructor|]. cbn in H. inversion H; subst. constructor; [intros K; apply H2, in_or_app; now left|auto]. Qed.
Lemma NoDup_app_r {A} (a b : list A) : NoDup (a ++ b) -> NoDup b.
Proof. induction a as [|x a IH]; intros H; [exact H|]. cbn in H. inversion H; auto. Qed.
(** one group *)
Definition found_names (r : list gout) : list str := flat_map (fun g => match g with Found o => [oname o] | ByName _ => [] end) r.
Lemma filter_no_names (l : list O) : filter (not_in []) l = l.
Proof. induction l as [|x l IH]; [reflexivity|]. cbn [filter]. unfold not_in at 1. cbn. now rewrite IH. Qed.
Lemma scan_outs_spec (outs : list O) : forall k ns, length ns <= k -> forall fuel (done : list gout) (s : ostate),
  NoDup (map oname (o_glob s ++ o_grp s)) -> Permutation (o_glob s ++ o_grp s) outs ->
  o_outs s = done ++ map ByName ns -> length ns < fuel ->
  exists r, o_outs (scan_outs oname fuel (length done) s) = done ++ r /\ settled oname outs ns r /\
             o_glob (scan_outs oname fuel (length done) s) = filter (not_in (found_names r)) (o_glob s) /\
             Permutation (o_glob (scan_outs oname fuel (length done) s) ++ o_grp (scan_outs oname fuel (length done) s)) outs.
Proof.
  induction k as [|k IH]; intros [|n ns] Hk fuel done s Hnd Hp Ho Hf; try (cbn in Hk; lia); (destruct fuel; [cbn in Hf; lia|]).
  1,2: cbn [scan_outs]; rewrite Ho; cbn [map]; rewrite app_nil_r, (proj2 (nth_error_None done (length done))) by lia;
    exists []; rewrite Ho; cbn [map found_names flat_map]; rewrite !app_nil_r, filter_no_names; repeat split; [constructor|exact Hp].
  assert (Hnth : nth_error (o_outs s) (length done) = Some (ByName n)) by (rewrite Ho; apply nth_app). cbn [scan_outs]. rewrite Hnth.
  assert (Hndg : nd (o_glob s)) by (rewrite map_app in Hnd; now apply NoDup_app_l in Hnd).
  assert (Hndr : nd (o_grp s)) by (rewrite map_app in Hnd; now apply NoDup_app_r in Hnd).
  set (s0 := {| o_glob := o_glob s; o_grp := o_grp s; o_outs := o_outs s; o_found := false |}).
  destruct (find_named (o_glob s) n Hndg) as [Hg|(a & o & b & Hg & Hon & Ha & Hb)].
  - rewrite (sg_none n (length done) _ 0 s0 [] (o_glob s)) by (auto; reflexivity). cbn [o_found s0].
    unfold scan_grp. cbn [o_grp s0]. destruct (find_named (o_grp s) n Hndr) as [Hr|(a & o & b & Hr & Hon & Ha & Hb)].
    + rewrite sgrp_none by assumption. cbn [o_found s0 o_glob o_grp o_outs].
      assert (Hu : ~ known oname outs n).
      { intros (o & Hin & Hn). apply (Permutation_in o (Permutation_sym Hp)) in Hin. rewrite Forall_forall in Hg, Hr.
        apply in_app_or in Hin as [Hin|Hin]; [now apply (Hg o)|now apply (Hr o)]. }
      rewrite Ho. cbn [map]. rewrite remove_at_app. destruct ns as [|m ns].
      * assert (Hscan : forall st : ostate, o_outs st = done -> scan_outs oname fuel (S (length done)) st = st).
        { intros st Hst. destruct fuel; [reflexivity|]. cbn [scan_outs]. rewrite Hst.
          now rewrite (proj2 (nth_error_None done (S (length done)))) by lia. }
        rewrite Hscan by (cbn; now rewrite app_nil_r). cbn [o_outs o_glob o_grp map found_names flat_map]. exists []. rewrite !app_nil_r. cbn [found_names flat_map]. rewrite filter_no_names.
        repeat split; [now constructor|exact Hp].
      * set (st := {| o_glob := o_glob s; o_grp := o_grp s; o_outs := done ++ map ByName (m :: ns); o_found := false |}).
        destruct (IH ns ltac:(cbn in Hk; lia) fuel (done ++ [ByName m]) st) as (r & H1 & H2 & H3 & H4); [exact Hnd|exact Hp|cbn; now rewrite <- app_assoc|cbn in Hf; lia|].
        rewrite app_length, Nat.add_1_r in *. exists (ByName m :: r). rewrite H1, <- app_assoc. repeat split; [now constructor|exact H3|exact H4].
    + rewrite Hr. rewrite fold_left_app. cbn [fold_left]. rewrite sgrp_none by assumption.
      rewrite (proj2 (is_named_iff n o) Hon). rewrite sgrp_none by assumption. cbn [o_found o_glob o_grp o_outs s0]. rewrite Ho. cbn [map]. rewrite set_at_app.
      set (st := {| o_glob := o_glob s; o_grp := o_grp s; o_outs := done ++ Found o :: map ByName ns; o_found := true |}).
      destruct (IH ns ltac:(cbn in Hk; lia) fuel (done ++ [Found o]) st) as (r & H1 & H2 & H3 & H4); [exact Hnd|exact Hp|cbn; now rewrite <- app_assoc|cbn in Hf; lia|].
      rewrite app_length, Nat.add_1_r in *. 
      assert (Hin : In o outs) by (apply (Permutation_in o Hp), in_or_app; right; rewrite Hr; apply in_or_app; right; now left).
      exists (Found o :: r). rewrite H1, <- app_assoc. repeat split; [now constructor| |exact H4].
      rewrite H3. cbn [o_glob st found_names flat_map app]. rewrite Hon. fold (found_names r). rewrite filter_cons. now rewrite (filter_none n) by assumption.
  - assert (Hsg := sg_some n (length done) o Hon a (S (length (o_glob s))) [] s0 b). cbn [length] in Hsg.
    rewrite Hsg by (auto; rewrite Hg, app_length; cbn; lia). clear Hsg.
    cbn [o_found o_glob o_grp o_outs s0 app]. rewrite Ho. cbn [map]. rewrite set_at_app.
    set (st := {| o_glob := a ++ b; o_grp := o_grp s ++ [o]; o_outs := done ++ Found o :: map ByName ns; o_found := true |}).
    assert (Hperm : Permutation (o_glob s ++ o_grp s) ((a ++ b) ++ o_grp s ++ [o])).
    { rewrite Hg, <- !app_assoc. apply Permutation_app_head. cbn [app]. rewrite app_assoc. rewrite <- Permutation_cons_append. now rewrite app_comm_cons. }
    destruct (IH ns ltac:(cbn in Hk; lia) fuel (done ++ [Found o]) st) as (r & H1 & H2 & H3 & H4).
    + cbn [o_glob o_grp st]. eapply Permutation_NoDup; [apply Permutation_map; exact Hperm|exact Hnd].
    + cbn [o_glob o_grp st]. now rewrite <- Hperm.
    + cbn. now rewrite <- app_assoc.
    + cbn in Hf; lia.
    + rewrite app_length, Nat.add_1_r in *.
      assert (Hin : In o outs) by (apply (Permutation_in o Hp), in_or_app; left; rewrite Hg; apply in_or_app; right; now left).
      exists (Found o :: r). rewrite H1, <- app_assoc. repeat split; [now constructor| |exact H4].
      rewrite H3. cbn [o_glob st found_names flat_map app]. rewrite Hon. fold (found_names r). rewrite filter_cons, Hg. now rewrite (filter_one a n o b).
Qed.

Lemma holds_found n (r : list gout) : holds_output oname n r = in_strs n (found_names r).
Proof.
  unfold holds_output, in_strs. induction r as [|[m|o] r IH]; cbn [existsb found_names flat_map app]; [reflexivity|exact IH|]. fold (found_names r). rewrite IH. f_equal.
  destruct (str_eqb_spec (oname o) n), (str_eqb_spec n (oname o)); congruence.
Qed.
Definition in_any (rs : list (list gout)) (o : O) : bool := existsb (holds_output oname (oname o)) rs.
Lemma filter_any r rs (l : list O) :
  filter (fun o => negb (in_any (r :: rs) o)) l = filter (fun o => negb (in_any rs o)) (filter (not_in (found_names r)) l).
Proof.
  induction l as [|x l IH]; [reflexivity|]. cbn [filter]. unfold in_any at 1. cbn [existsb]. unfold not_in at 1. rewrite holds_found.
  destruct (in_strs (oname x) (found_names r)); cbn [negb orb filter]; [exact IH|].
  fold (in_any rs x). destruct (in_any rs x); cbn [negb]; [exact IH|now rewrite IH].
Qed.
Lemma group_outputs_spec outs groups : NoDup (map oname outs) ->
  Forall2 (settled oname outs) groups (fst (group_outputs oname groups outs)) /\
  snd (group_outputs oname groups outs) = filter (fun o => negb (in_any (fst (group_outputs oname groups outs)) o)) outs.
Proof.
  intros Hnd. unfold group_outputs.
  set (f := fun acc names => _).
  assert (K : forall groups res glob grp, Permutation (glob ++ grp) outs -> 
    exists r glob' grp', fold_left f groups (res, glob, grp) = (res ++ r, glob', grp') /\
      Forall2 (settled oname outs) groups r /\ glob' = filter (fun o => negb (in_any r o)) glob).
  { clear groups. induction groups as [|ns groups IH]; intros res glob grp Hp.
    - exists [], glob, grp. cbn. rewrite app_nil_r. repeat split; [constructor|]. clear. induction glob as [|x l IH]; [reflexivity|]. cbn. now rewrite <- IH.
    - cbn [fold_left]. unfold f at 2.
      set (s := {| o_glob := glob; o_grp := grp; o_outs := map ByName ns; o_found := false |}).
      assert (Hnd' : NoDup (map oname (glob ++ grp))) by (eapply Permutation_NoDup; [apply Permutation_map, Permutation_sym; exact Hp|exact Hnd]).
      destruct (scan_outs_spec outs (length ns) ns (le_n _) (S (length ns)) [] s) as (q & H3 & H4 & H5 & H6); [exact Hnd'|exact Hp|reflexivity|lia|].
      cbn [length] in *.
      destruct (IH (res ++ [o_outs (scan_outs oname (S (length ns)) 0 s)]) (o_glob (scan_outs oname (S (length ns)) 0 s)) (o_grp (scan_outs oname (S (length ns)) 0 s)) H6) as (r & glob' & grp' & Hr & HF2 & Hgl).
      rewrite Hr. exists (o_outs (scan_outs oname (S (length ns)) 0 s) :: r), glob', grp'. rewrite <- app_assoc. cbn [app] in H3. rewrite H3 in *. repeat split.
      + now constructor.
      + rewrite Hgl, H5, filter_any. reflexivity. }
  destruct (K groups [] outs [] ltac:(rewrite app_nil_r; reflexivity)) as (r & glob' & grp' & Hr & HF2 & Hgl).
  rewrite Hr. cbn [fst snd app]. auto.
Qed.
Lemma same_name_same (outs : list O) o o' : NoDup (map oname outs) -> In o outs -> In o' outs -> oname o = oname o' -> o = o'.
Proof.
  intros Hn. induction outs as [|x l IH]; intros H H' E; [destruct H|]. cbn in Hn. inversion Hn; subst.
  destruct H as [<-|H], H' as [<-|H']; auto; exfalso; apply H2; [rewrite E|rewrite <- E]; now apply in_map.
Qed.
Lemma settled_fun outs ns r : NoDup (map oname outs) -> settled oname outs ns r -> forall r', settled oname outs ns r' -> r' = r.
Proof.
  intros Hn. induction 1 as [|n ns o r Ho Hon _ IH|n Hu|n m ns r Hu _ IH]; intros r' H'; inversion H'; subst; try reflexivity;
    try (exfalso; match goal with H : ~ known _ _ _ |- _ => apply H; eexists; split; [eassumption|reflexivity] end).
  - f_equal; [|now apply IH]. f_equal. eapply same_name_same; eauto.
  - f_equal. now apply IH.
Qed.
End Outs.

(** ** extend filters *)
Lemma chosen_fun P ts : forall i l l', chosen P i ts l -> chosen P i ts l' -> l = l'.
Proof.
  assert (Hd : forall t, is_group t \/ ~ is_group t).
  { intros t. unfold is_group. destruct (in_strs (e_tag t) [$"g"; $"grp"; $"group"]) eqn:E; [left; now apply in_strs_In|right; intros K; apply in_strs_In in K; congruence]. }
  induction ts as [|t ts IH]; intros i l l' H H'; inversion H; inversion H'; subst; try reflexivity; try contradiction;
  (assert (Hj : j = j0) by (destruct (Hd t) as [K|K]; [transitivity (S i); [auto|symmetry; auto]|transitivity i; [auto|symmetry; auto]])); subst j0; try (f_equal); eapply IH; eassumption.
Qed.

Lemma named_in_spec t l : named_in t l = true <-> exists n, attr (e_attrs t) $"name" = Some n /\ In n l.
Proof.
  unfold named_in. destruct (attr (e_attrs t) $"name") as [n|].
  - rewrite in_strs_In. split; [eauto|intros (m & E & H); now injection E as ->].
  - split; [discriminate|intros (m & E & _); discriminate].
Qed.
Lemma is_group_spec t : is_tag t group_tags = true <-> is_group t.
Proof. apply in_strs_In. Qed.

Lemma tags_disjoint t : 
  (is_tag t input_tags = true -> is_tag t vars_tags = false /\ is_tag t group_tags = false /\ is_tag t [$"lookup"] = false /\ is_tag t output_tags = false) /\
  (is_tag t vars_tags = true -> is_tag t group_tags = false /\ is_tag t [$"lookup"] = false /\ is_tag t output_tags = false) /\
  (is_tag t group_tags = true -> is_tag t [$"lookup"] = false /\ is_tag t output_tags = false) /\
  (is_tag t [$"lookup"] = true -> is_tag t output_tags = false) /\
  (is_tag t group_tags = true -> str_eqb (e_tag t) $"extend" = false).
Proof.
  unfold is_tag, input_tags, vars_tags, group_tags, output_tags.
  split; [|split; [|split; [|split]]]; intros H; apply in_strs_In in H; cbn [In] in H;
  repeat (destruct H as [H|H]; [rewrite <- H; repeat split; reflexivity|]); destruct H.
Qed.

Lemma given_nil l : given l = false <-> l = [].
Proof. destruct l; cbn; split; congruence. Qed.
Lemma filter_top_chosen tag ts : forall i j,
  (given (filter_list tag $"groups") = true -> i = j) ->
  chosen (kept_top tag) j ts (filter_top (filter_list tag $"inputs") (filter_list tag $"vars") (filter_list tag $"groups")
                                         (filter_list tag $"lookups") (filter_list tag $"outputs") i ts).
Proof.
  induction ts as [|t ts IH]; intros i j Hij; [constructor|]. cbn [filter_top].
  destruct (tags_disjoint t) as (D1 & D2 & D3 & D4 & _).
  assert (Hlist : forall l k, is_tag t group_tags = false -> listed l k t <-> named_in t l = true).
  { intros l k Hg. rewrite named_in_spec. unfold listed. split; [intros [H|[H _]]; [exact H|apply is_group_spec in H; congruence]|now left]. }
  assert (Step : forall l, filter_attr t = None \/ (exists a, filter_attr t = Some a /\ filter_list tag a = []) -> is_tag t group_tags = false ->
    chosen (kept_top tag) j ts l -> chosen (kept_top tag) j (t :: ts) (t :: l)).
  { intros l Ha Hg Hc. apply ch_in with (j := j).
    - unfold kept_top. destruct Ha as [->|(a & -> & H)]; auto.
    - intros K. apply is_group_spec in K. congruence.
    - reflexivity.
    - exact Hc. }
  assert (Pick : forall l a b, filter_attr t = Some a -> filter_list tag a <> [] -> is_tag t group_tags = false -> b = named_in t (filter_list tag a) ->
    chosen (kept_top tag) j ts l -> chosen (kept_top tag) j (t :: ts) (if b then t :: l else l)).
  { intros l a b Ha Hne Hg -> Hc. assert (Hng : ~ is_group t) by (intros K; apply is_group_spec in K; congruence).
    destruct (named_in t (filter_list tag a)) eqn:En.
    - apply ch_in with (j := j); [|contradiction|reflexivity|exact Hc]. unfold kept_top. rewrite Ha. right. now apply Hlist.
    - apply ch_out with (j := j); [|contradiction|reflexivity|exact Hc]. unfold kept_top. rewrite Ha. intros [K|K]; [contradiction|]. apply Hlist in K; [congruence|exact Hg]. }
  unfold filter_attr in *. fold input_tags vars_tags group_tags output_tags in *.
  change (in_strs (e_tag t) ?l) with (is_tag t l) in *.
  destruct (is_tag t input_tags) eqn:T1.
  { destruct (D1 eq_refl) as (E2 & E3 & E4 & E5). rewrite E2, E3, E4, E5, !Bool.andb_false_r.
    destruct (given (filter_list tag $"inputs")) eqn:G; cbn [andb].
    - apply (Pick _ $"inputs"); auto. intros K. rewrite K in G. discriminate.
    - apply given_nil in G. apply Step; eauto. }
  rewrite Bool.andb_false_r. destruct (is_tag t vars_tags) eqn:T2.
  { destruct (D2 eq_refl) as (E3 & E4 & E5). rewrite E3, E4, E5, !Bool.andb_false_r.
    destruct (given (filter_list tag $"vars")) eqn:G; cbn [andb].
    - apply (Pick _ $"vars"); auto. intros K. rewrite K in G. discriminate.
    - apply given_nil in G. apply Step; eauto. }
  rewrite Bool.andb_false_r. destruct (is_tag t group_tags) eqn:T3.
  { destruct (D3 eq_refl) as (E4 & E5). rewrite E4, E5, !Bool.andb_false_r. assert (Hg : is_group t) by now apply is_group_spec.
    assert (Ha : filter_attr t = Some $"groups").
    { unfold filter_attr. fold input_tags vars_tags group_tags output_tags. change (in_strs (e_tag t) ?l) with (is_tag t l). now rewrite T1, T2, T3. }
    destruct (given (filter_list tag $"groups")) eqn:G; cbn [andb].
    - specialize (Hij eq_refl). subst j.
      destruct (named_in t (filter_list tag $"groups") || in_strs (str_of_N (N.of_nat i)) (filter_list tag $"groups"))%bool eqn:En.
      + apply ch_in with (j := S i); [|reflexivity|contradiction|apply IH; auto]. unfold kept_top. rewrite Ha. right.
        apply Bool.orb_true_iff in En as [En|En]; [left; now apply named_in_spec|right; split; [exact Hg|now apply in_strs_In]].
      + apply ch_out with (j := S i); [|reflexivity|contradiction|apply IH; auto]. unfold kept_top. rewrite Ha. intros [K|[K|[_ K]]].
        * rewrite K in G. discriminate.
        * apply named_in_spec in K. rewrite K in En. discriminate.
        * apply in_strs_In in K. rewrite K, Bool.orb_true_r in En. discriminate.
    - apply ch_in with (j := S j); [|reflexivity|contradiction|apply IH; congruence]. unfold kept_top. rewrite Ha. left. now apply given_nil. }
  rewrite Bool.andb_false_r. destruct (is_tag t [$"lookup"]) eqn:T4.
  { rewrite (D4 eq_refl), !Bool.andb_false_r. destruct (given (filter_list tag $"lookups")) eqn:G; cbn [andb].
    - apply (Pick _ $"lookups"); auto. intros K. rewrite K in G. discriminate.
    - apply given_nil in G. apply Step; eauto. }
  rewrite Bool.andb_false_r. destruct (is_tag t output_tags) eqn:T5.
  { destruct (given (filter_list tag $"outputs")) eqn:G; cbn [andb].
    - apply (Pick _ $"outputs"); auto. intros K. rewrite K in G. discriminate.
    - apply given_nil in G. apply Step; eauto. }
  rewrite Bool.andb_false_r. apply Step; auto.
Qed.
Lemma filter_nested_chosen tag ts : forall i j,
  (given (filter_list tag $"groups") = true -> i = j) ->
  chosen (kept_nested tag) j ts (filter_nested (filter_list tag $"groups") i ts).
Proof.
  induction ts as [|t ts IH]; intros i j Hij; [constructor|]. cbn [filter_nested].
  destruct (is_tag t group_tags) eqn:T3.
  - assert (Hg : is_group t) by now apply is_group_spec. destruct (given (filter_list tag $"groups")) eqn:G.
    + specialize (Hij eq_refl). subst j.
      destruct (named_in t (filter_list tag $"groups") || in_strs (str_of_N (N.of_nat i)) (filter_list tag $"groups"))%bool eqn:En.
      * apply ch_in with (j := S i); [|reflexivity|contradiction|apply IH; auto]. left. split; [exact Hg|]. right.
        apply Bool.orb_true_iff in En as [En|En]; [left; now apply named_in_spec|right; split; [exact Hg|now apply in_strs_In]].
      * apply ch_out with (j := S i); [|reflexivity|contradiction|apply IH; auto]. intros [[_ [K|[K|[_ K]]]]|[K _]]; [| | |contradiction].
        -- rewrite K in G. discriminate.
        -- apply named_in_spec in K. rewrite K in En. discriminate.
        -- apply in_strs_In in K. rewrite K, Bool.orb_true_r in En. discriminate.
    + apply ch_in with (j := S j); [|reflexivity|contradiction|apply IH; congruence]. left. split; [exact Hg|left; now apply given_nil].
  - assert (Hg : ~ is_group t) by (intros K; apply is_group_spec in K; congruence).
    destruct (str_eqb_spec (e_tag t) $"extend") as [E|E].
    + apply ch_in with (j := j); [|contradiction|reflexivity|now apply IH]. right. auto.
    + apply ch_out with (j := j); [|contradiction|reflexivity|now apply IH]. intros [[K _]|[_ K]]; contradiction.
Qed.
Lemma chosen_all (P : nat -> elem -> Prop) ts : (forall i t, P i t) -> forall i, chosen P i ts ts.
Proof.
  intros H. induction ts as [|t ts IH]; intros i; [constructor|].
  destruct (is_tag t group_tags) eqn:T.
  - apply is_group_spec in T. apply ch_in with (j := S i); auto. contradiction.
  - assert (~ is_group t) by (intros K; apply is_group_spec in K; congruence). apply ch_in with (j := i); auto. contradiction.
Qed.
Lemma filter_extend_chosen content tag top l : attr (e_attrs tag) $"template" <> None ->
  filter_extend content tag top = l <-> chosen (if top then kept_top tag else kept_nested tag) 0 content l.
Proof.
  intros Ht. assert (K : chosen (if top then kept_top tag else kept_nested tag) 0 content (filter_extend content tag top)).
  { unfold filter_extend. destruct top; cbn [andb]; [|now apply filter_nested_chosen].
    destruct (Nat.eqb_spec (length (e_attrs tag)) 1) as [E|_]; [|now apply filter_top_chosen].
    apply chosen_all. intros i t. unfold kept_top. destruct (filter_attr t) as [a|] eqn:Ea; [|exact I]. left.
    assert (Ha : str_eqb a $"template" = false).
    { unfold filter_attr in Ea. repeat (destruct (in_strs _ _); [injection Ea as <-; reflexivity|]). discriminate. }
    destruct (e_attrs tag) as [|[k v] [|? ?]] eqn:El; try discriminate. unfold filter_list. rewrite El. cbn [attr].
    cbn [attr] in Ht. destruct (str_eqb_spec $"template" k) as [<-|]; [|congruence]. now rewrite Ha. }
  split; [intros <-; exact K|intros H; eapply chosen_fun; eassumption].
Qed.
