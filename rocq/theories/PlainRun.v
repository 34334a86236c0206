(** * PlainRun: the group of a template of plain lines, run on a text. *)
From Coq Require Import Lia.
From Verif Require Import PyBase DictFacts StrFacts SessionFacts Regex SpecRegex RegexFacts Results Template Attributes FormRegex SpecLine SpecForm MatchVar MatchFuncs Parser ParserFacts ParserFacts2 SpecTree SpecRecords
  PathFacts MachineFacts RunFacts Compile CompileFacts SpecProgram FindLines PlainLine LineRun OutputFacts MuteFacts.
Local Open Scope string_scope.
Local Open Scope list_scope.

(** ** one candidate at every place is enough *)
Section One.
Variable F : Type.
Variable runf : F -> fstate -> res (fstate * bool).
Variable k2i : bool.
Variable g : group F.
Notation item := (item F).
Definition cur (s : rstate F) : Prop := rc_gid F (s_rec F s) = Some (g_id F g).
Definition add_item (x : item) : Prop := r_group F (fst x) = g /\ r_action F (fst x) = AAdd /\ r_isline F (fst x) = false.
Definition start_item (x : item) : Prop := r_group F (fst x) = g /\ r_action F (fst x) = AStart /\ r_isline F (fst x) = false.
Lemma handle_cur s x s' : start_item x \/ add_item x -> snd x <> None -> (cur s \/ start_item x) -> ogid_in (g_parent F g) (s_ended F s) = false ->
  Results.handle F runf k2i s x = Ok s' -> gid_in (g_id F g) (s_ended F s) = false -> cur s'.
Proof.
  destruct x as [rd [d|]]; cbn [fst snd]; [|congruence]. intros Hx _ Hc Hp H He. unfold Results.handle in H.
  assert (Hg : r_group F rd = g) by (destruct Hx as [Hx|Hx]; apply Hx). rewrite Hg, Hp, He in H. unfold dispatch in H.
  destruct Hx as [(_ & Ha & _)|(_ & Ha & _)]; cbn [fst] in Ha; rewrite Ha in H.
  - unfold Results.do_start in H. destruct (flush F runf k2i _) as [s2|]; cbn [rbind] in H; [|discriminate]. injection H as <-. unfold cur. cbn [set_rec s_rec rc_gid]. now rewrite Hg.
  - unfold do_add in H. destruct (path_eqb _ _).
    + injection H as <-. unfold cur, upd_rec_result in *. cbn [set_rec s_rec rc_gid]. destruct Hc as [Hc|(_ & Hc & _)]; [exact Hc|]. cbn [fst] in Hc. congruence.
    + destruct (gid_in _ _).
      * unfold Results.do_start in H. destruct (flush F runf k2i _) as [s2|]; cbn [rbind] in H; [|discriminate]. injection H as <-. unfold cur. cbn [set_rec s_rec rc_gid]. now rewrite Hg.
      * injection H as <-. destruct Hc as [Hc|(_ & Hc & _)]; [exact Hc|]. cbn [fst] in Hc. congruence.
Qed.
Lemma filter_all {A} (p : A -> bool) l : Forall (fun x => p x = true) l -> filter p l = l.
Proof. induction 1 as [|x l H _ IH]; [reflexivity|]. cbn [filter]. now rewrite H, IH. Qed.
Lemma filter_none {A} (p : A -> bool) l : Forall (fun x => p x = false) l -> filter p l = [].
Proof. induction 1 as [|x l H _ IH]; [reflexivity|]. cbn [filter]. now rewrite H. Qed.
Lemma not_line (x : item) : start_item x \/ add_item x -> (fun '(rd, _) => r_isline F rd) x = false.
Proof. destruct x as [rd d]. intros [H|H]; apply H. Qed.
Lemma step_first s x xs : (start_item x \/ add_item x /\ cur s) -> Forall add_item xs -> snd x <> None -> step_item F runf k2i s (x :: xs) = Results.handle F runf k2i s x.
Proof.
  intros Hx Hxs Hd. unfold step_item. destruct xs as [|y ys]; [reflexivity|].
  assert (E : Results.choose F s (x :: y :: ys) = Some x); [|now rewrite E]. unfold choose.
  set (l := x :: y :: ys).
  assert (Hl : Forall (fun x => start_item x \/ add_item x) l).
  { constructor; [tauto|]. eapply Forall_impl; [|exact Hxs]. auto. }
  assert (E1 : filter (fun '(rd, _) => negb (r_isline F rd)) l = l).
  { apply filter_all. eapply Forall_impl; [|exact Hl]. intros [rd d] [H|H]; cbn; destruct H as (_ & _ & H); cbn [fst] in H; now rewrite H. }
  rewrite E1.
  assert (E2 : filter (fun '(rd, _) => is_a (r_action F rd) AStartEmpty) l = []).
  { apply filter_none. eapply Forall_impl; [|exact Hl]. intros [rd d] [H|H]; cbn; destruct H as (_ & H & _); cbn [fst] in H; now rewrite H. }
  rewrite E2.
  assert (E3 : filter (fun '(rd, _) => is_a (r_action F rd) AStart) (y :: ys) = []).
  { apply filter_none. eapply Forall_impl; [|exact Hxs]. intros [rd d] (_ & H & _); cbn [fst] in H; now rewrite H. }
  assert (E4 : forall l, Forall add_item l -> filter (fun '(rd, _) => negb (is_start (r_action F rd))) l = l).
  { intros k Hk. apply filter_all. eapply Forall_impl; [|exact Hk]. intros [rd d] (_ & H & _); cbn [fst] in H; now rewrite H. }
  unfold l. cbn [filter]. destruct x as [rd d]. destruct Hx as [(Hg & Ha & _)|[(Hg & Ha & Hi) Hc]]; cbn [fst snd] in *.
  - rewrite Ha. cbn [is_a]. change (filter _ ys) with (filter (fun '(rd, _) => is_a (r_action F rd) AStart) ys). cbn [filter] in E3. rewrite E3.
    unfold pick_start. cbn [first_that find]. destruct (match d with None => _ | Some _ => _ end); [reflexivity|]. destruct (match d with None => _ | Some _ => _ end); reflexivity.
  - rewrite Ha. cbn [is_a is_start negb]. cbn [filter] in E3. rewrite E3. specialize (E4 (y :: ys) Hxs). cbn [filter] in E4. rewrite E4.
    unfold pick_normal, first_that. cbn [find]. assert (K : cur_gid_is F s (g_id F (r_group F rd)) = true) by (unfold cur_gid_is; rewrite Hc, Hg; apply gid_eqb_refl). now rewrite K.
Qed.
Definition first_of_each (cs : list (list item)) : list item := flat_map (fun l => match l with x :: _ => [x] | [] => [] end) cs.
Definition good (c : list item) : Prop := exists x xs, c = x :: xs /\ (start_item x \/ add_item x) /\ Forall add_item xs /\ snd x <> None.
Lemma quiet s x s' : start_item x \/ add_item x -> snd x <> None -> Results.handle F runf k2i s x = Ok s' -> s_ended F s = [] -> g_parent F g = None -> s_ended F s' = [].
Proof.
  destruct x as [rd [d|]]; cbn [fst snd]; [|congruence]. intros Hx _ H He Hp. unfold Results.handle in H.
  assert (Hg : r_group F rd = g) by (destruct Hx as [Hx|Hx]; apply Hx). rewrite Hg, Hp, He in H. cbn [ogid_in gid_in existsb] in H. unfold dispatch in H.
  assert (Hf : forall s1 s2, flush F runf k2i s1 = Ok s2 -> s_ended F s2 = s_ended F s1).
  { intros s1 s2. apply flush_ended. }
  destruct Hx as [(_ & Ha & _)|(_ & Ha & _)]; cbn [fst] in Ha; rewrite Ha in H.
  - unfold Results.do_start in H. destruct (flush F runf k2i _) as [s2|] eqn:E; cbn [rbind] in H; [|discriminate]. injection H as <-. apply Hf in E. cbn [set_rec s_ended]. rewrite E. exact He.
  - unfold do_add in H. destruct (path_eqb _ _); [injection H as <-; exact He|]. destruct (gid_in _ _); [|injection H as <-; exact He].
    unfold Results.do_start in H. destruct (flush F runf k2i _) as [s2|] eqn:E; cbn [rbind] in H; [|discriminate]. injection H as <-. apply Hf in E. cbn [set_rec s_ended]. rewrite E. exact He.
Qed.
Lemma one_each cs : g_parent F g = None -> Forall good cs -> forall s, s_ended F s = [] -> (cur s \/ match cs with (x :: _) :: _ => start_item x | _ => True end) ->
  rfold (step_item F runf k2i) cs s = rfold (step_item F runf k2i) (map (fun x => [x]) (first_of_each cs)) s.
Proof.
  intros Hp. induction 1 as [|c cs (x & xs & -> & Hx & Hxs & Hd) _ IH]; intros s He Hs; [reflexivity|].
  cbn [first_of_each flat_map app map rfold]. rewrite (step_first s x xs); [|tauto|exact Hxs|exact Hd]. change (step_item F runf k2i s [x]) with (Results.handle F runf k2i s x).
  destruct (Results.handle F runf k2i s x) as [s'|] eqn:E; [|reflexivity]. cbn [rbind]. apply IH; [exact (quiet s x s' Hx Hd E He Hp)|]. left.
  apply (handle_cur s x s' Hx Hd); [tauto|now rewrite Hp|exact E|now rewrite He].
Qed.
End One.

(** ** the records of the lines *)
Section Lines.
Variable F : Type.
Variable g : group F.
Variable rd0 : redict F.
Variable f0 : str -> option dict.
Variable rest : list (redict F * (str -> option dict)).
Hypothesis H0 : r_group F rd0 = g /\ r_action F rd0 = AStart /\ r_isline F rd0 = false.
Hypothesis Hrest : Forall (fun rf => r_group F (fst rf) = g /\ r_action F (fst rf) = AAdd /\ r_isline F (fst rf) = false) rest.
Let fs := (rd0, f0) :: rest.
(** the first of them that accepts a line *)
Fixpoint first_value (l : list (str -> option dict)) (x : str) : option dict :=
  match l with [] => None | f :: t => match f x with Some d => Some d | None => first_value t x end end.
Definition event_of (x : str) : option ev :=
  match f0 x with
  | Some d => Some (EStart d)
  | None => match first_value (map snd rest) x with Some d => Some (EAdd d) | None => None end
  end.
Lemma rest_items x : match items_of F rest x with
  | [] => first_value (map snd rest) x = None
  | y :: ys => Forall (add_item F g) (y :: ys) /\ exists d, snd y = Some d /\ first_value (map snd rest) x = Some d
  end.
Proof using Hrest.
  pose proof Hrest as HR. clear - HR. induction HR as [|[rd f] l Hh _ IH]; [reflexivity|]. unfold items_of in *. cbn [flat_map map first_value fst snd] in *. destruct (f x) as [d|]; cbn [app].
  - split; [|exists d; auto]. constructor; [exact Hh|]. destruct (flat_map _ l) as [|y ys]; [constructor|apply IH].
  - exact IH.
Qed.
Lemma line_items x : match items_of F fs x with
  | [] => event_of x = None /\ f0 x = None
  | y :: ys => (start_item F g y \/ add_item F g y) /\ Forall (add_item F g) ys /\ snd y <> None /\ event_of x = Some (ev_of F y) /\ (f0 x <> None -> start_item F g y)
  end.
Proof using H0 Hrest.
  pose proof (rest_items x) as R. unfold fs, event_of. unfold items_of in *. cbn [flat_map fst snd]. destruct (f0 x) as [d|]; cbn [app].
  - split; [left; exact H0|]. split; [destruct (flat_map _ rest); [constructor|apply R]|]. split; [discriminate|]. split; [|intros _; exact H0].
    unfold ev_of. cbn [fst snd]. destruct H0 as (_ & -> & _). reflexivity.
  - destruct (flat_map _ rest) as [|y ys]; [rewrite R; auto|]. destruct R as [R1 (d & R2 & R3)]. inversion R1 as [|? ? A B]; subst. split; [now right|]. split; [exact B|]. split; [congruence|].
    split; [|congruence]. rewrite R3. unfold ev_of. rewrite R2. destruct A as (_ & -> & _). reflexivity.
Qed.
Lemma events_items ls : events (map event_of ls) = map (ev_of F) (first_of_each F (filter nonempty_l (map (items_of F fs) ls))).
Proof using H0 Hrest.
  induction ls as [|x ls IH]; [reflexivity|]. cbn [map events flat_map filter]. fold (events (map event_of ls)). rewrite IH. pose proof (line_items x) as L. destruct (items_of F fs x) as [|y ys]; cbn [nonempty_l].
  - destruct L as [-> _]. reflexivity.
  - destruct L as (_ & _ & _ & -> & _). reflexivity.
Qed.
Lemma all_good ls : Forall (good F g) (filter nonempty_l (map (items_of F fs) ls)).
Proof using H0 Hrest.
  induction ls as [|x ls IH]; [constructor|]. cbn [map filter]. pose proof (line_items x) as L. destruct (items_of F fs x) as [|y ys]; cbn [nonempty_l]; [exact IH|]. constructor; [|exact IH]. exists y, ys. tauto.
Qed.
(** lines before the first start do not matter *)
Lemma before_start pre l : Forall (fun x => f0 x = None) pre -> records (events (map event_of (pre ++ l))) None true = records (events (map event_of l)) None true.
Proof using.
  induction 1 as [|x pre Hx _ IH]; [reflexivity|]. cbn [app map]. unfold events in *. cbn [flat_map]. unfold event_of at 1. rewrite Hx. destruct (first_value _ x); cbn [app records]; exact IH.
Qed.
Lemma no_start l : Forall (fun x => f0 x = None) l -> records (events (map event_of l)) None true = [].
Proof using. intros H. rewrite <- (app_nil_r l). now rewrite before_start. Qed.
Lemma window_none_all ls : forall p, window f0 ls p = None -> Forall (fun x => f0 x = None) ls.
Proof using. induction ls as [|x ls IH]; intros p H; [constructor|]. cbn [window] in H. destruct (f0 x) eqn:E; [discriminate|]. constructor; [exact E|eauto]. Qed.

Variable runf : F -> fstate -> res (fstate * bool).
Variable k2i : bool.
Hypothesis Hstatic : static_path (g_path F g).
Hypothesis Hne : g_path F g <> [].
Hypothesis Hnof : g_funcs F g = [].
Hypothesis Htop : g_parent F g = None.
Hypothesis Hruns : g_runs F g = [].
Hypothesis Hwf : forall x d f, In f (f0 :: map snd rest) -> f x = Some d -> dwf d /\ d <> [].
Lemma first_value_in l x d : first_value l x = Some d -> exists f, In f l /\ f x = Some d.
Proof using. induction l as [|f l IH]; [discriminate|]. cbn [first_value]. destruct (f x) eqn:E; intros H; [exists f; split; [now left|congruence]|]. apply IH in H as (h & H1 & H2). exists h. split; [now right|exact H2]. Qed.
Lemma event_wf x e : event_of x = Some e -> exists d, (e = EStart d \/ e = EAdd d) /\ dwf d /\ d <> [].
Proof using Hwf.
  unfold event_of. destruct (f0 x) as [d|] eqn:E.
  - intros H. injection H as <-. exists d. split; [auto|]. apply (Hwf x d f0); [now left|exact E].
  - destruct (first_value _ x) as [d|] eqn:E2; [|discriminate]. intros H. injection H as <-. exists d. split; [auto|]. apply first_value_in in E2 as (f & H1 & H2). apply (Hwf x d f); [now right|exact H2].
Qed.
Lemma dupdate_ne (c : dict) : forall d : dict, d <> [] -> dupdate d c <> [].
Proof using. induction c as [|[k v] c IH]; intros d H; [exact H|]. rewrite dupdate_cons. apply IH. destruct d as [|[k' v'] d]; [congruence|]. cbn [dset]. destruct (key_eqb k k'); discriminate. Qed.
Lemma records_nonempty es : Forall (fun e => exists d, (e = EStart d \/ e = EAdd d) /\ dwf d /\ d <> []) es -> forall cur on, match cur with Some r => r <> [] | None => True end ->
  Forall (fun r => r <> []) (records es cur on).
Proof using.
  assert (Hcl : forall cur : option dict, match cur with Some r => r <> [] | None => True end -> Forall (fun r => r <> []) (match cur with Some r => [r] | None => [] end)).
  { intros [r|] H; auto. }
  induction 1 as [|e es (d & He & Hd & Hn) _ IH]; intros cur on Hc; [now apply Hcl|]. destruct He as [->| ->]; cbn [records].
  - apply Forall_app. split; [now apply Hcl|]. now apply IH.
  - destruct on, cur as [c|]; apply IH; auto. unfold first_wins_merge. now apply dupdate_ne.
Qed.
Lemma events_wf ls : Forall (fun e => exists d, (e = EStart d \/ e = EAdd d) /\ dwf d /\ d <> []) (events (map event_of ls)).
Proof using Hwf.
  induction ls as [|x ls IH]; [constructor|]. cbn [map]. unfold events in *. cbn [flat_map]. apply Forall_app. split; [|exact IH]. destruct (event_of x) as [e|] eqn:E; [|constructor]. constructor; [|constructor]. exact (event_wf x e E).
Qed.
(** what the records of the lines leave under the group's name *)
Definition named (name : str) (rs : list dict) : val :=
  VDict (match rs with [] => [] | [r] => [(KS name, VDict r)] | _ => [(KS name, VList (map VDict rs))] end).
Lemma with_no_defaults r : with_defaults r [] = r.
Proof using. unfold with_defaults. cbn [filter]. apply app_nil_r. Qed.
Lemma ev_wf_events es : Forall (fun e => exists d, (e = EStart d \/ e = EAdd d) /\ dwf d /\ d <> []) es -> Forall ev_wf es.
Proof using. intros H. eapply Forall_impl; [|exact H]. intros e (d & [->| ->] & Hd & _); exact Hd. Qed.
Theorem lines_result name e ls lw p pos : map split_stars (g_path F g) = [(name, 0)] -> plain k2i [(name, 0)] -> window f0 ls p = Some (pos, lw) ->
  exists s, make_results F runf k2i e [] [filter nonempty_l (map (items_of F fs) lw)] (VDict []) = Ok s /\ s_results F s = named name (records (events (map event_of ls)) None true).
Proof using H0 Hrest Hstatic Hne Hnof Htop Hruns Hwf.
  intros HP Hp Hw. apply window_some in Hw as (_ & (d0 & t0 & Eh) & pre & -> & _ & Hpre). rewrite (before_start pre lw Hpre).
  set (cs := filter nonempty_l (map (items_of F fs) lw)). set (xs := first_of_each F cs).
  assert (Ehd : exists l lw', lw = l :: lw' /\ f0 l <> None).
  { destruct lw as [|l lw']; [discriminate|]. exists l, lw'. split; [reflexivity|]. cbn [hits] in Eh. destruct (f0 l); [discriminate|]. cbn [app] in Eh. intros _. pose proof (hits_ge f0 lw' (pos + 1 + Z.of_nat (length l))) as G. rewrite Eh in G. apply Forall_inv in G. cbn in G. lia. }
  assert (Es : match cs with (x :: _) :: _ => start_item F g x | _ => True end).
  { destruct Ehd as (l & lw' & -> & Hl). unfold cs. cbn [map filter]. pose proof (line_items l) as L. destruct (items_of F fs l) as [|y ys]; [destruct L as [_ L]; congruence|]. cbn [nonempty_l]. apply L, Hl. }
  assert (E1 : make_results F runf k2i e [] [cs] (VDict []) = make_results F runf k2i e [] [map (fun x => [x]) xs] (VDict [])).
  { unfold make_results. cbn [save_vars sort_paths fold_right rfold rbind]. unfold run_groups. cbn [rfold]. rewrite (one_each F runf k2i g cs Htop (all_good lw)); [reflexivity|reflexivity|]. right. exact Es. }
  assert (Hev : map (ev_of F) xs = events (map event_of lw)) by (symmetry; apply events_items).
  assert (Hwfe : Forall (fun e => exists d, (e = EStart d \/ e = EAdd d) /\ dwf d /\ d <> []) (map (ev_of F) xs)) by (rewrite Hev; apply events_wf).
  assert (Hof : Forall (of_group F g) xs).
  { unfold xs. pose proof (all_good lw) as G. fold cs in G. clear - G. induction G as [|c cs (x & l & -> & Hx & _) _ IH]; [constructor|]. cbn [first_of_each flat_map app]. constructor; [|exact IH]. split; [destruct Hx as [Hx|Hx]; apply Hx|].
    destruct Hx as [(_ & Ha & _)|(_ & Ha & _)]; rewrite Ha; discriminate. }
  assert (Hnw : Forall (item_wf F) xs).
  { assert (K : Forall (fun x => snd x <> None /\ forall d, snd x = Some d -> ev_of F x = EStart d \/ ev_of F x = EAdd d) xs).
    { unfold xs. pose proof (all_good lw) as G. fold cs in G. clear - G. induction G as [|c cs (x & l & -> & Hx & _ & Hd) _ IH]; [constructor|]. cbn [first_of_each flat_map app]. constructor; [|exact IH]. split; [exact Hd|]. intros d E. unfold ev_of. rewrite E.
      destruct Hx as [(_ & Ha & _)|(_ & Ha & _)]; rewrite Ha; auto. }
    clear - K Hwfe. induction xs as [|x xs IH]; [constructor|]. inversion K as [|? ? [K1 K2] K3]; subst. cbn [map] in Hwfe. inversion Hwfe as [|? ? (d & Hd & Hw & _) Hr]; subst. constructor; [|now apply IH].
    unfold item_wf. destruct (snd x) as [d'|] eqn:E; [|congruence]. destruct (K2 d' eq_refl) as [Q|Q]; rewrite Q in Hd; destruct Hd as [Hd|Hd]; congruence. }
  assert (Hearly : no_early_end (map (ev_of F) xs) = true).
  { clear - Hwfe. induction Hwfe as [|x l (d & [->| ->] & _) _ IH]; [reflexivity|reflexivity|exact IH]. }
  assert (Hfull : full_records F g xs = records (events (map event_of lw)) None true).
  { unfold full_records. rewrite Hruns, Hev. rewrite <- (map_id (records _ None true)) at 2. apply map_ext. apply with_no_defaults. }
  assert (HD : dwf (g_runs F g)) by (rewrite Hruns; constructor).
  pose proof (run_plain F runf k2i g Hstatic Hne Hnof Htop HD name e xs HP Hp Hof Hnw Hearly) as R.
  rewrite Hfull in R. specialize (R (records_nonempty _ (events_wf lw) None true I)). rewrite <- E1 in R. unfold results_of in R.
  destruct (make_results F runf k2i e [] [cs] (VDict [])) as [s|]; [|discriminate]. exists s. split; [reflexivity|]. injection R as ->. unfold named. now destruct (records _ None true) as [|? [|? ?]].
Qed.
End Lines.
