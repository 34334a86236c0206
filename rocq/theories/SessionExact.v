(** * SessionExact: when a session can be used again, what a dictionary of results holds, ... *)
From Verif Require Import PyBase DictFacts Session SpecSession SessionFacts SessionHist SessionInputs SessionHeap.
From Coq Require Import Sorting.Sorted.
Local Open Scope string_scope.
Local Open Scope list_scope.
Set Default Proof Using "Type".

Lemma extract_groups_in tgs name groups n : In n (extract_groups tgs name groups) -> exists g, In g tgs /\ tg_index g = n.
Proof.
  unfold extract_groups. intros H.
  assert (K : forall p, In n (map tg_index (filter p tgs)) -> exists g, In g tgs /\ tg_index g = n).
  { intros p Hp. apply in_map_iff in Hp as (g & Hg & Hi). apply filter_In in Hi. exists g. tauto. }
  set (gi := map tg_index (filter (fun g => in_strs name (tg_inputs g)) tgs)) in *.
  destruct gi as [|x gi0] eqn:E.
  - apply (proj1 (sort_set_in _ _)) in H. destruct (in_strs _ groups); eapply K; exact H.
  - apply (proj1 (sort_set_in _ _)) in H. rewrite <- E in H. eapply K. exact H.
Qed.
Lemma extract_groups_sorted tgs name groups : StronglySorted lt (extract_groups tgs name groups).
Proof. unfold extract_groups. destruct (map tg_index (filter (fun g => in_strs name (tg_inputs g)) tgs)); apply sort_set_sorted. Qed.

Section X.
Context {Fn G : Type}.
Local Notation template := (template Fn).
Local Notation session := (session Fn G).
Variable fsize : str -> res Z.
Variable tsize : str -> Z.
Variable prs : nat -> G -> list nat -> Fn -> datum -> val -> res (G * val).
Variable multi : template -> G -> res (G * template).

(** ** parsing again with outputs *)
Lemma parsed_success t g g' t' t0 : memoryless prs -> template_parsed prs t g g' t' -> same_but_results t t0 ->
  documented_method t0 -> forall g0, exists g0' t0', template_parsed prs t0 g0 g0' t0'.
Proof.
  intros Hm H Hs Hd g0. assert (Hj : jobs t0 = jobs t) by (unfold jobs; destruct Hs as (_&_&_&_&->&_); reflexivity).
  destruct Hs as (Hid & _ & Hme & _). inversion H; subst.
  - destruct Hd as [[_ [old0 Ho]]|Hd]; [|exfalso; match goal with K : t_method t = _ |- _ => rewrite Hme, K in Hd; discriminate end].
    match goal with K : separately _ _ _ _ _ |- _ => destruct (separately_any prs _ Hm _ _ _ _ K g0) as [g0' Hsep] end.
    exists g0', (set_results t0 (VList (old0 ++ ds))). eapply tp_per_input; eauto using set_results_same; [congruence|]. rewrite Hj, Hid. exact Hsep.
  - match goal with K : together _ _ _ _ _ _ |- _ => destruct (together_any prs _ Hm _ _ _ _ _ K g0) as [g0' Hsep] end.
    exists g0'. eexists (set_results t0 _). eapply tp_per_template; [congruence|rewrite Hj, Hid; exact Hsep|eassumption|apply set_results_same|reflexivity].
Qed.
Lemma in_turn_success (ts : list template) : memoryless prs -> forall g g' ts' ts0, in_turn (template_parsed prs) ts g g' ts' ->
  Forall2 same_but_results ts ts0 -> Forall documented_method ts0 -> forall g0,
  exists g0' ts0', in_turn (template_parsed prs) ts0 g0 g0' ts0' /\ Forall2 same_but_results ts0 ts0'.
Proof.
  intros Hm g g' ts' ts0 H. revert ts0. induction H as [g|t g g1 t1 ts g2 ts2 Ht _ IH]; intros ts0 HF Hd g0; inversion HF; subst.
  - exists g0, []. split; constructor.
  - inversion Hd; subst. match goal with K : same_but_results t ?y |- _ => destruct (parsed_success _ _ _ _ _ Hm Ht K ltac:(assumption) g0) as (ga & ta & Hta) end.
    match goal with K : Forall2 _ ts ?l |- _ => destruct (IH l K ltac:(assumption) ga) as (gb & tb & Htb & Hsb) end.
    exists gb, (ta :: tb). split; [econstructor; eassumption|]. constructor; [|exact Hsb]. now destruct (template_parsed_keeps _ _ _ _ _ Hta).
Qed.

(** outputs that answer whatever they are given, and that give lists for lists where the results
    are collected in a list *)
Definition tame (t : template) : Prop :=
  forall f, In f (t_outputs t) -> (forall v, exists w, f v = Ok w) /\
    (t_method t = $"per_input" -> forall l, exists l', f (VList l) = Ok (VList l')).
Lemma pipe_total fs : (forall f, In f fs -> forall v : val, exists w : val, f v = Ok w) -> forall v, exists w, pipe fs v w.
Proof.
  induction fs as [|f fs IH]; intros H v; [exists v; constructor|]. destruct (H f (or_introl eq_refl) v) as [w Hw].
  destruct (IH (fun f' Hf => H f' (or_intror Hf)) w) as [u Hu]. exists u. econstructor; eassumption.
Qed.
Lemma pipe_list fs : (forall f, In f fs -> forall l, exists l', f (VList l) = Ok (VList l')) -> forall l w, pipe fs (VList l) w -> exists l', w = VList l'.
Proof.
  induction fs as [|f fs IH]; intros H l w Hp; inversion Hp; subst; [eauto|].
  destruct (H f (or_introl eq_refl) l) as [l' Hl]. assert (w0 = VList l') by congruence. subst w0.
  eapply (IH (fun f' Hf => H f' (or_intror Hf))). eassumption.
Qed.
Lemma tame_same (t t' : template) : same_but_results t t' -> tame t -> tame t'.
Proof. intros (_&_&Hm&_&_&Ho) H f Hf. rewrite Ho in Hf. rewrite Hm. now apply H. Qed.
Lemma tame_documented t t1 : tame t -> documented_method t -> outputs_run t t1 -> documented_method t1.
Proof.
  intros Ht Hd [Hs Hp]. assert (Hs' := Hs). destruct Hs as (_&_&Hm&_). destruct Hd as [[Hme [l Hl]]|Hme]; [|right; congruence].
  left. split; [congruence|]. rewrite Hl in Hp. eapply pipe_list; [|exact Hp]. intros f Hf. now apply Ht.
Qed.
Lemma outputs_total t : tame t -> exists t1, outputs_run t t1.
Proof.
  intros Ht. destruct (pipe_total (t_outputs t) (fun f Hf => proj1 (Ht f Hf)) (t_results t)) as [w Hw].
  exists (set_results t w). split; [apply set_results_same|exact Hw].
Qed.
Lemma outputs_all (ts : list template) : Forall tame ts -> exists ts', Forall2 outputs_run ts ts'.
Proof.
  induction 1 as [|t ts Ht _ [ts' IH]]; [exists []; constructor|]. destruct (outputs_total t Ht) as [t1 H1]. exists (t1 :: ts'). now constructor.
Qed.
Lemma documented_parsed t g g' t' : template_parsed prs t g g' t' -> documented_method t'.
Proof.
  intros H. inversion H; subst.
  - left. match goal with K : same_but_results t t' |- _ => destruct K as (_&_&Hm&_) end. split; [congruence|eauto].
  - right. match goal with K : same_but_results t t' |- _ => destruct K as (_&_&Hm&_) end. congruence.
Qed.
Lemma same_documented (t t' : template) v : documented_method t -> clear_val (t_results t) = Ok v -> t' = set_results t v -> documented_method t'.
Proof.
  intros [[Hm [l Hl]]|Hm] Hc ->; [left|right; exact Hm]. rewrite Hl in Hc. cbn in Hc. injection Hc as <-. split; [exact Hm|now exists []].
Qed.
Lemma Forall2_all {A B} (R : A -> B -> Prop) (P : A -> Prop) (Q : B -> Prop) l l' :
  (forall a b, R a b -> P a -> Q b) -> Forall2 R l l' -> Forall P l -> Forall Q l'.
Proof. intros H HF. induction HF; intros HP; inversion HP; subst; constructor; eauto. Qed.
Lemma Forall2_comp {A B C} (R : A -> B -> Prop) (S : B -> C -> Prop) (T : A -> C -> Prop) l l' l'' :
  (forall a b c, R a b -> S b c -> T a c) -> Forall2 R l l' -> Forall2 S l' l'' -> Forall2 T l l''.
Proof. intros H HF. revert l''. induction HF; intros l'' HS; inversion HS; subst; constructor; eauto. Qed.

(** a session whose outputs are tame stays usable: parse() succeeds again, directly or after clear_result() *)
Theorem tame_again (s s1 s2 : session) : memoryless prs -> Forall documented_method (ss_templates s) -> Forall tame (ss_templates s) ->
  files_exist fsize s -> parse fsize tsize prs multi s (VBool true) (VBool false) = Ok s1 ->
  s2 = s1 \/ clear_result s1 [] = Ok s2 ->
  (Forall documented_method (ss_templates s2) /\ Forall tame (ss_templates s2) /\ files_exist fsize s2) /\
  exists s3, parse fsize tsize prs multi s2 (VBool true) (VBool false) = Ok s3.
Proof.
  intros Hm Hd Ht Hf H H2.
  assert (Hnb : ~ (VBool true = VBool true /\ VBool false = VBool true)) by (intros [_ K]; discriminate).
  assert (Hnu : forall s : session, ~ uses_multi fsize tsize s (VBool true) (VBool false)) by (intros s0 [K _]; congruence).
  apply parse_session in H; auto. destruct H as (g & ts & Hi & Ho & Hg & Hth).
  assert (Hs : Forall2 same_but_results (ss_templates s) ts) by (clear - Hi; induction Hi; constructor; [now destruct (template_parsed_keeps _ _ _ _ _ H)|assumption]).
  assert (Hdt : Forall documented_method ts) by (clear - Hi; induction Hi; constructor; [eapply documented_parsed; eassumption|assumption]).
  assert (Htt : Forall tame ts) by (eapply Forall2_all; [|exact Hs|exact Ht]; intros; eapply tame_same; eassumption).
  assert (Hs1 : Forall2 same_but_results ts (ss_templates s1)) by (eapply Forall2_imp; [|exact Ho]; intros a b [K _]; exact K).
  assert (Hd1 : Forall documented_method (ss_templates s1)).
  { clear - Ho Hdt Htt. revert Hdt Htt. induction Ho; intros A B; inversion A; inversion B; subst; constructor; [eapply tame_documented; eassumption|auto]. }
  assert (Hs12 : Forall2 same_but_results (ss_templates s1) (ss_templates s2) /\ Forall documented_method (ss_templates s2)).
  { destruct H2 as [->|H2].
    - split; [|exact Hd1]. clear. induction (ss_templates s1); constructor; [repeat split|assumption].
    - destruct (clear_all_shape _ _ H2) as [HF _]. split.
      + eapply Forall2_imp; [|exact HF]. intros a b (v & _ & ->). apply set_results_same.
      + eapply Forall2_all; [|exact HF|exact Hd1]. intros a b (v & Hv & Hb) Ha. eapply same_documented; eassumption. }
  destruct Hs12 as [Hs12 Hd2].
  assert (Hs02 : Forall2 same_but_results (ss_templates s) (ss_templates s2)).
  { eapply Forall2_comp; [|eapply Forall2_comp; [|exact Hs|exact Hs1]|exact Hs12]; intros a b c; apply same_trans. }
  assert (Ht2 : Forall tame (ss_templates s2)) by (eapply Forall2_all; [|exact Hs02|exact Ht]; intros; eapply tame_same; eassumption).
  assert (Hf2 : files_exist fsize s2) by (intros p Hp; apply Hf; rewrite (same_data _ _ Hs02) in Hp; exact Hp).
  split; [auto|].
  destruct (in_turn_success _ Hm _ _ _ _ Hi Hs02 Hd2 (ss_global s2)) as (g3 & ts3 & Hi3 & Hs3).
  destruct (outputs_all ts3) as [ts4 H4]; [eapply Forall2_all; [|exact Hs3|exact Ht2]; intros; eapply tame_same; eassumption|].
  exists {| ss_templates := ts4; ss_global := g3; ss_threshold := ss_threshold s2 |}. apply parse_session; auto.
  exists g3, ts3. auto.
Qed.

(** ** result(structure="dictionary") *)
Lemma as_dictionary_get (ts : list template) n : dget (as_dictionary ts) (KS n) =
  match n with [] => None | _ => option_map (@t_results Fn) (opt_last (filter (fun t => str_eqb (t_name t) n) ts)) end.
Proof.
  unfold as_dictionary.
  assert (H : forall (ts : list template) d, dget (fold_left (fun d t => match t_name t with [] => d | _ => dset d (KS (t_name t)) (t_results t) end) ts d) (KS n) =
    match n with [] => dget d (KS n) | _ => match opt_last (filter (fun t => str_eqb (t_name t) n) ts) with Some t => Some (t_results t) | None => dget d (KS n) end end).
  { clear. intros ts. induction ts as [|t ts IH] using rev_ind; intros d; [now destruct n|].
    rewrite fold_left_app. cbn [fold_left]. rewrite filter_app. cbn [filter].
    destruct (str_eqb (t_name t) n) eqn:E.
    - apply str_eqb_eq in E. destruct (t_name t) as [|c nm] eqn:En.
      + subst n. rewrite IH. reflexivity.
      + rewrite <- E. rewrite dget_dset_same, opt_last_app. reflexivity.
    - rewrite app_nil_r. destruct (t_name t) as [|c nm] eqn:En.
      + apply IH.
      + rewrite dget_dset_other; [apply IH|]. intros K. injection K as K. rewrite <- K, str_eqb_refl in E. discriminate. }
  rewrite H. destruct n; [reflexivity|]. now destruct (opt_last _).
Qed.
Lemma as_dictionary_keys (ts : list template) k : In k (dkeys (as_dictionary ts)) -> exists n, k = KS n.
Proof.
  unfold as_dictionary. assert (H : forall (ts : list template) d, (In k (dkeys d) -> exists n, k = KS n) ->
    In k (dkeys (fold_left (fun d t => match t_name t with [] => d | _ => dset d (KS (t_name t)) (t_results t) end) ts d)) -> exists n, k = KS n).
  { clear. intros ts. induction ts as [|t ts IH]; intros d Hd; cbn [fold_left]; [exact Hd|]. apply IH. destruct (t_name t); [exact Hd|].
    rewrite dkeys_dset. destruct (dmem d _); [exact Hd|]. intros Hk. apply in_app_or in Hk as [Hk|[<-|[]]]; eauto. }
  apply H. intros [].
Qed.

(** ** results methods that are spelled differently *)
Lemma form_results_other (t t' : template) v : t_method t <> $"per_input" -> t_method t <> $"per_template" ->
  form_results t v = Ok t' -> t' = t.
Proof.
  intros H1 H2 H. unfold form_results in H. destruct (form_datum v); [|discriminate]. cbn [rbind] in H.
  destruct (str_eqb (t_method t) _) eqn:E; [now apply str_eqb_eq in E|]. destruct (str_eqb (t_method t) $"per_input") eqn:E2; [now apply str_eqb_eq in E2|]. congruence.
Qed.
Lemma rfold_keep {A B} (f : A -> B -> res A) (P : A -> Prop) l : (forall a b a', P a -> f a b = Ok a' -> P a') ->
  forall a a', P a -> rfold f l a = Ok a' -> P a'.
Proof.
  intros Hf. induction l as [|b l IH]; intros a a' Ha H; cbn [rfold] in H; [assert (a' = a) by congruence; now subst|].
  destruct (f a b) as [a1|e] eqn:E; [|discriminate]. cbn [rbind] in H. eauto.
Qed.
Theorem other_method (t t' : template) g g' : t_method t <> $"per_input" -> t_method t <> $"per_template" ->
  parse_one prs t g = Ok (g', t') -> t' = t.
Proof.
  intros H1 H2 H. unfold parse_one in H. destruct (str_eqb _ $"per_input").
  - apply (rfold_keep _ (fun st => snd st = t)) with (a' := (g', t')) in H; [exact H| |reflexivity].
    intros st i st' Hst Hr. apply (rfold_keep _ (fun st => snd st = t)) with (a' := st') in Hr; [exact Hr| |exact Hst].
    intros st1 d st2 Hs1 Hr1. cbn in Hr1. destruct (prs _ _ _ _ _ _) as [[ga v]|e]; [|discriminate]. cbn [rbind] in Hr1.
    destruct (form_results (snd st1) v) as [t1|e] eqn:Ef; [|discriminate]. cbn [rbind] in Hr1.
    assert (st2 = (ga, t1)) by congruence. subst st2. cbn. rewrite Hs1 in Ef. eapply form_results_other; eassumption.
  - destruct (str_eqb _ $"per_template").
    + destruct (rfold _ _ _) as [[ga v]|e]; [|discriminate]. cbn [rbind] in H. destruct (form_results t v) as [t1|e] eqn:Ef; [|discriminate].
      cbn [rbind] in H. assert (t' = t1) by congruence. subst t'. eapply form_results_other; eassumption.
    + congruence.
Qed.

(** ** groups of an input: in order as long as Python lists small sets in order *)
Variable load : val -> list datum.
Variable nofuncs : Fn.
Variable order : list nat -> list nat.

Theorem small_sets_sorted bound (s : session) calls :
  (forall l, Forall (fun n => n < bound) l -> order l = sort_set l) ->
  Forall (fun t => t_inputs t = [] /\ Forall (fun g => tg_index g < bound) (t_groups t)) (ss_templates s) ->
  Forall (fun t => forall name, StronglySorted lt (input_groups t name)) (ss_templates (do_calls load nofuncs order s calls)).
Proof.
  intros Ho Hs.
  set (P := fun t : template => Forall (fun g => tg_index g < bound) (t_groups t) /\
    forall name, StronglySorted lt (input_groups t name) /\ Forall (fun n => n < bound) (input_groups t name)).
  enough (H : Forall P (ss_templates (do_calls load nofuncs order s calls))) by (eapply Forall_impl; [|exact H]; intros t [_ Ht] name; apply Ht).
  assert (H0 : Forall P (ss_templates s)).
  { eapply Forall_impl; [|exact Hs]. intros t [Hi Hg]. split; [exact Hg|]. intros name. unfold input_groups. rewrite Hi. cbn. split; constructor. }
  clear Hs. revert s H0. unfold do_calls. induction calls as [|c calls IH]; intros s H0; cbn [fold_left]; [exact H0|]. apply IH.
  unfold do_call, add_input. destruct (load (c_data c)) as [|d ds]; [exact H0|]. cbn [ss_templates set_templates]. apply Forall_map.
  eapply Forall_impl; [|exact H0]. intros t [Hg Ht]. destruct (selected (c_template c) t); [|split; assumption].
  set (gs := match c_groups c with [] => _ | _ => _ end).
  assert (Hb : Forall (fun n => n < bound) (extract_groups (t_groups t) (c_input c) gs)).
  { apply Forall_forall. intros n Hn. apply extract_groups_in in Hn as (g & Hi & <-). rewrite Forall_forall in Hg. now apply Hg. }
  unfold update_input. destruct (aget (t_inputs t) (c_input c)) as [i|] eqn:E.
  - split; [exact Hg|]. intros name. unfold input_groups. cbn [t_inputs set_inputs].
    destruct (str_eqb (c_input c) name) eqn:En.
    + apply str_eqb_eq in En. subst name. rewrite aget_aset_same. cbn [in_groups].
      destruct (Ht (c_input c)) as [Hts Htb]. unfold input_groups in Hts, Htb. rewrite E in Hts, Htb.
      assert (Hall : Forall (fun n => n < bound) (in_groups i ++ extract_groups (t_groups t) (c_input c) gs)) by (apply Forall_app; now split).
      rewrite (Ho _ Hall). split; [apply sort_set_sorted|]. apply Forall_forall. intros n Hn. apply (proj1 (sort_set_in _ _)) in Hn. rewrite Forall_forall in Hall. now apply Hall.
    + rewrite aget_aset_other by (intros K; rewrite K, str_eqb_refl in En; discriminate). apply Ht.
  - split; [exact Hg|]. intros name. unfold input_groups. cbn [t_inputs set_inputs].
    destruct (str_eqb (c_input c) name) eqn:En.
    + apply str_eqb_eq in En. subst name. rewrite aget_aset_same. cbn [in_groups]. split; [apply extract_groups_sorted|exact Hb].
    + rewrite aget_aset_other by (intros K; rewrite K, str_eqb_refl in En; discriminate). apply Ht.
Qed.
End X.

(** ** what a result list shows after later calls *)
Lemma deref_put h l v l' : l < length h -> deref (put h l v) l' = if Nat.eqb l' l then v else deref h l'.
Proof.
  unfold deref. revert l l'. induction h as [|x h IH]; intros [|l] [|l'] Hl; cbn in *; try lia; try reflexivity.
  apply IH. lia.
Qed.
Lemma put_length h l v : length (put h l v) = length h.
Proof. revert l. induction h as [|x h IH]; intros [|l]; cbn; auto. Qed.
(** every template has its own list *)
Definition own_lists (s : hsession) : Prop :=
  NoDup (hs_templates s) /\ Forall (fun l => l < length (hs_heap s) /\ exists x, deref (hs_heap s) l = VList x) (hs_templates s).
(** the items parsed for template [i], in order *)
Definition items_of (news : list (nat * val)) (i : nat) : list val := map snd (filter (fun x => Nat.eqb (fst x) i) news).

Lemma h_append_own s i d s' : own_lists s -> h_append s i d = Ok s' ->
  own_lists s' /\ hs_templates s' = hs_templates s /\
  exists l x, nth_error (hs_templates s) i = Some l /\ deref (hs_heap s) l = VList x /\
    forall l', deref (hs_heap s') l' = if Nat.eqb l' l then VList (x ++ [d]) else deref (hs_heap s) l'.
Proof.
  intros [Hn Hf] H. unfold h_append in H. destruct (nth_error (hs_templates s) i) as [l|] eqn:E; [|discriminate].
  destruct (deref (hs_heap s) l) as [| | | |x| |] eqn:Ed; try discriminate. injection H as <-. cbn [hs_heap hs_templates].
  assert (Hl : l < length (hs_heap s)) by (rewrite Forall_forall in Hf; apply nth_error_In in E; apply Hf in E; apply E).
  assert (Hd : forall l', deref (put (hs_heap s) l (VList (x ++ [d]))) l' = if Nat.eqb l' l then VList (x ++ [d]) else deref (hs_heap s) l') by (intros; now apply deref_put).
  split; [|split; [reflexivity|exists l, x; auto]].
  split; [exact Hn|]. cbn [hs_heap hs_templates]. eapply Forall_impl; [|exact Hf]. intros l' [Hl' [y Hy]]. rewrite put_length. split; [exact Hl'|]. rewrite Hd. destruct (Nat.eqb l' l); eauto.
Qed.

Theorem see_after_parse news : forall s s', own_lists s -> h_exec s (HParse news) = Ok s' ->
  own_lists s' /\ hs_templates s' = hs_templates s /\
  forall i l, nth_error (hs_templates s) i = Some l -> exists x, deref (hs_heap s) l = VList x /\ deref (hs_heap s') l = VList (x ++ items_of news i).
Proof.
  cbn [h_exec]. induction news as [|[i d] news IH]; intros s s' Ho H; cbn [rfold fst snd] in H.
  - injection H as <-. split; [exact Ho|]. split; [reflexivity|]. intros j l Hj. destruct Ho as [_ Hf]. rewrite Forall_forall in Hf.
    destruct (Hf l (nth_error_In _ _ Hj)) as [_ [x Hx]]. exists x. cbn. now rewrite app_nil_r.
  - destruct (h_append s i d) as [s1|e] eqn:E; [|discriminate]. cbn [rbind] in H.
    destruct (h_append_own _ _ _ _ Ho E) as (Ho1 & Ht1 & l & x & Hl & Hx & Hd). destruct (IH _ _ Ho1 H) as (Ho' & Ht' & HI).
    split; [exact Ho'|]. split; [congruence|]. intros j l' Hj. destruct (HI j l') as (x' & Hx' & Hr); [congruence|].
    rewrite Hd in Hx'. unfold items_of in *. cbn [filter fst snd map]. destruct (Nat.eqb_spec l' l) as [->|Hne].
    + assert (i = j). { destruct Ho as [Hn _]. apply (proj1 (NoDup_nth_error _) Hn); [apply nth_error_Some; congruence|congruence]. }
      subst j. rewrite Nat.eqb_refl. exists x. split; [exact Hx|]. rewrite Hr. cbn [map snd]. injection Hx' as <-. now rewrite <- app_assoc.
    + assert (i <> j) by (intros ->; congruence). destruct (Nat.eqb_spec i j); [congruence|]. exists x'. auto.
Qed.
Theorem see_after_clear s s' : own_lists s -> h_exec s HClear = Ok s' ->
  own_lists s' /\ hs_templates s' = hs_templates s /\ forall l, In l (hs_templates s) -> deref (hs_heap s') l = VList [].
Proof.
  intros Ho H. cbn in H. injection H as <-. unfold h_clear. cbn [hs_templates].
  set (f := fun h l => match deref h l with VList _ => put h l (VList []) | VDict _ => put h l (VDict []) | _ => h end).
  assert (K : forall ls h, Forall (fun l => l < length h /\ exists x, deref h l = VList x) ls ->
    length (fold_left f ls h) = length h /\ (forall l, In l ls -> deref (fold_left f ls h) l = VList []) /\
    (forall l, ~ In l ls -> deref (fold_left f ls h) l = deref h l)).
  { intros ls. induction ls as [|a ls IH]; intros h Hf; cbn [fold_left]; [repeat split; intros l []|].
    inversion Hf as [|? ? [Ha [x Hx]] Hr]; subst. unfold f at 2 4 6. rewrite Hx.
    assert (Hd : forall l', deref (put h a (VList [])) l' = if Nat.eqb l' a then VList [] else deref h l') by (intros; now apply deref_put).
    destruct (IH (put h a (VList []))) as (H1 & H2 & H3).
    { eapply Forall_impl; [|exact Hr]. intros l [Hl [y Hy]]. rewrite put_length. split; [exact Hl|]. rewrite Hd. destruct (Nat.eqb l a); eauto. }
    rewrite H1, put_length. split; [reflexivity|]. split.
    - intros l [<-|Hl]; [|now apply H2]. destruct (in_dec Nat.eq_dec a ls) as [Hi|Hi]; [now apply H2|]. rewrite H3 by exact Hi. rewrite Hd, Nat.eqb_refl. reflexivity.
    - intros l Hl. rewrite H3 by (intros Hi; apply Hl; now right). rewrite Hd. destruct (Nat.eqb_spec l a) as [->|]; [|reflexivity]. exfalso. apply Hl. now left. }
  destruct Ho as [Hn Hf]. destruct (K (hs_templates s) (hs_heap s) Hf) as (H1 & H2 & H3). split; [|split; [reflexivity|exact H2]].
  split; [exact Hn|]. cbn. apply Forall_forall. intros l Hl. rewrite H1. rewrite Forall_forall in Hf. split; [now apply Hf|]. exists []. now apply H2.
Qed.
(** a newly bound result does not touch what was handed out *)
Theorem see_after_bind s i d l : l < length (hs_heap s) -> deref (hs_heap (h_bind s i d)) l = deref (hs_heap s) l.
Proof. intros H. unfold h_bind, deref. cbn. now apply app_nth1. Qed.
