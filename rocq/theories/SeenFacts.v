(** * SeenFacts: RunSeen.parsed_seen does what SpecSeen says. *)
From Verif Require Import PyBase DictFacts Template Attributes Session SpecSession SessionFacts Files Inputs OutputTags Load Run RunSeen SpecSeen.
Local Open Scope string_scope.
Local Open Scope list_scope.

Section F.
Variable clock : str -> option val.
Variable k2i : bool.
Variable order : list nat -> list nat.
Variable w : world.
Variable ts : list tpl.
Local Notation prs := (parser_seen clock k2i w ts).
Local Notation one := (one_seen clock k2i w ts).
Local Notation each := (each_seen clock k2i w ts).

Lemma view_shows before (t : tmpl) after : view_of before t after = shows before t (t_results t) after.
Proof. unfold view_of, shows. f_equal. now rewrite map_app. Qed.

Definition step before after (id : nat) (st : dict * tmpl) (j : @job (list attribute)) : res (dict * tmpl) :=
  do (g', v) <- run_job (prs (view_of before (snd st) after)) id (fst st) j (VDict []); do t' <- form_results (snd st) v; Ok (g', t').

Lemma one_per_input_eq before after (t : tmpl) g : t_method t = $"per_input" ->
  one before after t g = rfold (step before after (t_id t)) (jobs t) (g, t).
Proof.
  intros Hm. unfold one_seen. rewrite Hm. replace (str_eqb (lower $"per_input") $"per_input") with true by reflexivity. cbv zeta.
  unfold jobs. rewrite rfold_concat. apply rfold_ext. intros s i. rewrite rfold_map. reflexivity.
Qed.
Lemma one_per_template_eq before after (t : tmpl) g : t_method t = $"per_template" ->
  one before after t g = (do (g', v) <- rfold (fun st j => run_job (prs (view_of before t after)) (t_id t) (fst st) j (snd st)) (jobs t) (g, VDict []);
                       do t' <- form_results t v; Ok (g', t')).
Proof.
  intros Hm. unfold one_seen. rewrite Hm.
  replace (str_eqb (lower $"per_template") $"per_input") with false by reflexivity.
  replace (str_eqb (lower $"per_template") $"per_template") with true by reflexivity. cbv zeta.
  unfold jobs. rewrite rfold_concat. f_equal. apply rfold_ext. intros s i. rewrite rfold_map. reflexivity.
Qed.

Lemma steps before after id js : forall g (t : tmpl) old g' t',
  t_method t = $"per_input" -> t_results t = VList old -> t_id t = id ->
  (rfold (step before after id) js (g, t) = Ok (g', t') <->
   exists rs, one_by_one prs before after t old g js g' rs /\ t' = set_results t (VList rs)).
Proof.
  induction js as [|j js IH]; intros g t old g' t' Hm Hr Hi; cbn [rfold].
  - split.
    + intros H. injection H as <- <-. exists old. split; [constructor|]. rewrite <- Hr. now destruct t.
    + intros (rs & Hs & ->). inversion Hs; subst. rewrite <- Hr. now destruct t.
  - assert (Same : forall rs d g1 g2 rs2, one_by_one prs before after (set_results t d) rs g1 js g2 rs2 <-> one_by_one prs before after t rs g1 js g2 rs2).
    { intros rs d g1 g2 rs2. destruct t as [i n m r gs ii oo]. cbn. clear. split; induction 1; try constructor; econstructor; eauto. }
    unfold step at 1. cbn [fst snd]. rewrite view_shows, Hr.
    destruct (run_job (prs (shows before t (VList old) after)) id g j (VDict [])) as [[g1 v]|e] eqn:E; cbn [rbind].
    + destruct (form_results t v) as [t1|e] eqn:Ef; cbn [rbind].
      * apply (form_results_per_input t old v t1 Hm Hr) in Ef as (d & Hd & ->).
        rewrite (IH g1 _ (old ++ [d]) g' t'); [|exact Hm|reflexivity|exact Hi]. split.
        -- intros (rs & Hs & ->). exists rs. split; [|reflexivity]. apply Same in Hs. econstructor; [rewrite Hi; exact E|exact Hd|exact Hs].
        -- intros (rs & Hs & ->). inversion Hs; subst. rewrite E in *.
           match goal with H : Ok _ = Ok _ |- _ => injection H as <- <- end.
           exists rs. split; [|reflexivity]. apply Same.
           assert (d0 = d) as -> by (apply form_datum_spec in Hd; match goal with H : shaped v d0 |- _ => apply form_datum_spec in H; congruence end).
           assumption.
      * split; [discriminate|]. intros (rs & Hs & ->). inversion Hs; subst. rewrite E in *.
        match goal with H : Ok _ = Ok _ |- _ => injection H as <- <- end.
        assert (Hx : form_results t v = Ok (set_results t (VList (old ++ [d])))) by (apply (form_results_per_input t old); eauto).
        congruence.
    + split; [discriminate|]. intros (rs & Hs & _). inversion Hs; subst. congruence.
Qed.

Theorem one_spec before after (t : tmpl) g g' t' : documented_method t ->
  (one before after t g = Ok (g', t') <-> processed prs before after t g g' t').
Proof.
  intros [[Hm [old Hr]]|Hm].
  - rewrite one_per_input_eq by exact Hm. rewrite (steps _ _ _ _ g t old g' t' Hm Hr eq_refl). split.
    + intros (rs & Hs & ->). eapply pr_per_input; eauto using set_results_same.
    + intros H. destruct H as [old' rs Hm' Hr' Ho Hsame Hres|v d Hm' Ht Hsh Hsame Hres].
      * rewrite Hr in Hr'. injection Hr' as <-. exists rs. split; [exact Ho|]. rewrite (same_eq _ _ Hsame). congruence.
      * rewrite Hm in Hm'. discriminate.
  - rewrite one_per_template_eq by exact Hm. rewrite view_shows. split.
    + intros H. destruct (rfold _ _ _) as [[g1 v]|e] eqn:E; [|discriminate]. cbn [rbind] in H.
      apply tog_steps in E. destruct (form_results t v) as [t1|e] eqn:Ef; [|discriminate]. cbn [rbind] in H. injection H as <- <-.
      apply form_results_per_template in Ef as (d & Hd & ->); [|exact Hm]. eapply pr_per_template; eauto using set_results_same.
    + intros H. destruct H as [old' rs Hm' Hr' Ho Hsame Hres|v d Hm' Ht Hsh Hsame Hres]; [rewrite Hm in Hm'; discriminate|].
      apply tog_steps in Ht. rewrite Ht. cbn [rbind].
      assert (Ef : form_results t v = Ok t').
      { apply form_results_per_template; [exact Hm|]. exists d. split; [exact Hsh|]. rewrite <- Hres. now apply same_eq. }
      now rewrite Ef.
Qed.

Lemma each_order l : forall before g g' r, Forall documented_method l -> (each before l g = Ok (g', r) <-> in_order prs before l g g' r).
Proof.
  induction l as [|t l IH]; intros before g g' r Hd; cbn [each_seen].
  - split; [intros H; injection H as <- <-; constructor|intros H; inversion H; reflexivity].
  - inversion Hd as [|? ? Hd1 Hd2]; subst.
    destruct (one before l t g) as [[g1 t1]|e] eqn:E; cbn [rbind].
    + apply (proj1 (one_spec _ _ _ _ _ _ Hd1)) in E as P. rewrite (IH _ _ _ _ Hd2). split.
      * intros H. econstructor; [exact P|exact H].
      * intros H. inversion H; subst.
        match goal with K : processed _ _ _ _ _ _ _ |- _ => apply (proj2 (one_spec _ _ _ _ _ _ Hd1)) in K; rewrite E in K; injection K as <- <- end.
        assumption.
    + split; [discriminate|]. intros H. inversion H; subst.
      match goal with K : processed _ _ _ _ _ _ _ |- _ => apply (proj2 (one_spec _ _ _ _ _ _ Hd1)) in K; rewrite E in K; discriminate end.
Qed.

Theorem parsed_iff texts s' :
  let s := add_texts order w texts (session_of ts) in
  files_exist (file_size w) s -> Forall documented_method (ss_templates s) ->
  (parsed_seen clock k2i order w ts texts = Ok s' <-> all_parsed prs s s').
Proof.
  intros s Hf Hd. unfold parsed_seen. fold s. cbv zeta. rewrite (data_size_spec _ (fun x => Z.of_nat (length x)) s Hf). cbn [rbind]. unfold all_parsed.
  split.
  - intros H. destruct (each [] (ss_templates s) (ss_global s)) as [[g l]|e] eqn:E; [|discriminate]. cbn [rbind] in H.
    apply (each_order _ _ _ _ _ Hd) in E. destruct (rmap run_outputs l) as [l'|e] eqn:Er; [|discriminate]. cbn [rbind] in H. injection H as <-.
    exists g, l. split; [exact E|]. split; [|split; reflexivity]. apply rmap_Forall2 in Er. cbn. eapply Forall2_imp; [|exact Er].
    intros a b Hab. now apply run_outputs_spec.
  - intros (g & l & Hi & Hf2 & Hg & Hth). apply (each_order _ _ _ _ _ Hd) in Hi. unfold tmpl in Hi. rewrite Hi. cbn [rbind].
    assert (Er : rmap run_outputs l = Ok (ss_templates s')).
    { apply rmap_Forall2. eapply Forall2_imp; [|exact Hf2]. intros a b Hab. now apply run_outputs_spec. }
    rewrite Er. cbn [rbind]. f_equal. destruct s'. unfold set_templates, set_global. cbn in *. congruence.
Qed.
End F.
