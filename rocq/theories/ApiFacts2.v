(** * ApiFacts2: parsing in a history, and what one template and one parse come to. *)
From Verif Require Import PyBase DictFacts Results Template Attributes FormRegex MatchVar MatchFuncs GroupFuncs Parser Compile FuncTable Session Files Inputs OutputTags Load Run SpecSession SessionFacts SpecVariable SpecFiles SpecLoaded LoadedFacts2 RunSeen SpecSeen SeenFacts SeenRefine Api SpecApi ApiFacts.
From Verif Require Properties_Files.
Local Open Scope string_scope.
Local Open Scope list_scope.

Section W.
Variables (clock : str -> option val) (k2i : bool) (order : list nat -> list nat) (w : world) (base : str).
Local Notation do_ := (Api.do_call clock k2i order w base).

Lemma with_kept ts (s : session_t) : steps_with ts s -> Forall2 kept (ss_templates s) (ss_templates (with_outputs ts s)).
Proof.
  intros H. pose proof (proj2 (outputs_set ts s _ H) eq_refl) as F. eapply Forall2_imp; [|exact F]. intros a b [(A & B & C & D & _) _]. repeat split; assumption.
Qed.
Theorem parse_now_kept ts s s' : steps_with ts s -> parse_now clock k2i w ts s = Ok s' -> steps_with ts s'.
Proof.
  intros St H. unfold parse_now in H. apply rbind_ok in H as (x & _ & H). apply rbind_ok in H as ([g l] & E & H). apply rbind_ok in H as (l' & E2 & H). injection H as <-.
  apply each_kept in E as (r & -> & F). cbn [app] in E2. unfold steps_with. cbn [ss_templates set_templates]. eapply kept_step; [|exact St].
  eapply kept_trans2; [apply with_kept; exact St|]. eapply kept_trans2; [exact F|]. eapply kept_rmap; [|exact E2].
  intros t t' K. unfold run_outputs in K. apply rbind_ok in K as (v & _ & K). injection K as <-. repeat split.
Qed.
Lemma method_kept l l' : Forall2 (fun a b : tmpl => t_method b = t_method a /\ t_results b = t_results a) l l' -> Forall documented_method l -> Forall documented_method l'.
Proof.
  induction 1 as [|a b l l' [M R] F IH]; intros H; constructor; inversion H as [|? ? D D2]; subst; [|now apply IH]. unfold documented_method in *. now rewrite M, R.
Qed.
Lemma data_size_inputs (ts : list tpl) (s s2 : session_t) : Forall2 (fun a b : tmpl => t_inputs b = t_inputs a) (ss_templates s) (ss_templates s2) -> files_exist (file_size w) s -> files_exist (file_size w) s2.
Proof.
  intros F H p I. apply H. clear H. unfold all_data in *. replace (map data_of (ss_templates s)) with (map data_of (ss_templates s2)); [exact I|]. clear I.
  induction F as [|a b l l' E F IH]; cbn [map]; [reflexivity|]. rewrite IH. f_equal. unfold data_of. now rewrite E.
Qed.
Theorem parse_now_iff ts (s s' : session_t) : steps_with ts s -> files_exist (file_size w) s -> Forall documented_method (ss_templates s) ->
  (parse_now clock k2i w ts s = Ok s' <->
   exists ready, Forall2 (outputs_are ts) (ss_templates s) (ss_templates ready) /\ ss_global ready = ss_global s /\ ss_threshold ready = ss_threshold s /\
     all_parsed (parser_seen clock k2i w ts) ready s').
Proof.
  intros St Hf Hd. pose proof (proj2 (outputs_set ts s _ St) eq_refl) as F.
  assert (Hf2 : files_exist (file_size w) (with_outputs ts s)).
  { eapply data_size_inputs; [exact ts| |exact Hf]. eapply Forall2_imp; [|exact F]. intros a b [(_ & _ & _ & _ & I & _) _]. exact I. }
  assert (Hd2 : Forall documented_method (ss_templates (with_outputs ts s))).
  { eapply method_kept; [|exact Hd]. eapply Forall2_imp; [|exact F]. intros a b [(_ & _ & M & _ & _ & R) _]. now split. }
  assert (R : (exists ready, Forall2 (outputs_are ts) (ss_templates s) (ss_templates ready) /\ ss_global ready = ss_global s /\ ss_threshold ready = ss_threshold s /\
     all_parsed (parser_seen clock k2i w ts) ready s') <-> all_parsed (parser_seen clock k2i w ts) (with_outputs ts s) s').
  { split.
    - intros (ready & Fr & G & T & A). apply (outputs_set ts s _ St) in Fr. assert (ready = with_outputs ts s) as <-; [|exact A].
      destruct ready as [l g t]. cbn in Fr, G, T. subst. reflexivity.
    - intros A. exists (with_outputs ts s). split; [exact F|]. split; [reflexivity|]. split; [reflexivity|exact A]. }
  rewrite R. clear R. unfold parse_now. cbv zeta. clear F St Hf Hd. revert Hf2 Hd2. generalize (with_outputs ts s). clear s. intros s Hf Hd.
  rewrite (data_size_spec _ (fun x => Z.of_nat (length x)) s Hf). cbn [rbind]. unfold all_parsed.
  split.
  - intros H. destruct (each_seen clock k2i w ts [] (ss_templates s) (ss_global s)) as [[g l]|e] eqn:E; [|discriminate]. cbn [rbind] in H.
    apply (each_order _ _ _ _ _ _ _ _ _ Hd) in E. destruct (rmap run_outputs l) as [l'|e] eqn:Er; [|discriminate]. cbn [rbind] in H. injection H as <-.
    exists g, l. split; [exact E|]. split; [|split; reflexivity]. apply rmap_Forall2 in Er. cbn. eapply Forall2_imp; [|exact Er].
    intros a b Hab. now apply run_outputs_spec.
  - intros (g & l & Hi & Hf2 & Hg & Hth). apply (each_order _ _ _ _ _ _ _ _ _ Hd) in Hi. unfold tmpl in Hi. rewrite Hi. cbn [rbind].
    assert (Er : rmap run_outputs l = Ok (ss_templates s')).
    { apply rmap_Forall2. eapply Forall2_imp; [|exact Hf2]. intros a b Hab. now apply run_outputs_spec. }
    rewrite Er. cbn [rbind]. f_equal. destruct s'. unfold set_templates, set_global. cbn in *. congruence.
Qed.

(** ** the session goes with the templates, whatever is called *)
Lemma call_step o c o' : do_ o c = Ok o' -> in_step o -> in_step o'.
Proof.
  unfold in_step. intros H St. pose proof (call_tpls _ _ _ _ _ _ _ _ H) as (ts & news & E & F & _).
  destruct c as [p|v|n x i l k|d i t gs|d i t gs|t| |ns].
  - apply add_template_iff in H as (tss & _ & ->). cbn [o_tpls o_session ss_templates set_templates]. clear E F. rewrite number_app. cbn [Nat.add].
    apply Forall2_app_; [exact St|]. generalize (length (o_tpls o)). induction (concat tss) as [|t l IH]; intros n; cbn [number map]; constructor; [repeat split|apply IH].
  - cbn [do_call] in H. injection H as <-. destruct v; try exact St. cbn [add_vars o_tpls o_session]. eapply in_step_tpls; [exact St|]. clear. induction (o_tpls o); constructor; [repeat split|assumption].
  - apply add_lookup_iff in H as (y & _ & ->). cbn [o_tpls o_session]. eapply in_step_tpls; [exact St|]. clear. induction (o_tpls o); constructor; [repeat split|assumption].
  - cbn [do_call] in H. injection H as <-. cbn [o_tpls o_session with_session]. unfold add_input. destruct (load_input w d); [exact St|]. cbn [ss_templates set_templates].
    eapply kept_step; [apply kept_map|exact St]. intros t0. destruct (selected t t0); [|apply kept_refl]. unfold update_input. destruct (aget _ _); repeat split.
  - cbn [do_call] in H. injection H as <-. cbn [o_tpls o_session with_session]. unfold set_input, add_input. cbn [ss_templates set_templates clear_input].
    assert (K : Forall2 goes_with (Load.number 0 (o_tpls o)) (ss_templates (clear_input (o_session o) t))).
    { cbn [ss_templates set_templates clear_input]. eapply kept_step; [apply kept_map|exact St]. intros t0. destruct (selected t t0); repeat split. }
    destruct (load_input w d); [exact K|]. cbn [ss_templates set_templates]. eapply kept_step; [apply kept_map|exact K]. intros t0. destruct (selected t t0); [|apply kept_refl].
    unfold update_input. destruct (aget _ _); repeat split.
  - cbn [do_call] in H. injection H as <-. cbn [o_tpls o_session with_session ss_templates set_templates clear_input]. eapply kept_step; [apply kept_map|exact St].
    intros t0. destruct (selected t t0); repeat split.
  - cbn [do_call] in H. apply rbind_ok in H as (s & H & K). injection K as <-. cbn [o_tpls o_session with_session]. now apply parse_now_kept in H.
  - cbn [do_call] in H. apply rbind_ok in H as (s & H & K). injection K as <-. cbn [o_tpls o_session with_session]. unfold clear_result in H. apply rbind_ok in H as (l & H & K). injection K as <-.
    cbn [ss_templates set_templates]. eapply kept_step; [eapply kept_rmap; [|exact H]|exact St]. intros t t' K. cbv beta in K. destruct (match ns with [] => true | _ => in_strs (t_name t) ns end).
    + apply rbind_ok in K as (v & _ & K). injection K as <-. repeat split.
    + injection K as <-. apply kept_refl.
Qed.
Theorem run_step h : forall o o', rfold do_ h o = Ok o' -> in_step o -> in_step o'.
Proof. induction h as [|c h IH]; intros o o' H St; cbn [rfold] in H; [injection H as <-; exact St|]. apply rbind_ok in H as (o1 & E & H). apply call_step in E; eauto. Qed.

(** ** what the calls leave alone *)
Definition results_of (o : obj) : list val := map (@t_results _) (ss_templates (o_session o)).
Definition inputs_of (o : obj) := map (@t_inputs _) (ss_templates (o_session o)).
Theorem call_frame o c o' : do_ o c = Ok o' ->
  match c with
  | AddVars _ | AddLookup _ _ _ _ _ => o_session o' = o_session o
  | AddTemplate _ => exists new, ss_templates (o_session o') = ss_templates (o_session o) ++ new /\ ss_global (o_session o') = ss_global (o_session o) /\
                       exists ts, o_tpls o' = o_tpls o ++ ts /\ Forall2 unparsed ts new
  | AddInput _ _ _ _ | SetInput _ _ _ _ | ClearInput _ => results_of o' = results_of o /\ ss_global (o_session o') = ss_global (o_session o)
  | ParseOne | ClearResult _ => True
  end.
Proof.
  intros H. destruct c as [p|v|n x i l k|d i t gs|d i t gs|t| |ns]; try exact I.
  - apply add_template_iff in H as (tss & _ & ->). cbn [o_session ss_templates set_templates ss_global o_tpls]. eexists. split; [reflexivity|]. split; [reflexivity|].
    eexists. split; [reflexivity|]. generalize (length (o_tpls o)). induction (concat tss) as [|t l IH]; intros n; cbn [number map]; constructor; [repeat split|apply IH].
  - cbn [do_call] in H. injection H as <-. now destruct v.
  - apply add_lookup_iff in H as (y & _ & ->). reflexivity.
  - cbn [do_call] in H. injection H as <-. unfold results_of. cbn [o_session with_session]. unfold add_input. destruct (load_input w d); [split; reflexivity|]. cbn [ss_templates set_templates ss_global].
    split; [|reflexivity]. rewrite map_map. apply map_ext. intros t0. destruct (selected t t0); [|reflexivity]. unfold update_input. now destruct (aget _ _).
  - cbn [do_call] in H. injection H as <-. unfold results_of. cbn [o_session with_session]. unfold set_input, add_input.
    assert (K : map (@t_results _) (ss_templates (clear_input (o_session o) t)) = map (@t_results _) (ss_templates (o_session o))).
    { cbn. rewrite map_map. apply map_ext. intros t0. now destruct (selected t t0). }
    destruct (load_input w d); [split; [exact K|reflexivity]|]. cbn [ss_templates set_templates ss_global]. split; [|reflexivity]. rewrite <- K, map_map. apply map_ext. intros t0.
    destruct (selected t t0); [|reflexivity]. unfold update_input. now destruct (aget _ _).
  - cbn [do_call] in H. injection H as <-. unfold results_of. cbn. split; [|reflexivity]. rewrite map_map. apply map_ext. intros t0. now destruct (selected t t0).
Qed.
End W.
