(** * InputLoadFacts2: a text without a load of its own; the names of the loads; the loads after calls. *)
From Coq Require Import Lia.
From Verif Require Import PyBase Regex Results Template Attributes MatchVar Compile FuncTable Loaders Session SpecSession Files Inputs SpecVariable SpecAttr SpecText SpecCalls SpecFiles SpecInputs.
From Verif Require Import InputLoad SpecInputLoad StrFacts DictFacts SessionFacts SessionInputs FileFacts PythonFacts InputFacts OutputFacts InputLoadFacts.
Local Open Scope string_scope.
Local Open Scope list_scope.

Section W.
Variable w : world.
Lemma loaded_none n text data l p : Forall no_load l -> loaded w n text data l p p.
Proof.
  intros H. induction H as [|[k v] l (k' & E & N) H IH]; [constructor|]. cbn [fst] in E. subst k. now apply ld_other.
Qed.
Lemma loaded_skip n text data l1 l2 p p' : Forall no_load l1 -> loaded w n text data l2 p p' -> loaded w n text data (l1 ++ l2) p p'.
Proof. intros H. induction H as [|[k v] l (k' & E & N) H IH]; intros L; [exact L|]. cbn [fst app] in *. subst k. apply ld_other; [exact N|]. now apply IH. Qed.
Variable tgs : list tgroup.
Theorem plain_load base e n o d1 k s d2 as_ r : tag_gives w tgs base e n o -> tag_has (e_attrs e) (d1 ++ (KS k, VStr s) :: d2) ->
  same_word k "load" -> ~ stripped true true white s (t_ "text") -> Forall no_load (d1 ++ d2) ->
  text_attributes (d1 ++ (KS k, VStr s) :: d2) as_ -> struct_gives w (e_text e) as_ (Some (VDict r)) -> Forall no_load r -> tag_loads w tgs base e n r.
Proof.
  intros G H K T N A S R. apply Forall_app in N. destruct N as [N1 N2]. split; [eauto|]. eexists. split; [exact H|]. apply loaded_skip; [exact N1|].
  destruct r as [|x r].
  - eapply ld_nothing; [exact K|now apply strip_white|intros E; apply T; rewrite <- E; now apply strip_white|exact A|exact S|right; eexists; split; [reflexivity|reflexivity]|now apply loaded_none].
  - eapply ld_dict; [exact K|now apply strip_white|intros E; apply T; rewrite <- E; now apply strip_white|exact A|exact S|discriminate|now apply loaded_none|now apply loaded_none].
Qed.
Lemma aset_names {A} (l : list (str * A)) n a m : In m (map fst (aset l n a)) <-> m = n \/ In m (map fst l).
Proof.
  induction l as [|[k v] l IH]; cbn [aset map fst In]; [intuition congruence|]. destruct (str_eqb_spec n k) as [->|N]; cbn [map fst In]; [intuition congruence|]. rewrite IH. intuition congruence.
Qed.
Variable order : list nat -> list nat.
Lemma put_names base l n o l' m : put_input w order base l n o = Ok l' -> In m (map fst l') <-> m = n \/ In m (map fst l).
Proof.
  unfold put_input. destruct (aget l n) as [old|]; intros K; [|injection K as <-; apply aset_names].
  match type of K with rbind ?a _ = _ => destruct a as [ds|]; [|discriminate] end. cbn [rbind] in K. injection K as <-. apply aset_names.
Qed.
Lemma tag_names base tags : forall l l' nps m, rfold (add_tag w order tgs base) tags l = Ok l' -> rmap (tag_load w tgs base) tags = Ok nps -> In m (map fst l') <-> In m (map fst l) \/ In m (map fst nps).
Proof.
  induction tags as [|e es IH]; intros l l' nps m; cbn [rfold rmap].
  - intros A B. injection A as <-. injection B as <-. cbn. tauto.
  - unfold add_tag at 1, tag_load at 1. destruct (tag_input w tgs base e) as [[n o]|]; [|discriminate]. cbn [rbind]. destruct (put_input w order base l n o) as [l1|] eqn:P; [|discriminate]. cbn [rbind].
    destruct (read_params _ _ _ _ _ _) as [p|]; [|discriminate]. cbn [rbind]. destruct (rmap _ es) as [nps'|] eqn:R; [|discriminate]. cbn [rbind]. intros A B. injection B as <-.
    rewrite (IH l1 l' nps' m A eq_refl). rewrite (put_names _ _ _ _ _ m P). cbn [map fst In]. intuition congruence.
Qed.
Lemma group_names base ns : forall l l' m, rfold (add_group_input w tgs base) ns l = Ok l' -> In m (map fst l) -> In m (map fst l').
Proof.
  induction ns as [|n ns IH]; intros l l' m; cbn [rfold]; [intros K; now injection K as <-|]. unfold add_group_input at 1. destruct (aget l n); cbn [rbind]; [apply IH|].
  destruct (load_files _ _ _ _ _) as [items|]; [|discriminate]. cbn [rbind]. intros K I. apply (IH _ _ _ K). apply aset_names. now right.
Qed.
Theorem load_names base tags ls l : template_loads w tgs base tags = Ok ls -> template_inputs w order tgs base tags = Ok l -> incl (map fst ls) (map fst l).
Proof.
  unfold template_loads, template_inputs. destruct (rmap _ tags) as [nps|] eqn:R; [|discriminate]. cbn [rbind]. intros K. injection K as <-.
  destruct (rfold (add_tag _ _ _ _) tags []) as [l1|] eqn:T; [|discriminate]. cbn [rbind]. intros G n I. apply (group_names _ _ _ _ n G). apply (tag_names _ _ _ _ _ n T R). right.
  destruct (keep_first_spec nps [] (NoDup_nil _)) as [_ B]. apply in_map_iff in I. destruct I as ((n' & p) & E & I). cbn [fst] in E. subst n'. apply B in I. destruct I as [[]|(_ & a & b & -> & _)]. rewrite map_app. apply in_or_app. right. now left.
Qed.
End W.
Section C.
Context {Fn G : Type}.
Variables (load : val -> list datum) (nofuncs : Fn) (order : list nat -> list nat).
Lemma step_names c (t : template Fn) : exists more, map fst (t_inputs (step_template load nofuncs order c t)) = map fst (t_inputs t) ++ more.
Proof.
  unfold step_template. destruct (load (c_data c)); [exists []; now rewrite app_nil_r|]. destruct (selected _ _); [|exists []; now rewrite app_nil_r]. unfold update_input.
  destruct (aget (t_inputs t) (c_input c)) as [i|] eqn:A; cbn [t_inputs set_inputs].
  - apply aget_split in A. destruct A as (a & b & -> & N). exists []. rewrite aset_split by exact N. rewrite app_nil_r, !map_app. reflexivity.
  - apply aget_none in A. eexists. rewrite aset_new by exact A. rewrite map_app. reflexivity.
Qed.
Lemma inputs_load_at (t : template Fn) ls n : dget (inputs_load t ls) (KS n) = if in_strs n (map fst (t_inputs t)) then Some (VDict (params_of ls n)) else None.
Proof. unfold inputs_load. destruct (fold_inputs ls (t_inputs t) [] (NoDup_nil _)) as [_ B]. rewrite B. reflexivity. Qed.
Theorem load_calls (s : session Fn G) cs :
  Forall2 (fun t t' => t_name t' = t_name t /\ forall ls n, incl (map fst ls) (map fst (t_inputs t)) ->
      (In n (map fst (t_inputs t)) -> dget (inputs_load t' ls) (KS n) = dget (inputs_load t ls) (KS n)) /\
      (~ In n (map fst (t_inputs t)) -> In n (map fst (t_inputs t')) -> dget (inputs_load t' ls) (KS n) = Some (VDict [])))
    (ss_templates s) (ss_templates (do_calls load nofuncs order s cs)).
Proof.
  rewrite do_calls_templates. induction (ss_templates s) as [|t ts IH]; cbn [map]; constructor; [|exact IH]. clear IH.
  assert (M : exists more, map fst (t_inputs (fold_left (fun t c => step_template load nofuncs order c t) cs t)) = map fst (t_inputs t) ++ more).
  { revert t. induction cs as [|c cs IH]; intros t; cbn [fold_left]; [exists []; now rewrite app_nil_r|]. destruct (IH (step_template load nofuncs order c t)) as (b & ->). destruct (step_names c t) as (a & ->). exists (a ++ b). now rewrite app_assoc. }
  split.
  { clear M. revert t. induction cs as [|c cs IH]; intros t; cbn [fold_left]; [reflexivity|]. rewrite IH. apply step_name. }
  destruct M as (more & M). intros ls n I. rewrite !inputs_load_at, M. split.
  - intros H. rewrite (proj2 (in_strs_In n (map fst (t_inputs t) ++ more))) by (apply in_or_app; now left). now rewrite (proj2 (in_strs_In n _) H).
  - intros N H. rewrite (proj2 (in_strs_In n _) H). unfold params_of. destruct (aget ls n) as [p|] eqn:A; [|reflexivity]. apply aget_split in A. destruct A as (a & b & -> & _). elim N. apply I. rewrite map_app. apply in_or_app. right. now left.
Qed.
End C.
