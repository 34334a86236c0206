(** * InputLoadFacts: get_input_load gives what SpecInputLoad says. *)
From Coq Require Import Lia.
From Verif Require Import PyBase Regex Results Template Attributes MatchVar Compile FuncTable Loaders Session SpecSession Files Inputs SpecVariable SpecAttr SpecText SpecCalls SpecFiles SpecInputs.
From Verif Require Import InputLoad SpecInputLoad StrFacts XmlFacts DictFacts SessionFacts SessionInputs FileFacts PythonFacts InputFacts OutputFacts.
Local Open Scope string_scope.
Local Open Scope list_scope.

Section W.
Variable w : world.
Lemma params_cons n text data k v l p : read_params w (S n) text data ((KS k, v) :: l) p =
  rbind (if str_eqb (lower k) $"load" then
           match v with
           | VStr s => if str_eqb (strip s) $"text" then Ok p
                       else do o <- load_struct w text (strs_of_dict data);
                            match o with
                            | None => Ok p
                            | Some x => if truthy x then match x with VDict d => read_params w n [] d d d | _ => Raise AttributeError end else Ok p
                            end
           | _ => Raise AttributeError
           end
         else Ok p) (fun p => read_params w (S n) text data l p).
Proof. reflexivity. Qed.
Lemma params_iff n : forall text data l p p', read_params w (S n) text data l p = Ok p' <-> loaded w n text data l p p'.
Proof.
  induction n as [n IHn] using (well_founded_induction lt_wf). intros text data l.
  induction l as [|[k v] l IH]; intros p p'.
  { split; [intros K; injection K as <-; constructor|]. intros K. inversion K. reflexivity. }
  destruct k as [k| |]; [rewrite params_cons|split; [discriminate|intros K; inversion K]..].
  destruct (str_eqb (lower k) $"load") eqn:E.
  2:{ assert (N : ~ same_word k "load") by (intros X; apply word_eq in X; congruence). cbn [rbind]. split.
      - intros K. apply ld_other; [exact N|]. now apply IH.
      - intros K. inversion K; subst; try contradiction. now apply IH. }
  apply word_eq in E. destruct v as [| | | s | | |]; try (split; [discriminate|intros K; inversion K; subst; contradiction]).
  destruct (str_eqb (strip s) $"text") eqn:T.
  { apply str_eqb_eq in T. cbn [rbind]. split.
    - intros K. apply ld_text; [exact E|now apply strip_white|]. now apply IH.
    - intros K. inversion K as [|? ? ? ? ? ? ? ? N|? ? ? ? ? ? ? ? Z1 Z2 Z3|? ? ? ? ? r as_ o ? ? ? Z1 Z2 Z3 Z4 Z5 Z6 Z7|m ? ? ? ? r as_ d ? ? p1 ? Z1 Z2 Z3 Z4 Z5 Z6 Z7 Z8]; subst; try contradiction; [now apply IH|..];
        apply strip_white in Z2; exfalso; apply Z3; rewrite <- Z2; exact T. }
  apply str_eqb_neq in T. split.
  - intros K. destruct (load_struct w text (strs_of_dict data)) as [o|] eqn:L; [|discriminate]. cbn [rbind] in K. apply struct_iff in L.
    destruct o as [x|]; [destruct (truthy x) eqn:X; [destruct x as [| | | | |d|]; try discriminate|]|].
    + destruct n as [|m]; [discriminate|].
      destruct (read_params w (S m) [] d d d) as [p1|] eqn:R; [|discriminate]. cbn [rbind] in K. apply IHn in R; [|lia].
      apply IH in K.
      apply (ld_dict w m text data k s (strip s) (strs_of_dict data) d l p p1 p'); try assumption; [now apply strip_white|now apply text_attributes_iff|intros ->; discriminate].
    + apply (ld_nothing w n text data k s (strip s) (strs_of_dict data) (Some x)); try assumption; [now apply strip_white|now apply text_attributes_iff|right; eauto|now apply IH].
    + apply (ld_nothing w n text data k s (strip s) (strs_of_dict data) None); try assumption; [now apply strip_white|now apply text_attributes_iff|now left|now apply IH].
  - intros K. inversion K as [|? ? ? ? ? ? ? ? N|? ? ? ? ? ? ? ? Z1 Z2 Z3|? ? ? ? ? r as_ o ? ? ? Z1 Z2 Z3 Z4 Z5 Z6 Z7|m ? ? ? ? r as_ d ? ? p1 ? Z1 Z2 Z3 Z4 Z5 Z6 Z7 Z8]; subst; try contradiction;
      apply strip_white in Z2; try contradiction; apply text_attributes_iff in Z4; subst as_; apply struct_iff in Z5; rewrite Z5; cbn [rbind].
    + replace (match o with None => _ | _ => _ end) with (@Ok dict p) by (destruct Z6 as [->|(x & -> & F)]; [reflexivity|now rewrite F]). cbn [rbind]. now apply IH.
    + replace (truthy (VDict d)) with true by (destruct d; [congruence|reflexivity]). apply IHn in Z7; [|lia].
      rewrite Z7. cbn [rbind]. now apply IH.
Qed.
Variable tgs : list tgroup.
Theorem load_iff base e n p : tag_load w tgs base e = Ok (n, p) <-> tag_loads w tgs base e n p.
Proof.
  unfold tag_load, tag_loads. split.
  - intros K. destruct (tag_input w tgs base e) as [[m o]|] eqn:T; [|discriminate]. cbn [rbind] in K. destruct (read_params _ _ _ _ _ _) as [q|] eqn:R; [|discriminate]. cbn [rbind] in K. injection K as -> ->.
    apply tag_iff in T. apply params_iff in R. split; [eauto|]. exists (tag_attrs e). split; [now apply tag_has_iff|exact R].
  - intros ((o & T) & d & H & R). apply tag_iff in T. rewrite T. cbn [rbind]. apply tag_has_iff in H. subst d. apply params_iff in R. now rewrite R.
Qed.
Lemma keep_first_spec nps : forall l, NoDup (map fst l) ->
  NoDup (map fst (fold_left keep_first nps l)) /\ forall n p, In (n, p) (fold_left keep_first nps l) <-> In (n, p) l \/ (~ In n (map fst l) /\ first_named nps n p).
Proof.
  induction nps as [|[m q] nps IH]; intros l D; cbn [fold_left].
  { split; [exact D|]. intros n p. split; [now left|]. intros [H|(_ & l1 & l2 & H & _)]; [exact H|]. now destruct l1. }
  unfold keep_first at 2 4. cbn [fst snd]. destruct (aget l m) as [x|] eqn:A.
  - destruct (IH l D) as [I1 I2]. split; [exact I1|]. intros n p. rewrite I2. apply aget_split in A. destruct A as (a & b & -> & _). split; intros [H|(N & l1 & l2 & E & F)]; try (now left); right; (split; [exact N|]).
    + exists ((m, q) :: l1), l2. subst nps. split; [reflexivity|]. cbn [map fst]. intros [G|G]; [|now apply F]. subst. apply N. rewrite map_app. apply in_or_app. right. now left.
    + destruct l1 as [|y l1]; cbn [app] in E; inversion E; subst.
      * elim N. rewrite map_app. apply in_or_app. right. now left.
      * exists l1, l2. split; [reflexivity|]. intros G. apply F. now right.
  - apply aget_none in A. rewrite aset_new by exact A. 
    assert (D' : NoDup (map fst (l ++ [(m, q)]))).
    { rewrite map_app. cbn [map fst]. now apply XmlFacts.NoDup_app_intro_single. }
    destruct (IH _ D') as [I1 I2]. split; [exact I1|]. intros n p. rewrite I2. rewrite map_app, !in_app_iff. cbn [map fst In]. split.
    + intros [[H|[H|[]]]|(N & l1 & l2 & E & F)].
      * now left.
      * injection H as -> ->. right. split; [exact A|]. exists [], nps. split; [reflexivity|]. intros [].
      * right. split; [intros G; apply N; now left|]. exists ((m, q) :: l1), l2. subst nps. split; [reflexivity|]. cbn [map fst]. intros [G|G]; [|now apply F]. subst. apply N. right. now left.
    + intros [H|(N & l1 & l2 & E & F)]; [now left; left|]. destruct l1 as [|y l1]; cbn [app] in E; inversion E; subst.
      * left. right. now left.
      * right. split; [|exists l1, l2; split; [reflexivity|intros G; apply F; now right]]. intros [G|[G|[]]]; [now apply N|]. apply F. now left.
Qed.
Theorem loads_iff base tags l : template_loads w tgs base tags = Ok l -> exists nps, Forall2 (fun e np => tag_loads w tgs base e (fst np) (snd np)) tags nps /\ loads_are nps l.
Proof.
  unfold template_loads. destruct (rmap _ tags) as [nps|] eqn:R; [|discriminate]. cbn [rbind]. intros K. injection K as <-. exists nps. split.
  - apply rmap_ok in R. eapply Forall2_imp; [|exact R]. intros e [n p] H. now apply load_iff.
  - destruct (keep_first_spec nps [] (NoDup_nil _)) as [A B]. split; [exact A|]. intros n p. rewrite B. cbn [map In]. tauto.
Qed.
Theorem loads_when base tags : (exists l, template_loads w tgs base tags = Ok l) <-> Forall (fun e => exists n p, tag_loads w tgs base e n p) tags.
Proof.
  unfold template_loads. split.
  - intros (l & K). destruct (rmap _ tags) as [nps|] eqn:R; [|discriminate]. apply rmap_ok in R. clear K. induction R as [|e [n p] es nps H R IH]; constructor; [|exact IH]. exists n, p. now apply load_iff.
  - intros H. enough (exists nps, rmap (tag_load w tgs base) tags = Ok nps) as (nps & ->) by (eexists; reflexivity). induction H as [|e es (n & p & X) H (nps & IH)]; [exists []; reflexivity|]. apply load_iff in X. exists ((n, p) :: nps). cbn [rmap]. rewrite X. cbn [rbind]. now rewrite IH.
Qed.
End W.

Lemma load_is_iff ls n p : NoDup (map fst ls) -> load_is ls n p <-> params_of ls n = p.
Proof.
  intros D. unfold load_is, params_of. destruct (aget ls n) as [q|] eqn:A.
  - apply aget_split in A. destruct A as (a & b & -> & N). split.
    + intros [H|[H _]]; [|elim H; rewrite map_app; apply in_or_app; right; now left].
      rewrite map_app in D. cbn [map fst] in D. apply NoDup_remove_2 in D. apply in_app_iff in H. destruct H as [H|[H|H]]; [elim N; now apply (in_map fst) in H|congruence|].
      elim D. apply in_or_app. right. now apply (in_map fst) in H.
    + intros <-. left. apply in_or_app. right. now left.
  - apply aget_none in A. split; [intros [H|[_ H]]; [elim A; now apply (in_map fst) in H|now symmetry]|]. intros <-. right. now split.
Qed.
Section G.
Context {Fn : Type}.
Lemma fold_inputs (ls : list (str * dict)) (l : list (str * @input Fn)) : forall d, dwf d ->
  let r := fold_left (fun d ni => dset d (KS (fst ni)) (VDict (params_of ls (fst ni)))) l d in
  dwf r /\ forall k, dget r k = match k with KS n => if in_strs n (map fst l) then Some (VDict (params_of ls n)) else dget d k | _ => dget d k end.
Proof.
  induction l as [|[n i] l IH]; intros d D; cbn [fold_left]; cbv zeta.
  - split; [exact D|]. intros [n| |]; reflexivity.
  - destruct (IH (dset d (KS n) (VDict (params_of ls n))) (dwf_dset _ _ _ D)) as [A B]. split; [exact A|]. intros k. cbn [fst] in *. rewrite B. rewrite !dget_dset. destruct k as [m| |]; try reflexivity.
    cbn [map fst]. destruct (in_strs m (map fst l)) eqn:I.
    + apply in_strs_In in I. rewrite (proj2 (in_strs_In m (n :: map fst l))) by now right. reflexivity.
    + cbn [key_eqb]. destruct (str_eqb_spec m n) as [->|N].
      * rewrite (proj2 (in_strs_In n (n :: map fst l))) by now left. reflexivity.
      * destruct (in_strs m (n :: map fst l)) eqn:J; [|reflexivity]. apply in_strs_In in J. destruct J as [J|J]; [congruence|]. apply in_strs_In in J. congruence.
Qed.
Theorem inputs_dict_iff (t : @template Fn) ls : NoDup (map fst ls) -> inputs_dict t ls (VDict (inputs_load t ls)).
Proof.
  intros D. exists (inputs_load t ls). split; [reflexivity|]. destruct (fold_inputs ls (t_inputs t) [] (NoDup_nil _)) as [A B]. split; [exact A|]. intros k x. unfold inputs_load. rewrite B. split.
  - destruct k as [n| |]; [|discriminate..]. destruct (in_strs n _) eqn:I; [|discriminate]. intros K. injection K as <-. apply in_strs_In in I. exists n, (params_of ls n). repeat split; try assumption. now apply load_is_iff.
  - intros (n & p & -> & I & L & ->). apply in_strs_In in I. rewrite I. apply load_is_iff in L; [|exact D]. now rewrite L.
Qed.
Lemma get_snoc (ts : list (@template Fn * list (str * dict))) x : get_input_load (ts ++ [x]) = dset (get_input_load ts) (KS (t_name (fst x))) (VDict (inputs_load (fst x) (snd x))).
Proof. unfold get_input_load. now rewrite fold_left_app. Qed.
Theorem get_iff (ts : list (@template Fn * list (str * dict))) : dwf (get_input_load ts) /\
  forall k v, dget (get_input_load ts) k = Some v <-> exists n t ls, k = KS n /\ last_template ts n t ls /\ v = VDict (inputs_load t ls).
Proof.
  induction ts as [|x ts IH] using rev_ind.
  { split; [constructor|]. intros k v. split; [discriminate|]. intros (n & t & ls & _ & (a & b & E & _) & _). now destruct a. }
  rewrite get_snoc. destruct IH as [A B]. split; [now apply dwf_dset|]. intros k v. rewrite dget_dset. destruct (key_eqb_spec k (KS (t_name (fst x)))) as [->|N].
  - split.
    + intros K. injection K as <-. destruct x as [t ls]. exists (t_name t), t, ls. cbn [fst snd]. repeat split. exists ts, []. repeat split. constructor.
    + intros (n & t & ls & E & (a & b & F & G & H) & ->). injection E as <-. destruct b as [|y b] using rev_ind.
      * apply app_inj_tail in F. destruct F as [_ ->]. reflexivity.
      * rewrite app_comm_cons, app_assoc in F. apply app_inj_tail in F. destruct F as [_ ->]. apply Forall_app in H. destruct H as [_ H]. inversion H; subst. congruence.
  - rewrite B. split; intros (n & t & ls & -> & (a & b & F & G & H) & ->); exists n, t, ls; (split; [reflexivity|]); (split; [|reflexivity]).
    + exists a, (b ++ [x]). subst ts. split; [now rewrite <- app_assoc|]. split; [exact G|]. apply Forall_app. split; [exact H|]. repeat constructor. congruence.
    + destruct b as [|y b _] using rev_ind.
      * apply app_inj_tail in F. destruct F as [_ F]. subst x. cbn [fst] in N. congruence.
      * rewrite app_comm_cons, app_assoc in F. apply app_inj_tail in F. destruct F as [F ->]. apply Forall_app in H. destruct H as [H _]. exists a, b. now repeat split.
Qed.
End G.
