(** * AddTemplateFacts: add_template's name and filters are read as SpecAddTemplate says. *)
From Coq Require Import Lia.
From Verif Require Import PyBase Regex Results Template Attributes FormRegex MatchVar MatchFuncs GroupFuncs Parser Compile FuncTable Loaders Session SpecSession Files Inputs OutputTags Load SpecVariable SpecAttr SpecText SpecCalls SpecFiles SpecInputs SpecLoaded.
From Verif Require Import AddTemplate SpecAddTemplate FileFacts StrFacts DictFacts SessionFacts InputFacts LoadedFacts LoadedFacts2 MadeFacts CallFacts CallFacts2.
Local Open Scope string_scope.
Local Open Scope list_scope.

Lemma wanted_iff filters c : wanted filters c <-> kept_child filters c = true.
Proof.
  unfold wanted, kept_child. assert (T : tagged [$"template"] c = true <-> template_tag c).
  { unfold tagged, template_tag. rewrite in_strs_In. cbn [In]. split; [intros [H|[]]; now symmetry|intros H; left; now symmetry]. }
  destruct (tagged [$"template"] c); cbn [negb orb].
  - assert (X : template_tag c) by now apply T. destruct filters as [|f fs]; cbn [is_nil orb]; [split; [reflexivity|now left]|]. unfold attribute_of. change (t_ "name") with $"name". destruct (attr (e_attrs c) $"name") as [n|]; cbn [orb].
    + rewrite in_strs_In. split; [intros H; destruct (H X) as [K|(m & K & I)]; [discriminate|now injection K as ->]|intros I _; right; eauto].
    + split; [intros H; destruct (H X) as [K|(m & K & I)]; discriminate|discriminate].
  - split; [reflexivity|]. intros _ X. apply T in X. discriminate.
Qed.
Lemma wanted_only_iff filters e e' : wanted_only filters e e' <-> with_children e (filter (kept_child filters) (e_children e)) = e'.
Proof.
  unfold wanted_only, with_children. assert (S : forall cs, sublist (wanted filters) (e_children e) cs <-> filter (kept_child filters) (e_children e) = cs).
  { intros cs. apply sublist_filter. intros c _. symmetry. apply wanted_iff. }
  split; [intros (cs & A & ->); apply S in A; now rewrite A|]. intros <-. eexists. split; [now apply S|reflexivity].
Qed.
Lemma unloaded_iff ttp_vars name e t : nothing_but_names ttp_vars name e t <-> unloaded ttp_vars name e = t.
Proof.
  unfold nothing_but_names, unloaded. change (group_outputs output_name [] []) with (@nil (list (@gout outputter)), @nil outputter). split.
  - intros (A & B & C & D & E & F). destruct t. cbn in A, B, C, D, E, F. apply attribute_or_iff' in A, B, C.
    destruct (proj2 (vfs_iff ttp_vars _ _) (conj D E)) as [V1 V2]. destruct F as (-> & -> & -> & -> & -> & -> & ->). subst. reflexivity.
  - intros <-. cbn -[plain_vars var_functions attr_or].
    destruct (proj1 (vfs_iff ttp_vars _ _) (conj eq_refl eq_refl)) as [V1 V2]. repeat split; try assumption; now apply attribute_or_iff'.
Qed.
Section W.
Variable w : world.
Variable order : list nat -> list nat.
Theorem add_iff base ttp_vars name filters text ts : add_named w order base ttp_vars name filters text = Ok ts <-> adds w order base ttp_vars name filters text ts.
Proof.
  unfold add_named. split.
  - intros K. destruct (template_tree w text) as [e|] eqn:C; [|discriminate]. cbn [rbind] in K. apply tree_iff in C.
    assert (N : attribute_or (e_attrs e) "name" name (attr_or (e_attrs e) $"name" name)) by now apply attribute_or_iff'.
    destruct (negb (is_nil filters) && negb (in_strs (attr_or (e_attrs e) $"name" name) filters))%bool eqn:B.
    + injection K as <-. apply andb_prop in B. destruct B as [B1 B2]. eapply ad_not; [exact C|exact N|intros ->; discriminate|intros I; apply in_strs_In in I; rewrite I in B2; discriminate|now apply unloaded_iff].
    + assert (I : filters = [] \/ In (attr_or (e_attrs e) $"name" name) filters).
      { destruct filters as [|f fs]; [now left|right]. cbn [is_nil negb andb] in B. apply in_strs_In. now destruct (in_strs _ _). }
      destruct (load_tree _ _ _ _ _ _ _) as [[kids t]|] eqn:L; [|discriminate]. cbn [rbind] in K. apply template_iff in L.
      assert (L' : template_from w order (child_from w order (S (length text)) ttp_vars) base ttp_vars name (with_children e (filter (kept_child filters) (e_children e))) kids t).
      { eapply template_from_imp; [|exact L]. cbn beta. intros b j d k H. now apply child_iff. }
      destruct kids; injection K as <-.
      * eapply ad_alone; [exact C|exact N|exact I|now apply wanted_only_iff|exact L'].
      * eapply ad_children; [exact C|exact N|exact I|now apply wanted_only_iff|exact L'|discriminate].
  - assert (G : forall e nm, attribute_or (e_attrs e) "name" name nm -> filters = [] \/ In nm filters -> (negb (is_nil filters) && negb (in_strs (attr_or (e_attrs e) $"name" name) filters))%bool = false).
    { intros e nm N I. apply attribute_or_iff' in N. change (t_ "name") with $"name" in N. rewrite N. destruct I as [->|I]; [reflexivity|]. apply in_strs_In in I. rewrite I. now rewrite andb_false_r. }
    assert (L : forall e e' kids t, wanted_only filters e e' -> template_from w order (child_from w order (S (length text)) ttp_vars) base ttp_vars name e' kids t ->
      load_tree w order base (fun b => load_child w order (S (length text)) b ttp_vars) ttp_vars name (with_children e (filter (kept_child filters) (e_children e))) = Ok (kids, t)).
    { intros e e' kids t W T. apply wanted_only_iff in W. rewrite W. apply template_iff. eapply template_from_imp; [|exact T]. intros b j d k H. now apply child_iff. }
    intros [e nm t C N F I U|e e' nm t C N I W T|e e' nm kids t C N I W T K]; apply tree_iff in C; rewrite C; cbn [rbind].
    + apply attribute_or_iff' in N. change (t_ "name") with $"name" in N. rewrite N. replace (in_strs nm filters) with false by (destruct (in_strs nm filters) eqn:X; [apply in_strs_In in X; contradiction|reflexivity]).
      destruct filters; [congruence|]. cbn [is_nil negb andb]. apply unloaded_iff in U. now rewrite U.
    + rewrite (G e nm N I), (L e e' [] t W T). reflexivity.
    + rewrite (G e nm N I), (L e e' kids t W T). cbn [rbind]. now destruct kids.
Qed.
Lemma filter_all (cs : list elem) : filter (kept_child []) cs = cs.
Proof. induction cs as [|c cs IH]; [reflexivity|]. cbn [filter]. replace (kept_child [] c) with true by (unfold kept_child; cbn [is_nil]; now rewrite orb_true_r). now rewrite IH. Qed.
Theorem default_add base ttp_vars text : add_named w order base ttp_vars (t_ "_root_template_") [] text = load_template w order base ttp_vars text.
Proof.
  unfold add_named, load_template. destruct (template_tree w text) as [[a b c d f]|]; [|reflexivity]. cbn [rbind is_nil negb andb]. rewrite filter_all. reflexivity.
Qed.
(** filters that do not have the name of the text's own template: its child templates are not loaded, whatever their names *)
Theorem filtered_root base ttp_vars name filters text e : tree_of w text e -> filters <> [] -> (forall nm, attribute_or (e_attrs e) "name" name nm -> ~ In nm filters) ->
  exists t, add_named w order base ttp_vars name filters text = Ok [t] /\ nothing_but_names ttp_vars name e t.
Proof.
  intros C F N. exists (unloaded ttp_vars name e). split; [|now apply unloaded_iff]. apply add_iff. eapply ad_not; [exact C|now apply attribute_or_iff'|exact F|apply N; now apply attribute_or_iff'|now apply unloaded_iff].
Qed.
(** the order of the filters and names given twice do not matter *)
Theorem same_filters base ttp_vars name f1 f2 text : (forall n, In n f1 <-> In n f2) -> add_named w order base ttp_vars name f1 text = add_named w order base ttp_vars name f2 text.
Proof.
  intros H. assert (I : forall n, in_strs n f1 = in_strs n f2).
  { intros n. destruct (in_strs n f1) eqn:A, (in_strs n f2) eqn:B; try reflexivity.
    - apply in_strs_In in A. apply H in A. apply in_strs_In in A. congruence.
    - apply in_strs_In in B. apply H in B. apply in_strs_In in B. congruence. }
  assert (N : is_nil f1 = is_nil f2).
  { destruct f1 as [|a f1], f2 as [|b f2]; try reflexivity; exfalso; [destruct (proj2 (H b)); now left|destruct (proj1 (H a)); now left]. }
  assert (K : forall cs, filter (kept_child f1) cs = filter (kept_child f2) cs).
  { intros cs. apply filter_ext. intros c. unfold kept_child. rewrite N. destruct (attr (e_attrs c) $"name"); [now rewrite I|reflexivity]. }
  unfold add_named. destruct (template_tree w text) as [e|]; [|reflexivity]. cbn [rbind]. rewrite N, I, K. reflexivity.
Qed.
End W.
