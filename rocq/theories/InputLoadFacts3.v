(** * InputLoadFacts3: get_input_load of a program. *)
From Coq Require Import Lia.
From Verif Require Import PyBase Regex Results Template Attributes FormRegex MatchVar MatchFuncs GroupFuncs Parser Compile FuncTable Loaders Session SpecSession Files Inputs OutputTags Load Run SpecVariable SpecAttr SpecText SpecCalls SpecFiles SpecInputs SpecLoaded.
From Verif Require Import InputLoad SpecInputLoad InputLoadText SpecInputLoadText StrFacts DictFacts SessionFacts SessionInputs InputFacts OutputFacts LoadedFacts LoadedFacts2 InputLoadFacts InputLoadFacts2.
Local Open Scope string_scope.
Local Open Scope list_scope.

Section T.
Variable order : list nat -> list nat.
Variable w : world.
Lemma element_loads_of base t e ls : tree_loads w base t e = Ok ls -> element_loads w base t e ls.
Proof.
  intros K. apply loads_iff in K. destruct K as (nps & F & L). exists (attr_or (e_attrs e) (t_ "base_path") base), (filter (tagged input_tags) (e_children e)), nps.
  split; [now apply attribute_or_iff'|]. split; [now apply tags_iff|]. now split.
Qed.
Lemma rzip_ok {A B C} (f : A -> B -> res C) l : forall k r, rzip f l k = Ok r -> length l = length r /\ Forall2 (fun y xz => f (fst xz) y = Ok (snd xz)) k (combine l r).
Proof.
  induction l as [|x l IH]; intros [|y k] r; cbn [rzip]; try discriminate; intros K.
  - injection K as <-. split; [reflexivity|constructor].
  - destruct (f x y) as [z|] eqn:E; [|discriminate]. cbn [rbind] in K. destruct (rzip f l k) as [zs|] eqn:R; [|discriminate]. cbn [rbind] in K. injection K as <-.
    destruct (IH _ _ R) as [L F]. split; [cbn [length]; now rewrite L|]. cbn [combine]. constructor; [exact E|exact F].
Qed.
Theorem text_loads_of base text ts lss : text_loads w base text ts = Ok lss -> text_loads_are w base text ts lss.
Proof.
  unfold text_loads. destruct (template_tree w text) as [e|] eqn:E; [|discriminate]. cbn [rbind]. apply tree_iff in E. intros K.
  exists e, (filter (tagged [$"template"]) (e_children e)), (attr_or (e_attrs e) (t_ "base_path") base).
  split; [exact E|]. split; [now apply tags_iff|]. split; [now apply attribute_or_iff'|].
  destruct (filter (tagged [$"template"]) (e_children e)) as [|c cs].
  - apply rzip_ok in K. destruct K as [L F]. split; [exact L|]. left. split; [reflexivity|]. destruct ts as [|t [|t' ts]], lss as [|ls [|ls' lss]]; try discriminate L; inversion F as [|? ? ? ? H F']; subst; try (now inversion F').
    cbn [fst snd] in H. exists t, ls. repeat split. now apply element_loads_of.
  - apply rzip_ok in K. destruct K as [L F]. split; [exact L|]. right. split; [discriminate|]. eapply Forall2_imp; [|exact F]. intros x [t ls]. cbn [fst snd]. intros H.
    destruct (child_tree w x) as [e'|] eqn:X; [|discriminate]. cbn [rbind] in H. apply child_tree_iff in X. exists e'. split; [exact X|]. now apply element_loads_of.
Qed.
Lemma loads_unique base text ts lss : text_loads_are w base text ts lss -> Forall (fun ls : list (str * dict) => NoDup (map fst ls)) lss.
Proof.
  intros (e & ks & base1 & _ & _ & _ & L & [(_ & t & ls & _ & -> & base2 & is & nps & _ & _ & _ & D & _)|(_ & F)]); [repeat constructor; exact D|].
  remember (combine ts lss) as c eqn:E. revert ts lss L E. induction F as [|x [t ls] ks' c (e' & _ & base2 & is & nps & _ & _ & _ & D & _) F IH]; intros ts lss L E; destruct ts as [|t' ts], lss as [|ls' lss]; try discriminate L; try discriminate E; [constructor|].
  cbn [combine] in E. injection E as E1 E2 E3. subst t' ls'. constructor; [exact D|]. apply (IH ts lss); [cbn in L; congruence|exact E3].
Qed.
Theorem program_load base vars text texts d : ttp_load order w base vars text texts = Ok d ->
  exists ts lss, template_is w order base vars text ts /\ text_loads_are w base text ts lss /\ dwf d /\
    forall k v, dget d k = Some v <-> exists n t ls, k = KS n /\ last_template (combine (ss_templates (add_texts order w texts (session_of ts))) lss) n t ls /\ v = VDict (inputs_load t ls) /\ inputs_dict t ls v.
Proof.
  unfold ttp_load. destruct (load_template w order base vars text) as [ts|] eqn:T; [|discriminate]. cbn [rbind]. destruct (text_loads w base text ts) as [lss|] eqn:L; [|discriminate]. cbn [rbind]. intros K. injection K as <-.
  apply LoadedFacts2.load_iff in T. apply text_loads_of in L. exists ts, lss. split; [exact T|]. split; [exact L|]. destruct (get_iff (combine (ss_templates (add_texts order w texts (session_of ts))) lss)) as [A B]. split; [exact A|].
  intros k v. rewrite B. split; intros (n & t & ls & E & M & F).
  - exists n, t, ls. repeat (split; [assumption|]). subst v. apply inputs_dict_iff. destruct M as (a & b & M & _). apply loads_unique in L. rewrite Forall_forall in L. apply L.
    assert (I : In (t, ls) (combine (ss_templates (add_texts order w texts (session_of ts))) lss)) by (rewrite M; apply in_or_app; right; now left). now apply in_combine_r in I.
  - exists n, t, ls. now destruct F.
Qed.
End T.
