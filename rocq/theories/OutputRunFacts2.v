(** * OutputRunFacts2: the condition, the returners and the whole run of an output as SpecOutputTags says. *)
From Coq Require Import Lia.
From Verif Require Import PyBase Regex Template Attributes MatchVar Compile FuncTable Loaders Session Files Inputs Outputs JsonDump OutputTags PyEqFacts.
From Verif Require Import SpecVariable SpecAttr SpecText SpecCalls SpecFiles SpecInputs SpecOutput SpecJson SpecOutputTags.
From Verif Require Import Load Run StrFacts DictFacts ParserFacts2 SessionFacts MadeFacts CallFacts CallFacts2 TextFacts FileFacts InputFacts JsonDumpFacts OutputFacts OutputTagFacts OutputRunFacts.
Local Open Scope string_scope.
Local Open Scope list_scope.

Lemma shown_iff v t : shown v t <-> t = printed_text v.
Proof.
  assert (D : (exists s, v = VStr s) \/ forall s, v <> VStr s) by (destruct v; try (right; intros; discriminate); left; eauto). destruct D as [[s ->]|D].
  - split; [intros K; inversion K as [|? ? N]; subst; [reflexivity|now elim (N s)]|]. intros ->. constructor.
  - assert (E : printed_text v = join [nl] (split $"\n" (py_repr v))) by (rewrite <- replace_split by discriminate; destruct v; try reflexivity; now elim (D s)). rewrite E. split.
    + intros K. inversion K as [? Q|? ps _ C]; subst; [now elim (D t)|]. apply cut_iff in C; [|discriminate]. rewrite <- C. reflexivity.
    + intros ->. apply sh_other; [exact D|]. apply cut_iff; [discriminate|reflexivity].
Qed.
Lemma url_iff o u : file_url o = Some u <-> has_attr o "url" (VStr (t_ "./Output/")) (VStr u).
Proof.
  rewrite has_attr_iff. unfold file_url, attr_of. change (t_ "url") with $"url". destruct (dget (ot_attrs o) (KS $"url")) as [v|].
  - destruct v; split; intros K; try discriminate K; congruence.
  - split; intros K; [assert (u = $"./Output/") as -> by congruence; reflexivity|]. injection K as ->. reflexivity.
Qed.
Lemma fname_iff o f : file_name o = Some f <-> dget (ot_attrs o) (KS (t_ "filename")) = Some (VStr f) /\ f <> [] /\ no_braces f.
Proof.
  unfold file_name, attr_of. change (t_ "filename") with $"filename". destruct (dget (ot_attrs o) (KS $"filename")) as [v|]; [|split; [discriminate|intros [K _]; discriminate]].
  destruct v as [| | |s| | |]; try (split; [discriminate|intros [K _]; discriminate]). rewrite <- braces_iff. destruct s as [|c s].
  - cbn [is_nil orb]. split; [discriminate|]. intros (K & N & _). elim N. congruence.
  - cbn [is_nil orb]. split.
    + intros K. destruct (has_brace (c :: s)) eqn:B; [discriminate|]. assert (f = c :: s) as -> by congruence. now repeat split.
    + intros (K & N & B). assert (f = c :: s) as -> by congruence. now rewrite B.
Qed.
Definition effects_of (o : outputter) (v : val) (r : str) : list effect := if is_self r then [] else match returner_of o r with Some e => [e v] | None => [] end.
Lemma not_in_four r : ~ word_in r ["self"; "terminal"; "file"; "syslog"] <-> r <> $"self" /\ r <> $"terminal" /\ r <> $"file" /\ r <> $"syslog".
Proof.
  assert (E : word_in r ["self"; "terminal"; "file"; "syslog"] <-> in_strs r [$"self"; $"terminal"; $"file"; $"syslog"] = true) by (symmetry; apply (in_strs_b r [$"self"; $"terminal"; $"file"; $"syslog"])).
  rewrite E. unfold in_strs. cbn [existsb]. destruct (str_eqb_spec r $"self"), (str_eqb_spec r $"terminal"), (str_eqb_spec r $"file"), (str_eqb_spec r $"syslog"); cbn [orb]; split; intros H; try (now elim H); try tauto; try discriminate.
Qed.
Lemma returner_iff o v r es : returner_does o v r es <-> returner_known o r = true /\ es = effects_of o v r.
Proof.
  unfold returner_known, effects_of, is_self, returner_of. split.
  - intros K. destruct K as [E|t E C S|u f p E U F N B J|N].
    + subst r. now split.
    + subst r. apply shown_iff in S. subst t. change (str_eqb (t_ "terminal") $"terminal") with true. change (str_eqb (t_ "terminal") $"self") with false. cbv iota. unfold attr_of. change $"colour" with (t_ "colour"). rewrite C. now split.
    + subst r. apply url_iff in U. assert (G : file_name o = Some f) by now apply fname_iff. apply joined_iff in J. subst p.
      change (str_eqb (t_ "file") $"terminal") with false. change (str_eqb (t_ "file") $"file") with true. change (str_eqb (t_ "file") $"self") with false. cbv iota. rewrite U, G. now split.
    + apply not_in_four in N as (N1 & N2 & N3 & N4). apply str_eqb_neq in N1, N2, N3, N4. rewrite N1, N2, N3, N4. now split.
  - destruct (str_eqb r $"terminal") eqn:E1.
    { apply str_eqb_eq in E1. subst r. change (str_eqb $"terminal" $"self") with false. cbv iota. intros [K ->]. unfold attr_of in K. apply rt_terminal; [reflexivity|change (t_ "colour") with $"colour"; now destruct (dget (ot_attrs o) (KS $"colour"))|]. now apply shown_iff. }
    destruct (str_eqb r $"file") eqn:E2.
    { apply str_eqb_eq in E2. subst r. change (str_eqb $"file" $"self") with false. cbv iota. destruct (file_url o) as [u|] eqn:U; [|intros [K _]; discriminate]. destruct (file_name o) as [f|] eqn:F; [|intros [K _]; discriminate]. intros [_ ->].
      apply url_iff in U. apply fname_iff in F as (F & N & B). apply (rt_file o v _ u f); try assumption; try reflexivity. now apply joined_iff. }
    destruct (str_eqb r $"self") eqn:E3; intros [K ->].
    { apply str_eqb_eq in E3. now apply rt_self. }
    apply rt_unknown. apply not_in_four. apply negb_true_iff in K. now apply str_eqb_neq in E1, E2, E3, K.
Qed.
Lemma allowed_iff o r : returner_allowed o r <-> returner_known o r = true.
Proof.
  split; [intros H; destruct (H VNone) as [e K]; now apply returner_iff in K|]. intros K v. exists (effects_of o v r). now apply returner_iff.
Qed.
Lemma allowed_all o rs : Forall (returner_allowed o) rs <-> forallb (returner_known o) rs = true.
Proof. rewrite forallb_forall, Forall_forall. split; intros H r I; now apply allowed_iff, H. Qed.
Lemma returners_do_iff o v rs : Forall (returner_allowed o) rs -> forall es, returners_do o v rs es <-> es = flat_map (effects_of o v) rs.
Proof.
  induction 1 as [|r rs A _ IH]; intros es.
  - split; [intros K; now inversion K|]. intros ->. constructor.
  - cbn [flat_map]. split.
    + intros K. inversion K as [|? ? e es' K1 K2]; subst. apply returner_iff in K1 as [_ ->]. apply IH in K2. now subst.
    + intros ->. constructor; [|now apply IH]. apply returner_iff. split; [now apply allowed_iff|reflexivity].
Qed.
Lemma returners_are_iff o rs : returners o = Ok rs <-> returners_are o rs.
Proof.
  unfold returners, returners_are, attr_of. change (t_ "returner") with $"returner". split.
  - destruct (dget (ot_attrs o) (KS $"returner")) as [v|]; [|discriminate]. destruct v; try discriminate. intros K. eexists. split; [reflexivity|]. now apply texts_iff.
  - intros (vs & E & T). rewrite E. now apply texts_iff.
Qed.
Lemma self_iff rs : existsb is_self rs = true <-> In (t_ "self") rs.
Proof.
  rewrite existsb_exists. unfold is_self. split; [intros (r & I & E); apply str_eqb_eq in E; now subst|]. intros I. exists (t_ "self"). split; [exact I|reflexivity].
Qed.
(** ** the condition *)
Definition the_condition (vars : option dict) (o : outputter) : res bool :=
  do d <- (match vars, condition_args o with Some d, _ => Ok d | None, [] => Ok [] | None, [_; _] => Raise AttributeError | None, _ => Raise ValueError end);
  cond_holds (condition_args o) d.
Lemma key_of_as v k : key_of v = Ok k <-> as_key v k.
Proof. rewrite <- header_iff. destruct v; cbn [key_of header_key]; split; intros K; try discriminate K; exact K. Qed.
Lemma cond_iff d n want b : cond_holds [n; want] d = Ok b <-> exists k, as_key n k /\ (b = true <-> veq (match dget d k with Some v => v | None => VStr (t_ "_undef_") end) want).
Proof.
  cbn [cond_holds]. split.
  - destruct (key_of n) as [k|] eqn:E; [|discriminate]. cbn [rbind]. intros K. exists k. split; [now apply key_of_as|]. change (t_ "_undef_") with $"_undef_". rewrite <- py_eq_veq. assert (b = py_eq (match dget d k with Some v => v | None => VStr $"_undef_" end) want) as -> by congruence. reflexivity.
  - intros (k & A & B). apply key_of_as in A. rewrite A. cbn [rbind]. f_equal. apply Bool.eq_iff_eq_true. rewrite py_eq_veq. symmetry. exact B.
Qed.
Lemma condition_iff vars o b : the_condition vars o = Ok b <-> condition_is vars o b.
Proof.
  unfold the_condition. assert (C : forall l, condition_args o = l -> l <> [] -> dget (ot_attrs o) (KS (t_ "condition")) = Some (VList l)).
  { unfold condition_args, attr_of. change (t_ "condition") with $"condition". intros l <- N. destruct (dget (ot_attrs o) (KS $"condition")) as [[]|]; try now elim N. reflexivity. }
  assert (C' : forall l, dget (ot_attrs o) (KS (t_ "condition")) = Some (VList l) -> condition_args o = l) by (intros l E; unfold condition_args, attr_of; change $"condition" with (t_ "condition"); now rewrite E).
  split.
  - destruct (condition_args o) as [|n [|want [|x l]]] eqn:A.
    + intros K. assert (b = true) as -> by (destruct vars; cbn [rbind cond_holds] in K; congruence). apply ci_none. intros l E. apply C' in E. congruence.
    + destruct vars; discriminate.
    + destruct vars as [d|]; [|discriminate]. cbn [rbind]. intros K. apply cond_iff in K as (k & K1 & K2). apply (ci_value _ _ d n k want); try assumption; [reflexivity|]. now apply C.
    + destruct vars; discriminate.
  - intros K. destruct K as [N|d n k want b V E A B].
    + assert (condition_args o = []) as ->. { destruct (condition_args o) as [|n l] eqn:A; [reflexivity|]. apply N. now apply C. } now destruct vars.
    + apply C' in E. rewrite E. subst vars. cbn [rbind]. apply cond_iff. now exists k.
Qed.
(** ** the functions *)
Lemma after_later i a d d' : data_after true (S i) a d = Ok d' <-> at_name a <> t_ "dict_to_list" /\ d' = d.
Proof.
  unfold data_after. change (t_ "dict_to_list") with $"dict_to_list". destruct (str_eqb_spec (at_name a) $"dict_to_list") as [E|E]; cbn [andb]; [split; [discriminate|intros [N _]; congruence]|].
  split; [intros K; split; [exact E|congruence]|]. now intros [_ ->].
Qed.
Lemma after_first a d d' : data_after true 0 a d = Ok d' <-> leaves [a] d d'.
Proof.
  unfold data_after. destruct (str_eqb_spec (at_name a) $"dict_to_list") as [E|E]; cbn [andb].
  2:{ split; [intros K; assert (d' = d) as -> by congruence; apply lv_same; now repeat constructor|]. intros K. inversion K; subst; [reflexivity|]. contradiction. }
  assert (L : leaves [a] d d' <-> exists k, key_argument a k /\ keyed_value k d d').
  { split.
    - intros K. inversion K as [? ? N|? ? k ? ? E' A _ V]; subst; [apply Forall_cons_iff in N as [N _]; contradiction|eauto].
    - intros (k & A & V). apply (lv_keyed _ _ k); try assumption. constructor. }
  rewrite L. split.
  - intros K. destruct (at_kwargs a) as [|[[n|z|] v] [|kv kw]] eqn:Ek.
    + destruct (at_args a) as [|[] [|x args]] eqn:Ea; try discriminate.
      * exists $"key". split; [now apply ka_none|]. apply keyed_value_iff. congruence.
      * exists s. split; [now apply ka_place|]. apply keyed_value_iff. congruence.
    + destruct v; try discriminate. destruct (at_args a) eqn:Ea; [|discriminate]. destruct (str_eqb_spec n $"key_name") as [->|]; [|discriminate]. exists s. split; [now apply ka_name|]. apply keyed_value_iff. congruence.
    + destruct v; discriminate.
    + discriminate.
    + discriminate.
    + discriminate.
    + discriminate.
  - intros (k & A & V). apply keyed_value_iff in V. subst d'. destruct A as [k Ea Ek|k Ea Ek|Ea Ek]; rewrite Ea, Ek; reflexivity.
Qed.
Lemma turn_later ms o l : forall i x y d d', in_turn (run_one ms o true) (indexed (S i) l) (x, d) (y, d') <-> functions_give ms o l x y /\ no_dict_to_list l /\ d' = d.
Proof.
  induction l as [|a l IH]; intros i x y d d'; cbn [indexed].
  - split; [intros K; inversion K; subst; repeat split; constructor|]. intros (K & _ & ->). inversion K; subst. constructor.
  - split.
    + intros K. inversion K as [|? ? ? ? [r1 d1] ? H1 H2]; subst. unfold run_one in H1. cbn [fst snd] in H1. destruct (call_output ms o a x) as [r|] eqn:Ec; [|discriminate]. cbn [rbind] in H1. destruct (data_after true (S i) a d) as [d2|] eqn:Ed; [|discriminate]. cbn [rbind] in H1. injection H1 as -> ->.
      apply IH in H2 as (F & N & ->). apply after_later in Ed as [Na ->]. apply call_iff in Ec. split; [econstructor; eassumption|]. split; [now constructor|reflexivity].
    + intros (F & N & ->). inversion F as [|? ? ? z ? F1 F2]; subst. apply Forall_cons_iff in N as [N1 N]. apply (it_next _ _ _ _ _ (z, d)); [|now apply IH].
      unfold run_one. cbn [fst snd]. apply call_iff in F1. rewrite F1. cbn [rbind]. assert (data_after true (S i) a d = Ok d) as -> by now apply after_later. reflexivity.
Qed.
Lemma leaves_cons a l d d' : leaves (a :: l) d d' <-> leaves [a] d d' /\ no_dict_to_list l.
Proof.
  split.
  - intros K. inversion K as [? ? N|? ? k ? ? E A N V]; subst; [apply Forall_cons_iff in N as [N1 N]; split; [apply lv_same; now constructor|exact N]|]. split; [|exact N]. apply (lv_keyed _ _ k); try assumption. constructor.
  - intros [K N]. inversion K as [? ? N'|? ? k ? ? E A N' V]; subst; [apply Forall_cons_iff in N' as [N1 _]; apply lv_same; now constructor|now apply (lv_keyed _ _ k)].
Qed.
Lemma turn_keep ms o l x y d' : in_turn (run_one ms o true) (indexed 0 l) (x, x) (y, d') <-> functions_give ms o l x y /\ leaves l x d'.
Proof.
  destruct l as [|a l]; cbn [indexed].
  - split.
    + intros K. inversion K; subst. split; [constructor|apply lv_same; constructor].
    + intros [K L]. inversion K; subst. inversion L; subst. constructor.
  - rewrite leaves_cons. split.
    + intros K. inversion K as [|? ? ? ? [r1 d1] ? H1 H2]; subst. unfold run_one in H1. cbn [fst snd] in H1. destruct (call_output ms o a x) as [r|] eqn:Ec; [|discriminate]. cbn [rbind] in H1. destruct (data_after true 0 a x) as [d2|] eqn:Ed; [|discriminate]. cbn [rbind] in H1. injection H1 as -> ->.
      apply turn_later in H2 as (F & N & ->). apply after_first in Ed. apply call_iff in Ec. split; [econstructor; eassumption|]. now split.
    + intros (F & L & N). inversion F as [|? ? ? z ? F1 F2]; subst. apply (it_next _ _ _ _ _ (z, d')); [|now apply turn_later].
      unfold run_one. cbn [fst snd]. apply call_iff in F1. rewrite F1. cbn [rbind]. apply after_first in L. rewrite L. reflexivity.
Qed.
Lemma turn_any ms o l : forall i x y d d', in_turn (run_one ms o false) (indexed i l) (x, d) (y, d') <-> functions_give ms o l x y /\ d' = d.
Proof.
  induction l as [|a l IH]; intros i x y d d'; cbn [indexed].
  - split; [intros K; inversion K; subst; repeat split; constructor|]. intros (K & ->). inversion K; subst. constructor.
  - split.
    + intros K. inversion K as [|? ? ? ? [r1 d1] ? H1 H2]; subst. unfold run_one in H1. cbn [fst snd] in H1. destruct (call_output ms o a x) as [r|] eqn:Ec; [|discriminate]. unfold data_after in H1. cbn [rbind andb] in H1. injection H1 as -> ->.
      apply IH in H2 as (F & ->). apply call_iff in Ec. split; [econstructor; eassumption|]. reflexivity.
    + intros (F & ->). inversion F as [|? ? ? z ? F1 F2]; subst. apply (it_next _ _ _ _ _ (z, d)); [|now apply IH].
      unfold run_one. cbn [fst snd]. apply call_iff in F1. rewrite F1. reflexivity.
Qed.
(** ** the run *)
Theorem run_iff ms vars o data r es : macros_ok ms -> vok data -> vok (VDict (ot_attrs o)) -> vok (ot_name o) -> (run_output ms vars o data = Ok (r, es) <-> output_runs_to ms vars o data r es).
Proof.
  intros MK V VA VN. unfold run_output. split.
  - intros K. destruct (returners o) as [rs|] eqn:R; [|discriminate]. cbn [rbind] in K. apply returners_are_iff in R. destruct (forallb (returner_known o) rs) eqn:A; [|discriminate]. cbn [negb] in K. apply allowed_all in A.
    match type of K with rbind ?x _ = _ => destruct x as [d|] eqn:D; [|discriminate] end. cbn [rbind] in K.
    assert (T : the_condition vars o = cond_holds (condition_args o) d) by (unfold the_condition; rewrite D; reflexivity).
    destruct (cond_holds (condition_args o) d) as [[|]|] eqn:C.
    + apply condition_iff in T. match type of K with rbind ?x _ = _ => destruct x as [[[x' e'] fl]|] eqn:O; [|discriminate] end. cbn [rbind] in K. injection K as -> ->.
      apply (output_runs _ _ _ _ _ _ _ _ _ _ _ _ _ C) in O as (y & x' & z & I & F & -> & -> & ->). cbn [orb].
      change (match format_of o (negb (existsb is_self rs)) with Some f => f y = Ok z | None => z = y end) in F.
      assert (F' : apply_format (format_of o (negb (existsb is_self rs))) y = Ok z) by (unfold apply_format; destruct (format_of o (negb (existsb is_self rs))); [exact F|now rewrite F]).
      change (fun r => if is_self r then [] else match returner_of o r with Some e => [e z] | None => [] end) with (effects_of o z).
      destruct (existsb is_self rs) eqn:S; cbn [negb] in I, F'.
      * apply self_iff in S. apply turn_any in I as [I ->]. apply format_iff in F' as [F' _]; [|now apply (vok_functions ms o _ _ _ MK VA VN I)]. apply (or_returned _ _ _ _ rs y z); try assumption. now apply returners_do_iff.
      * assert (S' : ~ In (t_ "self") rs) by (intros X; apply self_iff in X; congruence). apply turn_keep in I as [I L]. apply format_iff in F' as [F' N]; [|now apply (vok_functions ms o _ _ _ MK VA VN I)]. apply (or_kept _ _ _ _ rs y z); try assumption; [now apply N|]. now apply returners_do_iff.
    + apply condition_iff in T. rewrite output_skipped in K by exact C. cbn [rbind] in K. injection K as <- <-. now apply (or_skipped _ _ _ _ rs).
    + unfold output_run in K. rewrite C in K. discriminate.
  - intros K.
    assert (G : exists rs b, returners_are o rs /\ Forall (returner_allowed o) rs /\ condition_is vars o b) by (destruct K; eauto 10). destruct G as (rs & b & R & A & _). 
    assert (One : forall rs', returners_are o rs' -> rs' = rs) by (intros rs' R'; apply returners_are_iff in R, R'; congruence).
    assert (R0 := proj2 (returners_are_iff _ _) R). rewrite R0. cbn [rbind]. assert (A0 := proj1 (allowed_all _ _) A). rewrite A0. cbn [negb].
    assert (Con : forall b, condition_is vars o b -> exists d, (match vars, condition_args o with Some d, _ => Ok d | None, [] => Ok [] | None, [_; _] => Raise AttributeError | None, _ => Raise ValueError end) = Ok d /\ cond_holds (condition_args o) d = Ok b).
    { intros b' B. apply condition_iff in B. unfold the_condition in B. match type of B with rbind ?x _ = _ => destruct x as [d|] eqn:D; [|discriminate] end. exists d. now split. }
    destruct K as [rs' R' A' B|rs' y z es R' A' B S F G E|rs' y z es x' R' A' B S F N G E L]; apply One in R'; subst rs'; destruct (Con _ B) as (d & -> & C); cbn [rbind].
    + rewrite output_skipped by exact C. reflexivity.
    + apply self_iff in S. match goal with |- rbind ?x _ = _ => assert (x = Ok (z, es, true)) as -> end; [|reflexivity].
      apply (output_runs _ _ _ _ _ _ _ _ _ _ _ _ _ C). exists y, data, z. rewrite S. cbn [negb orb]. split; [now apply turn_any|]. split.
      * assert (X : apply_format (format_of o false) y = Ok z) by (apply format_iff; [now apply (vok_functions ms o _ _ _ MK VA VN F)|now split]). unfold apply_format in X. destruct (format_of o false); [exact X|congruence].
      * split; [now apply returners_do_iff|now split].
    + assert (S' : existsb is_self rs = false) by (apply not_true_is_false; intros X; apply S; now apply self_iff). match goal with |- rbind ?x _ = _ => assert (x = Ok (x', es, false)) as -> end; [|reflexivity].
      apply (output_runs _ _ _ _ _ _ _ _ _ _ _ _ _ C). exists y, x', z. rewrite S'. cbn [negb orb]. split; [now apply turn_keep|]. split.
      * assert (X : apply_format (format_of o true) y = Ok z) by (apply format_iff; [now apply (vok_functions ms o _ _ _ MK VA VN F)|now split]). unfold apply_format in X. destruct (format_of o true); [exact X|congruence].
      * split; [now apply returners_do_iff|now split].
Qed.

(** ** values stay values: no dictionary has a key twice *)
Lemma vok_keyed k v : vok v -> vok (snd (dict_to_list k v)).
Proof.
  induction v as [|b|z|s|l IH|d|n] using val_rect'; intros V; try exact V.
  - cbn [dict_to_list snd]. rewrite map_map. constructor. inversion V as [| | | | |? W|]; subst. clear V. induction IH as [|x l Hx _ IHl]; [constructor|]. apply Forall_cons_iff in W as [W1 W]. cbn [map]. constructor; [now apply Hx|now apply IHl].
  - cbn [dict_to_list]. rewrite dtl_mark. cbn [snd app]. inversion V as [| | | | | |? W F]; subst. constructor; [unfold dwf, dkeys in *; now rewrite mark_keys|now apply vok_mark].
Qed.
Lemma vok_leaves l x y : leaves l x y -> vok x -> vok y.
Proof. intros K V. destruct K as [|a l k x y E A N K]; [exact V|]. apply keyed_value_iff in K. subst y. now apply vok_keyed. Qed.
Lemma vok_attr o n d v : has_attr o n d v -> vok (VDict (ot_attrs o)) -> vok d -> vok v.
Proof.
  intros K A D. destruct K as [v E|]; [|exact D]. inversion A as [| | | | | |? W F]; subst. rewrite Forall_forall in F. apply dget_In in E. exact (F _ E).
Qed.
Lemma vok_row missing hs d row : row_of missing hs d row -> vok missing -> vok (VDict d) -> Forall vok row.
Proof.
  intros R M D. apply Forall_forall. intros x I. apply In_nth_error in I as [i I].
  destruct R as (L & F & S). destruct (nth_error hs i) as [h|] eqn:E.
  2:{ apply nth_error_None in E. rewrite <- L in E. apply nth_error_None in E. congruence. }
  assert (Dec : (exists j, j < i /\ nth_error hs j = Some h) \/ forall j, j < i -> nth_error hs j <> Some h).
  { clear. induction i as [|i [(j & Lj & Ej)|N]]; [right; intros j Lj; lia|left; exists j; split; [lia|exact Ej]|]. destruct (nth_error hs i) as [h'|] eqn:E.
    - destruct (key_dec h' h) as [->|Ne]; [left; exists i; split; [lia|exact E]|]. right. intros j Lj Ej. assert (j = i \/ j < i) as [->|Lj'] by lia; [congruence|now apply (N j)].
    - right. intros j Lj Ej. assert (j = i \/ j < i) as [->|Lj'] by lia; [congruence|now apply (N j)]. }
  destruct Dec as [(j & Lj & Ej)|N].
  - rewrite (S i j h Lj E Ej) in I. congruence.
  - rewrite (F i h E N) in I. injection I as <-. destruct (dget d h) as [v|] eqn:G; [|exact M]. inversion D as [| | | | | |? W Fd]; subst. rewrite Forall_forall in Fd. apply dget_In in G. exact (Fd _ G).
Qed.
Lemma vok_table o data hs rows : table_is o data hs rows -> vok (VDict (ot_attrs o)) -> vok data -> Forall (Forall vok) rows.
Proof.
  intros (p & pl & k & ks & h & hl & m & s & _ & _ & _ & _ & _ & _ & Hm & _ & T) A V. apply vok_attr in Hm; [|exact A|constructor]. destruct T as (src & recss & D & F & _ & R).
  assert (Vs : Forall vok src) by (destruct D; [now inversion V|apply Forall_cons; [exact V|constructor]|constructor]).
  assert (Vr : Forall vok (concat recss)).
  { clear R D. induction F as [|x r src recss (y & S & Ad) F IH]; [constructor|]. apply Forall_cons_iff in Vs as [V1 Vs]. cbn [concat]. apply Forall_app. split; [|now apply IH]. apply (adds_vok _ _ _ Ad). now apply (vok_selects _ _ _ _ S). }
  induction R as [|r row recs rows (d & -> & R) F2 IH]; [constructor|]. apply Forall_cons_iff in Vr as [V1 Vr]. constructor; [now apply (vok_row _ _ _ _ R)|now apply IH].
Qed.

Lemma vok_formatted o x y : formatted o x y -> vok (VDict (ot_attrs o)) -> vok x -> vok y.
Proof.
  intros K A V. destruct K as [f _ K|_ ->]; [|exact V]. destruct K as [E|t E P|hs rows E T|names rows sep q E T _ _ _ _|N]; try exact V; try constructor.
  constructor; [constructor; apply Forall_forall; intros v I; apply in_map_iff in I as (h & <- & _); apply vok_value|].
  apply vok_table in T; [|exact A|exact V]. apply Forall_forall. intros v I. apply in_map_iff in I as (r & <- & I). constructor. rewrite Forall_forall in T. now apply T.
Qed.
Lemma vok_runs ms vars o x y es : macros_ok ms -> output_runs_to ms vars o x y es -> vok (VDict (ot_attrs o)) -> vok (ot_name o) -> vok x -> vok y.
Proof.
  intros MK K A N V. destruct K as [rs|rs y z es R _ C S F G E|rs y z es x' R _ C S F Nk G E L]; [exact V| |now apply (vok_leaves _ _ _ L)].
  apply (vok_formatted _ _ _ G A). now apply (vok_functions ms o _ _ _ MK A N F).
Qed.
Theorem outputs_iff ms vars l : macros_ok ms -> Forall (fun o => vok (VDict (ot_attrs o)) /\ vok (ot_name o)) l -> forall x y, vok x -> (run_outs ms vars (map Found l) x = Ok y <-> exists es, outputs_run_to ms vars l x y es).
Proof.
  intros MK. unfold run_outs. induction 1 as [|o l [A N] _ IH]; intros x y V; cbn [map rfold].
  - split; [intros K; assert (x = y) as -> by congruence; exists []; constructor|]. intros [es K]. now inversion K.
  - split.
    + destruct (run_output ms (Some vars) o x) as [[z e]|] eqn:E; [|discriminate]. cbn [rbind]. apply run_iff in E; [|assumption..]. intros K. apply IH in K as [es K]; [|now apply (vok_runs _ _ _ _ _ _ MK E)]. exists (e ++ es). econstructor; eassumption.
    + intros [es K]. inversion K as [|? ? ? z ? e es' K1 K2]; subst. assert (Vz := vok_runs _ _ _ _ _ _ MK K1 A N V). apply run_iff in K1; [|assumption..]. rewrite K1. cbn [rbind]. apply IH; [exact Vz|eauto].
Qed.

(** ** result() with arguments for an output *)
Lemma results_iff own o ts : (forall i, macros_ok (own i)) -> vok (VDict (ot_attrs o)) -> vok (ot_name o) -> Forall (fun t => vok (t_results t)) ts ->
  forall cur rs, macros_ok cur -> (exists ts', run_results own cur o ts = Ok ts' /\ map t_results ts' = rs) <-> results_run_to own o cur ts rs.
Proof.
  intros MO VA VN V. induction V as [|t ts V1 _ IH]; intros cur rs MK; cbn [run_results].
  - split; [intros (ts' & K & <-); injection K as <-; constructor|]. intros K. inversion K. exists []. now split.
  - cbv zeta. set (m := match own (t_id t) with [] => cur | p :: l => p :: l end). assert (MM : macros_ok m) by (unfold m; specialize (MO (t_id t)); now destruct (own (t_id t))). split.
    + intros (ts' & K & <-). destruct (run_output m None o (t_results t)) as [[x e]|] eqn:E; [|discriminate]. cbn [rbind] in K. destruct (run_results own m o ts) as [ts2|] eqn:M; [|discriminate]. cbn [rbind] in K. injection K as <-. cbn [map].
      apply run_iff in E; [|assumption..]. assert (R : results_run_to own o m ts (map t_results ts2)) by (apply IH; [exact MM|now exists ts2]).
      destruct (own (t_id t)) as [|a l] eqn:Eo; [eapply rr_other; eassumption|]. subst m. rewrite <- Eo in *. eapply rr_own; [congruence|exact E|exact R].
    + intros K. inversion K as [|? ? ? r e rs' Eo K1 K2|? ? ? r e rs' Eo K1 K2]; subst.
      * assert (Em : m = own (t_id t)) by (unfold m; now destruct (own (t_id t))). rewrite <- Em in *. apply run_iff in K1; [|assumption..]. rewrite K1. cbn [rbind]. apply IH in K2 as (ts' & M & <-); [|exact MM]. rewrite M. cbn [rbind]. eexists. split; reflexivity.
      * assert (Em : m = cur) by (unfold m; now rewrite Eo). rewrite Em in *. apply run_iff in K1; [|assumption..]. rewrite K1. cbn [rbind]. apply IH in K2 as (ts' & M & <-); [|exact MK]. rewrite M. cbn [rbind]. eexists. split; reflexivity.
Qed.
Lemma run_results_kept own o ts : forall cur ts', run_results own cur o ts = Ok ts' -> map t_name ts' = map t_name ts.
Proof.
  induction ts as [|t ts IH]; intros cur ts' H; cbn [run_results] in H; [injection H as <-; reflexivity|]. cbv zeta in H.
  destruct (run_output _ None o (t_results t)) as [[x e]|]; [|discriminate]. cbn [rbind] in H. destruct (run_results own _ o ts) as [l|] eqn:E; [|discriminate].
  cbn [rbind] in H. injection H as <-. cbn [map]. f_equal. now apply IH in E.
Qed.
Lemma sublist_filter_iff {A} (P : A -> Prop) f (l : list A) : (forall x, f x = true <-> P x) -> forall r, sublist P l r <-> r = filter f l.
Proof.
  intros H r. split.
  - induction 1 as [|x l r Hx _ IH|x l r Hx _ IH]; cbn [filter]; [reflexivity| |].
    + apply H in Hx. rewrite Hx. now rewrite IH.
    + destruct (f x) eqn:E; [apply H in E; contradiction|exact IH].
  - intros ->. induction l as [|x l IH]; cbn [filter]; [constructor|]. destruct (f x) eqn:E; constructor; auto; [now apply H|]. intros K. apply H in K. congruence.
Qed.
Lemma dictionary_of (ts : list (@Session.template (list attribute))) : forall d, Forall (fun t => t_name t <> []) ts ->
  fold_left (fun d t => match t_name t with [] => d | _ => dset d (KS (t_name t)) (t_results t) end) ts d =
  fold_left (fun d e => dset d (fst e) (snd e)) (combine (map (fun t => KS (t_name t)) ts) (map t_results ts)) d.
Proof.
  induction ts as [|t ts IH]; intros d H; [reflexivity|]. inversion H as [|? ? H1 H2]; subst. cbn [map combine fold_left fst snd]. rewrite <- IH by exact H2. f_equal.
  destruct (t_name t); [now destruct H1|reflexivity].
Qed.
Lemma flat_results (ts : list (@Session.template (list attribute))) : forall acc,
  fold_left (fun acc t => match t_results t with VList l => flat_items acc l | r => acc ++ [r] end) ts acc =
  acc ++ concat (map (fun r => concat (map SpecSession.items1 (SpecSession.items1 r))) (map t_results ts)).
Proof.
  assert (F : forall l acc, flat_items acc l = acc ++ concat (map SpecSession.items1 l)).
  { unfold flat_items. induction l as [|v l IH]; intros acc; cbn [fold_left map concat]; [now rewrite app_nil_r|]. rewrite IH. destruct v; cbn [SpecSession.items1]; now rewrite <- app_assoc. }
  induction ts as [|t ts IH]; intros acc; cbn [fold_left map concat]; [now rewrite app_nil_r|]. rewrite IH. rewrite app_assoc. f_equal.
  destruct (t_results t); cbn [SpecSession.items1 map concat]; try reflexivity. apply F.
Qed.
Lemma result_with_iff own cur s names kw structure o v : (forall i, macros_ok (own i)) -> macros_ok cur -> kwargs_output kw = Ok o -> vok (VDict (ot_attrs o)) -> vok (ot_name o) -> Forall (fun t => vok (t_results t)) (ss_templates s) ->
  known_structure structure ->
  (result_with own cur s names kw structure = Ok v <->
   exists ts rs, sublist (asked_for names structure) (ss_templates s) ts /\ results_run_to own o cur ts rs /\ structured structure ts rs v).
Proof.
  intros MO MK O VA VN V L. unfold result_with. rewrite O. cbn [rbind]. cbv zeta.
  pose (f := fun t : @Session.template (list attribute) => ((match names with [] => true | _ => in_strs (t_name t) names end) && negb (str_eqb (lower structure) $"dictionary" && is_nil (t_name t)))%bool).
  assert (C : (if str_eqb (lower structure) $"dictionary" then filter (fun t => negb (is_nil (t_name t))) (pick names (ss_templates s)) else pick names (ss_templates s)) = filter f (ss_templates s)).
  { unfold f, pick. destruct (str_eqb (lower structure) $"dictionary"); cbn [andb negb].
    - destruct names; [reflexivity|]. generalize (l :: names). intros ns. induction (ss_templates s) as [|t ts IH]; [reflexivity|]. cbn [filter]. inversion V; subst.
      destruct (in_strs (t_name t) ns); cbn [andb]; cbn [filter]; [|auto]. destruct (negb (is_nil (t_name t))); [f_equal|]; auto.
    - destruct names.
      + clear. induction (ss_templates s) as [|t ts IH]; [reflexivity|]. cbn [filter andb]. now f_equal.
      + apply filter_ext. intros t. now rewrite andb_true_r. }
  rewrite C. clear C.
  assert (R : forall t, f t = true <-> asked_for names structure t).
  { intros t. unfold f, asked_for. rewrite andb_true_iff, negb_true_iff, andb_false_iff. assert (D : str_eqb (lower structure) $"dictionary" = true <-> same_word structure "dictionary") by apply str_eqb_eq.
    assert (N : (match names with [] => true | _ => in_strs (t_name t) names end) = true <-> names = [] \/ In (t_name t) names).
    { destruct names; [split; auto|]. rewrite SessionFacts.in_strs_In. split; [auto|intros [K|K]; [discriminate|exact K]]. }
    assert (E : is_nil (t_name t) = false <-> t_name t <> []) by (destruct (t_name t); cbn; split; congruence).
    rewrite N, E, <- D. destruct (str_eqb (lower structure) $"dictionary"); split; intros [A B]; (split; [exact A|]);
    [intros _; destruct B; [discriminate|assumption]|right; now apply B|discriminate|now left]. }
  assert (Vf : Forall (fun t => vok (t_results t)) (filter f (ss_templates s))) by (clear - V; induction V; cbn [filter]; [constructor|]; destruct (f x); [constructor|]; assumption).
  assert (K : in_strs (lower structure) [$"list"; $"dictionary"; $"flat_list"] = true).
  { apply SessionFacts.in_strs_In. destruct L as [L|[L|L]]; unfold same_word in L; rewrite L; cbn; tauto. }
  rewrite K. pose proof (fun rs => results_iff own o _ MO VA VN Vf cur rs MK) as G.
  assert (Sh : forall ts', run_results own cur o (filter f (ss_templates s)) = Ok ts' -> forall v, structured structure (filter f (ss_templates s)) (map t_results ts') v <-> result (set_templates s ts') [] structure = v).
  { intros ts' M v0. apply run_results_kept in M.
    assert (NN : same_word structure "dictionary" -> Forall (fun t => t_name t <> []) ts').
    { intros D. assert (F : Forall (fun n => n <> []) (map t_name ts')); [|clear - F; induction ts'; cbn in F; inversion F; constructor; auto]. rewrite M. apply Forall_forall. intros n I.
      apply in_map_iff in I as (t & <- & I). apply filter_In in I as [_ I]. apply R in I as [_ I]. now apply I. }
    unfold result. cbn [pick ss_templates set_templates]. destruct L as [L|[L|L]]; unfold same_word in *; rewrite L.
    - change (str_eqb (t_ "list") $"list") with true. cbv iota. split; [|intros <-; now constructor]. intros H. inversion H as [E|E|E]; [reflexivity| |]; unfold same_word in E; rewrite L in E; discriminate.
    - change (str_eqb (t_ "dictionary") $"list") with false. change (str_eqb (t_ "dictionary") $"dictionary") with true. cbv iota.
      assert (E : as_dictionary ts' = dict_of (combine (map (fun t => KS (t_name t)) (filter f (ss_templates s))) (map t_results ts'))).
      { unfold as_dictionary, dict_of. rewrite dictionary_of by (now apply NN). f_equal. f_equal.
        rewrite <- (map_map t_name KS ts'), <- (map_map t_name KS (filter f (ss_templates s))). now rewrite M. }
      rewrite E. split; [|intros <-; now constructor]. intros H. inversion H as [E1|E1|E1]; [|reflexivity|]; unfold same_word in E1; rewrite L in E1; discriminate.
    - change (str_eqb (t_ "flat_list") $"list") with false. change (str_eqb (t_ "flat_list") $"dictionary") with false. change (str_eqb (t_ "flat_list") $"flat_list") with true. cbv iota.
      unfold flat_list. rewrite flat_results. cbn [app]. split; [|intros <-; now constructor]. intros H. inversion H as [E1|E1|E1]; [| |reflexivity]; unfold same_word in E1; rewrite L in E1; discriminate. }
  split.
  - destruct (run_results own cur o (filter f (ss_templates s))) as [ts'|] eqn:M; [|discriminate]. cbn [rbind]. intros H. exists (filter f (ss_templates s)), (map t_results ts').
    split; [now apply (sublist_filter_iff _ f)|]. split; [apply G; now exists ts'|]. apply (Sh ts' eq_refl). congruence.
  - intros (ts & rs & S & F & W). apply (sublist_filter_iff _ f _ R) in S as ->. apply G in F as (ts' & M & <-). rewrite M. cbn [rbind]. f_equal. now apply (Sh ts' M).
Qed.
