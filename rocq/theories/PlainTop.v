(** * PlainTop: a template of plain lines, from its text to the results. *)
From Coq Require Import Lia.
From Verif Require Import PyBase DictFacts StrFacts SessionFacts Xml XmlFacts LoadFacts Regex SpecRegex RegexFacts Results Template Attributes FormRegex SpecLine MatchVar MatchFuncs GroupFuncs Parser ParserFacts ParserFacts2 SpecTree SpecRecords
  PathFacts MachineFacts RunFacts Compile CompileFacts FindLines OutputFacts EscapeFacts LineFacts FuncTable Session Files Inputs OutputTags Load Run SpecForm SpecProgram PlainLine LineRun PlainRun PlainProgram PlainCompile PlainResult NamedTree.
Local Open Scope string_scope.
Local Open Scope list_scope.

(** ** texts as inputs *)
Lemma set_single order l n : is_set order -> l <> [] -> Forall (eq n) l -> order l = [n].
Proof.
  intros H Hne Hl. destruct (H l) as [H1 H2]. assert (A : forall x, In x (order l) -> x = n). { intros x Hx. apply H2 in Hx. rewrite Forall_forall in Hl. symmetry. now apply Hl. }
  destruct l as [|m l]; [congruence|]. assert (B : In m (order (m :: l))) by (apply H2; now left). assert (m = n) by (inversion Hl; congruence). subst m.
  destruct (order (n :: l)) as [|x [|y r]]; [destruct B|now rewrite (A x (or_introl eq_refl))|]. exfalso. inversion H1 as [|? ? K _]; subst. apply K. rewrite (A x (or_introl eq_refl)), (A y (or_intror (or_introl eq_refl))). now left.
Qed.
Notation str_dec := (list_eq_dec ascii_dec).
Definition take (acc : list datum) (d : datum) : list datum := if existsb (datum_eqb d) acc then acc else acc ++ [d].
Definition take_s (acc : list str) (d : str) : list str := if in_dec str_dec d acc then acc else acc ++ [d].
Lemma take_text acc d : take (map TextData acc) (TextData d) = map TextData (take_s acc d).
Proof.
  unfold take, take_s. assert (E : existsb (datum_eqb (TextData d)) (map TextData acc) = in_strs d acc). { induction acc as [|x acc IH]; [reflexivity|]. cbn [map existsb in_strs datum_eqb]. unfold in_strs in IH. now rewrite IH. }
  rewrite E. destruct (in_dec str_dec d acc) as [H|H].
  - now rewrite (proj2 (in_strs_In d acc) H).
  - destruct (in_strs d acc) eqn:Ei; [exfalso; apply H; now apply in_strs_In|]. now rewrite map_app.
Qed.
Lemma take_rev acc d : take_s (rev (nodup str_dec (rev acc))) d = rev (nodup str_dec (rev (acc ++ [d]))).
Proof.
  rewrite rev_app_distr. cbn [rev app nodup]. unfold take_s. destruct (in_dec str_dec d (rev (nodup str_dec (rev acc)))) as [H|H]; destruct (in_dec str_dec d (rev acc)) as [K|K]; try reflexivity.
  - exfalso. apply in_rev, nodup_In in H. now apply K.
  - exfalso. apply H, (proj1 (in_rev _ _)), nodup_In. exact K.
Qed.
Section A.
Variables (order : list nat -> list nat) (w : world).
Hypothesis Horder : is_set order.
(** one top group, which names no inputs *)
Variable g0 : tgroup.
Hypothesis Hg0 : tg_index g0 = 0 /\ tg_inputs g0 = [].
Definition default_input (acc : list str) : list (str * inp) :=
  match acc with [] => [] | _ => [($"Default_Input", {| in_groups := [0]; in_data := map TextData (firsts acc); in_funcs := [] |})] end.
Definition with_texts (t : @template (list attribute)) (acc : list str) : @template (list attribute) := set_inputs t (default_input acc).
Lemma extract_one : extract_groups [g0] $"Default_Input" [$"all"] = [0].
Proof using Hg0. destruct Hg0 as [E1 E2]. unfold extract_groups. change (in_strs $"all" [$"all"]) with true. cbn [filter]. rewrite E2. cbn [filter map in_strs existsb]. now rewrite E1. Qed.
Lemma update_texts t acc d : t_groups t = [g0] -> update_input [] order (with_texts t acc) $"Default_Input" [$"all"] [TextData d] = with_texts t (acc ++ [d]).
Proof using Hg0 Horder.
  intros Hg. unfold update_input, with_texts. cbn [set_inputs t_groups t_inputs]. rewrite Hg, extract_one.
  destruct acc as [|a acc]; [reflexivity|]. cbn [default_input aget]. change (str_eqb $"Default_Input" $"Default_Input") with true. cbv iota. cbn [in_groups in_data in_funcs aset]. change (str_eqb $"Default_Input" $"Default_Input") with true. cbv iota.
  unfold set_inputs. cbn [t_id t_name t_method t_groups t_results t_outputs]. f_equal. cbn [app]. unfold default_input. do 3 f_equal.
  - f_equal. apply set_single; [exact Horder|discriminate|]. repeat constructor.
  - change (load_data [] [TextData d]) with [TextData d]. unfold load_data. cbn [fold_left]. fold (take (map TextData (firsts (a :: acc))) (TextData d)). rewrite take_text. unfold firsts. now rewrite take_rev.
Qed.
Theorem texts_added gl th t (dns : list (str * str)) : t_groups t = [g0] -> Forall (fun dn => load_input w (VStr (fst dn)) = [TextData (fst dn)] /\ selected (snd dn) t = true) dns ->
  forall acc, add_texts order w (map (fun dn => (VStr (fst dn), snd dn)) dns) {| ss_templates := [with_texts t acc]; ss_global := gl; ss_threshold := th |} =
  {| ss_templates := [with_texts t (acc ++ map fst dns)]; ss_global := gl; ss_threshold := th |}.
Proof using Hg0 Horder.
  intros Hg. induction 1 as [|[d n] dns [H1 H2] _ IH]; intros acc; [cbn [map]; now rewrite app_nil_r|]. cbn [map fst snd] in *. unfold add_texts in *. cbn [fold_left fst snd]. unfold add_input at 2. cbv zeta. rewrite H1. unfold set_templates. cbn [ss_templates map ss_global ss_threshold].
  change (selected n (with_texts t acc)) with (selected n t). rewrite H2, update_texts by exact Hg. rewrite IH. now rewrite <- app_assoc.
Qed.
End A.
(** ** parsing the texts *)
Section B.
Variables (fsize : str -> res Z) (tsize : str -> Z) (prs : nat -> dict -> list nat -> list attribute -> datum -> val -> res (dict * val)).
Variable multi : @template (list attribute) -> dict -> res (dict * @template (list attribute)).
Lemma texts_parsed (P : str -> val -> Prop) (t : @template (list attribute)) gl th ds : t_method t = $"per_input" -> t_results t = VList [] -> t_outputs t = [] ->
  Forall (fun d => exists v v', prs (t_id t) gl [0] [] (TextData d) (VDict []) = Ok (gl, v) /\ form_datum v = Ok v' /\ P d v') (firsts ds) ->
  exists vs, Forall2 P (firsts ds) vs /\
  Session.parse fsize tsize prs multi {| ss_templates := [with_texts t ds]; ss_global := gl; ss_threshold := th |} (VBool true) (VBool false) =
    Ok {| ss_templates := [set_results (with_texts t ds) (VList vs)]; ss_global := gl; ss_threshold := th |}.
Proof.
  intros Hm Hr Ho H. unfold Session.parse, data_size. cbn [ss_templates ss_global rfold with_texts set_inputs t_inputs].
  assert (Es : exists z n, rfold (fun (acc : Z * nat) (i : str * inp) => rfold (add_size fsize tsize) (in_data (snd i)) (fst acc, (snd acc + length (in_data (snd i)))%nat)) (default_input ds) (0%Z, 0) = Ok (z, n)).
  { destruct ds as [|d ds]; [exists 0%Z, 0; reflexivity|]. cbn [default_input rfold snd in_data fst]. set (l := firsts (d :: ds)). generalize (0 + length (map TextData l)). generalize 0%Z. clear. induction l as [|x l IH]; intros z n; [exists z, n; reflexivity|]. cbn [map rfold add_size rbind fst snd]. apply IH. }
  destruct Es as (z & n & Es). rewrite Es. cbn [rbind]. change (is_true (VBool true)) with true. change (is_true (VBool false)) with false. cbn [andb].
  assert (G : forall l, Forall (fun d => exists v v', prs (t_id t) gl [0] [] (TextData d) (VDict []) = Ok (gl, v) /\ form_datum v = Ok v' /\ P d v') l -> exists vs, Forall2 P l vs /\ forall old,
     rfold (fun st d => do (g', v) <- prs (t_id (with_texts t ds)) (fst st) [0] [] d (VDict []); do t' <- form_results (snd st) v; Ok (g', t')) (map TextData l) (gl, set_results (with_texts t ds) (VList old)) = Ok (gl, set_results (with_texts t ds) (VList (old ++ vs)))).
  { clear H. induction 1 as [|d l (v & v' & E1 & E2 & E3) _ (vs & Hvs & IH)]; [exists []; split; [constructor|]; intros old; cbn [map rfold]; now rewrite app_nil_r|].
    exists (v' :: vs). split; [now constructor|]. intros old. cbn [map rfold fst snd]. change (t_id (with_texts t ds)) with (t_id t) in *. rewrite E1. cbn [rbind]. unfold form_results. rewrite E2. cbn [rbind].
    change (t_method (set_results (with_texts t ds) (VList old))) with (t_method t). rewrite Hm. change (str_eqb $"per_input" $"per_template") with false. change (str_eqb $"per_input" $"per_input") with true. cbv iota. cbn [set_results t_results t_id t_name t_method t_groups t_inputs t_outputs]. cbn [rbind].
    change (set_results (set_results (with_texts t ds) (VList old)) (VList (old ++ [v']))) with (set_results (with_texts t ds) (VList (old ++ [v']))). rewrite IH, <- app_assoc. reflexivity. }
  destruct (G _ H) as (vs & Hvs & IH). exists vs. split; [exact Hvs|].
  assert (Ep : parse_one prs (with_texts t ds) gl = Ok (gl, set_results (with_texts t ds) (VList vs))).
  { unfold parse_one. change (t_method (with_texts t ds)) with (t_method t). rewrite Hm. change (lower $"per_input") with $"per_input". change (str_eqb $"per_input" $"per_input") with true. cbv iota.
    assert (E0 : with_texts t ds = set_results (with_texts t ds) (VList [])) by (destruct t; cbn in *; now subst).
    change (t_inputs (with_texts t ds)) with (default_input ds). unfold default_input. destruct ds as [|d ds'] eqn:Ed.
    - cbn [rfold]. inversion Hvs; subst. rewrite <- E0. reflexivity.
    - cbn [rfold snd in_groups in_data in_funcs]. replace (gl, with_texts t (d :: ds')) with (gl, set_results (with_texts t (d :: ds')) (VList [])) by (now rewrite <- E0). specialize (IH []). cbn [app] in IH. rewrite IH. reflexivity. }
  cbn [each]. rewrite Ep. cbn [rbind rmap]. unfold run_outputs. change (t_outputs (set_results (with_texts t ds) (VList vs))) with (t_outputs t). rewrite Ho. cbn [rfold rbind]. reflexivity.
Qed.
End B.
(** ** the template object *)
Definition group_tree (n text tail : str) : elem := Elem $"template" [] [] [Elem $"group" [($"name", n)] text [] tail] [].
Lemma word_lacks c n : is_word c = false -> Forall (fun c => is_word c = true) n -> lacks c n.
Proof. intros H HF K. rewrite Forall_forall in HF. apply HF in K. congruence. Qed.
Definition named_attrs (n : str) : gattrs := {| ga_path := [n]; ga_name := n; ga_id := Some (n, 0); ga_method := $"group"; ga_in := []; ga_out := [] |}.
Lemma name_attributes n : group_name n -> attributes $"." true [] 0 [($"name", n)] = named_attrs n.
Proof.
  intros (_ & (c & t & -> & Hc) & Hw). unfold attributes. cbn [fold_left]. unfold one_attr. cbn [fst snd]. change (lower $"name") with $"name". change (str_eqb $"name" $"method") with false. change (str_eqb $"name" $"input") with false. change (str_eqb $"name" $"output") with false. change (str_eqb $"name" $"name") with true. cbv iota. cbv zeta.
  cbn [ga_path ga_name ga_id ga_method ga_in ga_out]. unfold extract_name.
  assert (Es : prefixb $"/" (c :: t) = false). { destruct (prefixb $"/" (c :: t)) eqn:E; [|reflexivity]. exfalso. assert (c = "/"%char). { change ($"/") with ["/"%char] in E. cbn [prefixb] in E. destruct (Ascii.eqb_spec "/" c); [now subst|discriminate]. } subst c. inversion Hw; subst. discriminate. }
  rewrite Es. cbn [app]. change ($".") with ["."%char]. rewrite split_lacks by (apply word_lacks; [reflexivity|exact Hw]). cbn [join]. reflexivity.
Qed.
Lemma name_stars n : group_name n -> map split_stars [n] = [(n, 0)].
Proof.
  intros (_ & (c & t & -> & Hc) & Hw). cbn [map]. unfold split_stars.
  assert (E : rstrip_p (is_c star_c) (c :: t) = c :: t).
  { unfold rstrip_p. assert (G : forall r, Forall (fun c => is_word c = true) r -> lstrip_p (is_c star_c) r = r). { intros [|x r] Hr; [reflexivity|]. inversion Hr as [|? ? Hx _]; subst. cbn [lstrip_p]. unfold is_c. destruct (Ascii.eqb_spec star_c x) as [<-|H]; [discriminate|]. destruct (Ascii.eqb_spec x star_c); [congruence|reflexivity]. }
    rewrite G by (now apply Forall_rev). apply rev_involutive. }
  rewrite E, Nat.sub_diag. reflexivity.
Qed.
Lemma name_static n : group_name n -> static_path [n].
Proof.
  intros Hn. constructor; [|constructor]. pose proof (name_stars n Hn) as E. cbn [map] in E. assert (E' : split_stars n = (n, 0)) by congruence. rewrite E'. cbn [fst]. unfold static_item. destruct (containsb $"{{" n) eqn:Ec; [|reflexivity].
  exfalso. apply containsb_spec in Ec as (a & b & ->). destruct Hn as (_ & _ & Hw). rewrite Forall_forall in Hw. specialize (Hw "{"%char). discriminate Hw. apply in_or_app. right. now left.
Qed.
Lemma name_plain k2i n : group_name n -> plain k2i [(n, 0)].
Proof.
  intros (H1 & (c & t & -> & Hc) & _). constructor; [|constructor]. cbn [fst]. split; [exact H1|]. intros _. unfold isdigit, all_chars. cbn [forallb]. now rewrite Hc.
Qed.
Definition one_tpl (vars : dict) (n : str) (G : cgroup) : tpl :=
  {| tp_name := $"_root_template_"; tp_method := $"per_input"; tp_pathchar := $"."; tp_vars := plain_vars vars; tp_v2r := []; tp_vfs := var_functions vars; tp_macros := []; tp_lookups := []; tp_groups := [G]; tp_inputs := []; tp_outputs := []; tp_gouts := [[]] |}.
Definition one_group (n : str) (x0 : crex) (xs : list crex) : cgroup :=
  CG (n, 0) None [n] (named_attrs n) [] {| gs_start := [starting x0]; gs_end := []; gs_re := xs; gs_defaults := []; gs_hasdef := false |} [].
Theorem tree_loaded w order base kid vars n first others tail : group_name n -> tline_ok first -> Forall tline_ok others ->
  exists x0 xs, compiled first x0 /\ Forall2 compiled others xs /\
  load_tree w order base kid vars $"_root_template_" (group_tree n (stacked (map source (first :: others))) tail) = Ok ([], one_tpl vars n (one_group n x0 xs)).
Proof.
  intros Hn Hf Ho. destruct (group_compiled vars (group_names [] (VDict []) [] (VDict []) (VList []) false) $"." true [] 0 None $"group" [($"name", n)] tail first others Hf Ho) as (x0 & xs & H1 & H2 & E).
  - reflexivity.
  - rewrite (name_attributes n Hn). reflexivity.
  - exists x0, xs. split; [exact H1|]. split; [exact H2|]. cbv zeta in E. rewrite (name_attributes n Hn) in E.
    unfold load_tree, group_tree. cbn [e_children e_attrs]. cbv zeta.
    set (ge := Elem $"group" [($"name", n)] (stacked (map source (first :: others))) [] tail) in *.
    cbn [existsb filter]. change (tagged [$"macro"] ge) with false. change (tagged output_tags ge) with false. change (tagged [$"doc"] ge) with false. change (tagged [$"template"] ge) with false. change (tagged vars_tags ge) with false. change (tagged [$"lookup"] ge) with false. change (tagged group_tags ge) with true. change (tagged input_tags ge) with false. cbn [andb orb].
    cbn [rmap rmapi rfold rbind compile_all]. change (attr_or [] $"pathchar" $".") with $".". rewrite E. cbn [rbind]. cbn [named_attrs ga_id ga_path].
    unfold template_inputs. cbn [rfold rbind map number]. change (flat_map tg_inputs [tgroup_of (0, CG (n, 0) None [n] (named_attrs n) [] {| gs_start := [starting x0]; gs_end := []; gs_re := xs; gs_defaults := []; gs_hasdef := false |} [])]) with (@nil str). cbn [rfold rbind map]. reflexivity.
Qed.
(** ** the results *)
Lemma load_text w d : data_text w d -> load_input w (VStr d) = [TextData d].
Proof.
  intros (H1 & H2 & H3 & H4). unfold load_input, load_files. rewrite H1. unfold is_file. rewrite H2, H3. destruct (w_tdir w) as [[|c t]|]; try reflexivity. rewrite (H4 (c :: t) eq_refl). reflexivity.
Qed.
Lemma form_named n rs : form_datum (named n rs) = Ok (if str_eqb n $"_anonymous_" then shape rs else match rs with [] => VDict [] | _ => VDict [(KS n, shape rs)] end).
Proof.
  unfold form_datum, named. assert (G : forall v, (match dget [(KS n, v)] (KS anonymous) with Some x => match ddel [(KS n, v)] (KS anonymous) with [] => Ok x | rest => match x with VList l => Ok (VList (l ++ [VDict rest])) | _ => Raise AttributeError end end | None => Ok (VDict [(KS n, v)]) end) = Ok (if str_eqb n $"_anonymous_" then v else VDict [(KS n, v)])).
  { intros v. unfold anonymous. destruct (str_eqb n $"_anonymous_") eqn:E.
    - apply str_eqb_eq in E. subst n. reflexivity.
    - apply str_eqb_neq in E. cbn [dget]. assert (K : key_eqb (KS $"_anonymous_") (KS n) = false) by (cbn [key_eqb]; apply str_eqb_neq; congruence). rewrite K. reflexivity. }
  destruct rs as [|r [|r' rs]].
  - cbn [dget shape]. now destruct (str_eqb n _).
  - rewrite G. reflexivity.
  - rewrite G. reflexivity.
Qed.
Lemma flat_items_eq l : forall acc, flat_items acc l = acc ++ flattened l.
Proof. unfold flat_items. induction l as [|v l IH]; intros acc; cbn [fold_left flattened flat_map]; [now rewrite app_nil_r|]. rewrite IH. unfold flattened. destruct v; cbn [app]; rewrite <- app_assoc; reflexivity. Qed.
Lemma flat_result (t : @template (list attribute)) g th vs : result {| ss_templates := [set_results t (VList vs)]; ss_global := g : dict; ss_threshold := th |} [] $"flat_list" = VList (flattened vs).
Proof. unfold result. cbn [pick ss_templates]. change (lower $"flat_list") with $"flat_list". change (str_eqb $"flat_list" $"list") with false. change (str_eqb $"flat_list" $"dictionary") with false. change (str_eqb $"flat_list" $"flat_list") with true. cbv iota. unfold flat_list. cbn [fold_left t_results set_results]. now rewrite flat_items_eq. Qed.
Section R.
Variables (clock : str -> option val) (k2i : bool) (order : list nat -> list nat) (w : world).
Hypothesis Horder : is_set order.
Theorem program_result base vars text n tail first others dns :
  group_name n -> tline_ok first -> Forall tline_ok others ->
  template_tree w text = Ok (group_tree n (stacked (map source (first :: others))) tail) ->
  Forall (fun dn => data_text w (fst dn) /\ (snd dn = $"_all_" \/ snd dn = $"_root_template_")) dns ->
  exists vs, Forall2 (if str_eqb n $"_anonymous_" then text_result first others else named_result n first others) (firsts (map fst dns)) vs /\
  let run := ttp_result clock k2i order w base vars text (map (fun dn => (VStr (fst dn), snd dn)) dns) in
  run $"list" = Ok (VList [VList vs]) /\ run $"dictionary" = Ok (VDict [(KS $"_root_template_", VList vs)]) /\ run $"flat_list" = Ok (VList (flattened vs)).
Proof using Horder.
  intros Hn Hf Ho Ht Hd. destruct (tree_loaded w order base (fun b => load_child w order (S (length text)) b vars) vars n first others tail Hn Hf Ho) as (x0 & xs & Hx0 & Hxs & El).
  cbv zeta. unfold ttp_result, ttp_session, parsed, load_template. rewrite Ht. cbn [rbind]. rewrite El. cbn [rbind].
  set (T := one_tpl vars n (one_group n x0 xs)). set (t := template_of [] (0, T)).
  assert (Es : session_of [T] = {| ss_templates := [with_texts t []]; ss_global := @nil (key * val); ss_threshold := 5242880 |}) by reflexivity. rewrite Es.
  set (g0 := tgroup_of (0, one_group n x0 xs)). assert (Hg0 : tg_index g0 = 0 /\ tg_inputs g0 = []) by (split; reflexivity).
  rewrite (texts_added order w Horder g0 Hg0).
  2:{ reflexivity. }
  2:{ eapply Forall_impl; [|exact Hd]. intros [d nm] [H1 H2]. cbn [fst snd] in *. split; [now apply load_text|]. unfold selected. destruct H2 as [->| ->]; reflexivity. }
  cbn [app].
  destruct (texts_parsed (file_size w) (fun s => Z.of_nat (length s)) (parser_of clock k2i w [T]) (fun _ _ => out_of_model) (if str_eqb n $"_anonymous_" then text_result first others else named_result n first others) t [] 5242880 (map fst dns)) as (vs & Hvs & Ep); try reflexivity.
  { apply Forall_forall. intros d _. cbn [t template_of fst t_id]. 
    destruct (plain_parse (m_fun T) (g_fun T k2i) k2i first others Hf Ho (n, 0) [n] (named_attrs n) x0 xs Hx0 Hxs n (name_static n Hn) (name_stars n Hn) (name_plain k2i n Hn) d (set_vars (tp_vars T) (vfs_of clock T $"text_data") (datatext d)) []) as (e & es & Hes & Hge & Epp).
    exists (named n (records (events es) None true)). eexists. split; [|split; [apply form_named|]].
    - unfold parser_of. cbn [nth_error text_of rbind]. unfold parse_text. cbn [input_text rfold rbind chosen rmap]. change (combine (tp_groups T) (tp_gouts T)) with [(one_group n x0 xs, @nil (@gout outputter))]. cbn [nth_error rbind map]. change (tp_v2r T) with (@nil (str * list str)). cbv zeta. cbn [fst snd own_outputs].
      unfold one_group at 1. rewrite Epp. cbn [rbind]. now rewrite Hge.
    - destruct (str_eqb n $"_anonymous_"); exists es; (split; [exact Hes|]); [reflexivity|]. now destruct (records (events es) None true). }
  exists vs. split; [exact Hvs|]. rewrite Ep. cbn [rbind]. split; [reflexivity|]. split; [reflexivity|]. f_equal. rewrite flat_result. reflexivity.
Qed.
End R.
Lemma ascii_attr n : Forall (fun c => is_word c = true /\ (code c < 128)%N) n -> flat_map (attr_char text_char) n = n.
Proof.
  assert (G : forall c, (if (is_word c && N.ltb (code c) 128)%bool then str_eqb (attr_char text_char c) [c] else true) = true) by (apply EscapeFacts.all256; vm_compute; reflexivity).
  induction 1 as [|c n [H1 H2] _ IH]; [reflexivity|]. cbn [flat_map]. rewrite IH. specialize (G c). rewrite H1, (proj2 (N.ltb_lt _ _) H2) in G. cbn [andb] in G. apply str_eqb_eq in G. now rewrite G.
Qed.
Lemma group_text_src n t : flat_map (attr_char text_char) n = n -> group_text n t = template_src [([($"name", n)], [nl] ++ t ++ [nl])].
Proof.
  intros H. unfold group_text, template_src, group_src, group_rest. cbn [flat_map fst snd]. rewrite !app_nil_r. unfold attr_text. cbn [fst snd]. rewrite H. rewrite <- !app_assoc.
  change ($"<template><group name=""") with ($"<template>" ++ "<"%char :: $"group" ++ $" " ++ $"name" ++ $"=""").
  change ($"</group></template>") with ($"</group>" ++ $"</template>"). change ($""">") with ($"""" ++ $">"). rewrite <- !app_assoc. cbn [app]. rewrite <- !app_assoc. cbn [app]. rewrite <- !app_assoc. reflexivity.
Qed.
Lemma stacked_plain ts : ts <> [] -> Forall tline_ok ts -> containsb $"]]>" (template_text ts) = false -> plain_text ([nl] ++ template_text ts ++ [nl]) /\ lacks (chr 13) ([nl] ++ template_text ts ++ [nl]).
Proof.
  intros Hne H E. assert (C : lacks (chr 13) ([nl] ++ template_text ts ++ [nl])).
  { intros K. apply in_app_or in K as [[K|[]]|K]; [discriminate|]. apply in_app_or in K as [K|[K|[]]]; [|discriminate]. apply text_chars in H. rewrite Forall_forall in H. destruct (H _ K) as [(_ & _ & A & _)|A]; [congruence|discriminate]. }
  split; [|exact C]. pose proof (plain_newlines _ (text_plain ts H E)) as P. now rewrite newlines_lf in P.
Qed.
Theorem named_tree w n ts : ts <> [] -> Forall tline_ok ts -> containsb $"]]>" (template_text ts) = false -> Forall (fun c => is_word c = true /\ (code c < 128)%N) n ->
  template_tree w (group_text n (template_text ts)) = Ok (group_tree n (stacked (map source ts)) []).
Proof.
  intros Hne H E Hn. destruct (stacked_plain ts Hne H E) as [P C]. rewrite (group_text_src n _ (ascii_attr n Hn)). rewrite tree_groups.
  - unfold groups_tree, group_elem, group_tree. cbn [map fst snd]. now rewrite <- (text_stacked ts Hne).
  - discriminate.
  - constructor; [|constructor]. cbn [fst snd]. split; [|exact P]. split; [constructor; [intros []|constructor]|]. constructor; [|constructor]. cbn [fst snd]. split; [split; [reflexivity|repeat constructor]|].
    eapply Forall_impl; [|exact Hn]. intros c [Hc _]. exact (proj1 (word_src c Hc)).
  - cbn [flat_map]. rewrite app_nil_r. unfold group_src, group_rest. cbn [fst snd flat_map]. rewrite app_nil_r. unfold attr_text. cbn [fst snd]. rewrite (ascii_attr n Hn). intros K.
    destruct K as [K|K]; [discriminate|]. apply in_app_or in K as [K|K]; [cbn in K; repeat (destruct K as [K|K]; [discriminate K|]); destruct K|].
    apply in_app_or in K as [K|K].
    + apply in_app_or in K as [K|K]; [cbn in K; repeat (destruct K as [K|K]; [discriminate K|]); destruct K|]. apply in_app_or in K as [K|K]; [cbn in K; repeat (destruct K as [K|K]; [discriminate K|]); destruct K|].
      apply in_app_or in K as [K|K]; [cbn in K; repeat (destruct K as [K|K]; [discriminate K|]); destruct K|]. apply in_app_or in K as [K|K]; [|cbn in K; repeat (destruct K as [K|K]; [discriminate K|]); destruct K].
      rewrite Forall_forall in Hn. apply Hn in K as [K _]. discriminate.
    + apply in_app_or in K as [K|K]; [cbn in K; repeat (destruct K as [K|K]; [discriminate K|]); destruct K|]. apply in_app_or in K as [K|K]; [now apply C|]. cbn in K. repeat (destruct K as [K|K]; [discriminate K|]). destruct K.
Qed.
(** ** the specification determines the result *)
Lemma line_event_unique first others l e e' : tline_ok first -> Forall tline_ok others -> lacks nl l -> line_event first others l e -> line_event first others l e' -> e = e'.
Proof.
  intros Hf Ho Hl H H'. inversion H as [c Hc|b t a c Eo N0 Nb Hc|N0 Nb]; inversion H' as [c' Hc'|b' t' a' c' Eo' N0' Nb' Hc'|N0' Nb']; subst; try (exfalso; now apply N0 in Hc'); try (exfalso; now apply N0' in Hc); try reflexivity.
  - now rewrite (line_fits_unique first l c c' Hf Hl Hc Hc').
  - assert (G : forall b b' a a' t t', b ++ t :: a = b' ++ t' :: a' -> Forall (fun t => forall c, ~ line_fits t l c) b -> Forall (fun t => forall c, ~ line_fits t l c) b' -> line_fits t l c -> line_fits t' l c' -> t = t').
    { clear. induction b as [|x b IH]; intros [|y b'] a a' t t' E H1 H2 K1 K2; cbn [app] in E.
      - now injection E.
      - injection E as -> _. inversion H2 as [|? ? Q _]; subst. now apply Q in K1.
      - injection E as <- _. inversion H1 as [|? ? Q _]; subst. now apply Q in K2.
      - injection E as -> E. inversion H1; inversion H2; subst. eapply IH; eassumption. }
    assert (t = t') by (eapply (G b b' a a'); eauto). subst t'. assert (Ht : tline_ok t) by (rewrite Forall_forall in Ho; apply Ho; apply in_or_app; right; now left). now rewrite (line_fits_unique t l c c' Ht Hl Hc Hc').
  - exfalso. rewrite Forall_forall in Nb'. apply (Nb' t) in Hc; [exact Hc|]. apply in_or_app. right. now left.
  - exfalso. rewrite Forall_forall in Nb. apply (Nb t') in Hc'; [exact Hc'|]. apply in_or_app. right. now left.
Qed.
Theorem text_result_unique first others d v v' : tline_ok first -> Forall tline_ok others -> text_result first others d v -> text_result first others d v' -> v = v'.
Proof.
  intros Hf Ho (es & H & ->) (es' & H' & ->). assert (es = es'); [|now subst]. pose proof (split_lacks_nl d) as K. revert es' H'. induction H as [|l e ls es He _ IH]; intros es' H'; inversion H' as [|? e' ? es2 He' H2]; subst; [reflexivity|].
  inversion K; subst. f_equal; [|now apply IH]. eapply line_event_unique; eassumption.
Qed.
