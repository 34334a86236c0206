(** * LoadedFacts2: lemmas for SpecLoaded (C131): the tags and the template. *)
From Verif Require Import PyBase Regex Results Template Attributes FormRegex MatchVar MatchFuncs GroupFuncs Parser Compile FuncTable Loaders Xml Session Files Inputs OutputTags Load
  SpecAttr SpecVariable SpecFiles SpecInputs SpecOutputTags SpecMade SpecJson DictFacts StrFacts ReprFacts XmlFacts FileFacts SessionFacts MadeFacts MadeFacts3 PythonFacts InputFacts OutputTagFacts LoadedFacts SpecLoaded.
Local Open Scope string_scope.
Local Open Scope list_scope.

Lemma number_numbered {A} (l : list A) : Load.number 0 l = numbered l.
Proof. unfold numbered. generalize 0. induction l as [|x l IH]; intros n; cbn [Load.number length seq combine]; [reflexivity|]. now rewrite IH. Qed.
Lemma rmapi_iff {A B} (f : nat -> A -> res B) l l' : rmapi f 0 l = Ok l' <-> Forall2 (fun ia b => f (fst ia) (snd ia) = Ok b) (numbered l) l'.
Proof.
  unfold numbered. generalize 0. revert l'. induction l as [|x l IH]; intros l' n; cbn [rmapi length seq combine].
  - split; [intros K; injection K as <-; constructor|intros K; now inversion K].
  - split.
    + intros K. destruct (f n x) as [y|] eqn:E; [|discriminate]. cbn [rbind] in K. destruct (rmapi f (S n) l) as [ys|] eqn:E2; [|discriminate]. cbn [rbind] in K. injection K as <-. constructor; [exact E|now apply IH].
    + intros K. inversion K as [|? y ? ys E E2]; subst. cbn [fst snd] in E. rewrite E. cbn [rbind]. apply IH in E2. now rewrite E2.
Qed.
Lemma tagged_iff names e : tagged (map t_ names) e = true <-> tag_is names e.
Proof. unfold tagged, tag_is. apply in_strs_b. Qed.
Lemma tags_iff names cs l : tags names cs l <-> filter (tagged (map t_ names)) cs = l.
Proof. unfold tags. apply sublist_filter. intros x _. apply tagged_iff. Qed.
Lemma attribute_or_iff attrs n d v : attribute_or attrs n (t_ d) v <-> attr_or attrs (t_ n) (t_ d) = v.
Proof. unfold attribute_or, attr_or, attribute_of. destruct (attr attrs (t_ n)); intuition congruence. Qed.
Lemma attribute_or_iff' attrs n (d v : str) : attribute_or attrs n d v <-> attr_or attrs (t_ n) d = v.
Proof. unfold attribute_or, attr_or, attribute_of. destruct (attr attrs (t_ n)); intuition congruence. Qed.
Section W.
Variables (w : world) (order : list nat -> list nat).
Theorem collects_iff cs ms ms' : rfold (collect_tag w) cs ms = Ok ms' <-> collects w cs ms ms'.
Proof.
  revert ms. induction cs as [|c cs IH]; intros ms; cbn [rfold].
  - split; [intros K; injection K as <-; constructor|intros K; now inversion K].
  - assert (T1 : tagged [$"macro"] c = true <-> tag_is ["macro"] c) by apply (tagged_iff ["macro"] c).
    assert (T2 : tagged [$"doc"] c = true <-> tag_is ["doc"] c) by apply (tagged_iff ["doc"] c).
    assert (T3 : tag_is ["macro"; "doc"] c <-> tag_is ["macro"] c \/ tag_is ["doc"] c) by (unfold tag_is, word_in; cbn [map In]; tauto).
    assert (T4 : tag_is ["macro"] c -> tag_is ["doc"] c -> False) by (unfold tag_is, word_in; cbn [map In]; intros [H|[]] [K|[]]; rewrite <- H in K; discriminate K).
    unfold collect_tag at 1. destruct (tagged [$"macro"] c) eqn:E1.
    + assert (M := proj1 T1 eq_refl). unfold parse_macro. destruct (e_text c) as [|a t] eqn:X.
      * split; [discriminate|]. intros K. inversion K as [|c0 cs0 ms0 l ms1 H1 H2 H3 H4|c0 cs0 ms0 ms1 H1 H2 H3 H4|c0 cs0 ms0 ms1 H1 H2 H3|c0 cs0 ms0 ms1 H1 H2]; subst; try congruence. elim H1. apply T3. now left.
      * rewrite <- X. split.
        -- intros K. destruct (w_exec w (e_text c)) as [[l|]|] eqn:E; [| |discriminate]; cbn [rbind] in K; apply IH in K; [eapply co_macro|apply co_syntax]; try eassumption; congruence.
        -- intros K. inversion K as [|c0 cs0 ms0 l ms1 H1 H2 H3 H4|c0 cs0 ms0 ms1 H1 H2 H3 H4|c0 cs0 ms0 ms1 H1 H2 H3|c0 cs0 ms0 ms1 H1 H2]; subst.
           ++ rewrite H3. cbn [rbind]. now apply IH.
           ++ rewrite H3. cbn [rbind]. now apply IH.
           ++ now elim T4.
           ++ elim H1. apply T3. now left.
    + assert (NM : ~ tag_is ["macro"] c) by (intros H; apply T1 in H; congruence). destruct (tagged [$"doc"] c) eqn:E2; cbn [andb].
      * assert (D := proj1 T2 eq_refl). destruct (e_text c) as [|a t] eqn:X; cbn [is_nil rbind].
        -- split; [discriminate|]. intros K. inversion K as [|c0 cs0 ms0 l ms1 H1 H2 H3 H4|c0 cs0 ms0 ms1 H1 H2 H3 H4|c0 cs0 ms0 ms1 H1 H2 H3|c0 cs0 ms0 ms1 H1 H2]; subst; try contradiction. elim H1. apply T3. now right.
        -- split; [intros K; apply IH in K; apply co_doc; [exact D|congruence|exact K]|]. intros K. inversion K as [|c0 cs0 ms0 l ms1 H1 H2 H3 H4|c0 cs0 ms0 ms1 H1 H2 H3 H4|c0 cs0 ms0 ms1 H1 H2 H3|c0 cs0 ms0 ms1 H1 H2]; subst; try contradiction; now apply IH.
      * assert (ND : ~ tag_is ["doc"] c) by (intros H; apply T2 in H; congruence). cbn [rbind].
        split; [intros K; apply IH in K; apply co_other; [intros H; apply T3 in H as [H|H]; contradiction|exact K]|]. intros K. inversion K as [|c0 cs0 ms0 l ms1 H1 H2 H3 H4|c0 cs0 ms0 ms1 H1 H2 H3 H4|c0 cs0 ms0 ms1 H1 H2 H3|c0 cs0 ms0 ms1 H1 H2]; subst; try contradiction; now apply IH.
Qed.
Lemma under_iff n ks p p' : add_path n ks p = p' <-> under n ks p p'.
Proof.
  split.
  - intros <-. induction p as [|[q old] p IH]; cbn [add_path].
    + destruct ks; [apply un_none; [intros []|reflexivity]|apply (un_new n _ []); [intros []|discriminate]].
    + destruct (str_eqb n q) eqn:E.
      * apply str_eqb_eq in E. subst q. apply (un_old n ks []). intros [].
      * apply str_eqb_neq in E. generalize dependent (add_path n ks p). intros r IH. inversion IH as [p1 old1 p2 H1 H2 H3|p0 H1 H2 H3 H4|p0 H1 H2 H3 H4].
        -- apply (un_old n ks ((q, old) :: p1)). cbn [map fst]. intros [K|K]; [congruence|contradiction].
        -- apply (un_new n ks ((q, old) :: p)); [|assumption]. cbn [map fst]. intros [K|K]; [congruence|contradiction].
        -- apply un_none; [|assumption]. cbn [map fst]. intros [K|K]; [congruence|contradiction].
  - assert (N : forall p, ~ In n (map fst p) -> forall r, add_path n ks (p ++ r) = p ++ add_path n ks r).
    { intros p0. induction p0 as [|[q old] p0 IH]; intros H r; [reflexivity|]. cbn [app add_path]. cbn [map fst] in H. rewrite (proj2 (str_eqb_neq n q)); [|intros ->; apply H; now left]. rewrite IH; [reflexivity|]. intros K. apply H. now right. }
    destruct 1 as [p1 old p2 H|p H K|p H K].
    + rewrite N by exact H. cbn [add_path]. now rewrite str_eqb_refl.
    + rewrite <- (app_nil_r p) at 1. rewrite N by exact H. cbn [add_path]. now destruct ks.
    + rewrite <- (app_nil_r p) at 1. rewrite N by exact H. subst ks. cbn [add_path]. apply app_nil_r.
Qed.
Lemma str_keys_iff d ks : Load.str_keys d = Ok ks <-> map fst d = map KS ks.
Proof.
  unfold Load.str_keys. revert ks. induction d as [|[k v] d IH]; intros ks; cbn [rmap map fst].
  - split; [intros K; injection K as <-; reflexivity|]. now destruct ks.
  - split.
    + intros K. destruct k as [s| | ]; try discriminate. cbn [rbind] in K. destruct (rmap _ d) as [l|] eqn:E; [|discriminate]. cbn [rbind] in K. injection K as <-. cbn [map]. now rewrite (proj1 (IH l) eq_refl).
    + intros K. destruct ks as [|s ks]; [discriminate|]. cbn [map] in K. assert (K1 : k = KS s) by congruence. assert (K2 : map fst d = map KS ks) by congruence. subst k. cbn [rbind]. rewrite (proj2 (IH ks) K2). reflexivity.
Qed.
Theorem vars_iff es v p v' p' : rfold (parse_vars w) es (v, p) = Ok (v', p') <-> vars_read w es v p v' p'.
Proof.
  revert v p. induction es as [|e es IH]; intros v p; cbn [rfold].
  - split; [intros K; injection K as <- <-; constructor|intros K; now inversion K].
  - unfold parse_vars at 1. change (attr (e_attrs e) $"name") with (attribute_of (e_attrs e) "name"). split.
    + intros K. destruct (load_struct w (e_text e) (e_attrs e)) as [o|] eqn:L; [|discriminate]. apply struct_iff in L. cbn [rbind] in K.
      match type of K with rbind (rbind ?x _) _ = _ => destruct x as [v1|] eqn:V end; [|discriminate]. cbn [rbind] in K.
      assert (A : adds_vars o v v1).
      { assert (G : forall x, (forall d, x <> VDict d) -> (if truthy x then out_of_model else Ok v) = Ok v1 -> adds_vars (Some x) v v1).
        { intros x Hx Q. destruct (truthy x) eqn:T; [discriminate|]. injection Q as <-. right. split; [right; exists x; now repeat split|reflexivity]. }
        destruct o as [x|]; [|right; split; [now left|congruence]]. destruct x as [| | | | |d|]; try (apply G; [discriminate|exact V]). left. exists d. split; [reflexivity|congruence]. }
      destruct (attribute_of (e_attrs e) "name") as [n|] eqn:N.
      * destruct o as [[| | | | |d|]|]; try discriminate. destruct (Load.str_keys d) as [ks|] eqn:S; [|discriminate]. cbn [rbind] in K. apply str_keys_iff in S. apply IH in K.
        eapply vr_tag; [exact L|exact A| |exact K]. rewrite N. right. exists n, d, ks. repeat (split; [assumption || reflexivity|]). now apply under_iff.
      * cbn [rbind] in K. apply IH in K. eapply vr_tag; [exact L|exact A| |exact K]. rewrite N. left. now split.
    + intros K. inversion K as [|e0 es0 o v0 p0 v1 p1 v2 p2 L A N R]; subst. apply struct_iff in L. rewrite L. cbn [rbind].
      assert (V : (match o with Some (VDict d) => Ok (dupdate v d) | Some x => if truthy x then out_of_model else Ok v | None => Ok v end) = Ok v1).
      { destruct A as [(d & -> & ->)|[[->|(x & -> & Hx & T)] ->]]; [reflexivity|reflexivity|]. destruct x; try (now rewrite T). now elim (Hx d). }
      rewrite V. cbn [rbind]. apply IH in R. destruct N as [[-> ->]|(n & d & ks & -> & -> & S & U)]; [exact R|]. apply str_keys_iff in S. rewrite S. cbn [rbind]. apply under_iff in U. now rewrite U.
Qed.
Theorem lookups_iff es d d' : rfold (parse_lookup w) es d = Ok d' <-> lookups_read w es d d'.
Proof.
  revert d. induction es as [|e es IH]; intros d; cbn [rfold].
  - split; [intros K; injection K as <-; constructor|intros K; now inversion K].
  - unfold parse_lookup at 1. change (attr (e_attrs e) $"name") with (attribute_of (e_attrs e) "name").
    assert (G : str_eqb (lower (attr_or (e_attrs e) $"database" [])) $"geoip2" = false <-> forall b, attribute_of (e_attrs e) "database" = Some b -> lower b <> t_ "geoip2").
    { unfold attr_or. change (attr (e_attrs e) $"database") with (attribute_of (e_attrs e) "database"). destruct (attribute_of (e_attrs e) "database") as [b|].
      - rewrite str_eqb_neq. split; [intros H b' K; injection K as <-; exact H|intros H; now apply H].
      - split; [discriminate|reflexivity]. }
    split.
    + intros K. destruct (attribute_of (e_attrs e) "name") as [n|] eqn:N; [|cbn [rbind] in K; apply lr_unnamed; [exact N|now apply IH]].
      destruct (load_struct w (e_text e) (e_attrs e)) as [o|] eqn:L; [|discriminate]. apply struct_iff in L. cbn [rbind] in K. destruct o as [x|].
      * destruct (str_eqb (lower _) _) eqn:E; [discriminate|]. cbn [rbind] in K. eapply lr_table; [exact N|exact L|now apply G|now apply IH].
      * cbn [rbind] in K. eapply lr_nothing; [exact N|exact L|now apply IH].
    + intros K. inversion K as [|e0 es0 d0 d1 N R|e0 es0 n d0 d1 N L R|e0 es0 n x d0 d1 N L Hg R]; subst; rewrite N.
      * cbn [rbind]. now apply IH.
      * apply struct_iff in L. rewrite L. cbn [rbind]. now apply IH.
      * apply struct_iff in L. rewrite L. cbn [rbind]. rewrite (proj2 G Hg). cbn [rbind]. now apply IH.
Qed.
Lemma computed_iff kv : is_vf (snd kv) = true <-> computed kv.
Proof.
  unfold is_vf, computed. destruct (snd kv) as [| | | s | | |]; try (split; [discriminate|intros (x & K & _); discriminate]).
  transitivity (word_in s variable_words); [apply (in_strs_b s variable_names)|]. split; [intros H; exists s; now split|intros (x & K & H); now injection K as <-].
Qed.
Lemma vfs_iff vars plain vfs : (plain_vars vars = plain /\ var_functions vars = vfs) <->
  sublist (fun kv => ~ computed kv) vars plain /\ exists fns, sublist computed vars fns /\ Forall2 (fun (kv : key * val) (nf : key * str) => fst kv = fst nf /\ snd kv = VStr (snd nf)) fns vfs.
Proof.
  assert (P : sublist (fun kv => ~ computed kv) vars plain <-> plain_vars vars = plain).
  { apply sublist_filter. intros x _. rewrite <- computed_iff. destruct (is_vf (snd x)); cbn [negb]; intuition congruence. }
  assert (Q : (exists fns, sublist computed vars fns /\ Forall2 (fun (kv : key * val) (nf : key * str) => fst kv = fst nf /\ snd kv = VStr (snd nf)) fns vfs) <-> var_functions vars = vfs); [|rewrite P, Q; tauto].
  assert (S : forall fns, sublist computed vars fns <-> filter (fun kv => is_vf (snd kv)) vars = fns) by (intros fns; apply sublist_filter; intros x _; apply computed_iff).
  transitivity (Forall2 (fun (kv : key * val) (nf : key * str) => fst kv = fst nf /\ snd kv = VStr (snd nf)) (filter (fun kv => is_vf (snd kv)) vars) vfs).
  - split; [intros (fns & H & F); apply S in H; now subst fns|intros F; eexists; split; [now apply S|exact F]].
  - clear P S. unfold var_functions. revert vfs. induction vars as [|[k v] vars IH]; intros vfs; cbn [filter flat_map fst snd]; [split; [intros H; now inversion H|intros <-; constructor]|].
    unfold is_vf at 1. destruct v as [| | | s | | |]; try apply IH. destruct (in_strs s variable_names) eqn:E; [|apply IH]. cbn [app]. split.
    + intros H. inversion H as [|kv nf l l' [H1 H2] H3]; subst. cbn [fst snd] in *. apply IH in H3. rewrite H3. destruct nf as [a b]. cbn [fst snd] in *. congruence.
    + intros <-. constructor; [now split|now apply IH].
Qed.
Lemma known_iff gs tgs gos : length tgs = length gos /\ Forall2 (fun ig to => group_known ig (fst to) (snd to)) (numbered gs) (combine tgs gos) <-> map tgroup_of (Load.number 0 gs) = tgs /\ map group_outs gs = gos.
Proof.
  rewrite number_numbered. assert (K : forall ig (to : tgroup * list str), group_known ig (fst to) (snd to) <-> (tgroup_of ig, group_outs (snd ig)) = to).
  { intros [i g] [t o]. unfold group_known. cbn [fst snd]. destruct g as [id par p a fs s ks]. unfold tgroup_of, group_outs. cbn [fst snd]. split.
    - intros (id' & par' & p' & a' & fs' & s' & ks' & E & -> & ->). injection E as <- <- <- <- <- <- <-. reflexivity.
    - intros E. injection E as <- <-. exists id, par, p, a, fs, s, ks. now repeat split. }
  assert (S : map snd (numbered gs) = gs) by (unfold numbered; generalize 0; induction gs as [|g gs IH]; intros n; cbn [length seq combine map snd]; [reflexivity|now rewrite IH]).
  assert (X : map group_outs gs = map (fun ig => group_outs (snd ig)) (numbered gs)) by (rewrite <- (map_map snd group_outs), S; reflexivity).
  rewrite (f2_map _ (fun ig => (tgroup_of ig, group_outs (snd ig)))); [|exact K]. split.
  - intros (L & E). split.
    + transitivity (map fst (combine tgs gos)); [rewrite <- E, map_map; reflexivity|]. clear E S X. revert gos L. induction tgs as [|t tgs IH]; intros [|o gos] L; try discriminate; [reflexivity|]. cbn [combine map fst]. rewrite IH; [reflexivity|now injection L].
    + transitivity (map snd (combine tgs gos)); [rewrite <- E, map_map; exact X|]. clear E S X. revert gos L. induction tgs as [|t tgs IH]; intros [|o gos] L; try discriminate; [reflexivity|]. cbn [combine map snd]. rewrite IH; [reflexivity|now injection L].
  - intros (<- & <-). rewrite !map_length. split; [unfold numbered; rewrite combine_length, seq_length; lia|].
    rewrite X. generalize (numbered gs). intros l. induction l as [|x l IH]; [reflexivity|]. cbn [map combine]. now rewrite IH.
Qed.
Theorem template_iff base kid ttp_vars name e kids t :
  load_tree w order base kid ttp_vars name e = Ok (kids, t) <-> template_from w order (fun b i c k => kid b i c = Ok k) base ttp_vars name e kids t.
Proof.
  unfold load_tree. split.
  - intros K. destruct (rfold (collect_tag w) (e_children e) []) as [ms|] eqn:M; [|discriminate]. cbn [rbind] in K. apply collects_iff in M.
    destruct (rmapi _ _ _) as [ks|] eqn:R; [|discriminate]. cbn [rbind] in K. apply rmapi_iff in R.
    destruct (rfold (parse_vars w) _ _) as [[vars v2r]|] eqn:V; [|discriminate]. cbn [rbind] in K. apply vars_iff in V.
    destruct (rmap (tag_output w) _) as [outs|] eqn:O; [|discriminate]. cbn [rbind] in K. apply rmap_Forall2 in O.
    destruct (rfold (parse_lookup w) _ _) as [lks|] eqn:L; [|discriminate]. cbn [rbind] in K. apply lookups_iff in L.
    destruct (compile_all _ _ _ _ _) as [gs|] eqn:G; [|discriminate]. cbn [rbind] in K. apply groups_exact in G.
    destruct (template_inputs _ _ _ _ _) as [ins|] eqn:I; [|discriminate]. cbn [rbind] in K. apply inputs_iff in I.
    destruct (group_outputs output_name (map group_outs gs) outs) as [gouts glob] eqn:GO. injection K as <- <-.
    destruct (proj1 (vfs_iff vars _ _) (conj eq_refl eq_refl)) as (P & fns & F1 & F2).
    destruct (proj2 (known_iff gs _ _) (conj eq_refl eq_refl)) as (KL & KN).
    eapply (tf_made w order (fun b i c k => kid b i c = Ok k) base ttp_vars name e ks (attr_or (e_attrs e) (t_ "base_path") base) ms _ _ _ _ _ _ vars v2r outs lks
      (attr_or (e_attrs e) (t_ "pathchar") (t_ ".")) gs _ _ ins gouts glob (attr_or (e_attrs e) (t_ "name") name) (attr_or (e_attrs e) (t_ "results") (t_ "per_input"))).
    + now apply attribute_or_iff'.
    + now apply attribute_or_iff'.
    + now apply attribute_or_iff'.
    + now apply attribute_or_iff'.
    + exact M.
    + now apply tags_iff.
    + exact R.
    + now apply tags_iff.
    + exact V.
    + now apply tags_iff.
    + eapply Forall2_imp; [|exact O]. intros a b H. now apply OutputTagFacts.tag_iff.
    + now apply tags_iff.
    + exact L.
    + now apply tags_iff.
    + exact G.
    + exact KN.
    + exact KL.
    + now apply tags_iff.
    + exact I.
    + exact GO.
    + exact P.
    + exact F1.
    + exact F2.
  - intros K. destruct K as [base1 ms ts vs os ls gs is vars v2r outs lookups pc groups tgs gos ins gouts glob nm method plain vfs fns A1 A2 A3 A4 M Ht R Hv V Ho O Hl L Hg G KN KL Hi I GO P F1 F2].
    apply attribute_or_iff' in A1, A2, A3, A4. apply tags_iff in Ht, Hv, Ho, Hl, Hg, Hi. apply collects_iff in M. rewrite M. cbn [rbind].
    apply (rmapi_iff (kid base1)) in R. 
    change (attr_or (e_attrs e) $"base_path" base) with (attr_or (e_attrs e) (t_ "base_path") base). rewrite A1.
    change (tagged [$"template"]) with (tagged (map t_ ["template"])). rewrite Ht, R. cbn [rbind].
    change (tagged vars_tags) with (tagged (map t_ ["v"; "vars"; "variables"])). rewrite Hv. apply vars_iff in V. rewrite V. cbn [rbind].
    change (tagged output_tags) with (tagged (map t_ ["o"; "out"; "output"])). rewrite Ho.
    rewrite (proj2 (rmap_Forall2 (tag_output w) os outs)) by (eapply Forall2_imp; [|exact O]; intros a b H; now apply OutputTagFacts.tag_iff). cbn [rbind].
    change (tagged [$"lookup"]) with (tagged (map t_ ["lookup"])). rewrite Hl. apply lookups_iff in L. rewrite L. cbn [rbind].
    change (attr_or (e_attrs e) $"pathchar" $".") with (attr_or (e_attrs e) (t_ "pathchar") (t_ ".")). rewrite A2.
    change (tagged group_tags) with (tagged (map t_ ["g"; "grp"; "group"])). rewrite Hg.
    apply groups_exact in G. change (group_names [] (VDict []) [] (VDict []) (VList []) false) with (map t_ group_words). rewrite G. cbn [rbind].
    change (tagged input_tags) with (tagged (map t_ ["i"; "in"; "input"])). rewrite Hi.
    destruct (proj1 (known_iff groups tgs gos) (conj KL KN)) as [T1 T2]. rewrite T1, T2. apply inputs_iff in I. rewrite I. cbn [rbind]. rewrite GO.
    change (attr_or (e_attrs e) $"name" name) with (attr_or (e_attrs e) (t_ "name") name). rewrite A3.
    change (attr_or (e_attrs e) $"results" $"per_input") with (attr_or (e_attrs e) (t_ "results") (t_ "per_input")). rewrite A4.
    destruct (proj2 (vfs_iff vars plain vfs) (conj P (ex_intro _ fns (conj F1 F2)))) as [E1 E2]. now rewrite E1, E2.
Qed.
Lemma template_from_imp (R R' : str -> nat -> elem -> tpl -> Prop) base ttp_vars name e kids t : (forall b i c k, R b i c k -> R' b i c k) ->
  template_from w order R base ttp_vars name e kids t -> template_from w order R' base ttp_vars name e kids t.
Proof.
  intros H K. destruct K as [base1 ms ts vs os ls gs is vars v2r outs lookups pc groups tgs gos ins gouts glob nm method plain vfs fns A1 A2 A3 A4 M Ht R1 Hv V Ho O Hl L Hg G KN KL Hi I GO P F1 F2].
  eapply (tf_made w order R' base ttp_vars name e kids base1 ms ts); try eassumption. eapply Forall2_imp; [|exact R1]. intros a b. apply H.
Qed.
Theorem child_iff n ttp_vars base i c t : load_child w order n base ttp_vars i c = Ok t <-> child_from w order n ttp_vars base i c t.
Proof.
  revert base i c t. induction n as [|n IH]; intros base i c t; cbn [load_child child_from]; [split; [discriminate|intros []]|].
  assert (S : py_str (VInt (Z.of_nat i)) = str_of_N (N.of_nat i)) by (destruct i; reflexivity). split.
  - intros K. destruct (child_tree w c) as [e|] eqn:C; [|discriminate]. cbn [rbind] in K. destruct (load_tree _ _ _ _ _ _ _) as [[kids t']|] eqn:L; [|discriminate]. cbn [rbind] in K. injection K as <-.
    apply template_iff in L. exists e, kids, (str_of_N (N.of_nat i)). split; [now apply child_tree_iff|]. split; [exact S|]. eapply template_from_imp; [|exact L]. cbn beta. intros b j d k H. now apply IH.
  - intros (e & kids & s & C & E & K). rewrite S in E. subst s. apply child_tree_iff in C. rewrite C. cbn [rbind].
    assert (L : load_tree w order base (fun b => load_child w order n b ttp_vars) ttp_vars (str_of_N (N.of_nat i)) e = Ok (kids, t)).
    { apply template_iff. eapply template_from_imp; [|exact K]. intros b j d k H. now apply IH. }
    now rewrite L.
Qed.
Theorem load_iff base ttp_vars text ts : load_template w order base ttp_vars text = Ok ts <-> template_is w order base ttp_vars text ts.
Proof.
  unfold load_template, template_is. split.
  - intros K. destruct (template_tree w text) as [e|] eqn:C; [|discriminate]. cbn [rbind] in K. destruct (load_tree _ _ _ _ _ _ _) as [[kids t]|] eqn:L; [|discriminate]. cbn [rbind] in K.
    apply template_iff in L. exists e, kids, t. split; [now apply tree_iff|]. split; [eapply template_from_imp; [|exact L]; cbn beta; intros b j d k H; now apply child_iff|].
    destruct kids; injection K as <-; [now left|right; split; [discriminate|reflexivity]].
  - intros (e & kids & t & C & K & H). apply tree_iff in C. rewrite C. cbn [rbind].
    assert (L : load_tree w order base (fun b => load_child w order (S (length text)) b ttp_vars) ttp_vars $"_root_template_" e = Ok (kids, t)).
    { apply template_iff. eapply template_from_imp; [|exact K]. intros b j d k X. now apply child_iff. }
    rewrite L. cbn [rbind]. destruct H as [[-> ->]|[N ->]]; [reflexivity|]. now destruct kids.
Qed.
End W.
