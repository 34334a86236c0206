(** * LineRegex: a template line's expression matches exactly the lines it describes *)
From Coq Require Import Sorting.Permutation.
From Verif Require Import PyBase DictFacts Regex SpecRegex RegexFacts Template FormRegex SpecLine SpecForm StrFacts ReadFacts LitFacts LineFacts.
Local Open Scope string_scope.
Local Open Scope list_scope.

Definition piece_res (xs xd : bool) (p : piece) : list re :=
  match p with
  | PLit l => lit_res xs xd l
  | PVar (Some n) rs => [RGroup n (alts_re rs)]
  | PVar None [r] => [r]
  | PVar None rs => [alts_re rs]
  end.

Lemma nd_join res : Forall (fun t => containsb $"{{" t = false) res -> forall a, nd opn (a ++ $"(?:") -> nd opn (a ++ $"(?:" ++ join $")|(?:" res ++ $"))").
Proof.
  intros H a Ha. rewrite app_assoc. apply nd_app; [exact Ha|]. clear a Ha. induction H as [|t res Ht HF IH]; [reflexivity|].
  assert (K : forall b, nd opn (")"%char :: b) -> nd opn (t ++ ")"%char :: b)).
  { intros b Hb. unfold nd in *. rewrite <- app_assoc. cbn [app]. apply (contains_app opn t); [exact Ht|exact Hb|discriminate]. }
  destruct res as [|t2 res]; [apply (K $")"); reflexivity|]. rewrite join_cons, <- !app_assoc.
  apply (K ($"|(?:" ++ join $")|(?:" (t2 :: res) ++ $"))")). change (")"%char :: $"|(?:" ++ ?x) with ($")|(?:" ++ x). apply nd_app; [reflexivity|exact IH].
Qed.
Lemma word_not_opn n : Forall (fun c => is_word c = true) n -> nd opn n.
Proof. intros H. apply nd_all. eapply Forall_impl; [|exact H]. intros c Hc ->. discriminate. Qed.
Lemma forall2_regex res rs : Forall2 regex_of res rs ->
  Forall2 (fun t r => re_compile t = Some r /\ re_groups t = []) res rs /\ Forall (fun t => containsb $"{{" t = false) res /\ Forall groupless rs.
Proof.
  induction 1 as [|t r res rs (H1 & H2 & H3) _ (I1 & I2 & I3)]; [repeat constructor|].
  split; [|split]; constructor; auto. eapply compile_groupless; eassumption.
Qed.
Lemma emits_word_or t r : regex_of t r -> emits ($"(?:" ++ t ++ $")") [] [r] /\ nd opn ($"(?:" ++ t ++ $")") /\ ends_blank ($"(?:" ++ t ++ $")") = false.
Proof.
  intros (H1 & H2 & H3). split; [now apply emits_non|]. split.
  - apply nd_app; [reflexivity|]. unfold nd. rewrite <- app_assoc. apply contains_app; [exact H3|reflexivity|discriminate].
  - rewrite app_assoc. apply ends_blank_last. discriminate.
Qed.
Lemma var_source_nd i rs : vi_name i <> [] -> Forall (fun c => is_word c = true) (vi_name i) ->
  Forall2 regex_of (match vi_res i with [] => [$"\S+"] | l => l end) rs ->
  nd opn (var_source i) /\ (forall a, ends_blank (a ++ var_source i) = false) /\ emits (var_source i) [vi_name i] [RGroup (vi_name i) (alts_re rs)].
Proof.
  intros Hn Hw HF. apply forall2_regex in HF as (HF & Hb & _). split; [|split].
  - unfold var_source. apply nd_app; [reflexivity|]. apply nd_app; [now apply word_not_opn|].
    change $">(?:" with ($">" ++ $"(?:"). rewrite <- app_assoc. apply (nd_join _ Hb $">"). reflexivity.
  - intros a. unfold var_source. change $"))" with ($")" ++ [")"%char]). rewrite !app_assoc. apply ends_blank_last. discriminate.
  - unfold var_source. apply emits_named; try assumption. destruct (vi_res i); discriminate.
Qed.

Lemma emits_app0' a b ns ps qs : emits a [] ps -> emits b ns qs -> emits (a ++ b) ns (ps ++ qs).
Proof. apply (emits_app a b [] ns). intros n []. Qed.

(** a group name already in use *)
Definition clashes (src : str) (ns : list str) : Prop :=
  forall s, p_mode s = MNormal -> ~ NoDup (ns ++ p_names s) -> NoDup (p_names s) -> prun src s = None.
Lemma clashes_nil src : clashes src [].
Proof. intros s _ H1 H2. now destruct H1. Qed.
Lemma clashes_app0 a b ms ps : emits a [] ps -> clashes b ms -> clashes (a ++ b) ms.
Proof.
  intros Ha Hb s Hm H1 H2. rewrite prun_app. destruct (Ha s Hm) as [q E]; [intros n []|]. rewrite E. apply Hb; [reflexivity|exact H1|exact H2].
Qed.
Lemma prun_named_clash n X s : Forall (fun c => is_word c = true) n -> p_mode s = MNormal -> In n (p_names s) -> prun ($"(?P<" ++ n ++ ">"%char :: X) s = None.
Proof.
  intros Hw Hm Hin. destruct s as [m q b0 al st ns]. cbn [p_mode p_names] in *. subst m. rewrite prun_app. set (s1 := prun $"(?P<" _).
  assert (E1 : s1 = Some {| p_mode := MName []; p_q := q; p_branch := b0; p_alts := al; p_stack := st; p_names := ns |}) by reflexivity.
  rewrite E1, prun_app, (prun_name n Hw). rewrite app_nil_r. cbn [prun]. unfold pstep. cbn [p_mode]. change (is_ch ">" ">") with true. cbn iota.
  destruct (rev n) eqn:Er; [reflexivity|]. rewrite <- Er, rev_involutive. cbn [p_names]. assert (E : in_strs n ns = true). { apply existsb_exists. exists n. split; [exact Hin|apply str_eqb_refl]. }
  now rewrite E.
Qed.

Section F.
Variable info : str -> vinfo.
Variable line : str.
Notation xs := (exact_space_of line).
Notation xd := (exact_of line).
Notation step := (fun r v => form_regex (info v) v line r).

Lemma form_none : forall vs R, R <> [] -> containsb [opn; opn] R = false -> fold_left step vs R = R.
Proof.
  induction vs as [|v vs IH]; intros R Hne Hn; [reflexivity|]. cbn [fold_left].
  assert (E : form_regex (info v) v line R = R); [|rewrite E; now apply IH].
  unfold form_regex. destruct R as [|c R]; [congruence|].
  assert (D : delete_var v (c :: R) = c :: R) by (unfold delete_var; now rewrite find_none).
  destruct (str_eqb (vi_name (info v)) $"ignore").
  - rewrite replace_none by exact Hn. destruct (vi_set (info v)); [exact D|reflexivity].
  - destruct (in_strs _ _); rewrite ?D; destruct (vi_set (info v)); rewrite ?D; apply replace_none, Hn.
Qed.
Lemma tail_head : match tail_src with c :: _ => c <> opn | [] => True end.
Proof. discriminate. Qed.
Lemma form_fold l parts q : line_pieces info xs l parts q -> cut l parts -> forall pre, pre <> [] -> nd opn pre -> ends_blank pre = false ->
  exists src, fold_left step (map fst parts) (pre ++ esc_body xs xd l parts ++ tail_src) = pre ++ src ++ tail_src /\
  (NoDup (names_of q) -> emits src (names_of q) (flat_map (piece_res xs xd) q)) /\ clashes src (names_of q).
Proof.
  induction 1 as [l|l v l2 ps Hd|l v l2 ps r q Hi Hs Hr Hq IH|l v l2 ps rs q Hi Hd Hne Hw HF Hq IH]; intros HC pre Hpre Hp He.
  - cbn [map fst fold_left esc_body]. exists (lit_source xs xd l). rewrite app_nil_r. split; [reflexivity|]. cbn [names_of flat_map piece_res]. rewrite !app_nil_r. split; [intros _; apply emits_lit|apply clashes_nil].
  - destruct HC as (H1 & H2 & H3). cbn [map fst fold_left esc_body]. exists (lit_source xs xd (chop xs l)).
    split. 2:{ cbn [names_of flat_map piece_res]. rewrite !app_nil_r. split; [intros _; apply emits_lit|apply clashes_nil]. }
    set (done := pre ++ lit_source xs xd l). assert (Hdn : nd opn done) by (apply nd_app; [exact Hp|now apply nd_lit_source]).
    replace (pre ++ (lit_source xs xd l ++ brace v ++ esc_body xs xd l2 ps) ++ tail_src) with (done ++ brace v ++ esc_body xs xd l2 ps ++ tail_src) by (unfold done; now rewrite <- !app_assoc).
    set (R := pre ++ lit_source xs xd (chop xs l) ++ tail_src).
    assert (E1 : delete_var v (done ++ brace v ++ esc_body xs xd l2 ps ++ tail_src) = R).
    { unfold delete_var. rewrite find_brace by exact Hdn. rewrite firstn_app, Nat.sub_diag, firstn_all, firstn_O, app_nil_r. unfold done. rewrite strip_lit by exact He. unfold R. now rewrite app_assoc. }
    assert (HR : containsb [opn; opn] R = false).
    { unfold R. rewrite app_assoc. apply contains_app; [|reflexivity|discriminate]. apply nd_contains in Hdn. unfold done in Hdn.
      rewrite <- (strip_lit xs xd pre l He). unfold strip_blank_src. destruct (prefixb _ _); [|exact Hdn].
      rewrite <- (firstn_skipn (length (pre ++ lit_source xs xd l) - length blank_src) (pre ++ lit_source xs xd l)) in Hdn. now apply contains_prefix in Hdn. }
    assert (HR0 : R <> []) by (unfold R; destruct pre; [congruence|discriminate]).
    assert (E : form_regex (info v) v line (done ++ brace v ++ esc_body xs xd l2 ps ++ tail_src) = R).
    { unfold form_regex. destruct (done ++ brace v ++ esc_body xs xd l2 ps ++ tail_src) as [|c0 R0] eqn:E0.
      { exfalso. unfold done in E0. destruct pre; [congruence|discriminate]. }
      unfold deletes in Hd. apply Bool.andb_true_iff in Hd as [Hg Hd]. apply Bool.negb_true_iff in Hg. rewrite Hg. apply Bool.orb_true_iff in Hd.
      assert (D : delete_var v R = R) by (unfold delete_var; now rewrite find_none).
      destruct (in_strs (vi_name (info v)) [$"_start_"; $"_end_"]); [rewrite E1; destruct (vi_set (info v)); rewrite ?D; now apply replace_none|].
      destruct Hd as [Hd|Hd]; [discriminate|]. rewrite Hd, E1. now apply replace_none. }
    rewrite E. now apply form_none.
  - destruct HC as (H1 & H2 & H3). cbn [map fst fold_left esc_body].
    set (done := pre ++ lit_source xs xd l). assert (Hdn : nd opn done) by (apply nd_app; [exact Hp|now apply nd_lit_source]).
    replace (pre ++ (lit_source xs xd l ++ brace v ++ esc_body xs xd l2 ps) ++ tail_src) with (done ++ brace v ++ esc_body xs xd l2 ps ++ tail_src) by (unfold done; now rewrite <- !app_assoc).
    set (src1 := match vi_ignore (info v) with None => word_src | Some p => $"(?:" ++ p ++ $")" end).
    assert (E : form_regex (info v) v line (done ++ brace v ++ esc_body xs xd l2 ps ++ tail_src) = (done ++ src1) ++ esc_body xs xd l2 ps ++ tail_src).
    { unfold form_regex. destruct (done ++ brace v ++ esc_body xs xd l2 ps ++ tail_src) as [|c0 R0] eqn:E0.
      { exfalso. unfold done in E0. destruct pre; [congruence|discriminate]. }
      rewrite Hi. change (str_eqb $"ignore" $"ignore") with true. rewrite <- E0, replace_at by exact Hdn. rewrite Hs. now rewrite <- app_assoc. }
    rewrite E.
    assert (Hsrc : emits src1 [] [r] /\ nd opn src1 /\ (forall a, ends_blank (a ++ src1) = false)).
    { unfold src1. destruct (vi_ignore (info v)) as [p|].
      - destruct (emits_word_or p r Hr) as (A1 & A2 & A3). split; [|split; [exact A2|]].
        + intros s Hm Hn. destruct (A1 s Hm Hn) as [q0 A]. exact (ex_intro _ q0 A).
        + intros a. rewrite !app_assoc. apply ends_blank_last. discriminate.
      - subst r. split; [|split].
        + exact emits_word.
        + reflexivity.
        + intros a. change word_src with ([bs] ++ ["S"%char; "+"%char]). rewrite app_assoc. apply ends_blank_last2. discriminate. }
    destruct Hsrc as (Em & Hnd & Heb).
    destruct (IH H3 (done ++ src1)) as (src & E2 & Em2 & Ec2).
    { unfold done. destruct pre; [congruence|discriminate]. }
    { now apply nd_app. }
    { apply Heb. }
    exists (lit_source xs xd l ++ src1 ++ src). rewrite E2. split; [unfold done; now rewrite <- !app_assoc|].
    cbn [names_of flat_map app piece_res]. fold (names_of q).
    split.
    + intros HN. apply (emits_app0' _ _ (names_of q)); [apply emits_lit|]. apply (emits_app0' _ _ (names_of q) [_]); [exact Em|exact (Em2 HN)].
    + apply (clashes_app0 _ _ _ _ (emits_lit _ _ _)). apply (clashes_app0 _ _ _ _ Em). exact Ec2.
  - destruct HC as (H1 & H2 & H3). cbn [map fst fold_left esc_body].
    set (done := pre ++ lit_source xs xd l). assert (Hdn : nd opn done) by (apply nd_app; [exact Hp|now apply nd_lit_source]).
    replace (pre ++ (lit_source xs xd l ++ brace v ++ esc_body xs xd l2 ps) ++ tail_src) with (done ++ brace v ++ esc_body xs xd l2 ps ++ tail_src) by (unfold done; now rewrite <- !app_assoc).
    set (src1 := var_source (info v)).
    assert (E : form_regex (info v) v line (done ++ brace v ++ esc_body xs xd l2 ps ++ tail_src) = (done ++ src1) ++ esc_body xs xd l2 ps ++ tail_src).
    { unfold form_regex. destruct (done ++ brace v ++ esc_body xs xd l2 ps ++ tail_src) as [|c0 R0] eqn:E0.
      { exfalso. unfold done in E0. destruct pre; [congruence|discriminate]. }
      apply str_eqb_neq in Hi. unfold deletes in Hd. rewrite Hi in *. cbn [negb andb] in Hd. apply Bool.orb_false_iff in Hd as [-> ->].
      rewrite <- E0, replace_at by exact Hdn. now rewrite <- app_assoc. }
    rewrite E. destruct (var_source_nd (info v) rs Hne Hw HF) as (Hnd & Heb & Em). fold src1 in Hnd, Heb, Em.
    destruct (IH H3 (done ++ src1)) as (src & E2 & Em2 & Ec2).
    { unfold done. destruct pre; [congruence|discriminate]. }
    { now apply nd_app. }
    { apply Heb. }
    exists (lit_source xs xd l ++ src1 ++ src). rewrite E2. split; [unfold done; now rewrite <- !app_assoc|].
    cbn [names_of flat_map app piece_res]. fold (names_of q).
    split.
    + intros HN. inversion HN as [|? ? Hni HN']; subst. apply (emits_app0' _ _ (vi_name (info v) :: names_of q)); [apply emits_lit|].
      apply (emits_app src1 src [vi_name (info v)] (names_of q) [_]); [|exact Em|exact (Em2 HN')]. intros n [<-|[]]. exact Hni.
    + apply (clashes_app0 _ _ _ _ (emits_lit _ _ _)).
      intros s Hm HN Hs. destruct (in_dec (list_eq_dec ascii_dec) (vi_name (info v)) (p_names s)) as [Hin|Hni].
      * unfold src1, var_source. rewrite <- !app_assoc. exact (prun_named_clash _ _ s Hw Hm Hin).
      * rewrite prun_app. destruct (Em s Hm) as [q0 E0]; [intros n [<-|[]]; exact Hni|]. rewrite E0. apply Ec2; [reflexivity| |].
        -- cbn [p_names rev app]. intros K. apply HN. cbn [app]. eapply Permutation_NoDup; [|exact K]. symmetry. apply Permutation_middle.
        -- cbn [p_names rev app]. now constructor.
Qed.
End F.

(** ** what the pieces match *)
Definition set_all (cs c : caps) : caps := fold_left (fun c nv => cap_set (fst nv) (snd nv) c) cs c.
Lemma rel_alts rs : rs <> [] -> forall s c s' c', rel (alts_re rs) s c s' c' <-> exists r, In r rs /\ rel r s c s' c'.
Proof.
  intros H0 s c s' c'. induction rs as [|r rs IH]; [congruence|]. destruct rs as [|r2 rs].
  - cbn [alts_re rel]. split.
    + intros (s1 & c1 & H & -> & ->). exists r. split; [now left|exact H].
    + intros (r' & [<-|[]] & H). eauto.
  - change (rel (alts_re (r :: r2 :: rs)) s c s' c') with (rel (RSeq r REps) s c s' c' \/ rel (alts_re (r2 :: rs)) s c s' c').
    rewrite IH by discriminate. cbn [rel]. split.
    + intros [(s1 & c1 & H & -> & ->)|(r' & Hi & H)]; [exists r; split; [now left|exact H]|exists r'; split; [now right|exact H]].
    + intros (r' & [<-|Hi] & H); [left; eauto|right; eauto].
Qed.
Definition fit (p : piece) : Prop := match p with PLit _ => True | PVar n rs => rs <> [] /\ Forall groupless rs end.
Lemma fit_pieces info xs l parts q : line_pieces info xs l parts q -> Forall fit q.
Proof.
  induction 1 as [l|l v l2 ps Hd|l v l2 ps r q Hi Hs Hr Hq IH|l v l2 ps rs q Hi Hd Hne Hw HF Hq IH].
  - repeat constructor.
  - repeat constructor.
  - constructor; [exact I|]. constructor; [|exact IH]. split; [discriminate|]. constructor; [|constructor].
    destruct (vi_ignore (info v)) as [p|]; [|subst; repeat split]. destruct Hr as (H1 & H2 & _). eapply compile_groupless; eassumption.
  - constructor; [exact I|]. constructor; [|exact IH]. split; [|now apply forall2_regex in HF].
    inversion HF; [|discriminate]. destruct (vi_res (info v)); discriminate.
Qed.
Lemma rels_pieces xs xd q : Forall fit q -> forall s c s' c',
  rels (flat_map (piece_res xs xd) q) s c s' c' <-> exists cs, reads xs xd q s s' cs /\ c' = set_all cs c.
Proof.
  induction 1 as [|p q Hp Hq IH]; intros s c s' c'.
  - cbn [flat_map fold_right rel]. split.
    + intros [-> ->]. exists []. split; [constructor|reflexivity].
    + intros (cs & H & ->). inversion H; subst. now split.
  - cbn [flat_map]. rewrite rels_app. destruct p as [l|n rs]; cbn [piece_res].
    + split.
      * intros (s1 & c1 & H1 & H2). apply rel_lit in H1 as (-> & t & -> & Ht). apply IH in H2 as (cs & H2 & ->). exists cs. split; [now constructor|reflexivity].
      * intros (cs & H & ->). inversion H as [|l0 ps t s0 s1 c0 Ht Hr|]; subst. exists s0, c. split; [apply rel_lit; eauto|]. apply IH. eauto.
    + destruct Hp as [Hne Hg]. rewrite Forall_forall in Hg.
      assert (K : forall s c s' c', rel (alts_re rs) s c s' c' <-> exists w r, In r rs /\ s = w ++ s' /\ c' = c /\ rel r (w ++ s') [] s' []).
      { clear - Hne Hg. intros s c s' c'. rewrite rel_alts by exact Hne. split.
        - intros (r & Hi & H). destruct (rel_suffix _ _ _ _ _ H) as [w ->]. apply (groupless_caps r (Hg r Hi)) in H as [-> H]. exists w, r. auto.
        - intros (w & r & Hi & -> & -> & H). exists r. split; [exact Hi|]. apply (groupless_caps r (Hg r Hi)) in H as [_ H]. apply H. }
      assert (V : forall s c s1 c1, rels (piece_res xs xd (PVar n rs)) s c s1 c1 <->
        exists w r, In r rs /\ s = w ++ s1 /\ rel r (w ++ s1) [] s1 [] /\ c1 = match n with Some x => cap_set x w c | None => c end).
      { clear IH s c s' c'. intros s c s1 c1. destruct n as [n|].
        - cbn [piece_res fold_right rel]. split.
          + intros (s2 & c2 & (c3 & w & H & -> & ->) & -> & ->). apply K in H as (w' & r & Hi & E & -> & H). apply app_inv_tail in E. subst w'. exists w, r. auto.
          + intros (w & r & Hi & -> & H & ->). exists s1, (cap_set n w c). split; [|now split]. exists c, w. split; [|now split]. apply K. exists w, r. auto.
        - assert (E : rels (piece_res xs xd (PVar None rs)) s c s1 c1 <-> rel (alts_re rs) s c s1 c1).
          { destruct rs as [|r [|r2 rs]]; [congruence|reflexivity|]. cbn [piece_res fold_right]. cbn [rel]. split; [intros (s2 & c2 & H & -> & ->); exact H|intros H; exists s1, c1; now split]. }
          rewrite E, K. split; [intros (w & r & Hi & -> & -> & H); exists w, r; auto|intros (w & r & Hi & -> & H & ->); exists w, r; auto]. }
      split.
      * intros (s1 & c1 & H1 & H2). apply V in H1 as (w & r & Hi & -> & H1 & ->). apply IH in H2 as (cs & H2 & ->).
        eexists. split; [eapply rd_var; eassumption|]. now destruct n.
      * intros (cs & H & ->). inversion H as [| |n0 alts r ps w s0 s1 c0 Hi Hr Hrd]; subst. exists s0, (match n with Some x => cap_set x w c | None => c end).
        split; [apply V; exists w, r; auto|]. apply IH. exists c0. split; [exact Hrd|]. now destruct n.
Qed.
Lemma cap_set_new n v c : ~ In n (map fst c) -> cap_set n v c = c ++ [(n, v)].
Proof.
  induction c as [|[m w] c IH]; intros H; [reflexivity|]. cbn [cap_set app]. destruct (str_eqb n m) eqn:E.
  - apply str_eqb_eq in E. subst. exfalso. apply H. now left.
  - rewrite IH; [reflexivity|]. intros K. apply H. now right.
Qed.
Lemma set_all_new cs : forall c, NoDup (map fst c ++ map fst cs) -> set_all cs c = c ++ cs.
Proof.
  induction cs as [|[n v] cs IH]; intros c H; [now rewrite app_nil_r|]. cbn [set_all fold_left fst snd]. cbn [map fst] in H.
  rewrite cap_set_new. 2:{ apply NoDup_remove_2 in H. intros K. apply H. apply in_or_app. now left. }
  change (set_all cs (c ++ [(n, v)]) = c ++ (n, v) :: cs). rewrite IH; [now rewrite <- app_assoc|]. rewrite map_app. cbn [map fst]. now rewrite <- app_assoc.
Qed.
Lemma reads_names xs xd q s s' cs : reads xs xd q s s' cs -> map fst cs = names_of q.
Proof. induction 1 as [| |n alts r ps w s s' c Hi Hr Hd IH]; [reflexivity|assumption|]. destruct n as [n|]; cbn [names_of flat_map app map fst]; rewrite IH; reflexivity. Qed.

Lemma rel_tail s c s' c' : rels tail_res s c s' c' <-> c' = c /\ exists b, s = b ++ s' /\ Forall (fun x => blank x = true) b /\ at_eol s'.
Proof.
  unfold tail_res, eol_re. cbn [fold_right]. cbn [rel]. split.
  - intros (s1 & c1 & H & s2 & c2 & (-> & s3 & Ha) & -> & ->). apply star_set in H as (-> & w & -> & Hw).
    assert (HA : c2 = c /\ at_eol s1).
    { destruct Ha as [(s4 & c4 & H & -> & ->)|(s4 & c4 & H & s5 & c5 & H2 & -> & ->)].
      - apply rel_char in H as [-> ->]. split; [reflexivity|]. eexists. left; reflexivity.
      - apply rel_char in H as [-> ->]. apply rel_char in H2 as [-> ->]. split; [reflexivity|]. eexists. right; reflexivity. }
    destruct HA as [-> HA]. split; [reflexivity|]. exists w. split; [reflexivity|]. split; [|exact HA]. eapply Forall_impl; [|exact Hw].
    intros x Hx. unfold set_match in Hx. cbn [existsb citem_match xorb] in Hx. unfold blank. rewrite (Ascii.eqb_sym x space), (Ascii.eqb_sym x tab).
    destruct (Ascii.eqb space x), (Ascii.eqb tab x); auto.
  - intros (-> & b & -> & Hb & u & Hu). exists s', c. split.
    + apply star_set. split; [reflexivity|]. exists b. split; [reflexivity|]. eapply Forall_impl; [|exact Hb].
      intros x Hx. unfold set_match. cbn [existsb citem_match xorb]. unfold blank in Hx. rewrite (Ascii.eqb_sym x space), (Ascii.eqb_sym x tab) in Hx.
      destruct (Ascii.eqb space x), (Ascii.eqb tab x); auto.
    + exists s', c. split; [|now split]. split; [reflexivity|]. exists u. destruct Hu as [->| ->].
      * left. exists u, c. split; [now apply rel_char|now split].
      * right. exists (nl :: u), c. split; [now apply rel_char|]. exists u, c. split; [now apply rel_char|now split].
Qed.
Lemma rel_chars t s c s' c' : rels (map rchar t) s c s' c' <-> s = t ++ s' /\ c' = c.
Proof.
  revert s. induction t as [|x t IH]; intros s; cbn [map fold_right app].
  - cbn [rel]. split; [intros [-> ->]; auto|intros [-> ->]; auto].
  - cbn [rel]. split.
    + intros (s1 & c1 & H & H2). apply rel_char in H as [-> ->]. apply IH in H2 as [-> ->]. auto.
    + intros [-> ->]. exists (t ++ s'), c. split; [now apply rel_char|]. now apply IH.
Qed.
Lemma emits_spaces indent : Forall (fun c => is_space c = true) indent -> emits indent [] (map rchar indent).
Proof.
  induction 1 as [|c t Hc _ IH]; [apply emits_nil|]. exact (emits_app0 [c] t [rchar c] (map rchar t) (emits_char c (space_kind c Hc)) IH).
Qed.
Lemma spaces_nd indent : Forall (fun c => is_space c = true) indent -> nd opn indent.
Proof. intros H. apply nd_all. eapply Forall_impl; [|exact H]. intros c Hc ->. discriminate. Qed.
Lemma pre_end indent : Forall (fun c => is_space c = true) indent -> ends_blank ($"\n" ++ indent) = false.
Proof.
  intros H. destruct indent as [|c t]; [reflexivity|]. destruct (exists_last (l := c :: t) ltac:(discriminate)) as (a & d & E). rewrite E in *.
  rewrite app_assoc. apply ends_blank_last. intros ->. apply Forall_app in H as [_ H]. inversion H; subst. discriminate.
Qed.
Lemma fold_base info line vs : vs <> [] -> fold_left (fun r v => form_regex (info v) v line r) vs [] = fold_left (fun r v => form_regex (info v) v line r) vs (base_regex line).
Proof. destruct vs; [congruence|reflexivity]. Qed.
Lemma cut_indent indent lit parts : Forall (fun c => is_space c = true) indent -> parts <> [] -> cut lit parts -> cut (indent ++ lit) parts.
Proof.
  intros Hi Hp H. destruct parts as [|[v l] ps]; [congruence|]. destruct H as (H1 & H2). split; [|exact H2]. apply nd_app; [now apply spaces_nd|exact H1].
Qed.
Theorem line_regex_reads info indent lit parts q :
  let line := line_of indent lit parts in
  line_ok indent lit parts -> parts <> [] -> line_pieces info (exact_space_of line) lit parts q ->
  (NoDup (names_of q) -> exists ast, re_compile (line_regex info line) = Some ast /\
    forall s s' c, rel ast s [] s' c <-> reads_line (exact_space_of line) (exact_of line) indent q s s' c) /\
  (~ NoDup (names_of q) -> re_compile (line_regex info line) = None).
Proof.
  intros line (Hi & Hc & Hb) Hp Hq. unfold line_regex.
  assert (Ev : vars_in line = map fst parts).
  { unfold line, line_of. replace (indent ++ body lit parts) with (body (indent ++ lit) parts).
    - now apply vars_body, cut_indent.
    - destruct parts as [|[v l] ps]; cbn [body]; now rewrite <- app_assoc. }
  rewrite Ev, fold_base by (now destruct parts).
  destruct (lstrip_indent indent (body lit parts) Hi Hb) as [El Ei].
  assert (Eb : base_regex line = ($"\n" ++ indent) ++ esc_body (exact_space_of line) (exact_of line) lit parts ++ tail_src).
  { unfold base_regex, esc_line. unfold line, line_of. rewrite El, Ei. rewrite (spans_body lit parts Hc). fold (line_of indent lit parts). fold line.
    rewrite <- (esc_chunks_body (exact_space_of line) (exact_of line) parts lit []). now rewrite <- !app_assoc. }
  rewrite Eb.
  destruct (form_fold info line lit parts q Hq Hc ($"\n" ++ indent)) as (src & E & Em & Ec).
  { discriminate. } { apply nd_app; [reflexivity|now apply spaces_nd]. } { now apply pre_end. }
  rewrite E. split; [intros HN; specialize (Em HN)|].
  2:{ intros HN. unfold re_compile. rewrite prun_app.
      destruct (emits_app0 _ _ _ _ emits_nl (emits_spaces indent Hi) pst0 eq_refl) as [q0 E0]; [intros n []|]. rewrite E0, prun_app.
      rewrite Ec; [reflexivity|reflexivity| |constructor]. cbn [p_names rev app pst0]. now rewrite app_nil_r. }
  assert (EM : emits (($"\n" ++ indent) ++ src ++ tail_src) (names_of q ++ []) (([rchar nl] ++ map rchar indent) ++ flat_map (piece_res (exact_space_of line) (exact_of line)) q ++ tail_res)).
  { apply (emits_app0' _ _ _); [apply emits_app0; [apply emits_nl|now apply emits_spaces]|]. apply emits_app; [intros n _ []|exact Em|apply emits_tail]. }
  eexists. split; [eapply emits_compile, EM|]. intros s s' c. rewrite !rels_app. split.
  - intros (s1 & c1 & H1 & H2). apply rels_app in H1 as (s0 & c0 & H0 & H1). apply (rel_chars [nl]) in H0 as [-> ->]. apply rel_chars in H1 as [-> ->].
    apply rels_app in H2 as (s2 & c2 & H2 & H3). apply rels_pieces in H2 as (cs & H2 & ->); [|eapply fit_pieces, Hq].
    apply rel_tail in H3 as (-> & b & -> & Hbl & He). rewrite set_all_new by (rewrite (reads_names _ _ _ _ _ _ H2); exact HN). cbn [app].
    exists s1, b. auto.
  - intros (s1 & b & -> & H & Hbl & He). exists s1, []. split.
    + apply rels_app. exists (indent ++ s1), []. split; [now apply (rel_chars [nl])|now apply rel_chars].
    + apply rels_app. exists (b ++ s'), c. split.
      * apply rels_pieces; [eapply fit_pieces, Hq|]. exists c. split; [exact H|]. rewrite set_all_new; [reflexivity|]. rewrite (reads_names _ _ _ _ _ _ H). exact HN.
      * apply rel_tail. split; [reflexivity|]. exists b. auto.
Qed.
