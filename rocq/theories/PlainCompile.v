(** * PlainCompile: the group object of a template of plain lines. *)
From Coq Require Import Lia.
From Verif Require Import PyBase DictFacts StrFacts SessionFacts Xml XmlFacts LoadFacts Regex SpecRegex RegexFacts Results Template Attributes FormRegex SpecLine MatchVar MatchFuncs Parser ParserFacts ParserFacts2 SpecTree SpecRecords
  PathFacts MachineFacts RunFacts Compile CompileFacts FindLines OutputFacts EscapeFacts LineFacts Load SpecForm SpecProgram PlainLine LineRun PlainRun PlainProgram.
Local Open Scope string_scope.
Local Open Scope list_scope.

Lemma assoc_put {A} n m (a : A) l : assoc n (put m a l) = if str_eqb n m then Some a else assoc n l.
Proof.
  induction l as [|[k b] l IH]; cbn [put assoc]; [reflexivity|]. destruct (str_eqb_spec m k) as [->|Hm]; cbn [assoc].
  - destruct (str_eqb n k); reflexivity.
  - destruct (str_eqb_spec n k) as [->|Hn]; [|exact IH]. destruct (str_eqb_spec k m); [congruence|reflexivity].
Qed.
Definition objs (names : list str) (l : list (str * varobj)) : list (str * varobj) := fold_left (lvars plain_obj) (map spell names) l.
Lemma lvars_plain l n : SpecProgram.name_ok n -> lvars plain_obj l (spell n) = put n (plain_obj (spell n)) (put n (plain_obj (spell n)) l).
Proof. intros Hn. unfold lvars. cbn [plain_obj vo_st plain_st v_skipvar vo_orig vo_name]. now rewrite (strip_name n Hn : strip (spell n) = n). Qed.
Lemma objs_keep names : Forall SpecProgram.name_ok names -> forall l n, ~ In n names -> assoc n (objs names l) = assoc n l.
Proof.
  induction 1 as [|m names Hm _ IH]; intros l n Hn; [reflexivity|]. unfold objs in *. cbn [map fold_left]. rewrite IH by (intros K; apply Hn; now right). rewrite lvars_plain by exact Hm. rewrite !assoc_put.
  destruct (str_eqb_spec n m) as [->|_]; [exfalso; apply Hn; now left|reflexivity].
Qed.
Lemma objs_get names : Forall SpecProgram.name_ok names -> forall l n, In n names -> assoc n (objs names l) = Some (plain_obj (spell n)).
Proof.
  induction 1 as [|m names Hm Hms IH]; intros l n Hn; [destruct Hn|]. destruct (in_dec (list_eq_dec ascii_dec) n names) as [Hi|Hi]; [unfold objs in *; cbn [map fold_left]; now apply IH|].
  destruct Hn as [<-|Hn]; [|contradiction]. unfold objs in *. cbn [map fold_left]. fold (objs names (lvars plain_obj l (spell m))). rewrite objs_keep by assumption. rewrite lvars_plain by exact Hm. rewrite assoc_put, str_eqb_refl. reflexivity.
Qed.
Lemma assoc_sim l k n o : Forall2 vsim l k -> assoc n k = Some o -> exists o', assoc n l = Some o' /\ osim (Ok o') (Ok o).
Proof.
  induction 1 as [|[a x] [b y] l k [H1 H2] _ IH]; cbn [assoc]; [discriminate|]. cbn [fst snd] in *. subst b. destruct (str_eqb n a); [|exact IH]. intros E. injection E as ->. eauto.
Qed.
(** the default values stay as they are *)
Lemma loop_defaults vars line names : Forall SpecProgram.name_ok names -> forall st st', rfold (compile_variable vars None line) (map spell names) st = Ok st' -> ls_defaults st' = ls_defaults st.
Proof.
  induction 1 as [|n names Hn _ IH]; intros st st' H; [injection H as <-; reflexivity|]. cbn [map rfold] in H.
  destruct (variable_step vars None line st (spell n) plain_obj plain_info (plain_described vars line n Hn)) as (v & E & _ & E2). rewrite E2 in H. cbn [rbind plain_obj vo_st plain_st v_skipre] in H.
  rewrite plain_variable in E by auto. injection E as <-. apply IH in H. rewrite H. reflexivity.
Qed.
Theorem plain_compile vars t d : tline_ok t -> exists ast l, line_expr t ast /\
  compile_line vars None (source t) d = Ok (Some {| x_text := plain_text_of t; x_re := ast; x_vars := l; x_action := AAdd; x_isline := false |}, d) /\
  forall n, In n (tl_names t) -> exists o, assoc n l = Some o /\ vo_orig o = n /\ v_funcs (vo_st o) = [].
Proof.
  intros Ht. destruct (plain_expr t Ht) as (ast & He). exists ast. pose proof Ht as (_ & Hn & _). fold (tl_names t) in Hn.
  assert (Hd : Forall (described vars (source t) plain_obj plain_info) (vars_in (source t))).
  { rewrite (source_vars t Ht). apply Forall_map. eapply Forall_impl; [|exact Hn]. intros n H. now apply plain_described. }
  assert (Hs : Forall (fun v => v_skipre (vo_st (plain_obj v)) = false) (vars_in (source t))) by (apply Forall_forall; reflexivity).
  pose proof (line_compiled vars None (source t) plain_obj plain_info d Hd Hs) as H. pose proof (le_compile t ast He) as Hc. unfold plain_text_of in Hc. rewrite Hc in H.
  destruct H as (d' & l & E & Hl). exists l. split; [exact He|]. split.
  - assert (Ed : d' = d).
    { unfold compile_line in E. destruct (rfold _ _ _) as [st|] eqn:Er; [|discriminate]. cbn [rbind] in E. rewrite (source_vars t Ht) in Er. apply (loop_defaults vars (source t) (tl_names t) Hn) in Er. cbn [ls_defaults] in Er.
      destruct (ls_skip st); [discriminate|]. destruct (re_compile _); [|discriminate]. injection E as _ E. congruence. }
    rewrite E, Ed. repeat f_equal.
    + clear. induction (vars_in (source t)) as [|v vs IH]; [reflexivity|]. cbn [fold_left]. unfold step_action at 2. cbn [is_start plain_obj vo_st plain_st v_action]. now destruct (str_eqb _ _).
    + clear. induction (vars_in (source t)) as [|v vs IH]; [reflexivity|]. exact IH.
  - intros n Hi. rewrite (source_vars t Ht) in Hl. pose proof (objs_get (tl_names t) Hn [] n Hi) as A. destruct (assoc_sim _ _ n _ Hl A) as (o & Ho & So). exists o. split; [exact Ho|]. cbn in So. destruct So as (_ & _ & So & _ & _ & Sf & _).
    split; [|exact Sf]. rewrite So. apply strip_name. rewrite Forall_forall in Hn. now apply Hn.
Qed.

(** ** the values of a match *)
Lemma cap_values c : NoDup (map fst c) -> map (fun n => (n, match cap n c with Some v => VStr v | None => VNone end)) (map fst c) = map (fun nw => (fst nw, VStr (snd nw))) c.
Proof.
  intros H. rewrite map_map. apply map_ext_in. intros [n w] Hi. cbn [fst snd]. f_equal. assert (E : cap n c = Some w); [|now rewrite E].
  induction c as [|[m v] c IH]; [destruct Hi|]. cbn [cap]. cbn [map fst] in H. inversion H as [|? ? Hm Hn]; subst. destruct Hi as [E|Hi]; [injection E as -> ->; now rewrite str_eqb_refl|].
  destruct (str_eqb_spec n m) as [->|_]; [exfalso; apply Hm; change m with (fst (m, w)); now apply in_map|]. now apply IH.
Qed.
Lemma run_vars_values vars env : forall c result, NoDup (dkeys result ++ map (fun nw => KS (fst nw)) c) ->
  (forall n, In n (map fst c) -> assoc n vars = Some {| pv_orig := KS n; pv_funcs := [] |}) ->
  run_vars vars (map (fun nw => (fst nw, VStr (snd nw))) c) env result = Ok (env, Some (result ++ values c)).
Proof.
  induction c as [|[n w] c IH]; intros result Hn Hv; [cbn [map run_vars values]; now rewrite app_nil_r|]. cbn [map run_vars fst snd]. rewrite Hv by (now left). cbn [pv_funcs pv_orig run_chain rbind].
  cbn [map fst] in Hn. assert (Hk : ~ In (KS n) (dkeys result)). { apply NoDup_remove_2 in Hn. intros K. apply Hn, in_or_app. now left. }
  change (dupdate (dset result (KS n) (VStr w)) []) with (dset result (KS n) (VStr w)). rewrite (ParserFacts2.dset_fresh result (KS n) (VStr w) Hk). rewrite IH.
  - cbn [values map entry fst snd]. now rewrite <- app_assoc.
  - unfold dkeys in *. rewrite map_app, <- app_assoc. exact Hn.
  - intros m Hm. apply Hv. now right.
Qed.
Lemma NoDup_KS l : NoDup l -> NoDup (map (fun nw : str * str => KS (fst nw)) (map (fun n => (n, n)) l)).
Proof. rewrite map_map. cbn [fst]. intros H. apply FinFun.Injective_map_NoDup; [intros a b E; congruence|exact H]. Qed.
Lemma values_keys c : dkeys (values c) = map KS (map fst c).
Proof. unfold dkeys, values. rewrite !map_map. reflexivity. Qed.
Lemma values_wf c : NoDup (map fst c) -> dwf (values c).
Proof. intros H. unfold dwf. rewrite values_keys. apply FinFun.Injective_map_NoDup; [intros a b E; congruence|exact H]. Qed.

(** ** the regex dictionary of a line *)
Section R.
Variable mf : attribute -> mfunc.
Variable g : group attribute.
Variable t : tline.
Variable ast : re.
Variable l : list (str * varobj).
Variable a : action.
Hypothesis Ht : tline_ok t.
Hypothesis He : line_expr t ast.
Hypothesis Hl : forall n, In n (tl_names t) -> exists o, assoc n l = Some o /\ vo_orig o = n /\ v_funcs (vo_st o) = [].
Let x : crex := {| x_text := plain_text_of t; x_re := ast; x_vars := l; x_action := a; x_isline := false |}.
(** the values of a line of the data *)
Definition accept (s : str) : option dict := match rmatch ast (nl :: s ++ [nl]) with Some (_, c) => Some (values c) | None => None end.
Lemma accept_any s u : lacks nl s -> accept s = match rmatch ast (nl :: s ++ nl :: u) with Some (_, c) => Some (values c) | None => None end.
Proof using He.
  intros Hs. unfold accept. destruct (rmatch ast (nl :: s ++ nl :: u)) as [[s' c]|] eqn:E.
  - assert (K : line_fits t s c) by (apply (le_match t ast He s u c Hs); eauto). apply (le_match t ast He s [] c Hs) in K as (s2 & ->). reflexivity.
  - destruct (rmatch ast (nl :: s ++ [nl])) as [[s' c]|] eqn:E2; [|reflexivity]. assert (K : line_fits t s c) by (apply (le_match t ast He s [] c Hs); eauto). apply (le_match t ast He s u c Hs) in K as (s2 & K). congruence.
Qed.
Lemma accept_fits s d : lacks nl s -> accept s = Some d <-> exists c, line_fits t s c /\ d = values c.
Proof using He.
  intros Hs. unfold accept. split.
  - destruct (rmatch ast _) as [[s' c]|] eqn:E; [|discriminate]. intros H. injection H as <-. exists c. split; [|reflexivity]. apply (le_match t ast He s [] c Hs). eauto.
  - intros (c & H & ->). apply (le_match t ast He s [] c Hs) in H as (s' & ->). reflexivity.
Qed.
Lemma accept_none s : lacks nl s -> accept s = None <-> forall c, ~ line_fits t s c.
Proof using He.
  intros Hs. split.
  - intros E c H. assert (K : accept s = Some (values c)) by (apply accept_fits; eauto). congruence.
  - intros H. destruct (accept s) as [d|] eqn:E; [|reflexivity]. apply accept_fits in E as (c & K & _); [|exact Hs]. now apply H in K.
Qed.
Lemma fits_line_names s c : line_fits t s c -> map fst c = tl_names t.
Proof using. intros (s1 & b & r & _ & H & _). now apply fits_names in H. Qed.
Lemma pvars_get n : In n (tl_names t) -> assoc n (p_vars _ (to_pregex mf g x)) = Some {| pv_orig := KS n; pv_funcs := [] |}.
Proof using Hl.
  intros H. destruct (Hl n H) as (o & E & Eo & Ef). cbn [to_pregex p_vars x x_vars]. clear - E Eo Ef. induction l as [|[m v] k IH]; [discriminate|]. cbn [map assoc fst snd] in *. destruct (str_eqb n m); [|now apply IH].
  injection E as ->. unfold pvar_of. now rewrite Eo, Ef.
Qed.
Lemma one_match m c start env rs : map fst c = tl_names t -> m_caps m = c ->
  check_one attribute (to_pregex mf g x) start (env, rs) (pmatch_of (tl_names t) m) = Ok (env, add_at attribute (start + Z.of_nat (m_start m)) (p_re _ (to_pregex mf g x), Some (values c)) rs).
Proof using Hl Ht.
  intros Hc Em. unfold check_one. pose proof Ht as (Hne & _ & HN & _). fold (tl_names t) in HN.
  assert (Et : temp_of attribute (to_pregex mf g x) (pmatch_of (tl_names t) m) = map (fun nw => (fst nw, VStr (snd nw))) c).
  { unfold temp_of, pmatch_of. cbn [pm_groups]. rewrite Em, <- Hc, cap_values by (now rewrite Hc). destruct c as [|nw c]; [|reflexivity]. exfalso. unfold tl_names in Hc. destruct (tl_vars t); [congruence|discriminate]. }
  rewrite Et. rewrite (run_vars_values _ env c []).
  - cbn [rbind app pmatch_of pm_start]. reflexivity.
  - cbn [dkeys map app]. replace (map (fun nw => KS (fst nw)) c) with (map KS (map fst c)) by (now rewrite map_map). rewrite Hc. apply FinFun.Injective_map_NoDup; [intros p q E; congruence|exact HN].
  - intros n Hn. apply pvars_get. now rewrite <- Hc.
Qed.
Theorem line_by_lines : by_lines attribute (to_pregex mf g x) accept.
Proof using He Hl Ht.
  intros ls Hls. assert (Ef : p_find _ (to_pregex mf g x) (stacked ls) = map (pmatch_of (tl_names t)) (line_matches ast ls 0)).
  { cbn [to_pregex p_find x x_text x_re]. rewrite (le_groups t ast He). rewrite (finditer_stacked ast (le_lines t ast He) ls Hls). reflexivity. }
  rewrite Ef. clear Ef.
  assert (G : forall ls pos, Forall (lacks nl) ls -> map (fun m => Z.of_nat (pm_start m)) (map (pmatch_of (tl_names t)) (line_matches ast ls pos)) = map fst (hits accept ls (Z.of_nat pos)) /\
     forall start env rs, check_matches attribute (to_pregex mf g x) (map (pmatch_of (tl_names t)) (line_matches ast ls pos)) start (env, rs) = Ok (env, put_hits attribute (p_re _ (to_pregex mf g x)) start (hits accept ls (Z.of_nat pos)) rs)).
  2:{ exact (G ls 0 Hls). }
  clear ls Hls. induction ls as [|s ls IH]; intros pos Hls; [split; [reflexivity|intros; reflexivity]|]. inversion Hls as [|? ? Hs Hls']; subst. cbn [line_matches hits].
  destruct (stacked_nl ls) as (u & Eu). rewrite Eu. rewrite (accept_any s u Hs). specialize (IH (S (pos + length s)) Hls'). replace (Z.of_nat (S (pos + length s))) with (Z.of_nat pos + 1 + Z.of_nat (length s))%Z in IH by lia.
  destruct (rmatch ast (nl :: s ++ nl :: u)) as [[s' c]|] eqn:E; [|exact IH]. destruct IH as [IH1 IH2]. cbn [app map]. split.
  - cbn [map fst]. f_equal. exact IH1.
  - intros start env rs. unfold check_matches. cbn [rfold]. rewrite (one_match (match_at pos (nl :: s ++ nl :: u) s' c) c).
    + cbn [rbind match_at m_start]. unfold put_hits. cbn [fold_left fst snd]. apply IH2.
    + apply (fits_line_names s c). apply (le_match t ast He s u c Hs). eauto.
    + reflexivity.
Qed.
End R.
