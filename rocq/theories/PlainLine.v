(** * PlainLine: a plain template line, from its text to the data lines it fits. *)
From Coq Require Import Lia.
From Verif Require Import PyBase DictFacts StrFacts SessionFacts Regex SpecRegex RegexFacts Results Template Attributes FormRegex SpecLine SpecForm ReadFacts LitFacts LineFacts LineRegex
  FindFacts RoundTrip CharFacts MatchVar MatchFuncs Parser Compile AttrFacts CompileFacts SpecRecords SpecProgram FindLines EscapeFacts.
Local Open Scope string_scope.
Local Open Scope list_scope.

(** ** names *)
Lemma word_not_space c : is_word c = true -> is_space c = false.
Proof. assert (G : forall c, implb (is_word c) (negb (is_space c)) = true) by (apply all256; vm_compute; reflexivity). specialize (G c). intros H. rewrite H in G. now destruct (is_space c). Qed.
Lemma name_chars n : name_ok n -> n <> [] /\ Forall (fun c => is_space c = false) n /\ Forall name_c n /\ lacks "|" n /\ lacks cls n.
Proof.
  intros ((c & t & -> & Hd) & Hw & _). split; [discriminate|].
  assert (G : forall x, In x (c :: t) -> is_word x = true) by (now rewrite Forall_forall in Hw).
  split; [|split; [|split]].
  - apply Forall_forall. intros x Hx. now apply word_not_space, G.
  - apply Forall_forall. intros x Hx. split; [now apply word_not_space, G|]. intros ->. specialize (G _ Hx). discriminate G.
  - intros Hx. specialize (G _ Hx). discriminate G.
  - intros Hx. specialize (G _ Hx). discriminate G.
Qed.
Lemma strip_blanks n : Forall (fun c => is_space c = false) n -> strip (space :: n ++ [space]) = n.
Proof.
  intros H. unfold strip, lstrip, rstrip, rstrip_p. cbn [rev]. rewrite rev_app_distr. cbn [rev app lstrip_p]. change (is_space space) with true. cbn match.
  destruct (rev n) as [|d u] eqn:E.
  - assert (n = []) as -> by (rewrite <- (rev_involutive n), E; reflexivity). reflexivity.
  - cbn [app lstrip_p]. assert (Hd : is_space d = false). { rewrite Forall_forall in H. apply H. rewrite in_rev, E. now left. } rewrite Hd.
    change (d :: u ++ [space]) with ((d :: u) ++ [space]). rewrite <- E, rev_app_distr, rev_involutive. cbn [rev app lstrip_p]. change (is_space space) with true. cbn match.
    apply lstrip_id. destruct n; [exact I|]. now inversion H.
Qed.
Lemma strip_name n : name_ok n -> strip (fst (spelled (n, []))) = n.
Proof. intros H. apply strip_blanks, (name_chars n H). Qed.
Lemma sanitize_name n : name_ok n -> sanitize n = n.
Proof.
  intros ((c & t & -> & Hd) & Hw & _). unfold sanitize. rewrite Hd. clear Hd. induction Hw as [|x l Hx _ IH]; [reflexivity|]. cbn [squash]. rewrite Hx. now rewrite IH.
Qed.
Lemma reserved_eq : reserved = special_names.
Proof. reflexivity. Qed.
Lemma not_special n : name_ok n -> in_strs n special_names = false.
Proof. intros (_ & _ & H). rewrite <- reserved_eq. apply Bool.not_true_is_false. intros K. apply H. now apply in_strs_In. Qed.

(** ** the variable objects *)
Definition plain_st (d : dict) : vstate := {| v_funcs := []; v_action := AAdd; v_isline := false; v_skipvar := false; v_skipre := false; v_res := []; v_defaults := d |}.
Definition plain_attr (n : str) : attribute := {| at_name := n; at_args := []; at_kwargs := [] |}.
Definition plain_obj (v : str) : varobj :=
  {| vo_text := v; vo_name := strip v; vo_orig := strip v; vo_dict := plain_attr (strip v); vo_attrs := []; vo_st := plain_st [] |}.
Definition plain_info (v : str) : vinfo := {| vi_name := strip v; vi_ignore := None; vi_set := false; vi_res := [] |}.
Definition spell (n : str) : str := space :: n ++ [space].
Lemma spelled_fst n l : fst (spelled (n, l)) = spell n.
Proof. reflexivity. Qed.
Lemma plain_variable vars g n line d : name_ok n -> g = None ->
  new_variable vars g (spell n) line d = Ok {| vo_text := spell n; vo_name := n; vo_orig := n; vo_dict := plain_attr n; vo_attrs := []; vo_st := plain_st d |}.
Proof.
  intros Hn ->. destruct (name_chars n Hn) as (H1 & H2 & H3 & H4 & _). unfold new_variable. rewrite attributes_name.
  - rewrite (strip_name n Hn : strip (spell n) = n). cbn [rbind at_name]. rewrite (sanitize_name n Hn). rewrite (not_special n Hn). cbn [rbind rfold]. reflexivity.
  - intros [K|K]; [discriminate K|]. apply in_app_or in K as [K|[K|[]]]; [now apply H4|discriminate K].
  - rewrite (strip_name n Hn : strip (spell n) = n). exact H1.
  - rewrite (strip_name n Hn : strip (spell n) = n). exact H3.
Qed.
Lemma plain_described vars line n : name_ok n -> described vars line plain_obj plain_info (spell n).
Proof.
  intros Hn. unfold described, var_obj. rewrite plain_variable by auto. unfold plain_obj, plain_info, ordinary, info_of, ignore_many. rewrite (strip_name n Hn : strip (spell n) = n).
  split; [reflexivity|]. cbn [vo_name vo_dict vo_st plain_st v_res v_funcs]. destruct Hn as (_ & _ & Hn).
  assert (E : str_eqb n $"ignore" = false) by (apply str_eqb_neq; intros ->; apply Hn; cbn; auto). rewrite E.
  split; [split; [intros ->; apply Hn; cbn; tauto|reflexivity]|]. reflexivity.
Qed.

(** ** the pieces of the line *)
Definition wrd : re := RSeq (rplus rS) REps.
Fixpoint pieces (lit : str) (vars : list (str * str)) : list piece :=
  PLit lit :: match vars with [] => [] | (n, l) :: vs => PVar (Some n) [wrd] :: pieces l vs end.
Lemma pieces_line xs vars : Forall name_ok (map fst vars) -> forall lit, line_pieces plain_info xs lit (map spelled vars) (pieces lit vars).
Proof.
  induction vars as [|[n l] vs IH]; intros H lit; [apply lp_end|]. inversion H as [|? ? Hn Hvs]; subst. cbn [map fst] in *.
  assert (En : vi_name (plain_info (spell n)) = n) by exact (strip_name n Hn).
  assert (Hr : ~ In n reserved) by apply Hn. assert (Hne : n <> []) by apply (name_chars n Hn).
  change (spelled (n, l)) with (spell n, l). cbn [pieces]. rewrite <- En at 2. apply lp_var.
  - rewrite En. intros ->. apply Hr. cbn. tauto.
  - unfold deletes. rewrite En. cbn [plain_info vi_set]. rewrite Bool.orb_false_r. unfold in_strs. cbn [existsb]. rewrite Bool.orb_false_r.
    apply Bool.andb_false_iff. right. apply Bool.orb_false_iff. split; apply str_eqb_neq; intros ->; apply Hr; cbn; tauto.
  - rewrite En. exact Hne.
  - rewrite En. apply Hn.
  - repeat constructor.
  - now apply IH.
Qed.
Lemma pieces_names lit vars : names_of (pieces lit vars) = map fst vars.
Proof. revert lit. induction vars as [|[n l] vs IH]; intros lit; [reflexivity|]. cbn [pieces map fst]. change (names_of (PLit lit :: PVar (Some n) [wrd] :: pieces l vs)) with (n :: names_of (pieces l vs)). now rewrite IH. Qed.
Lemma pieces_one_line lit vars : lacks nl lit -> Forall (lacks nl) (map snd vars) -> one_line (pieces lit vars).
Proof.
  intros Hl H. apply one_line_vars. revert lit Hl. induction vars as [|[n l] vs IH]; intros lit Hl; cbn [pieces]; (constructor; [exact Hl|]); [constructor|]. inversion H; subst. constructor; [reflexivity|]. now apply IH.
Qed.
Lemma pieces_spaced vars : forall lit first, separated first lit vars -> spaced (negb first) (pieces lit vars).
Proof.
  induction vars as [|[n l] vs IH]; intros lit first H; cbn [pieces separated] in *.
  - apply sp_end. intros _. tauto.
  - destruct H as (H1 & H2 & H3). apply sp_var.
    + intros Hf. destruct H1 as [->|H1]; [discriminate|exact H1].
    + destruct H2 as [[_ ->]|H2]; auto.
    + apply word_like_spec. reflexivity.
    + exact (IH l false H3).
Qed.
Lemma rel_wrd w s : rel wrd (w ++ s) [] s [] <-> word w.
Proof.
  unfold wrd. cbn [rel]. split.
  - intros (s1 & c1 & H & <- & <-). apply rel_plus_set in H as (_ & v & Hv & E & Hf). apply app_inv_tail in E as ->. split; [exact Hv|]. eapply Forall_impl; [|exact Hf].
    intros c Hc. unfold set_match in Hc. cbn [existsb citem_match xorb] in Hc. now destruct (is_space c).
  - intros [W1 W2]. exists s, []. split; [|split; reflexivity]. apply rel_plus_set. split; [reflexivity|]. exists w. split; [exact W1|]. split; [reflexivity|].
    eapply Forall_impl; [|exact W2]. intros c Hc. unfold set_match. cbn [existsb citem_match xorb]. rewrite Hc. reflexivity.
Qed.
Lemma reads_fits vars : forall lit s r c, reads false false (pieces lit vars) s r c <-> exists t, s = t ++ r /\ fits lit vars t c.
Proof.
  induction vars as [|[n l] vs IH]; intros lit s r c; cbn [pieces]; split.
  - intros H. inversion H as [|l0 ps t s0 s1 c0 Ht Hr|]; subst. inversion Hr; subst. exists t. split; [reflexivity|]. now constructor.
  - intros (t & -> & H). inversion H; subst. apply rd_lit; [assumption|apply rd_nil].
  - intros H. inversion H as [|l0 ps t s0 s1 c0 Ht Hr|]; subst. inversion Hr as [| |n0 alts r0 ps w v s3 c3 Hi Hw Hrd]; subst. destruct Hi as [<-|[]]. apply rel_wrd in Hw.
    apply IH in Hrd as (u & -> & Hf). exists (t ++ w ++ u). split; [now rewrite <- !app_assoc|]. now constructor.
  - intros (t & -> & H). inversion H as [|l0 n0 l' vs0 t0 w u c0 Ht Hw Hf]; subst. rewrite <- !app_assoc. apply rd_lit; [exact Ht|]. apply (rd_var false false (Some n) [wrd] wrd); [now left|now apply rel_wrd|].
    apply IH. exists u. auto.
Qed.

(** ** the literal text *)
Lemma lit_char_nl c : lit_char c -> c <> nl.
Proof. intros [(H & _)|H] ->; [specialize (H eq_refl)|]; discriminate. Qed.
Lemma lit_lacks_nl l : Forall lit_char l -> lacks nl l.
Proof. intros H K. rewrite Forall_forall in H. apply H in K. now apply lit_char_nl in K. Qed.
Lemma lit_no_open l : Forall lit_char l -> Forall (fun c => c <> opn) l.
Proof. intros H. eapply Forall_impl; [|exact H]. intros c Hc ->. destruct Hc as [(_ & Hc & _)|Hc]; [apply Hc; cbn; tauto|discriminate]. Qed.
Lemma cut_lits vars : Forall name_ok (map fst vars) -> Forall (Forall lit_char) (map snd vars) -> forall lit, Forall lit_char lit -> cut lit (map spelled vars).
Proof.
  induction vars as [|[n l] vs IH]; intros Hn Hl lit H; cbn [map cut].
  - apply Bool.not_true_is_false. intros K. apply containsb_spec in K as (a & b & ->). apply lit_no_open in H. apply Forall_app in H as [_ H]. apply (Forall_inv H). reflexivity.
  - inversion Hn as [|? ? Hn0 Hn']; subst. inversion Hl as [|? ? Hl0 Hl']; subst. cbn [fst snd] in *. change (spelled (n, l)) with (spell n, l).
    split; [apply nd_all; now apply lit_no_open|]. split; [|now apply IH]. split; [discriminate|]. cbn [spell tl]. apply nd_all. apply Forall_app. split; [|constructor; [discriminate|constructor]].
    destruct (name_chars n Hn0) as (_ & _ & _ & _ & Hc). apply Forall_forall. intros x Hx ->. now apply Hc.
Qed.
Definition body_of (t : tline) : str := body (tl_lit t) (map spelled (tl_vars t)).
Lemma source_line t : source t = line_of (tl_indent t) (tl_lit t) (map spelled (tl_vars t)).
Proof. reflexivity. Qed.
Lemma body_first t : tline_ok t -> exists c u, body_of t = c :: u /\ is_space c = false.
Proof.
  intros (H1 & _ & _ & _ & H5 & _ & H7 & _). unfold body_of. destruct (tl_vars t) as [|[n l] vs]; [congruence|]. cbn [map body]. change (spelled (n, l)) with (spell n, l).
  destruct (tl_lit t) as [|c u] eqn:E.
  - cbn [app]. exists opn. eexists. split; [unfold brace; cbn [app]; reflexivity|reflexivity].
  - exists c. eexists. split; [reflexivity|]. inversion H5 as [|? ? Hc _]; subst. rewrite E in Hc. inversion Hc as [|? ? Hc' _]; subst. destruct (is_space c) eqn:Es; [|reflexivity]. exfalso. apply H7.
    exists c, u. split; [reflexivity|]. destruct Hc' as [(Hc' & _)| ->]; [now apply Hc'|reflexivity].
Qed.
Lemma blanks_spaces l : Forall (fun c => blank c = true) l -> Forall (fun c => is_space c = true) l.
Proof. intros H. eapply Forall_impl; [|exact H]. intros c. apply blank_space. Qed.
Lemma plain_line_ok t : tline_ok t -> line_ok (tl_indent t) (tl_lit t) (map spelled (tl_vars t)).
Proof.
  intros Ht. pose proof Ht as (H1 & H2 & H3 & H4 & H5 & _). split; [now apply blanks_spaces|]. split.
  - inversion H5; subst. apply cut_lits; assumption.
  - destruct (body_first t Ht) as (c & u & E & Hc). unfold body_of in E. now rewrite E.
Qed.
Lemma source_vars t : tline_ok t -> vars_in (source t) = map spell (tl_names t).
Proof.
  intros Ht. destruct (plain_line_ok t Ht) as (Hi & Hc & _). rewrite source_line. unfold line_of. replace (tl_indent t ++ body (tl_lit t) (map spelled (tl_vars t))) with (body (tl_indent t ++ tl_lit t) (map spelled (tl_vars t))).
  - rewrite vars_body; [unfold tl_names; now rewrite !map_map|]. apply cut_indent; [exact Hi| |exact Hc]. destruct Ht as (Ht & _). now destruct (tl_vars t).
  - destruct (map spelled (tl_vars t)) as [|[v l] ps]; cbn [body]; now rewrite <- app_assoc.
Qed.

(** ** the regular expression of the line *)
Lemma line_regex_groups info indent lit parts q :
  let line := line_of indent lit parts in
  line_ok indent lit parts -> parts <> [] -> line_pieces info (exact_space_of line) lit parts q -> NoDup (names_of q) -> rev (re_groups (line_regex info line)) = names_of q.
Proof.
  intros line (Hi & Hc & Hb) Hp Hq HN. unfold line_regex.
  assert (Ev : vars_in line = map fst parts).
  { unfold line, line_of. replace (indent ++ body lit parts) with (body (indent ++ lit) parts).
    - now apply vars_body, cut_indent.
    - destruct parts as [|[v l] ps]; cbn [body]; now rewrite <- app_assoc. }
  rewrite Ev, fold_base by (now destruct parts).
  destruct (lstrip_indent indent (body lit parts) Hi Hb) as [El Ei].
  assert (Eb : base_regex line = ($"\n" ++ indent) ++ esc_body (exact_space_of line) (exact_of line) lit parts ++ tail_src).
  { unfold base_regex, esc_line. unfold line, line_of. rewrite El, Ei. rewrite (spans_body lit parts Hc). fold (line_of indent lit parts). fold line.
    rewrite <- (esc_chunks_body (exact_space_of line) (exact_of line) parts lit []). now rewrite <- !app_assoc. }
  rewrite Eb.
  destruct (form_fold info line lit parts q Hq Hc ($"\n" ++ indent)) as (src & E & Em & Ec).
  { discriminate. } { apply nd_app; [reflexivity|now apply spaces_nd]. } { now apply pre_end. }
  rewrite E. specialize (Em HN).
  assert (EM : emits (($"\n" ++ indent) ++ src ++ tail_src) (names_of q ++ []) (([rchar nl] ++ map rchar indent) ++ flat_map (piece_res (exact_space_of line) (exact_of line)) q ++ tail_res)).
  { apply (emits_app0' _ _ _); [apply emits_app0; [apply emits_nl|now apply emits_spaces]|]. apply emits_app; [intros n _ []|exact Em|apply emits_tail]. }
  destruct (EM pst0 eq_refl) as [q0 E0]; [intros n _ []|]. unfold re_groups. rewrite E0. cbn [p_names pst0]. rewrite !app_nil_r. now rewrite rev_involutive.
Qed.

(** ** a line of the data *)
Definition plain_text_of (t : tline) : str := line_regex plain_info (source t).
Lemma no_exact_line line : containsb $"_exact_" line = false -> exact_space_of line = false /\ exact_of line = false.
Proof.
  intros H. split; [|exact H]. apply Bool.not_true_is_false. intros K. unfold exact_space_of in K. apply containsb_spec in K as (a & b & ->).
  assert (Kc : containsb $"_exact_" (a ++ $"_exact_space_" ++ b) = true); [|congruence]. apply containsb_spec. exists a, ($"space_" ++ b). reflexivity.
Qed.
Lemma first_nl a b u v : lacks nl a -> lacks nl b -> a ++ nl :: u = b ++ nl :: v -> a = b /\ u = v.
Proof.
  revert b. induction a as [|x a IH]; intros [|y b] Ha Hb E; cbn [app] in E.
  - split; [reflexivity|congruence].
  - exfalso. apply Hb. left. congruence.
  - exfalso. apply Ha. left. congruence.
  - injection E as -> E. destruct (IH b) as [-> ->]; [intros K; apply Ha; now right|intros K; apply Hb; now right|exact E|]. auto.
Qed.
Lemma fits_nl lit vars t c : fits lit vars t c -> lacks nl lit -> Forall (lacks nl) (map snd vars) -> lacks nl t.
Proof.
  induction 1 as [l t Ht|l n l' vs t w u c Ht Hw Hf IH]; intros Hl Hv; unfold same_text in Ht.
  - intros K. apply norm_nl with (xs := false) (xd := false) in K. rewrite Ht in K. apply norm_nl in K. now apply Hl.
  - inversion Hv; subst. intros K. apply in_app_or in K as [K|K].
    + apply norm_nl with (xs := false) (xd := false) in K. rewrite Ht in K. apply norm_nl in K. now apply Hl.
    + apply in_app_or in K as [K|K]; [|now apply IH in K]. destruct Hw as [_ Hw]. rewrite Forall_forall in Hw. apply Hw in K. discriminate.
Qed.
Lemma lit_facts t : tline_ok t -> lacks nl (tl_indent t) /\ lacks nl (tl_lit t) /\ Forall (lacks nl) (map snd (tl_vars t)).
Proof.
  intros (_ & _ & _ & H4 & H5 & _). inversion H5; subst. split; [intros K; rewrite Forall_forall in H4; apply H4 in K; discriminate|]. split; [now apply lit_lacks_nl|].
  eapply Forall_impl; [|eassumption]. intros l. apply lit_lacks_nl.
Qed.
Lemma reads_line_fits t l rest c : tline_ok t -> lacks nl l ->
  (exists s', reads_line false false (tl_indent t) (pieces (tl_lit t) (tl_vars t)) (nl :: l ++ nl :: rest) s' c) <-> line_fits t l c.
Proof.
  intros Ht Hl. destruct (lit_facts t Ht) as (Hi & H1 & H2). split.
  - intros (s' & s1 & b & E & Hr & Hb & u & Hu). apply reads_fits in Hr as (s & -> & Hf). apply (Logic.f_equal (@tl _)) in E. cbn [tl] in E.
    pose proof (fits_nl _ _ _ _ Hf H1 H2) as Hs. assert (Hbn : lacks nl b) by (intros K; rewrite Forall_forall in Hb; apply Hb in K; discriminate).
    assert (Hall : lacks nl (tl_indent t ++ s ++ b)). { intros K. apply in_app_or in K as [K|K]; [now apply Hi|]. apply in_app_or in K as [K|K]; [now apply Hs|now apply Hbn]. }
    destruct Hu as [->| ->].
    + replace (tl_indent t ++ s ++ b ++ nl :: u) with ((tl_indent t ++ s ++ b) ++ nl :: u) in E by (now rewrite <- !app_assoc). apply first_nl in E as [-> _]; [|assumption..].
      exists s, b, []. rewrite app_nil_r. auto.
    + replace (tl_indent t ++ s ++ b ++ chr 13 :: nl :: u) with ((tl_indent t ++ s ++ b ++ [chr 13]) ++ nl :: u) in E by (now rewrite <- !app_assoc).
      apply first_nl in E as [-> _]; [|assumption|]. { exists s, b, [chr 13]. auto. }
      intros K. rewrite !app_assoc in K. rewrite <- (app_assoc _ s b) in K. apply in_app_or in K as [K|[K|[]]]; [|discriminate K]. now apply Hall.
  - intros (s & b & r & -> & Hf & Hb & Hr). exists (r ++ nl :: rest), (s ++ b ++ r ++ nl :: rest), b. split; [now rewrite <- !app_assoc|]. split; [apply reads_fits; eauto|]. split; [exact Hb|].
    exists rest. destruct Hr as [->| ->]; auto.
Qed.
(** what the expression of the line does *)
Record line_expr (t : tline) (ast : re) : Prop := {
  le_compile : re_compile (plain_text_of t) = Some ast;
  le_groups : rev (re_groups (plain_text_of t)) = tl_names t;
  le_lines : forall s s' c, rmatch ast s = Some (s', c) -> exists w, s = nl :: w ++ s' /\ lacks nl w /\ (exists u, s' = nl :: u \/ s' = chr 13 :: nl :: u);
  le_match : forall l rest c, lacks nl l -> (exists s', rmatch ast (nl :: l ++ nl :: rest) = Some (s', c)) <-> line_fits t l c }.
Theorem plain_expr t : tline_ok t -> exists ast, line_expr t ast.
Proof.
  intros Ht. pose proof Ht as (K1 & K2 & K3 & K4 & K5 & K6 & K7 & K8 & K9). pose proof (plain_line_ok t Ht) as Hok. destruct (no_exact_line _ K9) as [E1 E2].
  assert (Hp : map spelled (tl_vars t) <> []) by (now destruct (tl_vars t)).
  assert (Hq : line_pieces plain_info (exact_space_of (source t)) (tl_lit t) (map spelled (tl_vars t)) (pieces (tl_lit t) (tl_vars t))) by (now apply pieces_line).
  assert (HN : NoDup (names_of (pieces (tl_lit t) (tl_vars t)))) by (rewrite pieces_names; exact K3).
  destruct (line_regex_reads plain_info (tl_indent t) (tl_lit t) (map spelled (tl_vars t)) (pieces (tl_lit t) (tl_vars t)) Hok Hp Hq) as [H _].
  destruct (H HN) as (ast & Ec & Hast). clear H. rewrite <- source_line, E1, E2 in Hast. destruct (lit_facts t Ht) as (Hi & L1 & L2).
  assert (Hone : one_line (pieces (tl_lit t) (tl_vars t))) by (now apply pieces_one_line).
  assert (Hsp : spaced false (pieces (tl_lit t) (tl_vars t))) by (exact (pieces_spaced (tl_vars t) (tl_lit t) true K6)).
  exists ast. constructor.
  - exact Ec.
  - unfold plain_text_of. rewrite source_line. rewrite (line_regex_groups _ _ _ _ _ Hok Hp Hq HN). apply pieces_names.
  - intros s s' c H. apply rmatch_sound, Hast in H. pose proof H as (s1 & b & _ & _ & _ & He). apply reads_line_text in H as (w & -> & Hw); [|assumption..]. exists w. auto.
  - intros l rest c Hl. rewrite <- (reads_line_fits t l rest c Ht Hl). split.
    + intros (s' & H). exists s'. now apply Hast, rmatch_sound.
    + intros (s' & H). pose proof H as H0. apply Hast in H. apply rmatch_complete in H as (s2 & c2 & H). exists s2. rewrite H. f_equal. f_equal.
      apply rmatch_sound, Hast in H. eapply reads_line_unique; eassumption.
Qed.
Lemma line_fits_unique t l c c' : tline_ok t -> lacks nl l -> line_fits t l c -> line_fits t l c' -> c = c'.
Proof.
  intros Ht Hl H H'. destruct (plain_expr t Ht) as (ast & He). apply (le_match t ast He l [] c Hl) in H as (s & E). apply (le_match t ast He l [] c' Hl) in H' as (s2 & E2). congruence.
Qed.
Lemma fits_names lit vars s c : fits lit vars s c -> map fst c = map fst vars.
Proof. induction 1 as [|l n l' vs t w u c _ _ _ IH]; [reflexivity|]. cbn [map fst]. now rewrite IH. Qed.
