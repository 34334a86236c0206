(** * HeadersFacts2: reading the line of headings; the variables of the columns (for C122). *)
From Coq Require Import Lia.
From Verif Require Import PyBase DictFacts StrFacts ConvertFacts Regex SpecRegex RegexFacts LitFacts Template FormRegex SpecLine SpecForm ReadFacts LineFacts LineRegex Attributes AttrFacts XmlFacts PlainProgram MatchVar SpecVariable VariableFacts VariableFacts2 VariableFacts3 SpecHeaders HeadersFacts.
Local Open Scope string_scope.
Local Open Scope list_scope.

(** ** the headings *)
Lemma combine_fst {A B} (l : list A) : forall m : list B, length l = length m -> map fst (combine l m) = l.
Proof. induction l as [|x l IH]; intros [|y m] L; try discriminate; [reflexivity|]. cbn. now rewrite IH by (cbn in L; lia). Qed.
Lemma combine_snd {A B} (l : list A) : forall m : list B, length l = length m -> map snd (combine l m) = m.
Proof. induction l as [|x l IH]; intros [|y m] L; try discriminate; [reflexivity|]. cbn. now rewrite IH by (cbn in L; lia). Qed.
Lemma ht w b : heading_text (w, b) = w ++ b. Proof. reflexivity. Qed.
Lemma headings_ne l : headings l -> l <> []. Proof. intros []; discriminate. Qed.
Lemma headings_words l : headings l -> Forall (fun h => a_word (fst h) /\ blanks (snd h)) l.
Proof. induction 1 as [w Hw|w b l Hw Hb Hs H IH]; constructor; cbn [fst snd]; auto. split; [exact Hw|constructor]. Qed.
Lemma lstrip_word w s : a_word w -> lstrip (w ++ s) = w ++ s.
Proof. intros [Hn Hw]. destruct w as [|c w]; [congruence|]. inversion Hw; subst. unfold lstrip. cbn [app lstrip_p]. now rewrite H1. Qed.
Lemma lstrip_blanks b s : blanks b -> lstrip (b ++ s) = lstrip s.
Proof. intros H. unfold lstrip. induction H as [|c b Hc H IH]; [reflexivity|]. cbn [app lstrip_p]. now rewrite Hc. Qed.
Lemma rstrip_blanks s b : blanks b -> rstrip (s ++ b) = rstrip s.
Proof. intros H. unfold rstrip, rstrip_p. f_equal. rewrite rev_app_distr. apply lstrip_app. now apply Forall_rev. Qed.
Lemma headings_head l : headings l -> exists c t, concat (map heading_text l) = c :: t /\ is_space c = false.
Proof. intros H. destruct H as [w [Hn Hw]|w b l [Hn Hw] _ _ _]; (destruct w as [|c w]; [congruence|]); inversion Hw; subst; cbn [map concat]; rewrite ht; cbn [app]; eexists _, _; split; try reflexivity; assumption. Qed.
Lemma take_headings l : headings l -> forall f, length (concat (map heading_text l)) < f -> take_headers f (concat (map heading_text l)) = map heading_text l.
Proof.
  induction 1 as [w Hw|w b l Hw Hb Hs H IH]; intros f Hf; (destruct f as [|f]; [lia|]); cbn [map concat take_headers] in *; rewrite ht in *.
  - rewrite !app_nil_r in *. pose proof (lstrip_word w [] Hw) as El. rewrite app_nil_r in El. rewrite El. destruct Hw as [Hn Hw].
    assert (E : span_of (fun c => negb (is_space c)) w = (w, [])) by (rewrite <- (app_nil_r w) at 1; apply span_of_app; [eapply Forall_impl; [|exact Hw]; cbn beta; intros a ->; reflexivity|exact I]).
    destruct w as [|c w]; [congruence|]. rewrite E. cbn [span_of]. rewrite app_nil_r. cbn [app]. destruct f; reflexivity.
  - rewrite <- !app_assoc, lstrip_word by exact Hw. destruct (headings_head l H) as (c0 & t & Eh & Hc0). pose proof Hw as Hw'. destruct Hw as [Hn Hw].
    assert (E : span_of (fun c => negb (is_space c)) (w ++ b ++ concat (map heading_text l)) = (w, b ++ concat (map heading_text l))).
    { apply span_of_app; [eapply Forall_impl; [|exact Hw]; cbn beta; intros a ->; reflexivity|]. destruct b as [|y b]; [congruence|]. inversion Hs as [|? ? Hy ?]; subst. cbn [app]. now rewrite Hy. }
    assert (E2 : span_of is_space (b ++ concat (map heading_text l)) = (b, concat (map heading_text l))).
    { apply span_of_app; [exact Hs|]. rewrite Eh. exact Hc0. }
    destruct w as [|c w]; [congruence|]. cbn [app] in *. rewrite E, E2, IH; [reflexivity|]. cbn [length] in Hf. rewrite !app_length in Hf. lia.
Qed.
Lemma last_word l : headings l -> exists t c, concat (map heading_text l) = t ++ [c] /\ is_space c = false.
Proof.
  induction 1 as [w [Hn Hw]|w b l Hw Hb Hs H (t & c & E & Hc)]; cbn [map concat]; rewrite ht.
  - destruct (exists_last Hn) as (w' & c & ->). apply Forall_app in Hw as [_ Hc]. inversion Hc; subst. exists w', c. rewrite !app_nil_r. auto.
  - rewrite E. exists ((w ++ b) ++ t), c. rewrite <- !app_assoc. auto.
Qed.
Lemma rstrip_gap indent l gap : headings l -> blanks gap -> rstrip (heading_line indent l ++ gap) = heading_line indent l.
Proof.
  intros Hl Hg. destruct (last_word l Hl) as (t & c & E & Hc). unfold heading_line. rewrite E. rewrite app_assoc.
  assert (G : rstrip ((indent ++ t) ++ [c]) = (indent ++ t) ++ [c]) by (now apply rstrip_id). rewrite <- G at 2.
  unfold rstrip, rstrip_p. f_equal. rewrite !rev_app_distr. apply lstrip_app. now apply Forall_rev.
Qed.
Lemma untab_app a b : untab (a ++ b) = untab a ++ untab b. Proof. unfold untab. apply flat_map_app. Qed.
Lemma untab_blanks s : blanks s -> blanks (untab s) /\ length (untab s) = indent_width s.
Proof.
  intros H. induction H as [|c s Hc H [IH1 IH2]]; [split; [constructor|reflexivity]|].
  change (untab (c :: s)) with ((if Ascii.eqb c (chr 9) then repeat space 4 else [c]) ++ untab s). change (indent_width (c :: s)) with (places c + indent_width s). unfold places.
  rewrite app_length, IH2. destruct (Ascii.eqb c (chr 9)); split; try reflexivity; apply Forall_app; (split; [|exact IH1]).
  - repeat (apply Forall_cons; [reflexivity|]). constructor.
  - constructor; [exact Hc|constructor].
Qed.
Lemma indent_counted indent l : blanks indent -> headings l -> let s := untab (heading_line indent l) in length s - length (lstrip s) = indent_width indent.
Proof.
  intros Hi Hl. cbv zeta. unfold heading_line. rewrite untab_app. destruct (untab_blanks indent Hi) as [Hb Hn]. rewrite lstrip_blanks by exact Hb. destruct (headings_head l Hl) as (c & t & -> & Hc).
  assert (E : lstrip (untab (c :: t)) = untab (c :: t)).
  { unfold untab. cbn [flat_map]. assert (Ec : Ascii.eqb c tab = false) by (apply Ascii.eqb_neq; intros ->; discriminate). rewrite Ec. unfold lstrip. cbn [app lstrip_p]. now rewrite Hc. }
  rewrite E, app_length. lia.
Qed.

(** ** how many columns are required *)
Lemma int_iff v z : int_arg v = Ok z <-> int_of v z.
Proof.
  split.
  - destruct v as [|b|x|s| | |]; cbn; try discriminate.
    + intros H. destruct b; injection H as <-; constructor.
    + intros H. injection H as <-. constructor.
    + destruct (py_int s) as [y|] eqn:E; [|discriminate]. intros H. injection H as <-. now constructor.
  - intros [x| | |s x H]; cbn; try reflexivity. now rewrite H.
Qed.
Lemma count_iff n a c : (exists v args z, at_args a = v :: args /\ int_arg v = Ok z /\ c = Z.min (Z.max 1 z) n) <-> a_count n a c.
Proof. split; intros (v & args & z & H1 & H2 & H3); exists v, args, z; (split; [exact H1|]); (split; [now apply int_iff|exact H3]). Qed.
Lemma columns_iff n attrs c0 c : columns_of attrs n c0 = Ok c <->
  (Forall (fun a => at_name a <> t_ "columns") attrs /\ c = c0) \/
  (exists l1 a l2, attrs = l1 ++ a :: l2 /\ at_name a = t_ "columns" /\ a_count n a c /\ Forall (fun b => at_name b = t_ "columns" -> exists c', a_count n b c') l1 /\ Forall (fun b => at_name b <> t_ "columns") l2).
Proof.
  revert c0. induction attrs as [|a attrs IH]; intros c0; cbn [columns_of].
  - split; [intros H; injection H as <-; left; split; [constructor|reflexivity]|]. intros [[_ ->]|(l1 & a & l2 & E & _)]; [reflexivity|now destruct l1].
  - destruct (str_eqb (at_name a) $"columns") eqn:En.
    + apply str_eqb_eq in En. change $"columns" with (t_ "columns") in En. split.
      * destruct (at_args a) as [|v args] eqn:Ea; [discriminate|]. destruct (int_arg v) as [z|] eqn:Ez; [|discriminate]. cbn [rbind]. intros H. apply IH in H.
        assert (Ca : a_count n a (Z.min (Z.max 1 z) n)) by (apply count_iff; exists v, args, z; auto).
        destruct H as [[Hf ->]|(l1 & b & l2 & -> & Hb & Hc & H1 & H2)]; right.
        -- exists [], a, attrs. repeat split; auto. 
        -- exists (a :: l1), b, l2. split; [reflexivity|]. split; [exact Hb|]. split; [exact Hc|]. split; [|exact H2]. constructor; [eauto|exact H1].
      * intros [[Hf _]|(l1 & b & l2 & E & Hb & Hc & H1 & H2)]; [inversion Hf; contradiction|]. destruct l1 as [|y l1]; cbn [app] in E; injection E as <- E.
        -- subst l2. apply count_iff in Hc as (v & args & z & -> & -> & ->). cbn [rbind]. apply IH. left. auto.
        -- inversion H1 as [|? ? Hy H1']; subst. destruct (Hy En) as (c' & Hc'). apply count_iff in Hc' as (v & args & z & -> & -> & _). cbn [rbind]. apply IH. right. exists l1, b, l2. auto.
    + assert (Hn : at_name a <> t_ "columns") by (intros K; rewrite K in En; change (t_ "columns") with $"columns" in En; rewrite str_eqb_refl in En; discriminate). rewrite IH. split.
      * intros [[Hf ->]|(l1 & b & l2 & -> & Hb & Hc & H1 & H2)]; [left; auto|right]. exists (a :: l1), b, l2. split; [reflexivity|]. split; [exact Hb|]. split; [exact Hc|]. split; [|exact H2]. constructor; [intros; contradiction|exact H1].
      * intros [[Hf ->]|(l1 & b & l2 & E & Hb & Hc & H1 & H2)]; [left; inversion Hf; auto|right]. destruct l1 as [|y l1]; cbn [app] in E; injection E as <- E; [contradiction|]. inversion H1; subst. exists l1, b, l2. auto.
Qed.
Lemma required_iff n attrs c : columns_of attrs n (n - 2) = Ok c <-> required n attrs c.
Proof.
  rewrite columns_iff. split.
  - intros [[H ->]|(l1 & a & l2 & -> & H1 & H2 & H3 & H4)]; [now apply rq_default|]. now apply (rq_columns n _ l1 a l2).
  - intros [H|l1 a l2 c' -> H1 H2 H3 H4]; [now left|right]. exists l1, a, l2. auto.
Qed.
Lemma required_range n attrs c : (1 <= n)%Z -> required n attrs c -> (c <= n)%Z /\ (c < 1 -> c = n - 2)%Z.
Proof. intros Hn [H|l1 a l2 c' -> H1 (v & args & z & _ & _ & ->) H3 H4]; lia. Qed.

(** ** the expression *)
(** the headings as they are counted: the indentation belongs to the first *)
Definition counted (indent : str) (l : list heading) : list str :=
  match l with [] => [] | h :: t => (repeat space (indent_width indent) ++ heading_text h) :: map heading_text t end.
Definition cols_of (indent : str) (l : list heading) : list (str * nat) := combine (map fst l) (widths indent l).
Lemma strip_heading n h : a_word (fst h) -> blanks (snd h) -> strip (repeat space n ++ heading_text h) = fst h.
Proof.
  intros Hw Hb. destruct h as [w b]. unfold heading_text. cbn [fst snd] in *. 
  assert (Hr : blanks (repeat space n)) by (induction n; constructor; auto). destruct Hw as [Hn Hw].
  unfold strip. assert (E : rstrip (repeat space n ++ w ++ b) = repeat space n ++ w).
  { rewrite app_assoc, rstrip_blanks by exact Hb. destruct (exists_last Hn) as (w' & c & ->). apply Forall_app in Hw as [_ Hc]. inversion Hc; subst. rewrite app_assoc. now apply rstrip_id. }
  rewrite E, lstrip_blanks by exact Hr. pose proof (lstrip_word w [] (conj Hn Hw)) as El. now rewrite app_nil_r in El.
Qed.
Lemma counted_cols indent l : headings l -> map (fun h => (strip h, length h)) (counted indent l) = cols_of indent l.
Proof.
  intros H. apply headings_words in H. destruct l as [|h l]; [reflexivity|]. inversion H as [|? ? [Hw Hb] H']; subst. unfold cols_of, widths, counted. cbn [map combine fst]. f_equal.
  - rewrite strip_heading by assumption. now rewrite app_length, repeat_length.
  - clear H Hw Hb. induction H' as [|k l [Hw Hb] H' IH]; [reflexivity|]. cbn [map combine]. rewrite IH. f_equal. pose proof (strip_heading 0 k Hw Hb) as E. cbn [repeat app] in E. now rewrite E.
Qed.
Lemma counted_names indent l : headings l -> map strip (counted indent l) = map fst l.
Proof.
  intros H. pose proof (counted_cols indent l H) as E. apply (Logic.f_equal (map fst)) in E. rewrite map_map in E. cbn [fst] in E. transitivity (map fst (cols_of indent l)); [exact E|]. clear E. unfold cols_of. assert (L : length (map fst l) = length (widths indent l)) by (unfold widths; destruct l; [reflexivity|]; cbn; now rewrite !map_length). now apply combine_fst.
Qed.
Lemma cell_eq h k : cell h (quant_text k) = cell_text (strip h, k). Proof. reflexivity. Qed.
Definition col (h : str) : str * nat := (strip h, length h).
Lemma opt_row o z : map (fun h => cell h ($"{0," ++ len_str h ++ $"}")) o ++ [cell z $"*"] = map cell_text (optional (map col (o ++ [z]))).
Proof. induction o as [|h o IH]; [reflexivity|]. cbn [map app]. rewrite IH. destruct (o ++ [z]) eqn:E; [now destruct o|]. cbn [map optional]. reflexivity. Qed.
Lemma fixed_row f t : map (fun h => cell h ($"{" ++ len_str h ++ $"}")) f ++ map cell_text (row 0 (map col t)) = map cell_text (row (length f) (map col (f ++ t))).
Proof. induction f as [|h f IH]; [reflexivity|]. change (row (length (h :: f)) (map col ((h :: f) ++ t))) with ((strip h, CFixed (length h)) :: row (length f) (map col (f ++ t))). change (map cell_text ((strip h, CFixed (length h)) :: row (length f) (map col (f ++ t)))) with (cell_text (strip h, CFixed (length h)) :: map cell_text (row (length f) (map col (f ++ t)))). rewrite <- IH. reflexivity. Qed.
Theorem header_cells_row c hs : (1 <= c <= Z.of_nat (length hs))%Z -> header_cells c hs = Ok (map cell_text (row (Z.to_nat (c - 1)) (map col hs))).
Proof.
  intros Hc. unfold header_cells, nth_z, upto, from_z. assert (E1 : Z.ltb (c - 1) 0 = false) by (apply Z.ltb_ge; lia). assert (E2 : Z.ltb c 0 = false) by (apply Z.ltb_ge; lia). rewrite E1, E2. cbv zeta. rewrite E1. set (i := Z.to_nat (c - 1)).
  assert (Hi : i < length hs) by (unfold i; lia). replace (Z.to_nat c) with (S i) by (unfold i; lia).
  assert (Hd : exists f h o, hs = f ++ h :: o /\ length f = i).
  { destruct (nth_error hs i) as [h|] eqn:E; [|apply nth_error_None in E; lia]. apply nth_error_split in E as (f & o & -> & Hl). eauto. }
  destruct Hd as (f & h & o & -> & Hl).
  assert (En : nth_error (f ++ h :: o) i = Some h) by (rewrite nth_error_app2, Hl, Nat.sub_diag by lia; reflexivity). rewrite En.
  assert (Ef : firstn i (f ++ h :: o) = f) by (rewrite <- Hl, firstn_app, Nat.sub_diag, firstn_O, app_nil_r, firstn_all; reflexivity).
  assert (Es : skipn (S i) (f ++ h :: o) = o) by (rewrite <- Hl, skipn_app, skipn_all2 by lia; replace (S (length f) - length f) with 1 by lia; reflexivity).
  rewrite Ef, Es. destruct (opt_last (f ++ h :: o)) as [z|] eqn:Ez; [|apply opt_last_None in Ez; now destruct f]. f_equal.
  rewrite <- Hl. rewrite <- fixed_row. rewrite removelast_app by discriminate. rewrite <- app_assoc. f_equal.
  rewrite app_length in Hc. cbn [length] in Hc. destruct o as [|y o].
  - cbn [map app removelast]. assert (E : Z.leb (Z.of_nat (length (f ++ [h]))) c = true) by (apply Z.leb_le; rewrite app_length; cbn; unfold i in Hl; lia). rewrite E.
    rewrite opt_last_app in Ez. injection Ez as <-. reflexivity.
  - assert (E : Z.leb (Z.of_nat (length (f ++ h :: y :: o))) c = false) by (apply Z.leb_gt; rewrite app_length; cbn; unfold i in Hl; lia). rewrite E.
    destruct (@exists_last _ (y :: o) ltac:(discriminate)) as (o' & x & Eo). rewrite Eo in *. change (f ++ h :: o' ++ [x]) with (f ++ (h :: o') ++ [x]) in Ez. rewrite app_assoc, opt_last_app in Ez. injection Ez as <-.
    rewrite map_app. cbn [map]. change ([cell h ($"{1," ++ len_str h ++ $"}")] ++ map (fun h0 => cell h0 ($"{0," ++ len_str h0 ++ $"}")) o' ++ [cell x ($"{0," ++ len_str x ++ $"}")]) with ((cell h ($"{1," ++ len_str h ++ $"}") :: map (fun h0 => cell h0 ($"{0," ++ len_str h0 ++ $"}")) o') ++ [cell x ($"{0," ++ len_str x ++ $"}")]).
    rewrite removelast_last. cbn [app]. rewrite opt_row. cbn [row map]. destruct (o' ++ [x]) as [|q r]; [now destruct o'|]. reflexivity.
Qed.
Lemma identifier_iff w : MatchVar.identifier w = true <-> group_name w.
Proof.
  unfold MatchVar.identifier, group_name, word_text. destruct w as [|c w]; [split; [discriminate|intros [K _]; congruence]|]. rewrite Bool.andb_true_iff, forallb_forall, Forall_forall. cbn [starts_with_digit]. destruct (is_dec c); cbn; split; intros; try tauto; intuition congruence.
Qed.
Section Line.
Variables (v : varobj) (line indent gap rest : str) (l : list heading).
Hypothesis Hline : line = heading_line indent l ++ gap ++ brace (vo_text v) ++ rest.
Hypothesis Hindent : blanks indent.
Hypothesis Hgap : blanks gap.
Hypothesis Hl : headings l.
Hypothesis Hfirst : nd opn (heading_line indent l ++ gap).
Lemma headers_eq : headers_regex v line =
  do c <- columns_of (vo_attrs v) (Z.of_nat (length l)) (Z.of_nat (length l) - 2);
  do cs <- header_cells c (counted indent l);
  if forallb MatchVar.identifier (map fst l) then Ok ($"\n" ++ concat cs ++ $"(?=\n|\r\n)", map fst l) else Raise ReError.
Proof.
  unfold headers_regex. assert (E : find_at (brace (vo_text v)) line = Some (length (heading_line indent l ++ gap))).
  { rewrite Hline, app_assoc. now apply find_brace. }
  rewrite E. assert (E2 : firstn (length (heading_line indent l ++ gap)) line = heading_line indent l ++ gap).
  { rewrite Hline, app_assoc. rewrite firstn_app, Nat.sub_diag, firstn_O, app_nil_r. apply firstn_all. }
  rewrite E2, rstrip_gap by assumption. cbv zeta.
  assert (E3 : take_headers (S (length (heading_line indent l))) (heading_line indent l) = map heading_text l).
  { assert (G : forall f, take_headers (S f) (heading_line indent l) = take_headers (S f) (concat (map heading_text l))) by (intros f; cbn [take_headers]; unfold heading_line; now rewrite lstrip_blanks by exact Hindent). rewrite G. apply take_headings; [exact Hl|]. unfold heading_line. rewrite app_length. lia. }
  rewrite E3, map_length. destruct (columns_of (vo_attrs v) (Z.of_nat (length l)) (Z.of_nat (length l) - 2)) as [c|]; [|reflexivity]. cbn [rbind].
  pose proof (indent_counted indent l Hindent Hl) as Ei. cbv zeta in Ei. rewrite Ei. pose proof (counted_names indent l Hl) as En. unfold counted in En |- *. destruct l as [|h t]; [now apply headings_ne in Hl|]. cbn [map] in *.
  destruct (header_cells c _) as [cs|]; [|reflexivity]. cbn [rbind].
  assert (Ef : forall hs, forallb (fun h => MatchVar.identifier (strip h)) hs = forallb MatchVar.identifier (map strip hs)) by (induction hs as [|x hs IH]; [reflexivity|]; cbn; now rewrite IH).
  rewrite Ef. change (map strip ((repeat space (indent_width indent) ++ heading_text h) :: map heading_text t)) with (strip (repeat space (indent_width indent) ++ heading_text h) :: map strip (map heading_text t)). rewrite En. reflexivity.
Qed.
Lemma cols_len : length (cols_of indent l) = length l.
Proof. unfold cols_of. rewrite combine_length. unfold widths. destruct l; [reflexivity|]. cbn [map length]. rewrite !map_length. apply Nat.min_id. Qed.
Lemma cols_fst : map fst (cols_of indent l) = map fst l.
Proof. rewrite <- (counted_cols indent l Hl), map_map. cbn [fst]. now apply counted_names. Qed.
Lemma cols_snd : map snd (cols_of indent l) = widths indent l.
Proof. unfold cols_of. assert (L : length (map fst l) = length (widths indent l)) by (unfold widths; destruct l; [reflexivity|]; cbn; now rewrite !map_length). now apply combine_snd. Qed.
Lemma cols_wide : Forall (fun x => 1 <= snd x) (cols_of indent l).
Proof.
  assert (G : Forall (fun n => 1 <= n) (widths indent l)).
  { pose proof (headings_words l Hl) as H. unfold widths. destruct H as [|h t [[Hn _] _] H]; [constructor|]. cbn [map]. constructor; [unfold heading_text; rewrite app_length; destruct (fst h); [congruence|cbn; lia]|]. apply Forall_map. eapply Forall_impl; [|exact H]. intros k [[Hk _] _]. unfold heading_text. rewrite app_length. destruct (fst k); [congruence|cbn; lia]. }
  rewrite <- cols_snd in G. rewrite Forall_map in G. exact G.
Qed.
Lemma headers_ok c : required (Z.of_nat (length l)) (vo_attrs v) c -> (1 <= c)%Z -> Forall group_name (map fst l) ->
  headers_regex v line = Ok (row_text (row (Z.to_nat (c - 1)) (cols_of indent l)), map fst l).
Proof.
  intros Hr Hc Hn. rewrite headers_eq. pose proof (headings_ne l Hl) as Hne. assert (Hlen : (1 <= Z.of_nat (length l))%Z) by (destruct l; [congruence|cbn; lia]).
  pose proof (required_range _ _ _ Hlen Hr) as [Hc2 _]. apply required_iff in Hr. rewrite Hr. cbn [rbind].
  assert (Lc : length (counted indent l) = length l) by (unfold counted; destruct l; [reflexivity|]; cbn; now rewrite map_length).
  rewrite header_cells_row by (rewrite Lc; lia). cbn [rbind]. unfold col. rewrite counted_cols by exact Hl.
  assert (Ei : forallb MatchVar.identifier (map fst l) = true) by (apply forallb_forall; intros w Hw; apply identifier_iff; rewrite Forall_forall in Hn; now apply Hn). rewrite Ei. reflexivity.
Qed.
Lemma cell_names c : map fst (row c (cols_of indent l)) = map fst l.
Proof.
  rewrite <- cols_fst. generalize (cols_of indent l). clear. assert (O : forall cols, map fst (optional cols) = map fst cols).
  { induction cols as [|[n w] [|p cols] IH]; try reflexivity. cbn [optional map fst] in *. now rewrite IH. }
  intros cols. revert c. induction cols as [|[n w] cols IH]; intros c; [now destruct c|]. destruct c as [|c].
  - destruct cols as [|p cols]; [reflexivity|]. change (n :: map fst (optional (p :: cols)) = n :: map fst (p :: cols)). now rewrite O.
  - change (n :: map fst (row c cols) = n :: map fst cols). now rewrite IH.
Qed.
Lemma cell_good c : Forall group_name (map fst l) -> Forall (fun x => fst x <> [] /\ word_text (fst x)) (row c (cols_of indent l)).
Proof. intros H. rewrite <- (cell_names c) in H. rewrite Forall_map in H. eapply Forall_impl; [|exact H]. intros x (H1 & H2 & _). now split. Qed.
Theorem headers_rows c : required (Z.of_nat (length l)) (vo_attrs v) c -> (1 <= c)%Z -> Forall group_name (map fst l) -> NoDup (map fst l) ->
  exists r ast, headers_regex v line = Ok (r, map fst l) /\ re_compile r = Some ast /\
    forall d, map m_caps (finditer ast (nl :: d ++ [nl])) =
      flat_map (fun s => if reaches (widths indent l) c s then [combine (map fst l) (cells (widths indent l) s)] else []) (split [nl] d).
Proof.
  intros Hr Hc Hn Hd. exists (row_text (row (Z.to_nat (c - 1)) (cols_of indent l))), (row_re (row (Z.to_nat (c - 1)) (cols_of indent l))). split; [now apply headers_ok|].
  split; [apply row_compile; [now apply cell_good|now rewrite cell_names]|]. intros d.
  pose proof (headings_ne l Hl) as Hne. assert (Hlen : (1 <= Z.of_nat (length l))%Z) by (destruct l; [congruence|cbn; lia]). pose proof (required_range _ _ _ Hlen Hr) as [Hc2 _].
  rewrite row_find; [|rewrite cols_len; lia|exact cols_wide|now rewrite cols_fst]. unfold row_at, filled, reaches. rewrite cols_fst, cols_snd. reflexivity.
Qed.
(** otherwise there is no expression *)
Theorem headers_none c : required (Z.of_nat (length l)) (vo_attrs v) c -> (c < 1)%Z \/ ~ Forall group_name (map fst l) \/ ~ NoDup (map fst l) ->
  forall r names, headers_regex v line = Ok (r, names) -> re_compile r = None.
Proof.
  intros Hr H r names E. pose proof Hr as Hr'. rewrite headers_eq in E. pose proof (headings_ne l Hl) as Hne. assert (Hlen : (1 <= Z.of_nat (length l))%Z) by (destruct l; [congruence|cbn; lia]).
  pose proof (required_range _ _ _ Hlen Hr) as [Hc2 Hc1]. apply required_iff in Hr. rewrite Hr in E. cbn [rbind] in E.
  assert (Lc : length (counted indent l) = length l) by (unfold counted; destruct l; [reflexivity|]; cbn; now rewrite map_length).
  destruct (header_cells c (counted indent l)) as [cs|] eqn:Ec; [|discriminate]. cbn [rbind] in E.
  destruct (forallb MatchVar.identifier (map fst l)) eqn:Ei; [|discriminate]. assert (r = $"\n" ++ concat cs ++ $"(?=\n|\r\n)") by congruence. subst r. clear E.
  assert (Hn : Forall group_name (map fst l)) by (apply Forall_forall; intros w Hw; apply identifier_iff; now apply (proj1 (forallb_forall _ _) Ei)).
  destruct (Z_lt_le_dec c 1) as [Hc|Hc].
  - specialize (Hc1 Hc). destruct l as [|h1 [|h2 [|h3 t]]]; [congruence| | |exfalso; cbn [length] in Hc1; lia].
    + exfalso. cbn [length] in Hc1. subst c. vm_compute in Ec. discriminate.
    + cbn [length] in Hc1. change (Z.of_nat 2 - 2)%Z with 0%Z in Hc1. subst c.
      pose (k1 := repeat space (indent_width indent) ++ heading_text h1). assert (Es1 : strip k1 = fst h1) by (apply strip_heading; apply headings_words in Hl; inversion Hl as [|? ? [? ?] ?]; assumption).
      assert (Es2 : strip (heading_text h2) = fst h2) by (apply (strip_heading 0); apply headings_words in Hl; inversion Hl as [|? ? ? Hl']; inversion Hl' as [|? ? [? ?] ?]; assumption).
      cbn [counted map] in Ec. fold k1 in Ec. set (k2 := heading_text h2) in *. 
      assert (Ecs : cs = map cell_text [(strip k1, CFixed (length k1)); (strip k2, CSome (length k2)); (strip k1, COpt (length k1)); (strip k2, CRest0)]) by (cbv in Ec |- *; congruence).
      subst cs. rewrite Es1, Es2. apply row_clash.
      * cbn [map] in Hn. inversion Hn as [|? ? (Ha & Hb & _) Hn']; subst. inversion Hn' as [|? ? (Ha' & Hb' & _) _]; subst. repeat (apply Forall_cons; [cbn [fst]; auto|]). constructor.
      * cbn [map fst]. intros K. inversion K as [|? ? K1 _]; subst. apply K1. right. left. reflexivity.
  - rewrite header_cells_row in Ec by (rewrite Lc; lia). assert (Ecs : cs = map cell_text (row (Z.to_nat (c - 1)) (map col (counted indent l)))) by congruence. subst cs. unfold col. rewrite counted_cols by exact Hl.
    apply row_clash; [now apply cell_good|]. rewrite cell_names. destruct H as [H|[H|H]]; [lia|contradiction|exact H].
Qed.
End Line.
