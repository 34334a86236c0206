(** * PlainProgram: a template of plain lines, from its text to the results. *)
From Coq Require Import Lia.
From Verif Require Import PyBase DictFacts StrFacts SessionFacts Xml XmlFacts LoadFacts Regex SpecRegex RegexFacts Results Template Attributes FormRegex SpecLine MatchVar MatchFuncs Parser ParserFacts ParserFacts2 SpecTree SpecRecords
  PathFacts MachineFacts RunFacts Compile CompileFacts FindLines OutputFacts EscapeFacts LineFacts Load SpecForm SpecProgram PlainLine LineRun PlainRun.
Local Open Scope string_scope.
Local Open Scope list_scope.

(** ** the lines of the template *)
Lemma splitlines_stacked ls : Forall (lacks nl) ls -> splitlines (stacked ls) = [] :: ls.
Proof.
  intros H. assert (E : split [nl] (stacked ls) = [] :: ls ++ [[]]).
  { induction H as [|l ls Hl _ IH]; [reflexivity|]. rewrite stacked_cons. change (nl :: l ++ stacked ls) with ([] ++ nl :: (l ++ stacked ls)). rewrite split_app by (intros []).
    f_equal. destruct (stacked_nl ls) as (u & Eu). rewrite Eu in *. rewrite split_app by exact Hl. cbn [app]. f_equal. change (nl :: u) with ([] ++ nl :: u) in IH. rewrite split_app in IH by (intros []). congruence. }
  unfold splitlines. rewrite E. cbn [rev]. rewrite rev_app_distr. cbn [rev app]. now rewrite rev_app_distr, rev_involutive.
Qed.
Lemma rstrip_id s c : is_space c = false -> rstrip (s ++ [c]) = s ++ [c].
Proof. intros H. unfold rstrip, rstrip_p. rewrite rev_app_distr. cbn [rev app lstrip_p]. rewrite H. cbn [rev]. now rewrite rev_involutive. Qed.
(** the last character of a line *)
Lemma body_last vars : forall first lit, Forall (Forall lit_char) (lit :: map snd vars) -> vars <> [] -> separated first lit vars -> exists s c, body lit (map spelled vars) = s ++ [c] /\ is_space c = false.
Proof.
  induction vars as [|[n l] vs IH]; intros first lit HF Hne Hs; [congruence|]. cbn [map body]. change (spelled (n, l)) with (spell n, l). inversion HF as [|? ? _ HF']; subst. cbn [map snd] in HF'. destruct Hs as (_ & _ & Hs).
  destruct vs as [|v vs].
  - cbn [map body]. destruct Hs as [->|[Hb He]].
    + exists (lit ++ opn :: opn :: spell n ++ [cls]), cls. split; [|reflexivity]. unfold brace. cbn [app]. rewrite app_nil_r, <- !app_assoc. cbn [app]. now rewrite <- app_assoc.
    + destruct l as [|c l] using rev_ind; [destruct Hb as (c & t & E & _); discriminate|]. clear IHl. exists (lit ++ brace (spell n) ++ l), c. split; [now rewrite <- !app_assoc|].
      destruct (is_space c) eqn:E; [|reflexivity]. exfalso. apply He. exists l, c. split; [reflexivity|]. inversion HF' as [|? ? Hl _]; subst. apply Forall_app in Hl as [_ Hl]. apply Forall_inv in Hl. destruct Hl as [(Hl & _)| ->]; [now apply Hl|reflexivity].
  - destruct (IH false l HF' ltac:(discriminate) Hs) as (s & c & E & Hc). rewrite E. exists (lit ++ brace (spell n) ++ s), c. split; [now rewrite <- !app_assoc|exact Hc].
Qed.
Lemma prefix_hash lit r : prefixb $"##" lit = false -> prefixb $"##" (lit ++ "{"%char :: r) = false.
Proof.
  intros H. change ($"##") with ["#"%char; "#"%char] in *. destruct lit as [|a [|b lit]].
  - reflexivity.
  - cbn [app prefixb]. destruct (Ascii.eqb "#" a); reflexivity.
  - cbn [app prefixb] in *. exact H.
Qed.
Lemma body_of_eq t : tline_ok t -> exists r, body_of t = tl_lit t ++ "{"%char :: r.
Proof. intros (H & _). unfold body_of. destruct (tl_vars t) as [|[n l] vs]; [congruence|]. cbn [map body]. change (spelled (n, l)) with (spell n, l). eexists. unfold brace. cbn [app]. reflexivity. Qed.
Lemma lstrip_blanks i s : Forall (fun c => is_space c = true) i -> (exists c u, s = c :: u /\ is_space c = false) -> lstrip (i ++ s) = s.
Proof. intros Hi (c & u & -> & Hc). induction Hi as [|x i Hx _ IH]; cbn [app]; unfold lstrip in *; cbn [lstrip_p]; [now rewrite Hc|]. now rewrite Hx. Qed.
Lemma source_rstrip t : tline_ok t -> rstrip (source t) = source t.
Proof.
  intros (H1 & _ & _ & _ & H5 & H6 & _). unfold source. destruct (body_last (tl_vars t) true (tl_lit t) H5 H1 H6) as (s & c & -> & Hc). rewrite app_assoc. now apply rstrip_id.
Qed.
Lemma source_lstrip t : tline_ok t -> lstrip (source t) = body_of t.
Proof. intros H. unfold source. apply lstrip_blanks; [apply blanks_spaces, H|exact (body_first t H)]. Qed.
(** a character of the line *)
Definition src_char (c : ascii) : Prop := xml_char c = true /\ c <> nl /\ c <> chr 13 /\ c <> "<"%char /\ c <> "&"%char.
Lemma lit_src c : lit_char c -> src_char c.
Proof.
  assert (G : forall c, implb ((implb (is_space c) (blank c) && negb (existsb (Ascii.eqb c) $"<&{") && N.leb 32 (code c)) || Ascii.eqb c tab)%bool
     (xml_char c && negb (Ascii.eqb c nl) && negb (Ascii.eqb c (chr 13)) && negb (Ascii.eqb c "<") && negb (Ascii.eqb c "&"))%bool = true) by (apply EscapeFacts.all256; vm_compute; reflexivity).
  intros H. specialize (G c). assert (E : ((implb (is_space c) (blank c) && negb (existsb (Ascii.eqb c) $"<&{") && N.leb 32 (code c)) || Ascii.eqb c tab)%bool = true).
  { destruct H as [(A & B & C)| ->]; [|apply Bool.orb_true_r]. apply Bool.orb_true_iff. left. rewrite !Bool.andb_true_iff. split; [split|].
    - destruct (is_space c); [now apply A|reflexivity].
    - apply Bool.negb_true_iff, Bool.not_true_iff_false. intros K. apply existsb_exists in K as (x & K1 & K2). apply Ascii.eqb_eq in K2 as ->. contradiction.
    - now apply N.leb_le. }
  rewrite E in G. cbn [implb] in G. rewrite !Bool.andb_true_iff, !Bool.negb_true_iff in G. destruct G as ((((G1 & G2) & G3) & G4) & G5). split; [exact G1|]. repeat split; apply Ascii.eqb_neq; assumption.
Qed.
Lemma blank_src c : blank c = true -> src_char c.
Proof.
  assert (G : forall c, implb (blank c) (xml_char c && negb (Ascii.eqb c nl) && negb (Ascii.eqb c (chr 13)) && negb (Ascii.eqb c "<") && negb (Ascii.eqb c "&"))%bool = true) by (apply EscapeFacts.all256; vm_compute; reflexivity).
  intros H. specialize (G c). rewrite H in G. cbn [implb] in G. rewrite !Bool.andb_true_iff, !Bool.negb_true_iff in G. destruct G as ((((G1 & G2) & G3) & G4) & G5). split; [exact G1|]. repeat split; apply Ascii.eqb_neq; assumption.
Qed.
Lemma word_src c : is_word c = true -> src_char c.
Proof.
  assert (G : forall c, implb (is_word c) (xml_char c && negb (Ascii.eqb c nl) && negb (Ascii.eqb c (chr 13)) && negb (Ascii.eqb c "<") && negb (Ascii.eqb c "&"))%bool = true) by (apply EscapeFacts.all256; vm_compute; reflexivity).
  intros H. specialize (G c). rewrite H in G. cbn [implb] in G. rewrite !Bool.andb_true_iff, !Bool.negb_true_iff in G. destruct G as ((((G1 & G2) & G3) & G4) & G5). split; [exact G1|]. repeat split; apply Ascii.eqb_neq; assumption.
Qed.
Lemma const_src c : In c [opn; cls; space] -> src_char c.
Proof. intros [<-|[<-|[<-|[]]]]; (split; [reflexivity|]; repeat split; discriminate). Qed.
Lemma body_src vars : Forall SpecProgram.name_ok (map fst vars) -> forall lit, Forall (Forall lit_char) (lit :: map snd vars) -> Forall src_char (body lit (map spelled vars)).
Proof.
  induction vars as [|[n l] vs IH]; intros Hn lit HF; inversion HF as [|? ? Hl HF']; subst; cbn [map body].
  - rewrite app_nil_r. eapply Forall_impl; [|exact Hl]. apply lit_src.
  - change (spelled (n, l)) with (spell n, l). inversion Hn as [|? ? Hn0 Hn']; subst. cbn [map fst snd] in *. apply Forall_app. split; [eapply Forall_impl; [|exact Hl]; apply lit_src|]. apply Forall_app. split; [|now apply IH].
    unfold brace, spell. cbn [app]. constructor; [apply const_src; cbn; tauto|]. constructor; [apply const_src; cbn; tauto|]. constructor; [apply const_src; cbn; tauto|]. rewrite <- app_assoc. apply Forall_app. split.
    + eapply Forall_impl; [|apply Hn0]. apply word_src.
    + cbn [app]. constructor; [apply const_src; cbn; tauto|]. constructor; [apply const_src; cbn; tauto|]. constructor; [apply const_src; cbn; tauto|]. constructor.
Qed.
Lemma source_src t : tline_ok t -> Forall src_char (source t).
Proof. intros (H1 & H2 & H3 & H4 & H5 & _). unfold source. apply Forall_app. split; [eapply Forall_impl; [|exact H4]; apply blank_src|now apply body_src]. Qed.
Lemma source_nl t : tline_ok t -> lacks nl (source t).
Proof. intros H K. apply source_src in H. rewrite Forall_forall in H. apply H in K as (_ & K & _). congruence. Qed.
Theorem used_sources ts : Forall tline_ok ts -> used_lines (stacked (map source ts)) = map source ts.
Proof.
  intros H. unfold used_lines. rewrite splitlines_stacked by (apply Forall_map; eapply Forall_impl; [|exact H]; exact source_nl).
  cbn [filter]. change (strip []) with (@nil ascii). cbn [negb andb].
  assert (E : filter (fun l => (negb match strip l with [] => true | _ :: _ => false end && negb (prefixb $"##" (lstrip l)))%bool) (map source ts) = map source ts).
  { apply filter_all, Forall_map. eapply Forall_impl; [|exact H]. intros t Ht. unfold strip. rewrite (source_rstrip t Ht), (source_lstrip t Ht). destruct (body_of_eq t Ht) as (r & Er). rewrite Er.
    rewrite prefix_hash by apply Ht. now destruct (tl_lit t). }
  rewrite E. rewrite map_map. rewrite (map_ext_in (fun x => rstrip (source x)) source) by (intros t Ht; apply source_rstrip; rewrite Forall_forall in H; now apply H).
  apply filter_all, Forall_map. eapply Forall_impl; [|exact H]. intros t Ht. rewrite (source_vars t Ht). unfold tl_names. destruct Ht as (Ht & _). now destruct (tl_vars t).
Qed.
Lemma text_stacked ts : ts <> [] -> [nl] ++ template_text ts ++ [nl] = stacked (map source ts).
Proof.
  intros H. unfold template_text. assert (G : forall ls, ls <> [] -> stacked ls = nl :: join [nl] ls ++ [nl]).
  { induction ls as [|l [|l' ls] IH]; intros Hl; [congruence|unfold stacked; cbn [flat_map join app]; now rewrite app_nil_r|]. rewrite stacked_cons, IH by discriminate. cbn [join]. now rewrite <- !app_assoc. }
  rewrite G by (destruct ts; [congruence|discriminate]). reflexivity.
Qed.
Lemma newlines_lf s : lacks (chr 13) s -> newlines s = s.
Proof. induction s as [|c s IH]; intros H; [reflexivity|]. cbn [newlines]. destruct (Ascii.eqb_spec c (chr 13)) as [->|Hc]; [exfalso; apply H; now left|]. rewrite IH; [reflexivity|]. intros K. apply H. now right. Qed.
Lemma text_chars ts : Forall tline_ok ts -> Forall (fun c => src_char c \/ c = nl) (template_text ts).
Proof.
  intros H. unfold template_text. induction H as [|t ts Ht _ IH]; [constructor|]. cbn [map]. assert (S : Forall (fun c => src_char c \/ c = nl) (source t)) by (eapply Forall_impl; [|exact (source_src t Ht)]; auto).
  destruct (map source ts) as [|l ls]; cbn [join]; [exact S|]. apply Forall_app. split; [exact S|]. apply Forall_app. split; [constructor; [now right|constructor]|exact IH].
Qed.
Lemma text_plain ts : Forall tline_ok ts -> containsb $"]]>" (template_text ts) = false -> plain_text (template_text ts).
Proof.
  intros H E. apply text_chars in H. rewrite Forall_forall in H. split; [|split; [|split; [|exact E]]].
  - intros K. destruct (H _ K) as [(_ & _ & _ & A & _)|A]; [congruence|discriminate].
  - intros K. destruct (H _ K) as [(_ & _ & _ & _ & A)|A]; [congruence|discriminate].
  - apply Forall_forall. intros c Hc. destruct (H _ Hc) as [(A & _)| ->]; [exact A|reflexivity].
Qed.
Theorem plain_tree w ts : ts <> [] -> Forall tline_ok ts -> containsb $"]]>" (template_text ts) = false -> template_tree w (template_text ts) = Ok (anon_tree (stacked (map source ts))).
Proof.
  intros Hne H E. rewrite (template_tree_plain w _ (text_plain ts H E)). rewrite newlines_lf; [now rewrite text_stacked|].
  intros K. apply in_app_or in K as [[K|[]]|K]; [discriminate|]. apply in_app_or in K as [K|[K|[]]]; [|discriminate]. apply text_chars in H. rewrite Forall_forall in H. destruct (H _ K) as [(_ & _ & A & _)|A]; [congruence|discriminate].
Qed.
