(** * LoadedFacts: lemmas for SpecLoaded (C131): the tree. *)
From Verif Require Import PyBase Regex Results Template Attributes FormRegex MatchVar MatchFuncs GroupFuncs Parser Compile FuncTable Loaders Xml Session Files Inputs OutputTags Load
  SpecAttr SpecVariable SpecFiles SpecInputs SpecOutputTags SpecMade SpecJson DictFacts StrFacts ReprFacts JsonDumpFacts XmlFacts LoadFacts FileFacts SessionFacts MadeFacts OutputRunFacts SpecLoaded.
Local Open Scope string_scope.
Local Open Scope list_scope.

(** ** bytes *)
Lemma code_chr n : (n < 256)%N -> code (chr n) = n.
Proof. intros H. unfold code, chr. now apply N_ascii_embedding. Qed.
Lemma chr_code c : chr (code c) = c.
Proof. apply ascii_N_embedding. Qed.
Lemma code_lt c : (code c < 256)%N.
Proof. apply N_ascii_bounded. Qed.
Lemma code_inj a b : code a = code b -> a = b.
Proof. intros H. rewrite <- (chr_code a), H. apply chr_code. Qed.
Lemma encoded_iff c s : encoded c s <-> utf8 c = s.
Proof.
  unfold utf8. pose proof (code_lt c) as L. split.
  - destruct 1 as [c H|c a b H E Ha Hb].
    + now rewrite (proj2 (N.ltb_lt _ _) H).
    + rewrite (proj2 (N.ltb_ge _ _) H). assert (X : (code c / 64 = code a - 192)%N) by (symmetry; apply N.div_unique with (code b - 128)%N; lia).
      assert (Y : (code c mod 64 = code b - 128)%N) by (symmetry; apply N.mod_unique with (code a - 192)%N; lia). rewrite X, Y.
      assert (A2 : chr (192 + (code a - 192)) = a) by (replace (192 + (code a - 192))%N with (code a) by lia; apply chr_code). assert (B2 : chr (128 + (code b - 128)) = b) by (replace (128 + (code b - 128))%N with (code b) by lia; apply chr_code). now rewrite A2, B2.
  - intros <-. destruct (N.ltb_spec (code c) 128) as [H|H]; [now constructor|].
    pose proof (N.mod_lt (code c) 64 ltac:(lia)) as M. pose proof (N.div_mod (code c) 64 ltac:(lia)) as D.
    assert (D2 : (code c / 64 < 4)%N) by (apply N.div_lt_upper_bound; lia).
    set (d := (code c / 64)%N) in *. set (m := (code c mod 64)%N) in *. clearbody d m. assert (X : code (chr (192 + d)) = (192 + d)%N) by (apply code_chr; lia). assert (Y : code (chr (128 + m)) = (128 + m)%N) by (apply code_chr; lia). apply en_two; rewrite ?X, ?Y; lia.
Qed.
Lemma byte_iff q c s : q = chr 34 \/ q = chr 39 -> (byte_shown q c s <-> bytes_char q c = s).
Proof.
  intros Hq. assert (Q : code q = 34%N \/ code q = 39%N) by (destruct Hq as [-> | ->]; [left|right]; reflexivity). unfold bytes_char, between. split.
  - destruct 1 as [| | | | |c H1 H2 H3|c h l hv lv H Hh Hl E].
    + destruct Hq as [-> | ->]; reflexivity.
    + destruct Hq as [-> | ->]; reflexivity.
    + destruct Hq as [-> | ->]; reflexivity.
    + destruct Hq as [-> | ->]; reflexivity.
    + destruct Hq as [-> | ->]; reflexivity.
    + rewrite (proj2 (N.leb_gt _ _)) by lia. cbn [andb]. unfold repr_char. destruct (Ascii.eqb_spec c "\") as [|_]; [contradiction|]. destruct (Ascii.eqb_spec c q) as [|_]; [contradiction|]. cbn [orb].
      destruct (Ascii.eqb_spec c nl) as [->|_]; [change (code nl) with 10%N in H1; lia|]. destruct (Ascii.eqb_spec c tab) as [->|_]; [change (code tab) with 9%N in H1; lia|].
      rewrite (proj2 (N.eqb_neq _ _)) by lia. unfold printable, between. rewrite (proj2 (N.leb_le 32 (code c))) by lia. rewrite (proj2 (N.leb_le (code c) 126)) by lia. reflexivity.
    + apply lower_hex_is in Hh as [-> Hh], Hl as [-> Hl]. assert (X : (code c / 16 = hv)%N) by (symmetry; apply N.div_unique with lv; lia).
      assert (Y : (code c mod 16 = lv)%N) by (symmetry; apply N.mod_unique with hv; lia).
      pose proof (code_lt c) as L. destruct H as [[H N9]|H].
      * rewrite (proj2 (N.leb_gt _ _)) by lia. cbn [andb]. unfold repr_char.
        assert (Z : forall a, In a [chr 9; chr 10; chr 13] -> c <> a) by (intros a I ->; contradiction).
        destruct (Ascii.eqb_spec c "\") as [->|_]; [change (code "\") with 92%N in H; lia|]. destruct (Ascii.eqb_spec c q) as [->|_]; [lia|]. cbn [orb].
        destruct (Ascii.eqb_spec c nl) as [->|_]; [exfalso; apply N9; right; now left|]. destruct (Ascii.eqb_spec c tab) as [->|_]; [exfalso; apply N9; now left|].
        destruct (N.eqb_spec (code c) 13) as [K|_]; [exfalso; apply N9; right; right; left; now apply code_inj|].
        unfold printable, between. rewrite !(proj2 (N.leb_gt _ (code c))) by lia. cbn [andb orb]. now rewrite X, Y.
      * rewrite (proj2 (N.leb_le _ (code c))) by lia. rewrite (proj2 (N.leb_le (code c) _)) by lia. cbn [andb]. now rewrite X, Y.
  - intros <-. pose proof (code_lt c) as L.
    pose proof (N.mod_lt (code c) 16 ltac:(lia)) as M. pose proof (N.div_mod (code c) 16 ltac:(lia)) as D. assert (D2 : (code c / 16 < 16)%N) by (apply N.div_lt_upper_bound; lia).
    destruct (N.leb_spec 127 (code c)) as [H|H].
    + rewrite (proj2 (N.leb_le (code c) 255)) by lia. cbn [andb]. eapply by_hex; [now right|now apply lower_hexdigit|now apply lower_hexdigit|lia].
    + cbn [andb]. unfold repr_char. destruct (Ascii.eqb_spec c "\") as [->|H1]; [constructor|]. destruct (Ascii.eqb_spec c q) as [->|H2]; [constructor|]. cbn [orb].
      destruct (Ascii.eqb_spec c nl) as [->|H3]; [constructor|]. destruct (Ascii.eqb_spec c tab) as [->|H4]; [constructor|].
      destruct (N.eqb_spec (code c) 13) as [K|H5]; [apply (code_inj c (chr 13)) in K; subst c; constructor|].
      unfold printable, between. destruct (N.leb_spec 32 (code c)) as [H6|H6].
      * rewrite (proj2 (N.leb_le (code c) 126)) by lia. constructor; [lia|assumption|assumption].
      * rewrite !(proj2 (N.leb_gt _ (code c))) by lia. cbn [andb orb]. eapply by_hex; [left; split; [exact H6|]|now apply lower_hexdigit|now apply lower_hexdigit|lia].
        intros [K|[K|[K|[]]]]; subst c; [now apply H4|now apply H3|now apply H5].
Qed.
Lemma f2_map {A B} (R : A -> B -> Prop) (f : A -> B) l l' : (forall a b, R a b <-> f a = b) -> (Forall2 R l l' <-> map f l = l').
Proof.
  intros H. split.
  - induction 1 as [|a b l l' R1 _ IH]; [reflexivity|]. cbn [map]. apply H in R1. now rewrite R1, IH.
  - intros <-. induction l as [|a l IH]; cbn [map]; constructor; [now apply H|exact IH].
Qed.
Theorem bytes_iff s r : bytes_repr s = r <-> bytes_shown s r.
Proof.
  unfold bytes_repr, bytes_shown. set (q := if (existsb (Ascii.eqb squote) s && negb (existsb (Ascii.eqb dquote) s))%bool then dquote else squote).
  assert (EX : forall c, existsb (Ascii.eqb c) s = true <-> In c s) by (intros c; rewrite existsb_exists; split; [intros (x & I & E); apply Ascii.eqb_eq in E; now subst x|intros I; exists c; split; [exact I|apply Ascii.eqb_refl]]).
  assert (Q : forall x, (In (chr 39) s /\ ~ In (chr 34) s /\ x = chr 34) \/ (~ (In (chr 39) s /\ ~ In (chr 34) s) /\ x = chr 39) <-> x = q).
  { intros x. unfold q. change squote with (chr 39). change dquote with (chr 34). rewrite <- !EX. destruct (existsb (Ascii.eqb (chr 39)) s), (existsb (Ascii.eqb (chr 34)) s); cbn [andb negb]; intuition congruence. }
  assert (Q2 : q = chr 34 \/ q = chr 39) by (unfold q; destruct (_ && _)%bool; [now left|now right]).
  rewrite !flat_map_concat_map. split.
  - intros <-. exists (map utf8 s), (map (bytes_char q) (concat (map utf8 s))), q. split; [now apply (f2_map _ utf8); [apply encoded_iff|]|]. split; [now apply Q|]. split; [|reflexivity].
    apply (f2_map _ (bytes_char q)); [intros; now apply byte_iff|reflexivity].
  - intros (es & bs & q' & E & K & B & ->). apply Q in K. subst q'. apply (f2_map _ utf8) in E; [|apply encoded_iff]. apply (f2_map _ (bytes_char q)) in B; [|intros; now apply byte_iff]. now subst es bs.
Qed.

(** ** the tree of a text *)
Theorem read_iff t fmt e : construct t fmt = Ok e <-> read_as t fmt e.
Proof.
  unfold construct. change (wrapped fmt) with (in_template fmt). change (wrapped_group fmt) with (in_group fmt).
  assert (P : forall x y, parse_xml x = Ok y <-> xml_parse x = Some y) by (intros x y; unfold parse_xml; destruct (xml_parse x); split; congruence).
  assert (T : forall y, str_eqb (lower (e_tag y)) $"template" = true <-> template_tag y) by (intros y; apply str_eqb_eq).
  set (m := match xml_parse t with Some _ => _ | None => _ end).
  assert (M : forall y, m = Ok y <-> (xml_parse t = Some y /\ template_tag y) \/ ((forall e1, xml_parse t = Some e1 -> ~ template_tag e1) /\ xml_parse (in_template fmt) = Some y)).
  { intros y. unfold m. destruct (xml_parse t) as [e0|].
    - destruct (str_eqb (lower (e_tag e0)) $"template") eqn:E.
      + apply T in E. split; [intros K; left; split; congruence|]. intros [[K _]|[K _]]; [congruence|]. now elim (K e0).
      + assert (N : ~ template_tag e0) by (intros K; apply T in K; congruence). rewrite P. split; [intros K; right; split; [intros e1 K1; injection K1 as <-; exact N|exact K]|]. intros [[K Q]|[_ K]]; [injection K as <-; contradiction|exact K].
    - rewrite P. split; [intros K; right; split; [discriminate|exact K]|]. intros [[K _]|[_ K]]; [discriminate|exact K]. }
  clearbody m. split.
  - intros K. destruct m as [y|]; [|discriminate]. cbn [rbind] in K. destruct (proj1 (M y) eq_refl) as [[K1 K2]|[K1 K2]].
    + destruct (e_children y) eqn:C; [apply P in K; eapply ra_text; [left; split; eassumption|assumption|assumption]|]. injection K as <-. apply ra_template; [assumption|assumption|congruence].
    + destruct (e_children y) eqn:C; [apply P in K; eapply ra_text; [right; split; eassumption|assumption|assumption]|]. injection K as <-. apply ra_wrapped; [assumption|assumption|congruence].
  - intros K. destruct K as [e K1 K2 K3|e K1 K2 K3|e e' K1 K2 K3].
    + rewrite (proj2 (M e)) by (left; now split). cbn [rbind]. destruct (e_children e); congruence.
    + rewrite (proj2 (M e)) by (right; now split). cbn [rbind]. destruct (e_children e); congruence.
    + rewrite (proj2 (M e') K1). cbn [rbind]. rewrite K2. now apply P.
Qed.
Lemma inside_has n e : has_tag n e = true <-> exists d, inside d e /\ e_tag d = n.
Proof.
  rewrite has_tag_within. assert (W : forall d, within d e <-> inside d e); [|split; intros (d & H & E); exists d; (split; [now apply W|exact E])].
  intros d. split.
  - induction 1 as [e|d c n0 a x cs t I _ IH]; [constructor|]. now apply in_child with c.
  - induction 1 as [e|d c e I _ IH]; [constructor|]. destruct e as [n0 a x cs t]. now apply within_child with c.
Qed.
Section W.
Variable w : world.
Lemma text_brought_iff ms c x : extension_text w ms c = Ok x <-> text_brought w ms c x.
Proof.
  unfold extension_text. set (p := attr_or (e_attrs c) $"template" []).
  assert (P : forall q, (attribute_of (e_attrs c) "template" = Some q \/ (attribute_of (e_attrs c) "template" = None /\ q = [])) <-> q = p).
  { intros q. unfold p, attr_or. change (attr (e_attrs c) $"template") with (attribute_of (e_attrs c) "template"). destruct (attribute_of (e_attrs c) "template"); split; [intros [K|[K _]]; congruence|intros ->; now left|intros [K|[_ K]]; congruence|intros ->; now right]. }
  assert (F : forall y, file_text w c y <-> exists l, load_files w (VStr p) [] [] true = Ok (TextData y :: l) /\ y <> p).
  { intros y. unfold file_text. split.
    - intros (q & l & Q & L & N). apply P in Q. subst q. exists l. split; [now apply loads_iff|exact N].
    - intros (l & L & N). exists p, l. split; [now apply P|]. split; [now apply loads_iff|exact N]. }
  change (attr (e_attrs c) $"macro") with (attribute_of (e_attrs c) "macro"). split.
  - intros K. destruct (load_files w (VStr p) [] [] true) as [l|] eqn:L; [|discriminate]. cbn [rbind] in K. destruct l as [|d l]; [discriminate|]. destruct d as [?|y|?]; try discriminate.
    destruct (str_eqb y p) eqn:X; [discriminate|]. apply str_eqb_neq in X. assert (FT : file_text w c y) by (apply F; exists l; now split). destruct (attribute_of (e_attrs c) "macro") as [n|] eqn:A.
    + pose proof (find_defined ms n) as D. destruct (find (fun m => str_eqb (fst m) n) ms) as [[n' f]|]; cbn [snd] in K.
      * destruct D as [-> D]. destruct (f (VStr y)) as [r|] eqn:E; [|discriminate]. cbn [rbind] in K. destruct r as [v|]; [|discriminate]. destruct v; try discriminate. injection K as <-. eapply tb_macro; eassumption.
      * injection K as <-. apply tb_plain; [exact FT|]. intros m E. assert (m = n) by congruence. now subst m.
    + injection K as <-. apply tb_plain; [exact FT|]. intros m E. congruence.
  - intros K. destruct K as [y FT N|y n f z FT A D E]; apply F in FT as (l & L & X); rewrite L; cbn [rbind]; rewrite (proj2 (str_eqb_neq _ _) X).
    + destruct (attribute_of (e_attrs c) "macro") as [n|]; [|reflexivity]. pose proof (find_defined ms n) as D. destruct (find (fun m => str_eqb (fst m) n) ms) as [[n' f]|]; [|reflexivity].
      destruct D as [-> (a & b & -> & _)]. elim (N n eq_refl). rewrite map_app. apply in_or_app. right. now left.
    + rewrite A. pose proof (find_defined ms n) as D2. destruct (find (fun m => str_eqb (fst m) n) ms) as [[n' g]|].
      * destruct D2 as [-> D2]. rewrite (defined_unique _ _ _ _ D2 D). cbn [snd]. now rewrite E.
      * elim D2. destruct D as (a & b & -> & _). rewrite map_app. apply in_or_app. right. now left.
Qed.
Lemma brings_iff ms c r : extension_of w ms c = Ok r <-> brings w ms c r.
Proof.
  unfold extension_of. change $"name" with (t_ "name"). change $"_anonymous_" with (t_ "_anonymous_").
  assert (B : forall e, (Ok (match e_children e with [g] => match attr (e_attrs g) (t_ "name") with Some n => if str_eqb n (t_ "_anonymous_") then inr (e_text g) else inl (e_text e, [g]) | None => inl (e_text e, [g]) end | cs => inl (e_text e, cs) end) = Ok r <-> 
      (exists g, e_children e = [g] /\ attribute_of (e_attrs g) "name" = Some (t_ "_anonymous_") /\ r = inr (e_text g)) \/
      ((forall g, e_children e = [g] -> attribute_of (e_attrs g) "name" <> Some (t_ "_anonymous_")) /\ r = inl (e_text e, e_children e)))).
  { intros e. destruct (e_children e) as [|g [|g2 cs]].
    - split; [intros K; injection K as <-; right; split; [discriminate|reflexivity]|]. intros [(g & K & _)|[_ ->]]; [discriminate|reflexivity].
    - change (attr (e_attrs g) (t_ "name")) with (attribute_of (e_attrs g) "name"). destruct (attribute_of (e_attrs g) "name") as [n|] eqn:A.
      + destruct (str_eqb n (t_ "_anonymous_")) eqn:E.
        * apply str_eqb_eq in E. subst n. split; [intros K; injection K as <-; left; exists g; now repeat split|]. intros [(g' & K & _ & ->)|[K _]]; [congruence|]. now elim (K g).
        * apply str_eqb_neq in E. split; [intros K; injection K as <-; right; split; [intros g' K; injection K as <-; congruence|reflexivity]|]. intros [(g' & K & K2 & _)|[_ ->]]; [congruence|reflexivity].
      + split; [intros K; injection K as <-; right; split; [intros g' K; injection K as <-; congruence|reflexivity]|]. intros [(g' & K & K2 & _)|[_ ->]]; [congruence|reflexivity].
    - split; [intros K; injection K as <-; right; split; [discriminate|reflexivity]|]. intros [(g' & K & _)|[_ ->]]; [discriminate|reflexivity]. }
  split.
  - intros K. destruct (extension_text w ms c) as [x|] eqn:L; [|discriminate]. cbn [rbind] in K. apply text_brought_iff in L. destruct (construct_etree x) as [e|] eqn:C; [|discriminate]. cbn [rbind] in K. apply read_iff in C.
    apply (B e) in K as [(g & K1 & K2 & ->)|[K1 ->]]; [eapply br_text; eassumption|eapply br_tags; eassumption].
  - intros K. destruct K as [x e g L C K1 K2|x e L C K1].
    all: pose proof (proj2 (text_brought_iff _ _ _) L) as L2; rewrite L2; cbn [rbind]; pose proof (proj2 (read_iff _ _ _) C) as C2; change (construct_etree x) with (construct x x); rewrite C2; cbn [rbind].
    + apply (B e). left. exists g. now repeat split.
    + apply (B e). right. now split.
Qed.
Lemma visit_ext ld ld' rec rec' : (forall c r, ld c = Ok r -> ld' c = Ok r) -> (forall a b c r, rec a b c = Ok r -> rec' a b c = Ok r) -> forall n top is_elem i text cs r, visit ld rec top is_elem n i text cs = Ok r -> visit ld' rec' top is_elem n i text cs = Ok r.
Proof.
  intros H R. induction n as [|n IH]; intros top is_elem i text cs r; cbn [visit]; destruct (nth_error cs i) as [c|]; try (intros K; exact K).
  destruct (str_eqb (e_tag c) $"extend").
  - destruct (ld c) as [y|] eqn:L; [|discriminate]. rewrite (H _ _ L). cbn [rbind]. destruct y as [[x content]|t].
    + destruct (rec _ _ _) as [[a b]|] eqn:E; [|discriminate]. rewrite (R _ _ _ _ E). cbn [rbind]. apply IH.
    + destruct is_elem; [|discriminate]. destruct (no_text text || no_text t)%bool; [discriminate|apply IH].
  - destruct (str_eqb (e_tag c) $"group"); [|apply IH]. destruct (rec _ _ _) as [[a b]|] eqn:E; [|discriminate]. rewrite (R _ _ _ _ E). cbn [rbind]. apply IH.
Qed.
Lemma handle_ext ld ld' : (forall c r, ld c = Ok r -> ld' c = Ok r) -> forall n top is_elem text cs r, handle ld n top is_elem text cs = Ok r -> handle ld' n top is_elem text cs = Ok r.
Proof.
  intros H. induction n as [|n IH]; intros top is_elem text cs r K.
  - change (visit ld' (fun _ _ _ => Raise RuntimeError) top is_elem 0 0 text cs = Ok r). revert K. apply (visit_ext ld ld' (fun _ _ _ => Raise RuntimeError)); [exact H|discriminate].
  - change (visit ld' (handle ld' n false) top is_elem (S n) 0 text cs = Ok r). revert K. apply (visit_ext ld ld' (handle ld n false)); [exact H|intros a b c; apply IH].
Qed.
Lemma macros_iff l : forall ms ms', rfold (parse_macro w) (filter is_macro l) ms = Ok ms' <-> macros_read w l ms ms'.
Proof.
  induction l as [|c l IH]; intros ms ms'; cbn [filter]; [cbn [rfold]; split; [intros K; injection K as <-; constructor|intros K; now inversion K]|].
  unfold is_macro at 1. change $"macro" with (t_ "macro"). destruct (str_eqb (e_tag c) (t_ "macro")) eqn:E.
  - apply str_eqb_eq in E. cbn [rfold]. unfold parse_macro at 1. split.
    + intros K. destruct (e_text c) as [|a t] eqn:T; [discriminate|]. destruct (w_exec w (a :: t)) as [o|] eqn:X; [|discriminate]. cbn [rbind] in K. apply IH in K.
      destruct o as [d|]; [eapply mr_macro; [exact E|congruence|rewrite T; exact X|exact K]|eapply mr_syntax; [exact E|congruence|rewrite T; exact X|exact K]].
    + intros K. inversion K as [|? ? ? d ? E' T X K'|? ? ? ? E' T X K'|? ? ? ? E' K']; subst; [| |contradiction]; destruct (e_text c); try congruence; rewrite X; cbn [rbind]; now apply IH.
  - apply str_eqb_neq in E. rewrite IH. split; [intros K; now apply mr_other|]. intros K. inversion K; subst; [contradiction..|assumption].
Qed.
Theorem extends_iff e e' : Load.extended w e = Ok e' <-> extends w e e'.
Proof.
  unfold Load.extended. split.
  - intros K. destruct (rfold (parse_macro w) _ []) as [ms|] eqn:R; [|discriminate]. cbn [rbind] in K. apply macros_iff in R.
    destruct (has_tag $"extend" e) eqn:Hx.
    + destruct (handle _ _ _ _ _ _) as [[x cs]|] eqn:Hh; [|discriminate]. cbn [rbind] in K. apply read_iff in K. apply (xt_some w e ms (extension_of w ms) x cs); [exact R|now apply inside_has|apply brings_iff|exact Hh|exact K].
    + apply read_iff in K. apply xt_none with ms; [exact R| |exact K]. intros d I E. assert (has_tag $"extend" e = true) by (apply inside_has; now exists d). congruence.
  - intros K. destruct K as [ms e' R N K|ms ld x cs e' R X Hl Hh K].
    + apply macros_iff in R. rewrite R. cbn [rbind]. destruct (has_tag $"extend" e) eqn:Hx; [apply inside_has in Hx as (d & I & E); now elim (N d)|]. now apply read_iff.
    + apply macros_iff in R. rewrite R. cbn [rbind]. assert (HX : has_tag $"extend" e = true) by (apply inside_has; exact X). rewrite HX.
      rewrite (handle_ext ld (extension_of w ms)) with (r := (x, cs)); [cbn [rbind]; now apply read_iff| |exact Hh]. intros c r E. apply brings_iff. now apply Hl.
Qed.
Theorem tree_iff t e : template_tree w t = Ok e <-> tree_of w t e.
Proof.
  unfold template_tree, tree_of. split.
  - intros K. destruct (construct_etree t) as [e0|] eqn:C; [|discriminate]. cbn [rbind] in K. exists e0. split; [now apply read_iff|now apply extends_iff].
  - intros (e0 & C & K). apply read_iff in C. change (construct_etree t) with (construct t t). rewrite C. cbn [rbind]. now apply extends_iff.
Qed.
Theorem child_tree_iff c e : child_tree w c = Ok e <-> child_tree_of w c e.
Proof.
  unfold child_tree, child_tree_of. split.
  - intros K. destruct (construct _ _) as [e0|] eqn:C; [|discriminate]. cbn [rbind] in K. exists e0, (bytes_repr (raw_text c)). split; [now apply bytes_iff|]. split; [now apply read_iff|now apply extends_iff].
  - intros (e0 & b & B & C & K). apply bytes_iff in B. subst b. apply read_iff in C. rewrite C. cbn [rbind]. now apply extends_iff.
Qed.
End W.
