(** * XmlFacts: a tree written as text is read back. *)
From Coq Require Import Lia.
From Verif Require Import PyBase Regex Template Attributes Xml DictFacts StrFacts EscapeFacts.
Local Open Scope string_scope.
Local Open Scope list_scope.

(** ** small readers *)
Lemma after_app p s : after p (p ++ s) = Some s.
Proof. induction p as [|c p IH]; [reflexivity|]. cbn [after app]. rewrite Ascii.eqb_refl. exact IH. Qed.
Lemma span_of_app p a b : Forall (fun c => p c = true) a -> match b with c :: _ => p c = false | [] => True end -> span_of p (a ++ b) = (a, b).
Proof.
  intros Ha Hb. induction Ha as [|c a Hc Ha IH]; cbn [app].
  - destruct b as [|c b]; [reflexivity|]. cbn [span_of]. now rewrite Hb.
  - cbn [span_of]. rewrite Hc, IH. reflexivity.
Qed.
Definition semi : ascii := ";"%char.
Lemma reference_body body r : Forall (fun c => Ascii.eqb c ";" = false) body ->
  reference (body ++ semi :: r) = match reference (body ++ [semi]) with Some (x, _) => Some (x, r) | None => None end.
Proof.
  intros H. assert (Hp : Forall (fun c => negb (Ascii.eqb c ";") = true) body) by (eapply Forall_impl; [|exact H]; cbn; intros c ->; reflexivity).
  unfold reference. rewrite (span_of_app _ body (semi :: r) Hp eq_refl), (span_of_app _ body [semi] Hp eq_refl). cbn match.
  destruct (str_eqb body $"lt"); [reflexivity|]. destruct (str_eqb body $"gt"); [reflexivity|]. destruct (str_eqb body $"amp"); [reflexivity|].
  destruct (str_eqb body $"quot"); [reflexivity|]. destruct (str_eqb body $"apos"); [reflexivity|].
  destruct (after $"#x" body) as [h|].
  - destruct h; [reflexivity|]. destruct (hex_val _) as [n|]; [|reflexivity]. destruct (char_ref n); reflexivity.
  - destruct (after $"#" body) as [h|]; [|reflexivity]. destruct h; [reflexivity|]. destruct (forallb _ _); [|reflexivity]. destruct (char_ref _); reflexivity.
Qed.
(** what a written character is *)
Definition written (f : ascii -> str) (bad : ascii -> bool) (c : ascii) : bool :=
  match f c with
  | [d] => (Ascii.eqb d c && negb (bad c))%bool
  | a :: u => (Ascii.eqb a "&" && match rev u with
                                  | z :: v => (Ascii.eqb z ";" && forallb (fun x => negb (Ascii.eqb x ";")) v &&
                                               match reference u with Some (x, []) => Ascii.eqb x c | _ => false end)%bool
                                  | [] => false end)%bool
  | [] => false
  end.
Lemma written_spec f bad c : written f bad c = true ->
  (f c = [c] /\ bad c = false) \/ (exists u, f c = "&"%char :: u /\ forall r, reference (u ++ r) = Some (c, r)).
Proof.
  unfold written. destruct (f c) as [|a [|b u]]; [discriminate| |].
  - rewrite andb_true_iff, negb_true_iff. intros [E H]. apply Ascii.eqb_eq in E as ->. now left.
  - intros H. right. apply andb_true_iff in H as [E H]. apply Ascii.eqb_eq in E as ->. exists (b :: u). split; [reflexivity|]. intros r.
    destruct (rev (b :: u)) as [|z v] eqn:Er; [discriminate|]. apply andb_true_iff in H as [H Hr]. apply andb_true_iff in H as [Ez Hv].
    apply Ascii.eqb_eq in Ez as ->. assert (E : b :: u = rev v ++ [semi]) by (rewrite <- (rev_involutive (b :: u)), Er; reflexivity).
    rewrite E, <- app_assoc. cbn [app]. rewrite reference_body.
    + rewrite E in Hr. destruct (reference (rev v ++ [semi])) as [[x r']|]; [|discriminate]. destruct r'; [|discriminate]. apply Ascii.eqb_eq in Hr as ->. reflexivity.
    + rewrite Forall_forall. intros x Hx. apply in_rev in Hx. rewrite forallb_forall in Hv. apply Hv in Hx. now apply negb_true_iff.
Qed.
Definition markup (c : ascii) : bool := (Ascii.eqb c "<" || Ascii.eqb c "&" || Ascii.eqb c ">")%bool.
Lemma text_written c : xml_char c = true -> (text_char c = [c] /\ markup c = false) \/ (exists u, text_char c = "&"%char :: u /\ forall r, reference (u ++ r) = Some (c, r)).
Proof.
  intros H. apply (written_spec text_char markup). revert c H.
  assert (G : forall c, implb (xml_char c) (written text_char markup c) = true) by (apply all256; vm_compute; reflexivity).
  intros c H. specialize (G c). rewrite H in G. exact G.
Qed.
Definition amarkup (c : ascii) : bool := (markup c || Ascii.eqb c """" || (xml_space c && negb (Ascii.eqb c space)))%bool.
Lemma attr_written c : xml_char c = true -> (attr_char text_char c = [c] /\ amarkup c = false) \/
  (exists u, attr_char text_char c = "&"%char :: u /\ forall r, reference (u ++ r) = Some (c, r)).
Proof.
  intros H. apply (written_spec (attr_char text_char) amarkup). revert c H.
  assert (G : forall c, implb (xml_char c) (written (attr_char text_char) amarkup c) = true) by (apply all256; vm_compute; reflexivity).
  intros c H. specialize (G c). rewrite H in G. exact G.
Qed.

(** ** trees that can be written *)
Definition name_ok (n : str) : Prop := match n with c :: _ => xml_name_start c = true | [] => False end /\ Forall (fun c => xml_name_char c = true) n.
Definition chars_ok (s : str) : Prop := Forall (fun c => xml_char c = true) s.
Definition attrs_ok (l : list (str * str)) : Prop := NoDup (map fst l) /\ Forall (fun kv => name_ok (fst kv) /\ chars_ok (snd kv)) l.
Inductive tree_ok : elem -> Prop :=
| tree_ok_i n a x cs t : name_ok n -> attrs_ok a -> chars_ok x -> Forall tree_ok cs -> chars_ok t -> tree_ok (Elem n a x cs t).

(** ** attributes *)
Lemma name_read n r : name_ok n -> match r with c :: _ => xml_name_char c = false | [] => True end -> xml_name (n ++ r) = Some (n, r).
Proof.
  intros [H1 H2] Hr. destruct n as [|c n]; [contradiction|]. cbn [xml_name app]. rewrite H1. change (c :: n ++ r) with ((c :: n) ++ r). now rewrite span_of_app.
Qed.
Lemma value_read v r f : chars_ok v -> length (flat_map (attr_char text_char) v ++ """"%char :: r) <= f ->
  attr_value f """" (flat_map (attr_char text_char) v ++ """"%char :: r) = Some (v, r).
Proof.
  intros H. revert f. induction H as [|c v Hc Hv IH]; intros f Hf; cbn [flat_map] in *.
  - destruct f; [cbn [length app flat_map] in Hf; lia|]. reflexivity.
  - rewrite <- app_assoc in *. destruct (attr_written c Hc) as [[E Hm]|(u & E & Hu)]; rewrite E in *; cbn [app] in *.
    + destruct f; [cbn [length app flat_map] in Hf; lia|]. cbn [attr_value]. unfold amarkup, markup in Hm. rewrite !orb_false_iff in Hm. destruct Hm as [[[[M1 M2] M3] M4] M5].
      rewrite M4, M1, M2, Hc, IH by (cbn [length] in Hf; lia). apply andb_false_iff in M5 as [M5|M5]; [now rewrite M5|].
      apply negb_false_iff, Ascii.eqb_eq in M5 as ->. reflexivity.
    + destruct f; [cbn [length app flat_map] in Hf; lia|]. cbn [attr_value]. change (Ascii.eqb "&" """") with false. change (Ascii.eqb "&" "<") with false. change (Ascii.eqb "&" "&") with true. cbn match.
      rewrite Hu, IH; [reflexivity|]. cbn [length] in Hf. rewrite app_length in Hf. lia.
Qed.
Definition tag_end (e : bool) : str := if e then $" />" else $">".
Lemma skip_space_cons c s : xml_space c = true -> skip_space (c :: s) = skip_space s.
Proof. unfold skip_space. cbn [span_of]. intros ->. destruct (span_of xml_space s). reflexivity. Qed.
Lemma skip_space_stop c s : xml_space c = false -> skip_space (c :: s) = c :: s.
Proof. unfold skip_space. cbn [span_of]. intros ->. reflexivity. Qed.
Lemma name_start_no_space c : xml_name_start c = true -> xml_space c = false /\ Ascii.eqb "/" c = false /\ Ascii.eqb ">" c = false.
Proof.
  assert (H : forall c, implb (xml_name_start c) (negb (xml_space c) && negb (Ascii.eqb "/" c) && negb (Ascii.eqb ">" c)) = true) by (apply all256; vm_compute; reflexivity).
  intros E. specialize (H c). rewrite E in H. cbn [implb] in H. rewrite !andb_true_iff, !negb_true_iff in H. tauto.
Qed.
Lemma attrs_read l : forall acc e r f, Forall (fun kv => name_ok (fst kv) /\ chars_ok (snd kv)) l -> NoDup (map fst (acc ++ l)) ->
  length (flat_map (attr_text text_char) l ++ tag_end e ++ r) < f ->
  attrs_of f (flat_map (attr_text text_char) l ++ tag_end e ++ r) acc = Some (acc ++ l, e, r).
Proof.
  induction l as [|[n v] l IH]; intros acc e r f Hok HN Hf.
  - destruct f; [lia|]. rewrite app_nil_r. cbn [flat_map app]. destruct e; reflexivity.
  - inversion Hok as [|? ? [Hn Hv] Hl]; subst. cbn [fst snd] in *. cbn [flat_map]. unfold attr_text at 1. cbn [fst snd].
    destruct f; [lia|]. cbn [attrs_of].
    set (rest := flat_map (attr_text text_char) l ++ tag_end e ++ r) in *.
    assert (E : ($" " ++ n ++ $"=""" ++ flat_map (attr_char text_char) v ++ $"""") ++ flat_map (attr_text text_char) l = " "%char :: n ++ $"=""" ++ flat_map (attr_char text_char) v ++ """"%char :: flat_map (attr_text text_char) l).
    { rewrite <- !app_assoc. reflexivity. }
    assert (E2 : (($" " ++ n ++ $"=""" ++ flat_map (attr_char text_char) v ++ $"""") ++ flat_map (attr_text text_char) l) ++ tag_end e ++ r = " "%char :: n ++ "="%char :: """"%char :: flat_map (attr_char text_char) v ++ """"%char :: rest).
    { rewrite E. unfold rest. cbn [app]. rewrite <- !app_assoc. cbn [app]. rewrite <- ?app_assoc. reflexivity. }
    rewrite E2. clear E E2.
    set (tl_ := "="%char :: """"%char :: flat_map (attr_char text_char) v ++ """"%char :: rest) in *.
    assert (Es : skip_space (" "%char :: n ++ tl_) = n ++ tl_).
    { rewrite skip_space_cons by reflexivity. destruct Hn as [Hn _]. destruct n as [|c n]; [contradiction|]. cbn [app]. apply skip_space_stop. now apply name_start_no_space. }
    rewrite Es.
    assert (Ea : after $"/>" (n ++ tl_) = None /\ after $">" (n ++ tl_) = None).
    { destruct Hn as [Hn _]. destruct n as [|c n]; [contradiction|]. apply name_start_no_space in Hn as (_ & H1 & H2). cbn [after app]. change (after $"/>" (c :: n ++ tl_)) with (if Ascii.eqb "/" c then after $">" (n ++ tl_) else None).
      change (after $">" (c :: n ++ tl_)) with (if Ascii.eqb ">" c then Some (n ++ tl_) else None). now rewrite H1, H2. }
    destruct Ea as [-> ->]. cbn [length]. assert (Hne : Nat.eqb (length (n ++ tl_)) (S (length (n ++ tl_))) = false) by (apply Nat.eqb_neq; lia). rewrite Hne.
    rewrite name_read; [|exact Hn|reflexivity]. unfold tl_. rewrite skip_space_stop by reflexivity. change (after $"=" ("="%char :: ?x)) with (Some x).
    change (after $"=" ("="%char :: """"%char :: flat_map (attr_char text_char) v ++ """"%char :: rest)) with (Some (""""%char :: flat_map (attr_char text_char) v ++ """"%char :: rest)).
    cbn match. rewrite skip_space_stop by reflexivity. change (quote """"%char) with true. cbn [andb].
    assert (Hin : in_strs n (map fst acc) = false).
    { apply not_true_is_false. intros K. unfold in_strs in K. apply existsb_exists in K as (m & Hm & K). apply str_eqb_eq in K as ->.
      rewrite map_app in HN. cbn [map fst] in HN. apply NoDup_remove_2 in HN. apply HN, in_or_app. now left. }
    rewrite Hin. cbn [negb]. rewrite value_read; [|exact Hv|cbn [length]; lia].
    unfold rest at 1. rewrite IH; [|exact Hl| |].
    + rewrite <- app_assoc. reflexivity.
    + rewrite <- app_assoc. exact HN.
    + fold rest. cbn [flat_map] in Hf. unfold attr_text at 1 in Hf. cbn [fst snd] in Hf. rewrite <- !app_assoc in Hf. fold rest in Hf. rewrite !app_length in Hf. cbn [length] in Hf.
      change (length $" ") with 1 in Hf. lia.
Qed.

(** ** elements *)
Definition body (n x : str) (cs : list elem) : str :=
  match x, cs with
  | [], [] => $" />"
  | _, _ => $">" ++ flat_map text_char x ++ flat_map xml_text cs ++ $"</" ++ n ++ $">"
  end.
Definition open_tag (e : elem) : str :=
  match e with Elem n a x cs _ => n ++ flat_map (attr_text text_char) a ++ body n x cs end.
Lemma serial_go tc cs : (fix go (l : list elem) : str := match l with [] => [] | c :: t => serial tc c ++ go t end) cs = flat_map (serial tc) cs.
Proof. induction cs as [|c cs IH]; [reflexivity|]. cbn [flat_map]. now rewrite IH. Qed.
Lemma xml_text_open e : xml_text e = "<"%char :: open_tag e ++ flat_map text_char (e_tail e).
Proof.
  destruct e as [n a x cs t]. unfold xml_text. cbn [serial open_tag e_tail]. rewrite serial_go. unfold body, xml_text.
  destruct x, cs; rewrite <- !app_assoc; reflexivity.
Qed.
Definition at_lt (r : str) : Prop := exists u, r = "<"%char :: u.
Lemma no_cdata_end x r : chars_ok x -> at_lt r -> prefixb $"]]>" (flat_map text_char x ++ r) = false.
Proof.
  intros Hx (u & ->). destruct x as [|a x]; [reflexivity|]. inversion Hx as [|? ? Ha Hx1]; subst. cbn [flat_map].
  destruct (text_written a Ha) as [[E Ma]|(v & E & _)]; rewrite E; [|reflexivity]. cbn [app].
  change (prefixb $"]]>" ?l) with (prefixb ["]"%char; "]"%char; ">"%char] l). cbn [prefixb]. destruct (Ascii.eqb "]" a); [|reflexivity].
  destruct x as [|b x]; [reflexivity|]. inversion Hx1 as [|? ? Hb Hx2]; subst. cbn [flat_map].
  destruct (text_written b Hb) as [[E2 Mb]|(v & E2 & _)]; rewrite E2; [|reflexivity]. cbn [app]. cbn [prefixb]. destruct (Ascii.eqb "]" b); [|reflexivity].
  destruct x as [|d x]; [reflexivity|]. inversion Hx2 as [|? ? Hd Hx3]; subst. cbn [flat_map].
  destruct (text_written d Hd) as [[E3 Md]|(v & E3 & _)]; rewrite E3; [|reflexivity]. cbn [app]. cbn [prefixb].
  unfold markup in Md. rewrite !orb_false_iff in Md. rewrite Ascii.eqb_sym. now rewrite (proj2 Md).
Qed.
Lemma content_chars x r cs r' : chars_ok x -> at_lt r -> (forall g, 2 * length r + 1 <= g -> content g r = Some ([], cs, r')) ->
  forall f, 2 * length (flat_map text_char x ++ r) + 1 <= f -> content f (flat_map text_char x ++ r) = Some (x, cs, r').
Proof.
  intros Hx Hr H. induction Hx as [|c x Hc Hx IH]; intros f Hf.
  - apply H. exact Hf.
  - pose proof (no_cdata_end (c :: x) r (Forall_cons _ Hc Hx) Hr) as Hnc. cbn [flat_map] in *. rewrite <- app_assoc in *.
    destruct f; [lia|]. destruct (text_written c Hc) as [[E Hm]|(u & E & Hu)]; rewrite E in *; cbn [app] in *.
    + unfold markup in Hm. rewrite !orb_false_iff in Hm. destruct Hm as [[M1 M2] M3]. cbn [content]. rewrite M1, M2, Hnc, Hc, IH by (cbn [length] in Hf; lia). reflexivity.
    + cbn [content]. change (Ascii.eqb "&" "<") with false. change (Ascii.eqb "&" "&") with true. cbn match. rewrite Hu, IH; [reflexivity|].
      cbn [length] in Hf. rewrite app_length in Hf. lia.
Qed.
Definition readable (e : elem) : Prop := forall f r, 2 * length (open_tag e ++ r) + 2 <= f ->
  element f (open_tag e ++ r) = Some (e_tag e, e_attrs e, e_text e, e_children e, r).
Lemma open_tag_start e r : tree_ok e -> exists c u, open_tag e ++ r = c :: u /\ xml_name_start c = true.
Proof.
  intros H. destruct H as [n a x cs t [Hn _] _ _ _ _]. destruct n as [|c n]; [contradiction|]. cbn [open_tag]. exists c, ((n ++ flat_map (attr_text text_char) a ++ body (c :: n) x cs) ++ r). split; [reflexivity|exact Hn].
Qed.
Lemma name_start_no_bang c : xml_name_start c = true -> Ascii.eqb "!" c = false.
Proof.
  assert (H : forall c, implb (xml_name_start c) (negb (Ascii.eqb "!" c)) = true) by (apply all256; vm_compute; reflexivity).
  intros E. specialize (H c). rewrite E in H. cbn [implb] in H. now apply negb_true_iff.
Qed.
Lemma content_children cs r : Forall tree_ok cs -> Forall readable cs -> (exists u, r = $"</" ++ u) ->
  forall f, 2 * length (flat_map xml_text cs ++ r) + 1 <= f -> content f (flat_map xml_text cs ++ r) = Some ([], cs, r).
Proof.
  intros Hok Hrd (u & ->). induction Hrd as [|c cs Hc Hcs IH]; intros f Hf.
  - destruct f; [lia|]. cbn [flat_map app content]. change (Ascii.eqb "<" "<") with true. cbn match.
    change (after $"</" ($"</" ++ u)) with (after $"</" ($"</" ++ u)). cbn [flat_map app]. reflexivity.
  - inversion Hok as [|? ? Hokc Hokcs]; subst. specialize (IH Hokcs). cbn [flat_map] in *. rewrite <- app_assoc in *. rewrite xml_text_open in *. cbn [app] in *. rewrite <- app_assoc in *.
    set (rest := flat_map text_char (e_tail c) ++ flat_map xml_text cs ++ $"</" ++ u) in *.
    destruct f; [lia|]. destruct (open_tag_start c rest Hokc) as (a & v & Ea & Hs). cbn [content]. change (Ascii.eqb "<" "<") with true. cbn match.
    assert (H1 : after $"</" ("<"%char :: open_tag c ++ rest) = None).
    { rewrite Ea. change (after $"</" ("<"%char :: a :: v)) with (if Ascii.eqb "/" a then Some v else None). destruct (name_start_no_space a Hs) as (_ & -> & _). reflexivity. }
    assert (H2 : after $"<!--" ("<"%char :: open_tag c ++ rest) = None).
    { rewrite Ea. change (after $"<!--" ("<"%char :: a :: v)) with (if Ascii.eqb "!" a then after $"--" v else None). now rewrite (name_start_no_bang a Hs). }
    assert (H3 : after $"<![CDATA[" ("<"%char :: open_tag c ++ rest) = None).
    { rewrite Ea. change (after $"<![CDATA[" ("<"%char :: a :: v)) with (if Ascii.eqb "!" a then after $"[CDATA[" v else None). now rewrite (name_start_no_bang a Hs). }
    rewrite H1, H2, H3. rewrite Hc by (cbn [length] in Hf; lia).
    assert (Ht : chars_ok (e_tail c)) by now destruct Hokc.
    unfold rest. rewrite (content_chars (e_tail c) (flat_map xml_text cs ++ $"</" ++ u) cs ($"</" ++ u) Ht).
    + destruct c. reflexivity.
    + destruct cs as [|d cs]; [exists ("/"%char :: u); reflexivity|]. cbn [flat_map]. rewrite xml_text_open. eexists. reflexivity.
    + exact IH.
    + fold rest. cbn [length] in Hf. rewrite app_length in Hf. lia.
Qed.
Fixpoint elem_ind2 (P : elem -> Prop) (H : forall n a x cs t, Forall P cs -> P (Elem n a x cs t)) (e : elem) : P e :=
  match e with
  | Elem n a x cs t => H n a x cs t ((fix go (l : list elem) : Forall P l := match l with [] => Forall_nil _ | c :: l => Forall_cons _ (elem_ind2 P H c) (go l) end) cs)
  end.
Lemma element_read e : tree_ok e -> readable e.
Proof.
  induction e as [n a x cs t IH] using elem_ind2. intros H. inversion H as [? ? ? ? ? Hn [Ha1 Ha2] Hx Hcs Ht]; subst. intros f r Hf. cbn [open_tag e_tag e_attrs e_text e_children] in *.
  assert (Hrd : Forall readable cs) by (rewrite Forall_forall in *; auto).
  rewrite <- !app_assoc in *. destruct f; [lia|]. cbn [element].
  assert (Hnr : xml_name (n ++ flat_map (attr_text text_char) a ++ body n x cs ++ r) = Some (n, flat_map (attr_text text_char) a ++ body n x cs ++ r)).
  { apply name_read; [exact Hn|]. destruct a as [|[m v] a]; [|reflexivity]. cbn [flat_map app]. unfold body. destruct x, cs; reflexivity. }
  rewrite Hnr. set (e := match x, cs with [], [] => true | _, _ => false end).
  set (r1 := match x, cs with [], [] => r | _, _ => flat_map text_char x ++ flat_map xml_text cs ++ $"</" ++ n ++ $">" ++ r end).
  assert (Eb : body n x cs ++ r = tag_end e ++ r1) by (unfold body, e, r1; destruct x, cs; rewrite <- ?app_assoc; reflexivity).
  rewrite Eb in *. rewrite (attrs_read a [] e r1) by (try exact Ha2; try exact Ha1; lia). cbn [app].
  destruct e eqn:Ee; subst e.
  - destruct x; [|discriminate]. destruct cs; [|discriminate]. reflexivity.
  - assert (E1 : r1 = flat_map text_char x ++ flat_map xml_text cs ++ $"</" ++ n ++ $">" ++ r) by (unfold r1; destruct x, cs; [discriminate|reflexivity..]).
    rewrite E1. rewrite (content_chars x (flat_map xml_text cs ++ $"</" ++ n ++ $">" ++ r) cs ($"</" ++ n ++ $">" ++ r) Hx).
    + rewrite (app_assoc $"</" n). rewrite after_app. change ($">" ++ r) with (">"%char :: r). rewrite skip_space_stop by reflexivity. reflexivity.
    + destruct cs as [|c cs]; [eexists; reflexivity|]. cbn [flat_map]. rewrite xml_text_open. eexists; reflexivity.
    + apply content_children; [assumption..|]. eexists; reflexivity.
    + rewrite <- E1. rewrite !app_length in Hf. change (length (tag_end false)) with 1 in Hf. lia.
Qed.

(** ** line ends *)
Definition cr : ascii := chr 13.
Fixpoint lf_tree (e : elem) : elem := match e with Elem n a x cs t => Elem n a (newlines x) (map lf_tree cs) (newlines t) end.
Lemma newlines_plain a b : lacks cr a -> newlines (a ++ b) = a ++ newlines b.
Proof.
  intros H. induction a as [|c a IH]; [reflexivity|]. cbn [app newlines]. change (chr 13) with cr.
  assert (Hc : Ascii.eqb c cr = false) by (apply Ascii.eqb_neq; intros ->; apply H; now left). rewrite Hc. f_equal. apply IH. intros K. apply H. now right.
Qed.
Lemma newlines_id a : lacks cr a -> newlines a = a.
Proof. intros H. rewrite <- (app_nil_r a) at 1. rewrite newlines_plain by exact H. apply app_nil_r. Qed.
Lemma newlines_lacks s : lacks cr (newlines s).
Proof.
  assert (G : forall n s, length s <= n -> lacks cr (newlines s)).
  { induction n as [|n IH]; intros [|c t] Hn; try (cbn in Hn; lia); try (intros []). cbn [newlines]. cbn [length] in Hn. destruct (Ascii.eqb c (chr 13)) eqn:E.
    - destruct t as [|d t']; [intros [K|[]]; discriminate K|]. cbn [length] in Hn. destruct (Ascii.eqb d nl); (intros [K|K]; [discriminate K|]); apply (IH _) in K; auto; cbn [length]; lia.
    - intros [K|K]; [subst; discriminate E|]. apply (IH t) in K; auto. lia. }
  apply (G (length s)). lia.
Qed.
Lemma newlines_head c s : c <> nl -> c <> cr -> forall a, newlines (a ++ c :: s) = newlines a ++ newlines (c :: s).
Proof.
  intros Hn Hcr. assert (G : forall n a, length a <= n -> newlines (a ++ c :: s) = newlines a ++ newlines (c :: s)).
  { induction n as [|n IH]; intros [|b t] Hl; try (cbn in Hl; lia); try reflexivity. cbn [length] in Hl.
    change ((b :: t) ++ c :: s) with (b :: t ++ c :: s). cbn [newlines]. destruct (Ascii.eqb b (chr 13)) eqn:E.
    - destruct t as [|d t']; cbn [app].
      + assert (E2 : Ascii.eqb c nl = false) by now apply Ascii.eqb_neq. rewrite E2. reflexivity.
      + cbn [length] in Hl. destruct (Ascii.eqb d nl).
        * rewrite IH by lia. reflexivity.
        * change (d :: t' ++ c :: s) with ((d :: t') ++ c :: s). rewrite IH by (cbn [length]; lia). reflexivity.
    - rewrite IH by lia. reflexivity. }
  intros a. apply (G (length a)). lia.
Qed.
Lemma text_char_no_cr c : c <> cr -> lacks cr (text_char c).
Proof.
  assert (H : forall c, implb (negb (Ascii.eqb c cr)) (forallb (fun d => negb (Ascii.eqb d cr)) (text_char c)) = true) by (apply all256; vm_compute; reflexivity).
  intros E K. specialize (H c). apply Ascii.eqb_neq in E. rewrite E in H. cbn [negb implb] in H. rewrite forallb_forall in H. apply H in K. now rewrite Ascii.eqb_refl in K.
Qed.
Lemma attr_char_no_cr c : lacks cr (attr_char text_char c).
Proof.
  assert (H : forall c, forallb (fun d => negb (Ascii.eqb d cr)) (attr_char text_char c) = true) by (apply all256; vm_compute; reflexivity).
  intros K. specialize (H c). rewrite forallb_forall in H. apply H in K. now rewrite Ascii.eqb_refl in K.
Qed.
Lemma text_char_first d : d <> nl -> exists a u, text_char d = a :: u /\ Ascii.eqb a nl = false /\ (d = cr -> u = [] /\ a = cr).
Proof.
  assert (H : forall d, implb (negb (Ascii.eqb d nl)) (match text_char d with a :: u => (negb (Ascii.eqb a nl) && implb (Ascii.eqb d cr) (str_eqb (a :: u) [cr]))%bool | [] => false end) = true) by (apply all256; vm_compute; reflexivity).
  intros E. specialize (H d). apply Ascii.eqb_neq in E. rewrite E in H. cbn [negb implb] in H. destruct (text_char d) as [|a u]; [discriminate|]. exists a, u. split; [reflexivity|].
  apply andb_true_iff in H as [H1 H2]. apply negb_true_iff in H1. split; [exact H1|]. intros ->. rewrite Ascii.eqb_refl in H2. cbn [implb] in H2. apply str_eqb_eq in H2. now injection H2.
Qed.
Lemma newlines_text x : newlines (flat_map text_char x) = flat_map text_char (newlines x).
Proof.
  assert (G : forall n x, length x <= n -> newlines (flat_map text_char x) = flat_map text_char (newlines x)).
  { induction n as [|n IH]; intros [|c t] Hl; try (cbn in Hl; lia); try reflexivity. cbn [length] in Hl. cbn [flat_map newlines]. destruct (Ascii.eqb c (chr 13)) eqn:E.
    - apply Ascii.eqb_eq in E as ->. change (text_char (chr 13)) with [chr 13]. cbn [app newlines]. change (Ascii.eqb (chr 13) (chr 13)) with true. cbn match.
      destruct t as [|d t']; [reflexivity|]. cbn [length] in Hl. destruct (Ascii.eqb d nl) eqn:E2.
      + apply Ascii.eqb_eq in E2 as ->. cbn [flat_map]. change (text_char nl) with [nl]. cbn [app]. change (Ascii.eqb nl nl) with true. cbn match. rewrite IH by lia. reflexivity.
      + assert (Hd : d <> nl) by now apply Ascii.eqb_neq. destruct (text_char_first d Hd) as (a & u & Ea & Ha & _).
        change (flat_map text_char (nl :: newlines (d :: t'))) with (nl :: flat_map text_char (newlines (d :: t'))). rewrite <- IH by (cbn [length]; lia).
        cbn [flat_map]. rewrite Ea. cbn [app]. rewrite Ha. reflexivity.
    - assert (Hc : c <> cr) by now apply Ascii.eqb_neq. rewrite newlines_plain by now apply text_char_no_cr. cbn [flat_map]. rewrite IH by lia. reflexivity. }
  apply (G (length x)). lia.
Qed.
Lemma lacks_app c a b : lacks c a -> lacks c b -> lacks c (a ++ b).
Proof. intros Ha Hb K. apply in_app_or in K as [K|K]; auto. Qed.
Lemma name_no_cr n : name_ok n -> lacks cr n.
Proof. intros [_ H] K. rewrite Forall_forall in H. apply H in K. discriminate K. Qed.
Lemma attrs_no_cr a : attrs_ok a -> lacks cr (flat_map (attr_text text_char) a).
Proof.
  intros [_ H] K. apply in_flat_map in K as ([m v] & Hin & K). rewrite Forall_forall in H. apply H in Hin as [Hm _]. cbn [fst snd] in *. unfold attr_text in K. cbn [fst snd] in K.
  apply in_app_or in K as [[K|[]]|K]; [discriminate K|]. apply in_app_or in K as [K|K]; [now apply (name_no_cr m Hm)|].
  apply in_app_or in K as [[K|[K|[]]]|K]; [discriminate K..|]. apply in_app_or in K as [K|[K|[]]]; [|discriminate K].
  apply in_flat_map in K as (c & _ & K). now apply attr_char_no_cr in K.
Qed.
Lemma newlines_head_lt a u : newlines (a ++ "<"%char :: u) = newlines a ++ newlines ("<"%char :: u).
Proof. apply newlines_head; discriminate. Qed.
Lemma newlines_open e : tree_ok e -> forall u, newlines (open_tag e ++ u) = open_tag (lf_tree e) ++ newlines u.
Proof.
  induction e as [n a x cs t IH] using elem_ind2. intros H u. inversion H as [? ? ? ? ? Hn Ha Hx Hcs Ht]; subst. cbn [open_tag lf_tree].
  assert (IH2 : forall v, newlines (flat_map xml_text cs ++ "<"%char :: v) = flat_map xml_text (map lf_tree cs) ++ newlines ("<"%char :: v)).
  { clear -IH Hcs. induction IH as [|c cs Hc _ IHl]; intros v; [reflexivity|]. inversion Hcs as [|? ? Hokc Hokcs]; subst. cbn [flat_map map]. rewrite !xml_text_open. cbn [app]. rewrite <- !app_assoc.
    change ("<"%char :: open_tag c ++ flat_map text_char (e_tail c) ++ flat_map xml_text cs ++ "<"%char :: v) with ([("<"%char)] ++ open_tag c ++ flat_map text_char (e_tail c) ++ flat_map xml_text cs ++ "<"%char :: v).
    rewrite newlines_plain by (intros [K|[]]; discriminate K). rewrite Hc by exact Hokc. cbn [app].
    assert (E : newlines (flat_map text_char (e_tail c) ++ flat_map xml_text cs ++ "<"%char :: v) = flat_map text_char (newlines (e_tail c)) ++ newlines (flat_map xml_text cs ++ "<"%char :: v)).
    { rewrite <- newlines_text. destruct cs as [|d cs]; cbn [flat_map app]; [apply newlines_head_lt|]. rewrite xml_text_open. cbn [app]. apply newlines_head_lt. }
    rewrite E, IHl by exact Hokcs. destruct c. reflexivity. }
  rewrite <- !app_assoc. rewrite newlines_plain by now apply name_no_cr. rewrite newlines_plain by now apply attrs_no_cr. do 2 f_equal.
  assert (Hb : body n (newlines x) (map lf_tree cs) = match x, cs with [], [] => $" />" | _, _ => $">" ++ flat_map text_char (newlines x) ++ flat_map xml_text (map lf_tree cs) ++ $"</" ++ n ++ $">" end).
  { unfold body. destruct x as [|c x]; [destruct cs; reflexivity|]. destruct (newlines (c :: x)) eqn:E; [|reflexivity]. exfalso. cbn [newlines] in E. destruct (Ascii.eqb c (chr 13)); [|discriminate]. destruct x; [discriminate|]. destruct (Ascii.eqb _ nl); discriminate. }
  rewrite Hb.
  assert (E0 : forall v, newlines ("<"%char :: "/"%char :: n ++ ">"%char :: v) = "<"%char :: "/"%char :: n ++ ">"%char :: newlines v).
  { intros v. change ("<"%char :: "/"%char :: n ++ ">"%char :: v) with (["<"%char; "/"%char] ++ n ++ [">"%char] ++ v).
    rewrite newlines_plain by (intros [K|[K|[]]]; discriminate K). rewrite newlines_plain by now apply name_no_cr. rewrite newlines_plain by (intros [K|[]]; discriminate K). reflexivity. }
  assert (E : newlines (($">" ++ flat_map text_char x ++ flat_map xml_text cs ++ $"</" ++ n ++ $">") ++ u) = ($">" ++ flat_map text_char (newlines x) ++ flat_map xml_text (map lf_tree cs) ++ $"</" ++ n ++ $">") ++ newlines u).
  { rewrite <- !app_assoc. rewrite newlines_plain by (intros [K|[]]; discriminate K). f_equal. rewrite <- newlines_text.
    change ($"</" ++ n ++ $">" ++ u) with ("<"%char :: "/"%char :: n ++ ">"%char :: u). change ($"</" ++ n ++ $">" ++ newlines u) with ("<"%char :: "/"%char :: n ++ ">"%char :: newlines u). rewrite <- E0, <- IH2.
    destruct cs as [|d cs]; cbn [flat_map app]; [apply newlines_head_lt|]. rewrite xml_text_open. cbn [app]. apply newlines_head_lt. }
  unfold body. destruct x as [|c x], cs as [|d cs]; try exact E. rewrite newlines_plain by (intros [K|[K|[K|[]]]]; discriminate K). reflexivity.
Qed.
Lemma chars_newlines x : chars_ok x -> chars_ok (newlines x).
Proof.
  assert (G : forall n x, length x <= n -> chars_ok x -> chars_ok (newlines x)).
  { induction n as [|n IH]; intros [|c t] Hl H; try (cbn in Hl; lia); try constructor. inversion H as [|? ? Hc Ht]; subst. cbn [newlines]. cbn [length] in Hl. destruct (Ascii.eqb c (chr 13)).
    - destruct t as [|d t']; [repeat constructor|]. cbn [length] in Hl. destruct (Ascii.eqb d nl); (constructor; [reflexivity|]).
      + apply IH; [lia|]. now inversion Ht.
      + apply IH; [cbn [length]; lia|exact Ht].
    - constructor; [exact Hc|]. apply IH; [lia|exact Ht]. }
  intros H. apply (G (length x)); [lia|exact H].
Qed.
Lemma tree_newlines e : tree_ok e -> tree_ok (lf_tree e).
Proof.
  induction e as [n a x cs t IH] using elem_ind2. intros H. inversion H as [? ? ? ? ? Hn Ha Hx Hcs Ht]; subst. cbn [lf_tree]. constructor; auto using chars_newlines.
  rewrite Forall_map. rewrite Forall_forall in *. auto.
Qed.

(** ** the writer and the reader *)
Theorem xml_round_trip n a x cs : tree_ok (Elem n a x cs []) -> xml_parse (xml_text (Elem n a x cs [])) = Some (lf_tree (Elem n a x cs [])).
Proof.
  set (e := Elem n a x cs []). intros H. unfold xml_parse. rewrite xml_text_open. change (flat_map text_char (e_tail e)) with (@nil ascii).
  change ("<"%char :: open_tag e ++ []) with (["<"%char] ++ open_tag e ++ []). rewrite newlines_plain by (intros [K|[]]; discriminate K). rewrite (newlines_open e H).
  change (newlines []) with (@nil ascii). set (e' := lf_tree e). assert (H' : tree_ok e') by now apply tree_newlines.
  destruct (open_tag_start e' [] H') as (c & u & Ec & Hc).
  cbn [app length]. set (s := "<"%char :: open_tag e' ++ []).
  assert (Hm : misc (S (S (length (open_tag e' ++ [])))) s = Some s).
  { cbn [misc]. unfold s. rewrite skip_space_stop by reflexivity. rewrite Ec.
    change (after $"<!--" ("<"%char :: c :: u)) with (if Ascii.eqb "!" c then after $"--" u else None). now rewrite (name_start_no_bang c Hc). }
  rewrite Hm. unfold s. change (Ascii.eqb "<" "<") with true. cbn match. rewrite (element_read e' H') by (cbn [length]; lia). reflexivity.
Qed.

(** ** everything that is read can be written *)
Lemma char_ref_ok n c : char_ref n = Some c -> xml_char c = true.
Proof. unfold char_ref. destruct (N.leb n 255 && xml_char (chr n))%bool eqn:E; [|discriminate]. intros K. injection K as <-. now apply andb_true_iff in E. Qed.
Lemma reference_ok s c r : reference s = Some (c, r) -> xml_char c = true.
Proof.
  unfold reference. destruct (span_of _ s) as [b [|z r']]; [discriminate|].
  destruct (str_eqb b $"lt"); [intros K; injection K as <- <-; reflexivity|]. destruct (str_eqb b $"gt"); [intros K; injection K as <- <-; reflexivity|].
  destruct (str_eqb b $"amp"); [intros K; injection K as <- <-; reflexivity|]. destruct (str_eqb b $"quot"); [intros K; injection K as <- <-; reflexivity|].
  destruct (str_eqb b $"apos"); [intros K; injection K as <- <-; reflexivity|].
  destruct (after $"#x" b) as [[|h hs]|]; [discriminate| |].
  - destruct (hex_val (h :: hs)) as [n|]; [|discriminate]. destruct (char_ref n) as [x|] eqn:E; [|discriminate]. intros K. injection K as <- <-. now apply char_ref_ok in E.
  - destruct (after $"#" b) as [[|h hs]|]; [discriminate| |discriminate]. destruct (forallb is_dec (h :: hs)); [|discriminate]. destruct (char_ref _) as [x|] eqn:E; [|discriminate].
    intros K. injection K as <- <-. now apply char_ref_ok in E.
Qed.
Lemma attr_value_ok f q : forall s v r, attr_value f q s = Some (v, r) -> chars_ok v.
Proof.
  induction f as [|f IH]; intros s v r H; [discriminate|]. cbn [attr_value] in H. destruct s as [|c t]; [discriminate|].
  destruct (Ascii.eqb c q); [injection H as <- <-; constructor|]. destruct (Ascii.eqb c "<"); [discriminate|]. destruct (Ascii.eqb c "&").
  - destruct (reference t) as [[x r1]|] eqn:E; [|discriminate]. destruct (attr_value f q r1) as [[v1 r2]|] eqn:E1; [|discriminate]. injection H as <- <-.
    constructor; [now apply reference_ok in E|now apply IH in E1].
  - destruct (xml_char c) eqn:Ec; [|discriminate]. destruct (attr_value f q t) as [[v1 r2]|] eqn:E1; [|discriminate]. injection H as <- <-.
    constructor; [destruct (xml_space c); [reflexivity|exact Ec]|now apply IH in E1].
Qed.
Lemma span_of_spec p s a b : span_of p s = (a, b) -> s = a ++ b /\ Forall (fun c => p c = true) a /\ match b with c :: _ => p c = false | [] => True end.
Proof.
  revert a b. induction s as [|c s IH]; intros a b H; cbn [span_of] in H.
  - injection H as <- <-. repeat split; constructor.
  - destruct (p c) eqn:E.
    + destruct (span_of p s) as [a1 b1] eqn:E1. injection H as <- <-. destruct (IH _ _ eq_refl) as (-> & H1 & H2). repeat split; [now constructor|exact H2].
    + injection H as <- <-. repeat split; [constructor|exact E].
Qed.
Lemma xml_name_ok s n r : xml_name s = Some (n, r) -> name_ok n /\ s = n ++ r.
Proof.
  unfold xml_name. destruct s as [|c s]; [discriminate|]. destruct (xml_name_start c) eqn:E; [|discriminate]. intros H.
  assert (H0 : span_of xml_name_char (c :: s) = (n, r)) by congruence. apply span_of_spec in H0 as (E1 & H1 & H2). split; [|exact E1]. split; [|exact H1]. destruct n as [|d n]; [|injection E1 as <- _; exact E].
  cbn [app] in E1. subst r. unfold xml_name_char in H2. rewrite E in H2. discriminate.
Qed.
Lemma NoDup_app_intro_single {A} (l : list A) x : NoDup l -> ~ In x l -> NoDup (l ++ [x]).
Proof.
  intros H Hx. induction H as [|y l Hy Hl IH]; cbn [app]; [constructor; [intros []|constructor]|]. constructor.
  - intros K. apply in_app_or in K as [K|[K|[]]]; [now apply Hy|]. apply Hx. left. congruence.
  - apply IH. intros K. apply Hx. now right.
Qed.
Lemma attrs_of_ok f : forall s acc l e r, attrs_of f s acc = Some (l, e, r) -> attrs_ok acc -> attrs_ok l.
Proof.
  induction f as [|f IH]; intros s acc l e r H Hacc; [discriminate|]. cbn [attrs_of] in H.
  destruct (after $"/>" (skip_space s)); [injection H as <- _ _; exact Hacc|]. destruct (after $">" (skip_space s)); [injection H as <- _ _; exact Hacc|].
  destruct (Nat.eqb _ _); [discriminate|]. destruct (xml_name (skip_space s)) as [[n r1]|] eqn:En; [|discriminate].
  destruct (after $"=" (skip_space r1)) as [r2|]; [|discriminate]. destruct (skip_space r2) as [|q r3]; [discriminate|].
  destruct (quote q && negb (in_strs n (map fst acc)))%bool eqn:Eq; [|discriminate]. destruct (attr_value _ q r3) as [[v r4]|] eqn:Ev; [|discriminate].
  apply IH in H; [exact H|]. destruct Hacc as [HN HF]. apply andb_true_iff in Eq as [_ Eq]. apply negb_true_iff in Eq. split.
  - rewrite map_app. cbn [map fst]. apply NoDup_app_intro_single; [exact HN|]. intros K. unfold in_strs in Eq. apply not_true_iff_false in Eq. apply Eq, existsb_exists. exists n. split; [exact K|apply str_eqb_refl].
  - apply Forall_app. split; [exact HF|]. constructor; [|constructor]. split; [now apply xml_name_ok in En|now apply attr_value_ok in Ev].
Qed.
Lemma forallb_chars x : forallb xml_char x = true -> chars_ok x.
Proof. intros H. unfold chars_ok. rewrite Forall_forall. now rewrite forallb_forall in H. Qed.
Lemma content_element_ok f :
  (forall s x cs r, content f s = Some (x, cs, r) -> chars_ok x /\ Forall tree_ok cs) /\
  (forall s n a x cs r, element f s = Some (n, a, x, cs, r) -> name_ok n /\ attrs_ok a /\ chars_ok x /\ Forall tree_ok cs).
Proof.
  induction f as [|f [IHc IHe]]; [split; intros; discriminate|]. split.
  - intros s x cs r H. cbn [content] in H. destruct s as [|c t]; [injection H as <- <- <-; split; constructor|].
    assert (Hmore : forall y r0, chars_ok y -> match content f r0 with Some (t, cs, r') => Some (y ++ t, cs, r') | None => None end = Some (x, cs, r) -> chars_ok x /\ Forall tree_ok cs).
    { intros y r0 Hy K. destruct (content f r0) as [[[t0 cs0] r']|] eqn:E; [|discriminate]. injection K as <- <- <-. apply IHc in E as [E1 E2]. split; [now apply Forall_app|exact E2]. }
    destruct (Ascii.eqb c "<").
    + destruct (after $"</" (c :: t)); [injection H as <- <- <-; split; constructor|]. destruct (after $"<!--" (c :: t)) as [r0|].
      * destruct (comment_end r0) as [r1|]; [|discriminate]. now apply (Hmore [] r1 (Forall_nil _)).
      * destruct (after $"<![CDATA[" (c :: t)) as [r0|].
        -- destruct (until $"]]>" r0) as [[y r1]|]; [|discriminate]. destruct (forallb xml_char y) eqn:Ey; [|discriminate]. apply (Hmore y r1); [now apply forallb_chars|exact H].
        -- destruct (element f t) as [[[[[n a] y] cs0] r0]|] eqn:Ee; [|discriminate]. destruct (content f r0) as [[[tail more] r1]|] eqn:Ec; [|discriminate]. injection H as <- <- <-.
           apply IHe in Ee as (H1 & H2 & H3 & H4). apply IHc in Ec as [H5 H6]. split; [constructor|]. constructor; [|exact H6]. now constructor.
    + destruct (Ascii.eqb c "&").
      * destruct (reference t) as [[y r0]|] eqn:E; [|discriminate]. apply (Hmore [y] r0); [constructor; [now apply reference_ok in E|constructor]|exact H].
      * destruct (prefixb $"]]>" (c :: t)); [discriminate|]. destruct (xml_char c) eqn:Ec; [|discriminate]. apply (Hmore [c] t); [now constructor|exact H].
  - intros s n a x cs r H. cbn [element] in H. destruct (xml_name s) as [[n0 r0]|] eqn:En; [|discriminate]. apply xml_name_ok in En as [En _].
    destruct (attrs_of (S (length r0)) r0 []) as [[[a0 e0] r1]|] eqn:Ea; [|discriminate]. assert (Ha : attrs_ok a0) by (eapply attrs_of_ok; [exact Ea|]; split; constructor).
    destruct e0.
    + injection H as <- <- <- <- <-. repeat split; try apply Ha; try apply En; constructor.
    + destruct (content f r1) as [[[x0 cs0] r2]|] eqn:Ec; [|discriminate]. destruct (after ($"</" ++ n0) r2) as [r3|]; [|discriminate]. destruct (after $">" (skip_space r3)) as [r4|]; [|discriminate].
      injection H as <- <- <- <- <-. apply IHc in Ec as [E1 E2]. repeat split; try apply Ha; try apply En; assumption.
Qed.
Theorem xml_parse_ok s e : xml_parse s = Some e -> tree_ok e /\ e_tail e = [].
Proof.
  unfold xml_parse. destruct (misc _ _) as [[|c r]|]; [discriminate| |discriminate]. destruct (Ascii.eqb c "<"); [|discriminate].
  destruct (element _ r) as [[[[[n a] x] cs] rest]|] eqn:E; [|discriminate]. destruct (misc _ rest) as [[|]|]; [|discriminate..]. intros K. injection K as <-.
  apply content_element_ok in E as (H1 & H2 & H3 & H4). split; [|reflexivity]. constructor; auto. constructor.
Qed.
