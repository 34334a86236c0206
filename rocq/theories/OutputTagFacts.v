(** * OutputTagFacts: output tags are read as SpecOutputTags says. *)
From Coq Require Import Lia Sorting.Sorted.
From Verif Require Import PyBase Regex Template Attributes MatchVar Compile FuncTable Loaders Session Files Inputs Outputs JsonDump OutputTags PyEqFacts.
From Verif Require Import SpecVariable SpecAttr SpecText SpecCalls SpecFiles SpecInputs SpecOutput SpecJson SpecOutputTags.
From Verif Require Import StrFacts DictFacts ParserFacts2 SessionFacts SessionInputs MadeFacts CallFacts CallFacts2 TextFacts LexFacts2 GrammarFacts ReprFacts FileFacts PythonFacts InputFacts.
Local Open Scope string_scope.
Local Open Scope list_scope.

Lemma dots_iff s l : dots s l <-> split_path s = l.
Proof.
  unfold dots, split_path. change $"." with ["."%char]. split.
  - intros (ps & C & F). apply cut_iff in C; [|discriminate]. rewrite C. now apply strips.
  - intros <-. exists (split ["."%char] s). split; [apply cut_iff; [discriminate|reflexivity]|now apply strips].
Qed.
Lemma called_iff n v a : first_attr n v = Ok a <-> called_with n v a.
Proof.
  unfold first_attr, called_with. change (t_ "(") with $"(". change (t_ ")") with $")". split.
  - intros K. destruct (get_attributes _) as [[|b l]|] eqn:E; cbn [rbind] in K; try discriminate. assert (b = a) by congruence. subst b. exists l. now apply attributes_iff.
  - intros (l & F). apply attributes_iff in F. rewrite F. reflexivity.
Qed.
Lemma chain_iff l : forall o o', rfold chain_output l o = Ok o' <->
  Forall (fun a => at_name a <> t_ "functions") l /\ exists fs, sublist (fun a => word_in (at_name a) output_words) l fs /\ o' = {| ot_name := ot_name o; ot_attrs := ot_attrs o; ot_load := ot_load o; ot_funcs := ot_funcs o ++ fs |}.
Proof.
  induction l as [|a l IH]; intros o o'; cbn [rfold].
  - split; [intros K; injection K as <-; split; [constructor|]; exists []; split; [constructor|]; rewrite app_nil_r; now destruct o|]. intros (_ & fs & S & ->). inversion S. rewrite app_nil_r. now destruct o.
  - unfold chain_output at 1. destruct (str_eqb (at_name a) $"functions") eqn:E.
    + cbn [rbind]. split; [discriminate|]. intros (F & _). inversion F as [|? ? H _]; subst. apply str_eqb_eq in E. now elim H.
    + cbn [rbind]. rewrite IH. clear IH. assert (N : at_name a <> t_ "functions") by (now apply str_eqb_neq in E).
      assert (W : in_strs (at_name a) output_names = true <-> word_in (at_name a) output_words) by (rewrite in_strs_b; reflexivity).
      destruct (in_strs (at_name a) output_names).
      * split.
        -- intros (F & fs & S & ->). split; [now constructor|]. exists (a :: fs). split; [constructor; [now apply W|exact S]|]. cbn [add_func ot_funcs ot_name ot_attrs ot_load]. now rewrite <- app_assoc.
        -- intros (F & fs & S & ->). inversion F as [|? ? _ F']; subst. split; [exact F'|]. inversion S as [|? ? r P S'|? ? r P S']; subst; [|elim P; now apply W]. exists r. split; [exact S'|]. cbn [add_func ot_funcs ot_name ot_attrs ot_load]. now rewrite <- app_assoc.
      * split.
        -- intros (F & fs & S & ->). split; [now constructor|]. exists fs. split; [|reflexivity]. apply sb_drop; [|exact S]. intros P. apply W in P. discriminate.
        -- intros (F & fs & S & ->). inversion F as [|? ? _ F']; subst. split; [exact F'|]. inversion S as [|? ? r P S'|? ? r P S']; subst; [apply W in P; discriminate|]. exists fs. now split.
Qed.
Definition added (o : outputter) (ns : list val) (d : dict) (f : list attribute) : outputter :=
  {| ot_name := match ns with [] => ot_name o | _ => last ns VNone end; ot_attrs := dupdate (ot_attrs o) d; ot_load := ot_load o; ot_funcs := ot_funcs o ++ f |}.
Definition word_b (k : str) (x : string) : bool := str_eqb (lower k) (list_ascii_of_string x).
Lemma word_b_iff k x : word_b k x = true <-> same_word k x.
Proof. unfold word_b, same_word. apply str_eqb_eq. Qed.
Lemma word_b_no k x : word_b k x = false <-> ~ same_word k x.
Proof. unfold word_b, same_word. apply str_eqb_neq. Qed.
Definition spec_attr (o : outputter) (k : str) (v : val) : res outputter :=
  if word_b k "name" then Ok (set_oname o v)
  else if word_b k "returner" then match v with VStr s => Ok (set_attr o $"returner" (text_values (comma_list s))) | _ => Raise AttributeError end
  else if word_b k "filename" then match v with VStr s => if existsb (Ascii.eqb "%") s then out_of_model else Ok (set_attr o $"filename" v) | _ => Raise TypeError end
  else if word_b k "format_attributes" then do a <- first_attr $"format_attributes" v; Ok (set_attr o $"format_attributes" (VDict [(KS $"args", VList (at_args a)); (KS $"kwargs", VDict (at_kwargs a))]))
  else if word_b k "path" then match v with VStr s => Ok (set_attr o $"path" (text_values (split_path s))) | _ => Raise AttributeError end
  else if word_b k "headers" then Ok (set_attr o $"headers" (match v with VStr s => text_values (comma_list s) | _ => v end))
  else if word_b k "condition" then do a <- first_attr $"condition" v; Ok (set_attr o $"condition" (VList (at_args a)))
  else if word_b k "functions" then do s <- s_arg v; do l <- get_attributes s; rfold chain_output l o
  else if in_strs k output_names then do a <- first_attr k v; Ok (add_func o a)
  else if in_strs k [$"data"; $"D"] then out_of_model
  else Ok (set_attr o k v).
Lemma spec_attr_eq o k v : out_attr o (KS k, v) = spec_attr o k v.
Proof.
  unfold out_attr, spec_attr, word_b. cbn [fst snd]. cbv zeta.
  change (list_ascii_of_string "name") with $"name". destruct (str_eqb (lower k) $"name") eqn:Ename; [reflexivity|].
  change (list_ascii_of_string "returner") with $"returner". destruct (str_eqb (lower k) $"returner") eqn:Ereturner; [rewrite (proj1 (str_eqb_eq _ _) Ereturner); reflexivity|].
  change (list_ascii_of_string "filename") with $"filename". destruct (str_eqb (lower k) $"filename") eqn:Efilename; [rewrite (proj1 (str_eqb_eq _ _) Efilename); reflexivity|].
  change (list_ascii_of_string "format_attributes") with $"format_attributes". destruct (str_eqb (lower k) $"format_attributes") eqn:Eformat_attributes; [rewrite (proj1 (str_eqb_eq _ _) Eformat_attributes); reflexivity|].
  change (list_ascii_of_string "path") with $"path". destruct (str_eqb (lower k) $"path") eqn:Epath; [rewrite (proj1 (str_eqb_eq _ _) Epath); reflexivity|].
  change (list_ascii_of_string "headers") with $"headers". destruct (str_eqb (lower k) $"headers") eqn:Eheaders; [rewrite (proj1 (str_eqb_eq _ _) Eheaders); reflexivity|].
  change (list_ascii_of_string "condition") with $"condition". destruct (str_eqb (lower k) $"condition") eqn:Econdition; [rewrite (proj1 (str_eqb_eq _ _) Econdition); reflexivity|].
  change (list_ascii_of_string "functions") with $"functions". destruct (str_eqb (lower k) $"functions") eqn:Efunctions; [reflexivity|].
  reflexivity.
Qed.
Lemma added_nil o : added o [] [] [] = o.
Proof. unfold added. cbn [dupdate fold_left]. rewrite app_nil_r. now destruct o. Qed.
Lemma added_attr o n v : added o [] [(KS n, v)] [] = set_attr o n v.
Proof. unfold added, set_attr. cbn [dupdate fold_left fst snd]. now rewrite app_nil_r. Qed.
Lemma added_funcs o f : added o [] [] f = {| ot_name := ot_name o; ot_attrs := ot_attrs o; ot_load := ot_load o; ot_funcs := ot_funcs o ++ f |}.
Proof. reflexivity. Qed.
Ltac words := repeat match goal with |- context [str_eqb (t_ ?a) (list_ascii_of_string ?b)] => let r := eval vm_compute in (str_eqb (t_ a) (list_ascii_of_string b)) in change (str_eqb (t_ a) (list_ascii_of_string b)) with r end; cbv iota.
Ltac no_words := repeat (apply Forall_cons; [apply word_b_no; assumption|]); apply Forall_nil.
Lemma words_all k : Forall (fun x => ~ same_word k x) attribute_words -> forall x, In x attribute_words -> word_b k x = false.
Proof. intros F x I. rewrite Forall_forall in F. apply word_b_no. now apply F. Qed.
Lemma same_two k x y : same_word k x -> word_b k y = str_eqb (t_ x) (list_ascii_of_string y).
Proof. unfold same_word, word_b. now intros ->. Qed.
Lemma says_attr o k v : dget (ot_attrs o) (KS k) = Some v \/ word_in (lower k) attribute_words \/ word_in k output_words ->
  forall o', spec_attr o k v = Ok o' <-> exists ns d f, attr_says k v ns d f /\ o' = added o ns d f.
Proof.
  intros Hk o'. split.
  - unfold spec_attr.
    destruct (word_b k "name") eqn:E1. { apply word_b_iff in E1. intros K. injection K as <-. exists [v], [], []. split; [now constructor|]. unfold set_oname, added. cbn [last dupdate fold_left]. now rewrite app_nil_r. }
    destruct (word_b k "returner") eqn:E2. { apply word_b_iff in E2. intros K. destruct v; try discriminate. injection K as <-. eexists [], [_], []. split; [apply at_returner; [exact E2|now apply commas_iff]|]. now rewrite added_attr. }
    destruct (word_b k "filename") eqn:E3. { apply word_b_iff in E3. intros K. destruct v; try discriminate. destruct (existsb (Ascii.eqb "%") s) eqn:X; [discriminate|]. injection K as <-. eexists [], [_], []. split; [apply at_filename; [exact E3|]|now rewrite added_attr].
      intros I. assert (existsb (Ascii.eqb "%") s = true) by (apply existsb_exists; exists "%"%char; split; [exact I|reflexivity]). congruence. }
    destruct (word_b k "format_attributes") eqn:E4. { apply word_b_iff in E4. intros K. destruct (first_attr _ v) as [a|] eqn:F; [|discriminate]. cbn [rbind] in K. apply called_iff in F. assert (K' := Logic.f_equal (fun x => match x with Ok y => y | Raise _ => o end) K). cbv beta iota in K'. subst o'. eexists [], [_], []. split; [apply at_format; [exact E4|exact F]|]. now rewrite added_attr. }
    destruct (word_b k "path") eqn:E5. { apply word_b_iff in E5. intros K. destruct v; try discriminate. injection K as <-. eexists [], [_], []. split; [apply at_way; [exact E5|now apply dots_iff]|]. now rewrite added_attr. }
    destruct (word_b k "headers") eqn:E6. { apply word_b_iff in E6. intros K. assert (K' := Logic.f_equal (fun x => match x with Ok y => y | Raise _ => o end) K). cbv beta iota in K'. subst o'. clear K.
      assert (D : (exists s, v = VStr s) \/ forall s, v <> VStr s) by (destruct v; try (right; intros; discriminate); left; eauto). destruct D as [[s ->]|D].
      - eexists [], [_], []. split; [apply at_headers; [exact E6|now apply commas_iff]|]. now rewrite added_attr.
      - eexists [], [_], []. split; [apply at_other_headers; [exact E6|exact D]|]. rewrite added_attr. destruct v; try reflexivity. now elim (D s). }
    destruct (word_b k "condition") eqn:E7. { apply word_b_iff in E7. intros K. destruct (first_attr _ v) as [a|] eqn:F; [|discriminate]. cbn [rbind] in K. apply called_iff in F. assert (K' := Logic.f_equal (fun x => match x with Ok y => y | Raise _ => o end) K). cbv beta iota in K'. subst o'. eexists [], [_], []. split; [apply at_condition; [exact E7|exact F]|]. now rewrite added_attr. }
    destruct (word_b k "functions") eqn:E8. { apply word_b_iff in E8. intros K. destruct v; try discriminate. cbn [s_arg rbind] in K. destruct (get_attributes s) as [l|] eqn:G; [|discriminate]. cbn [rbind] in K. apply attributes_iff in G. apply chain_iff in K as (F & fs & S & ->). exists [], [], fs. split; [now apply (at_functions k s l)|]. now rewrite added_funcs. }
    destruct (in_strs k output_names) eqn:E9. { intros K. destruct (first_attr _ v) as [a|] eqn:F; [|discriminate]. cbn [rbind] in K. apply called_iff in F. assert (K' := Logic.f_equal (fun x => match x with Ok y => y | Raise _ => o end) K). cbv beta iota in K'. subst o'. exists [], [], [a]. split; [apply at_function; [no_words|now apply in_strs_b in E9|exact F]|]. now rewrite added_funcs. }
    destruct (in_strs k [$"data"; $"D"]) eqn:E10; [discriminate|]. intros K. assert (K' := Logic.f_equal (fun x => match x with Ok y => y | Raise _ => o end) K). cbv beta iota in K'. subst o'. exists [], [], [].
    assert (W : ~ word_in k output_words) by (intros W; apply in_strs_b in W; change (map list_ascii_of_string output_words) with output_names in W; congruence).
    assert (V : Forall (fun x => ~ same_word k x) attribute_words) by no_words. split.
    + apply at_any; [exact V|exact W| |]; intros X; subst k; discriminate.
    + rewrite added_nil. unfold set_attr. destruct Hk as [Hk|[Hk|Hk]].
      * rewrite dset_same by exact Hk. now destruct o.
      * exfalso. apply in_map_iff in Hk as (x & Ex & I). rewrite Forall_forall in V. apply (V x I). symmetry. exact Ex.
      * now elim W.
  - intros (ns & d & f & S & ->). unfold spec_attr.
    destruct S as [k v H|k s l H C|k s H C|k v a H C|k s l H C|k s l H C|k v H C|k v a H C|k s l fs H I N C|k v a H W C|k v H W D1 D2];
      try (rewrite !(same_two k _ _ H)); words.
    + unfold set_oname, added. cbn [last dupdate fold_left]. now rewrite app_nil_r.
    +  apply commas_iff in C. rewrite C. now rewrite added_attr.
    + 
      destruct (existsb (Ascii.eqb "%") s) eqn:X; [|now rewrite added_attr]. apply existsb_exists in X as (c & I & X). apply Ascii.eqb_eq in X. subst c. contradiction.
    + 
      apply called_iff in C. change (t_ "format_attributes") with $"format_attributes" in C. rewrite C. cbn [rbind]. now rewrite added_attr.
    + 
      apply dots_iff in C. rewrite C. now rewrite added_attr.
    + 
      apply commas_iff in C. rewrite C. now rewrite added_attr.
    + 
      rewrite added_attr. destruct v; try reflexivity. now elim (C s).
    + 
      apply called_iff in C. change (t_ "condition") with $"condition" in C. rewrite C. cbn [rbind]. now rewrite added_attr.
    + 
      cbn [s_arg rbind]. apply attributes_iff in I. rewrite I. cbn [rbind]. apply chain_iff. split; [exact N|]. exists fs. split; [exact C|]. now rewrite added_funcs.
    + pose proof (words_all k H) as Q. rewrite !Q by (cbn [attribute_words In]; tauto). apply in_strs_b in W. change (map list_ascii_of_string output_words) with output_names in W. rewrite W. apply called_iff in C. rewrite C. reflexivity.
    + pose proof (words_all k H) as Q. rewrite !Q by (cbn [attribute_words In]; tauto).
      destruct (in_strs k output_names) eqn:E9; [elim W; now apply in_strs_b in E9|].
      destruct (in_strs k [$"data"; $"D"]) eqn:E10. { apply in_strs_In in E10 as [E10|[E10|[]]]; [elim D1|elim D2]; now symmetry. }
      rewrite added_nil. unfold set_attr. destruct Hk as [Hk|[Hk|Hk]].
      * rewrite dset_same by exact Hk. now destruct o.
      * exfalso. apply in_map_iff in Hk as (x & Ex & I). rewrite Forall_forall in H. apply (H x I). symmetry. exact Ex.
      * now elim W.
Qed.
Lemma says_keys k v ns d f : attr_says k v ns d f -> d = [] \/ exists n x, d = [(KS n, x)] /\ word_in (lower n) attribute_words.
Proof.
  intros S. inversion S; subst; try (now left); right; eexists _, _; (split; [reflexivity|]); apply in_map_iff; [exists "returner"%string|exists "filename"%string|exists "format_attributes"%string|exists "path"%string|exists "headers"%string|exists "headers"%string|exists "condition"%string];
    (split; [reflexivity|]); unfold attribute_words; cbn [In]; tauto.
Qed.
Definition covers (o : outputter) (l : dict) : Prop := Forall (fun e => match fst e with KS k => dget (ot_attrs o) (KS k) = Some (snd e) \/ word_in (lower k) attribute_words \/ word_in k output_words | _ => True end) l.
Lemma covers_added o l k v ns d f : attr_says k v ns d f -> covers o l -> covers (added o ns d f) l.
Proof.
  intros S C. eapply Forall_impl; [|exact C]. intros [[i|z|] x]; cbn [fst snd]; auto. intros [H|H]; [|now right]. destruct (says_keys _ _ _ _ _ S) as [->|(n & y & -> & W)]; [left; exact H|].
  cbn [added ot_attrs dupdate fold_left fst snd]. destruct (list_eq_dec ascii_dec n i) as [->|N]; [right; now left|]. left. rewrite dget_dset_other; [exact H|]. congruence.
Qed.
Lemma added_twice o n1 d1 f1 n2 d2 f2 : added (added o n1 d1 f1) n2 d2 f2 = added o (n1 ++ n2) (d1 ++ d2) (f1 ++ f2).
Proof.
  unfold added. cbn [ot_name ot_attrs ot_load ot_funcs]. f_equal.
  - destruct n2 as [|x n2]; [now rewrite app_nil_r|]. destruct n1 as [|y n1]; [reflexivity|]. cbn [app]. change (y :: n1 ++ x :: n2) with ((y :: n1) ++ x :: n2). generalize (y :: n1). clear. intros l. induction l as [|a l IH]; [reflexivity|]. cbn [app]. rewrite IH. cbn [last]. now destruct (l ++ x :: n2) eqn:E; [destruct l|].
  - unfold dupdate. now rewrite fold_left_app.
  - now rewrite app_assoc.
Qed.
Lemma fold_iff l : forall o o', covers o l -> (rfold out_attr l o = Ok o' <-> exists ns d f, attrs_say l ns d f /\ o' = added o ns d f).
Proof.
  induction l as [|[k v] l IH]; intros o o' C; cbn [rfold].
  - split; [intros K; injection K as <-; exists [], [], []; split; [constructor|now rewrite added_nil]|]. intros (ns & d & f & S & ->). inversion S; subst. now rewrite added_nil.
  - apply Forall_cons_iff in C as [C1 C]. cbn [fst snd] in C1. destruct k as [k|z|]; try (split; [discriminate|intros (ns & d & f & S & _); inversion S]).
    rewrite spec_attr_eq. pose proof (says_attr o k v C1) as H. split.
    + intros K. destruct (spec_attr o k v) as [o1|]; [|discriminate]. cbn [rbind] in K. destruct (proj1 (H o1) eq_refl) as (n & d & f & S & ->). apply IH in K; [|now apply (covers_added o l k v)]. destruct K as (ns & ds & fs & T & ->).
      exists (n ++ ns), (d ++ ds), (f ++ fs). split; [now constructor|apply added_twice].
    + intros (ns & d & f & S & ->). inversion S as [|? ? ? n1 d1 f1 ns1 ds1 fs1 S1 S2]; subst. rewrite (proj2 (H (added o n1 d1 f1))) by eauto 8. cbn [rbind]. apply IH; [now apply (covers_added o l k v)|]. exists ns1, ds1, fs1. split; [exact S2|]. symmetry. apply added_twice.
Qed.
Theorem reads_iff attrs load o : dwf attrs -> (read_output attrs load = Ok o <-> reads_output attrs load o).
Proof.
  intros W. unfold read_output. rewrite fold_iff.
  - unfold reads_output. split.
    + intros (ns & d & f & S & ->). cbn [added ot_name ot_attrs ot_load ot_funcs app]. exists ns, d. split; [exact S|]. split; [now destruct ns|]. now split.
    + intros (ns & d & S & E1 & E2 & E3). exists ns, d, (ot_funcs o). split; [exact S|]. destruct o as [n a ld fs]. cbn [ot_name ot_attrs ot_load ot_funcs] in *. subst. unfold added. cbn [ot_name ot_attrs ot_load ot_funcs app]. f_equal. now destruct ns.
  - apply Forall_forall. intros [k v] I. cbn [fst snd]. destruct k as [k|z|]; auto. left. cbn [ot_attrs]. now apply In_dget.
Qed.
Lemma usual_is d : usual d <-> d = default_attrs.
Proof. unfold usual. split; exact (fun e => e). Qed.
Lemma dwf_update (d x : dict) : dwf d -> dwf (dupdate d x).
Proof. unfold dupdate. revert d. induction x as [|e x IH]; intros d W; [exact W|]. cbn [fold_left]. apply IH. now apply dwf_dset. Qed.
Lemma usual_wf : dwf default_attrs.
Proof. unfold dwf. change (NoDup [KS $"returner"; KS $"format"; KS $"load"]). repeat (constructor; [intros K; repeat (destruct K as [K|K]; [discriminate K|]); destruct K|]). constructor. Qed.
Theorem tag_iff w e o : tag_output w e = Ok o <-> tag_output_is w e o.
Proof.
  unfold tag_output, tag_output_is. set (a0 := dupdate default_attrs (map (fun kv => (KS (fst kv), VStr (snd kv))) (e_attrs e))).
  set (a := match dget a0 (KS $"format") with Some (VStr f) => if str_eqb f $"jinja2" then dset a0 (KS $"load") (VStr $"text") else a0 | _ => a0 end).
  assert (A : forall d, tag_attributes e d <-> d = a).
  { intros d. unfold tag_attributes. transitivity ((dget a0 (KS (t_ "format")) = Some (VStr (t_ "jinja2")) /\ d = dset a0 (KS (t_ "load")) (VStr (t_ "text"))) \/ (dget a0 (KS (t_ "format")) <> Some (VStr (t_ "jinja2")) /\ d = a0)).
    - split; [intros (u & U & H); pose proof (proj1 (usual_is u) U) as U'; subst u; exact H|]. intros H. exists default_attrs. split; [reflexivity|exact H].
    - unfold a. change (t_ "format") with $"format". change (t_ "jinja2") with $"jinja2". change (t_ "load") with $"load". change (t_ "text") with $"text". destruct (dget a0 (KS $"format")) as [v|]; [|split; [intros [[K _]|[_ K]]; [discriminate|exact K]|intros ->; right; split; [discriminate|reflexivity]]].
      destruct v; try (split; [intros [[K _]|[_ K]]; [discriminate|exact K]|intros ->; right; split; [discriminate|reflexivity]]).
      destruct (str_eqb s $"jinja2") eqn:J.
      + apply str_eqb_eq in J. subst s. split; [intros [[_ K]|[K _]]; [exact K|now elim K]|intros ->; left; now split].
      + apply str_eqb_neq in J. split; [intros [[K _]|[_ K]]; [congruence|exact K]|intros ->; right; split; [congruence|reflexivity]]. }
  assert (Wa : dwf a). { assert (W0 : dwf a0) by (apply dwf_update, usual_wf). unfold a. destruct (dget a0 _) as [[]|]; try exact W0. destruct (str_eqb s _); [now apply dwf_dset|exact W0]. }
  cbv zeta. split.
  - intros K. destruct (load_struct w (e_text e) (strs_of_dict a)) as [x|] eqn:L; [|discriminate]. cbn [rbind] in K. apply struct_iff in L.
    eexists a, (strs_of_dict a), x, _, _. split; [now apply A|]. split; [now apply text_attributes_iff|]. split; [exact L|].
    assert (Wd : dwf (match x with Some (VDict d) => dupdate a d | _ => a end)) by (destruct x as [[]|]; try exact Wa; now apply dwf_update). apply reads_iff in K; [|exact Wd]. split; [|split; [|exact K]].
    + destruct x as [x|].
      * destruct (truthy x) eqn:T; [now constructor|]. destruct (e_text e) eqn:Et; [apply lo_no_text; [intros ? [= <-]; exact T|reflexivity]|]. apply lo_text; [intros ? [= <-]; exact T|discriminate].
      * destruct (e_text e) eqn:Et; [apply lo_no_text; [discriminate|reflexivity]|]. apply lo_text; discriminate.
    + destruct x as [[]|]; try (apply ov_other; intros; discriminate). apply ov_dict.
  - intros (a' & l & x & load & d & T & T2 & S & Lo & Ov & R). apply A in T. subst a'. apply text_attributes_iff in T2. subst l. apply struct_iff in S. rewrite S. cbn [rbind].
    assert (Ed : match x with Some (VDict d) => dupdate a d | _ => a end = d). { destruct Ov as [y|y Hy]; [reflexivity|]. destruct y as [[]|]; try reflexivity. now elim (Hy d). }
    assert (El : match x with Some x => if truthy x then x else (match e_text e with [] => VNone | s => VStr s end) | None => match e_text e with [] => VNone | s => VStr s end end = load).
    { destruct Lo as [y Hy|y Hy Et|y Hy Et]; [now rewrite Hy|rewrite Et; destruct y as [y|]; [now rewrite (Hy y eq_refl)|reflexivity]|]. destruct (e_text e); [congruence|]. destruct y as [y|]; [now rewrite (Hy y eq_refl)|reflexivity]. }
    rewrite Ed, El. apply reads_iff; [|exact R]. rewrite <- Ed. destruct x as [[]|]; try exact Wa. now apply dwf_update.
Qed.
Theorem arguments_iff kw o : dwf kw -> (kwargs_output kw = Ok o <-> arguments_output kw o).
Proof.
  intros W. unfold kwargs_output, arguments_output. rewrite reads_iff by (apply dwf_update, usual_wf). split.
  - intros R. exists default_attrs. eexists. split; [reflexivity|]. split; [|exact R]. unfold default_attribute. change (t_ "returner") with $"returner". change (t_ "self") with $"self". destruct (dmem kw (KS $"returner")) eqn:M.
    + left. split; [now apply dmem_has|reflexivity].
    + right. assert (N : ~ In (KS $"returner") (map fst kw)) by (intros I; apply dmem_has in I; congruence). split; [exact N|]. apply ParserFacts2.dset_fresh. exact N.
  - intros (u & d & U & [[I ->]|[N ->]] & R); pose proof (proj1 (usual_is u) U) as U'; subst u; change (t_ "returner") with $"returner" in *; change (t_ "self") with $"self" in *.
    + apply dmem_has in I. now rewrite I.
    + destruct (dmem kw (KS $"returner")) eqn:M; [apply dmem_has in M; contradiction|]. rewrite (ParserFacts2.dset_fresh kw) by exact N. exact R.
Qed.
