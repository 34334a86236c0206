(** * InputFacts: input tags are read as SpecInputs says. *)
From Coq Require Import Lia Sorting.Sorted.
From Verif Require Import PyBase Regex Template Attributes MatchVar Compile FuncTable Loaders Session SpecSession Files Inputs SpecVariable SpecAttr SpecText SpecCalls SpecFiles SpecInputs.
From Verif Require Import StrFacts DictFacts SessionFacts SessionInputs MadeFacts CallFacts CallFacts2 TextFacts LexFacts2 GrammarFacts ReprFacts FileFacts PythonFacts.
Local Open Scope string_scope.
Local Open Scope list_scope.

Lemma strip_white s r : stripped true true white s r <-> strip s = r.
Proof. rewrite (both_stripped is_space white white_iff s r). unfold strip. split; intros E; symmetry; exact E. Qed.
Lemma strips ps l : Forall2 (stripped true true white) ps l <-> map strip ps = l.
Proof.
  split; [intros H; induction H as [|a b p l H1 H2 IH]; [reflexivity|]; cbn [map]; rewrite IH; apply strip_white in H1; now rewrite H1|].
  intros <-. induction ps as [|a ps IH]; cbn [map]; constructor; [now apply strip_white|exact IH].
Qed.
Lemma commas_iff s l : commas s l <-> comma_list s = l.
Proof.
  unfold commas, comma_list. change $"," with [","%char]. split.
  - intros (ps & C & F). apply cut_iff in C; [|discriminate]. rewrite C. now apply strips.
  - intros <-. exists (split [","%char] s). split; [apply cut_iff; [discriminate|reflexivity]|now apply strips].
Qed.
Lemma one_iff v l : str_list v = Ok l <-> one_or_list v l.
Proof.
  destruct v; cbn [str_list]; try (split; [discriminate|intros K; inversion K]).
  - split; [intros K; injection K as <-; constructor|]. intros K. inversion K. reflexivity.
  - rewrite texts_iff. split; [intros K; now constructor|]. intros K. now inversion K.
Qed.
Lemma names_iff v l : group_list v = Ok l <-> names_groups v l.
Proof.
  destruct v; cbn [group_list]; try (split; [discriminate|intros K; inversion K]).
  - split; [intros K; injection K as <-; constructor; now apply commas_iff|]. intros K. inversion K as [? ? C|]; subst. apply commas_iff in C. now rewrite C.
  - rewrite texts_iff. split; [intros K; now constructor|]. intros K. now inversion K.
Qed.
Lemma sorted_same (a b : list nat) : StronglySorted lt a -> StronglySorted lt b -> (forall n, In n a <-> In n b) -> a = b.
Proof.
  revert b. induction a as [|x a IH]; intros b A B H.
  - destruct b as [|y b]; [reflexivity|]. elim (proj2 (H y) (or_introl eq_refl)).
  - destruct b as [|y b]; [elim (proj1 (H x) (or_introl eq_refl))|]. inversion A as [|? ? A1 A2]; inversion B as [|? ? B1 B2]; subst. rewrite Forall_forall in A2, B2.
    assert (E : x = y). { destruct (proj1 (H x) (or_introl eq_refl)) as [->|I]; [reflexivity|]. destruct (proj2 (H y) (or_introl eq_refl)) as [->|J]; [reflexivity|]. apply A2 in J. apply B2 in I. lia. }
    subst y. f_equal. apply IH; try assumption. intros n. split; intros I.
    + destruct (proj1 (H n) (or_intror I)) as [->|J]; [apply A2 in I; lia|exact J].
    + destruct (proj2 (H n) (or_intror I)) as [->|J]; [apply B2 in I; lia|exact J].
Qed.
Lemma groups_iff tgs name names gs : groups_for tgs name names gs <-> extract_groups tgs name names = gs.
Proof.
  destruct (extract_groups_spec tgs name names) as [S I]. unfold groups_for. split.
  - intros [S' I']. apply sorted_same; try assumption. intros n. now rewrite I, I'.
  - intros <-. now split.
Qed.
Lemma text_attributes_iff d l : text_attributes d l <-> strs_of_dict d = l.
Proof.
  unfold text_attributes, strs_of_dict. rewrite flat_map_concat_map. split.
  - intros (ls & F & ->). f_equal. induction F as [|[k v] x d ls H F IH]; [reflexivity|]. cbn [map fst snd]. rewrite IH. f_equal. destruct k; try (now rewrite H); destruct v; now rewrite H.
  - intros <-. eexists. split; [|reflexivity]. induction d as [|[k v] d IH]; cbn [map]; constructor; [|exact IH]. cbn [fst snd]. destruct k; try reflexivity; destruct v; reflexivity.
Qed.
Lemma function_iff n : in_strs n input_names = true <-> word_in n function_words.
Proof. rewrite in_strs_b. reflexivity. Qed.
Lemma funcs_iff l : forall fs r, rfold input_func l fs = Ok r <-> Forall (fun a => at_name a <> t_ "functions") l /\ exists g, sublist is_function l g /\ r = fs ++ g.
Proof.
  induction l as [|a l IH]; intros fs r; cbn [rfold].
  - split; [intros K; injection K as <-; split; [constructor|]; exists []; split; [constructor|now rewrite app_nil_r]|]. intros (_ & g & S & ->). inversion S. now rewrite app_nil_r.
  - unfold input_func at 1. destruct (str_eqb (at_name a) $"functions") eqn:E.
    + apply str_eqb_eq in E. split; [discriminate|]. intros (F & _). inversion F as [|? ? F1 _]; subst. now elim F1.
    + apply str_eqb_neq in E. cbn [rbind]. rewrite IH. destruct (in_strs (at_name a) input_names) eqn:X.
      * apply function_iff in X. split; intros (F & g & S & ->).
        -- split; [now constructor|]. exists (a :: g). split; [now constructor|now rewrite <- app_assoc].
        -- inversion F; subst. split; [assumption|]. inversion S as [|? ? g' P S'|? ? g' P S']; subst; [|contradiction]. exists g'. split; [assumption|now rewrite <- app_assoc].
      * assert (NX : ~ is_function a) by (unfold is_function; intros K; apply function_iff in K; congruence). split; intros (F & g & S & ->).
        -- split; [now constructor|]. exists g. split; [now constructor|reflexivity].
        -- inversion F; subst. split; [assumption|]. inversion S as [|? ? g' P S'|? ? g' P S']; subst; [contradiction|]. now exists g.
Qed.

Section W.
Variable w : world.
Variable tgs : list tgroup.
Definition step (depth : nat) (text : str) (data : dict) (st : istate) (kv : key * val) : res istate :=
        match fst kv with
        | KS k =>
            let n := lower k in let v := snd kv in
            if str_eqb n $"name" then
              match v with VStr s => Ok (set_name (strip s) st) | _ => Raise AttributeError end
            else if str_eqb n $"load" then
              match v with
              | VStr s =>
                  let st1 := set_load (strip s) st in
                  if str_eqb (strip s) $"text" then Ok st1
                  else do o <- load_struct w text (strs_of_dict data);
                       match o with
                       | None => Ok st1
                       | Some x => if truthy x then
                                     match x with VDict d => read_attrs w tgs depth [] d d st1 | _ => Raise AttributeError end
                                   else Ok st1
                       end
              | _ => Raise AttributeError
              end
            else if str_eqb n $"groups" then
              do gl <- group_list v; Ok (set_groups (extract_groups tgs (i_name st) gl) st)
            else if str_eqb n $"extensions" then do l <- str_list v; Ok (set_ext l st)
            else if str_eqb n $"filters" then do l <- str_list v; Ok (set_filters l st)
            else if str_eqb n $"url" then do l <- str_list v; Ok (set_urls l st)
            else if str_eqb n $"functions" then
              do s <- s_arg v; do l <- get_attributes s; do fs <- rfold input_func l (i_funcs st);
              Ok {| i_name := i_name st; i_load := i_load st; i_ext := i_ext st; i_filters := i_filters st; i_urls := i_urls st; i_groups := i_groups st; i_funcs := fs |}
            else if str_eqb n $"extract_commands" then
              match v with
              | VStr s => Ok (add_funcs [{| at_name := $"extract_commands"; at_args := map VStr (filter (fun i => negb (is_nil i)) (comma_list s)); at_kwargs := [] |}] st)
              | VDict _ => out_of_model
              | _ => Ok st
              end
            else if in_strs k input_names then
              do s <- s_arg v; do l <- get_attributes (k ++ $"(" ++ s ++ $")");
              match l with a :: _ => Ok (add_funcs [a] st) | [] => Raise IndexError end
            else Ok st
        | _ => Raise AttributeError
        end.
Lemma read_attrs_eq depth text data l st : read_attrs w tgs (S depth) text data l st = rfold (step depth text data) l st.
Proof. reflexivity. Qed.
Lemma word_eq k x : str_eqb (lower k) $x = true <-> same_word k x. Proof. apply str_eqb_eq. Qed.
Lemma words_differ k x y : same_word k x -> same_word k y -> x <> y -> False.
Proof. intros A B N. apply N. unfold same_word in *. rewrite A in B. apply t_inj in B. exact B. Qed.
Lemma not_tag k x : Forall (fun x => ~ same_word k x) tag_words -> In x tag_words -> same_word k x -> False.
Proof. rewrite Forall_forall. intros H I S. now apply (H x I). Qed.
Lemma nonempty_sub l r : sublist (fun c : str => c <> []) l r <-> filter (fun i => negb (is_nil i)) l = r.
Proof. apply sublist_filter. intros x _. destruct x; cbn; split; intros H; congruence || reflexivity. Qed.
Ltac other H := exfalso; first [ match goal with X : same_word _ _ |- _ => solve [apply (words_differ _ _ _ H X); discriminate] end | match goal with X : Forall _ tag_words |- _ => solve [apply (not_tag _ _ X) with (2 := H); cbn; tauto] end ].
Lemma step_iff n text data k v st st' :
  (forall m d l s s', n = S m -> read_attrs w tgs n [] d l s = Ok s' <-> tag_reads w tgs m [] d l s s') ->
  step n text data st (KS k, v) = Ok st' <-> says w tgs n text data k v st st'.
Proof.
  intros IH. unfold step. cbn [fst snd]. cbv zeta.
  destruct (str_eqb (lower k) $"name") eqn:E1.
  { apply word_eq in E1. split.
    - intros K. destruct v; try discriminate. injection K as <-. apply sy_name; [exact E1|now apply strip_white].
    - intros K. inversion K; subst; try (other E1). apply strip_white in H0. now subst. }
  destruct (str_eqb (lower k) $"load") eqn:E2.
  { apply word_eq in E2. destruct v as [| | | s | | |]; try (split; [discriminate|intros K; inversion K; subst; try (other E2); fail]).
    destruct (str_eqb (strip s) $"text") eqn:T.
    { apply str_eqb_eq in T. split.
      - intros K. injection K as <-. rewrite T. apply sy_text; [exact E2|now apply strip_white].
      - intros K. inversion K; subst; try (other E2); repeat match goal with H : stripped _ _ _ _ _ |- _ => apply strip_white in H end; rewrite T in *; try reflexivity; exfalso; congruence || (subst; contradiction). }
    apply str_eqb_neq in T. split.
    - intros K. destruct (load_struct w text (strs_of_dict data)) as [o|] eqn:L; [|discriminate]. cbn [rbind] in K. apply struct_iff in L.
      destruct o as [x|]; [destruct (truthy x) eqn:X; [destruct x as [| | | | |d|]; try discriminate|]|].
      + destruct n as [|m]; [discriminate|]. apply (IH m d d _ _ eq_refl) in K. apply (sy_load w tgs m text data k s (strip s) (strs_of_dict data) d); try assumption; [now apply strip_white|now apply text_attributes_iff|]. intros ->. discriminate.
      + injection K as <-. apply (sy_nothing w tgs n text data k s (strip s) (strs_of_dict data) (Some x)); try assumption; [now apply strip_white|now apply text_attributes_iff|right; eauto].
      + injection K as <-. apply (sy_nothing w tgs n text data k s (strip s) (strs_of_dict data) None); try assumption; [now apply strip_white|now apply text_attributes_iff|now left].
    - intros K. inversion K as [| |? ? ? ? ? r l o ? Z1 Z2 Z3 Z4 Z5 Z6|? ? ? ? ? r l d ? ? Z1 Z2 Z3 Z4 Z5 Z6 Z7| | | | | | | | |]; subst; try (other E2); repeat match goal with H : stripped _ _ _ _ _ |- _ => apply strip_white in H end; try contradiction.
      + subst r. apply text_attributes_iff in Z4. subst l. apply struct_iff in Z5. rewrite Z5. cbn [rbind]. destruct Z6 as [->|(x & -> & F)]; [reflexivity|]. now rewrite F.
      + subst r. apply text_attributes_iff in Z4. subst l. apply struct_iff in Z5. rewrite Z5. cbn [rbind]. replace (truthy (VDict d)) with true by (destruct d; [congruence|reflexivity]). now apply (IH n0 d d _ _ eq_refl). }
  destruct (str_eqb (lower k) $"groups") eqn:E3.
  { apply word_eq in E3. split.
    - intros K. destruct (group_list v) as [l|] eqn:G; [|discriminate]. cbn [rbind] in K. injection K as <-. apply names_iff in G. apply (sy_groups w tgs n text data k v l); try assumption. now apply groups_iff.
    - intros K. inversion K; subst; try (other E3). apply names_iff in H0. rewrite H0. cbn [rbind]. apply groups_iff in H1. now rewrite H1. }
  destruct (str_eqb (lower k) $"extensions") eqn:E4.
  { apply word_eq in E4. split.
    - intros K. destruct (str_list v) as [l|] eqn:G; [|discriminate]. cbn [rbind] in K. injection K as <-. apply one_iff in G. now apply sy_ext.
    - intros K. inversion K; subst; try (other E4). apply one_iff in H0. now rewrite H0. }
  destruct (str_eqb (lower k) $"filters") eqn:E5.
  { apply word_eq in E5. split.
    - intros K. destruct (str_list v) as [l|] eqn:G; [|discriminate]. cbn [rbind] in K. injection K as <-. apply one_iff in G. now apply sy_filters.
    - intros K. inversion K; subst; try (other E5). apply one_iff in H0. now rewrite H0. }
  destruct (str_eqb (lower k) $"url") eqn:E6.
  { apply word_eq in E6. split.
    - intros K. destruct (str_list v) as [l|] eqn:G; [|discriminate]. cbn [rbind] in K. injection K as <-. apply one_iff in G. now apply sy_url.
    - intros K. inversion K; subst; try (other E6). apply one_iff in H0. now rewrite H0. }
  destruct (str_eqb (lower k) $"functions") eqn:E7.
  { apply word_eq in E7. split.
    - intros K. destruct v as [| | | s | | |]; try discriminate. cbn [s_arg rbind] in K. destruct (get_attributes s) as [l|] eqn:G; [|discriminate]. cbn [rbind] in K. destruct (rfold input_func l (i_funcs st)) as [fs|] eqn:F; [|discriminate]. cbn [rbind] in K. injection K as <-.
      apply attributes_iff in G. apply funcs_iff in F. destruct F as (F & g & S & ->). now apply (sy_functions w tgs n text data k s l g).
    - intros K. inversion K as [| | | | | | | |? ? ? ? s l fs ? Z1 Z2 Z3 Z4| | | |]; subst; try (other E7). cbn [s_arg rbind]. apply attributes_iff in Z2. rewrite Z2. cbn [rbind]. rewrite (proj2 (funcs_iff l (i_funcs st) (i_funcs st ++ fs))) by (split; eauto). reflexivity. }
  destruct (str_eqb (lower k) $"extract_commands") eqn:E8.
  { apply word_eq in E8. split.
    - intros K. destruct v as [| | | s | | |]; try discriminate; try (injection K as <-; apply sy_no_commands; [exact E8|discriminate|discriminate]). injection K as <-.
      apply (sy_commands w tgs n text data k s (comma_list s)); [exact E8|now apply commas_iff|now apply nonempty_sub].
    - intros K. inversion K as [| | | | | | | | |? ? ? ? s l cs ? Z1 Z2 Z3|? ? ? ? ? ? Z1 Z2 Z3| |]; subst; try (other E8).
      + apply commas_iff in Z2. apply nonempty_sub in Z3. now rewrite Z2, Z3.
      + destruct v; try reflexivity; exfalso; [eapply Z2; reflexivity|eapply Z3; reflexivity]. }
  assert (NT : Forall (fun x => ~ same_word k x) tag_words).
  { unfold tag_words. repeat (apply Forall_cons; [intros X; apply word_eq in X; congruence|]). constructor. }
  assert (D : forall x, In x tag_words -> same_word k x -> False) by (intros x I S; now apply (not_tag k x)).
  destruct (in_strs k input_names) eqn:E9.
  - apply function_iff in E9. split.
    + intros K. destruct v as [| | | s | | |]; try discriminate. cbn [s_arg rbind] in K. destruct (get_attributes _) as [[|a l]|] eqn:G; try discriminate. cbn [rbind] in K. injection K as <-. apply attributes_iff in G. now apply (sy_function w tgs n text data k s a l).
    + intros K. inversion K as [? ? ? ? ? ? ? Z|? ? ? ? ? ? Z|? ? ? ? ? ? ? ? ? Z|? ? ? ? ? ? ? ? ? ? Z|? ? ? ? ? ? ? ? Z|? ? ? ? ? ? ? Z|? ? ? ? ? ? ? Z|? ? ? ? ? ? ? Z|? ? ? ? ? ? ? ? Z|? ? ? ? ? ? ? ? Z|? ? ? ? ? ? Z|? ? ? ? s a l ? Z1 Z2 Z3|? ? ? ? ? ? Z1 Z2]; subst; try (exfalso; eapply D; [|exact Z]; cbn; tauto); [|contradiction].
      cbn [s_arg rbind]. apply attributes_iff in Z3. change (t_ "(") with $"(" in Z3. change (t_ ")") with $")" in Z3. rewrite Z3. reflexivity.
  - assert (N9 : ~ word_in k function_words) by (intros X; apply function_iff in X; congruence). split.
    + intros K. injection K as <-. now apply sy_other.
    + intros K. inversion K as [? ? ? ? ? ? ? Z|? ? ? ? ? ? Z|? ? ? ? ? ? ? ? ? Z|? ? ? ? ? ? ? ? ? ? Z|? ? ? ? ? ? ? ? Z|? ? ? ? ? ? ? Z|? ? ? ? ? ? ? Z|? ? ? ? ? ? ? Z|? ? ? ? ? ? ? ? Z|? ? ? ? ? ? ? ? Z|? ? ? ? ? ? Z|? ? ? ? s a l ? Z1 Z2 Z3|? ? ? ? ? ? Z1 Z2]; subst; try (exfalso; eapply D; [|exact Z]; cbn; tauto); [contradiction|reflexivity].
Qed.
Lemma reads_iff n : forall text data l st st', read_attrs w tgs (S n) text data l st = Ok st' <-> tag_reads w tgs n text data l st st'.
Proof.
  induction n as [n IHn] using (well_founded_induction lt_wf). intros text data l. 
  assert (S : forall k v st st', step n text data st (KS k, v) = Ok st' <-> says w tgs n text data k v st st').
  { intros. apply step_iff. intros m d l' s s' ->. apply IHn. lia. }
  induction l as [|[k v] l IH]; intros st st'.
  - rewrite read_attrs_eq. cbn [rfold]. split; [intros K; injection K as <-; constructor|]. intros K. inversion K. reflexivity.
  - rewrite read_attrs_eq. cbn [rfold]. destruct k as [k| |].
    + split.
      * intros K. destruct (step n text data st (KS k, v)) as [st1|] eqn:E; [|discriminate]. cbn [rbind] in K. apply S in E. rewrite <- read_attrs_eq in K. apply IH in K. now apply (rd_more w tgs n text data k v l st st1).
      * intros K. inversion K as [|? ? ? ? ? ? ? st1 ? X Y]; subst. apply S in X. rewrite X. cbn [rbind]. rewrite <- read_attrs_eq. now apply IH.
    + split; [discriminate|]. intros K. inversion K.
    + split; [discriminate|]. intros K. inversion K.
Qed.

(** ** the tag *)
Lemma dmem_has (d : dict) k : dmem d k = true <-> In k (map fst d).
Proof. unfold dmem. rewrite <- (dmem_in d k). destruct (dget d k); split; intros H; try congruence. Qed.
Lemma default_iff n v d d' : default_attribute n v d d' <-> Inputs.with_default $n v d = d'.
Proof.
  unfold default_attribute, Inputs.with_default. change (t_ n) with $n. destruct (dmem d (KS $n)) eqn:E.
  - apply dmem_has in E. split; [intros [[_ ->]|[N _]]; [reflexivity|contradiction]|]. intros <-. now left.
  - assert (N : ~ In (KS $n) (map fst d)) by (intros K; apply dmem_has in K; congruence). split; [intros [[I _]|[_ ->]]; [contradiction|reflexivity]|]. intros <-. now right.
Qed.
Lemma tag_has_iff e d : tag_has (e_attrs e) d <-> tag_attrs e = d.
Proof.
  unfold tag_has, tag_attrs. split.
  - intros (d1 & A & B). apply default_iff in A, B. change (t_ "python") with $"python" in B. change (t_ "all") with $"all" in A. now rewrite A, B.
  - intros <-. eexists. split; apply default_iff; reflexivity.
Qed.
Lemma files_iff base urls ext fil ds : url_data w base urls ext fil = Ok ds <-> files_of w base urls ext fil ds.
Proof.
  unfold url_data, files_of. split.
  - intros K. destruct (rmap _ urls) as [ls|] eqn:E; [|discriminate]. cbn [rbind] in K. injection K as <-. exists ls. split; [|reflexivity]. apply rmap_Forall2 in E. eapply Forall2_imp; [|exact E]. intros u l X. now apply loads_iff.
  - intros (ls & F & ->). rewrite (proj2 (rmap_Forall2 (fun u => load_files w (VStr (base ++ u)) ext fil false) urls ls)); [reflexivity|]. eapply Forall2_imp; [|exact F]. intros u l X. now apply loads_iff.
Qed.
Lemma data_iff base text st ds : (if (str_eqb (i_load st) $"text" && negb (is_nil text))%bool then Ok [TextData text] else url_data w base (i_urls st) (i_ext st) (i_filters st)) = Ok ds <-> tag_data w base text st ds.
Proof.
  destruct (str_eqb (i_load st) $"text") eqn:L.
  - apply str_eqb_eq in L. destruct text as [|c t]; cbn [is_nil negb andb].
    + rewrite files_iff. split; [intros K; apply td_files; [now right|exact K]|]. intros K. inversion K; subst; [congruence|assumption].
    + split; [intros K; injection K as <-; now apply td_text|]. intros K. inversion K as [|? N]; subst; [reflexivity|]. destruct N as [N|N]; [now elim N|discriminate].
  - apply str_eqb_neq in L. cbn [andb]. rewrite files_iff. split; [intros K; apply td_files; [now left|exact K]|]. intros K. inversion K; subst; [contradiction|assumption].
Qed.
Theorem tag_iff base e n o : tag_input w tgs base e = Ok (n, o) <-> tag_gives w tgs base e n o.
Proof.
  unfold tag_input. change (attr (e_attrs e) $"name") with (attribute_of (e_attrs e) "name"). change $"Default_Input" with (t_ "Default_Input"). set (nm := match attribute_of (e_attrs e) "name" with Some n => n | None => t_ "Default_Input" end).
  change {| i_name := strip nm; i_load := $"python"; i_ext := []; i_filters := []; i_urls := []; i_groups := []; i_funcs := [] |} with (new_input (strip nm)). split.
  - intros K. destruct (read_attrs w tgs 4 _ _ _ _) as [st|] eqn:R; [|discriminate]. cbn [rbind] in K. match type of K with rbind ?x _ = _ => destruct x as [ds|] eqn:D end; [|discriminate]. cbn [rbind] in K. apply reads_iff in R. apply data_iff in D. injection K as <- <-.
    apply (tg_made w tgs base e (strip nm) (tag_attrs e) st ds); [now apply strip_white|now apply tag_has_iff|exact R|exact D].
  - intros K. inversion K as [m d st ds S H R D]; subst. apply strip_white in S. apply tag_has_iff in H. subst m d. apply reads_iff in R. fold nm in R. rewrite R. cbn [rbind]. apply data_iff in D. rewrite D. reflexivity.
Qed.

(** ** the inputs *)
Lemma aget_none {A} (l : list (str * A)) n : aget l n = None <-> ~ In n (map fst l).
Proof.
  induction l as [|[m a] l IH]; cbn [aget map fst]; [split; [intros _ []|reflexivity]|]. destruct (str_eqb n m) eqn:E.
  - apply str_eqb_eq in E. subst m. split; [discriminate|]. intros N. elim N. now left.
  - apply str_eqb_neq in E. rewrite IH. split; [intros N [K|K]; [congruence|contradiction]|]. intros N K. apply N. now right.
Qed.
Lemma aset_new {A} (l : list (str * A)) n a : ~ In n (map fst l) -> aset l n a = l ++ [(n, a)].
Proof.
  induction l as [|[m b] l IH]; intros N; [reflexivity|]. cbn [aset]. destruct (str_eqb n m) eqn:E; [apply str_eqb_eq in E; subst m; elim N; now left|]. rewrite IH; [reflexivity|]. intros K. apply N. now right.
Qed.
Lemma aget_split {A} (l : list (str * A)) n a : aget l n = Some a <-> exists l1 l2, l = l1 ++ (n, a) :: l2 /\ ~ In n (map fst l1).
Proof.
  split.
  - induction l as [|[m b] l IH]; [discriminate|]. cbn [aget]. destruct (str_eqb n m) eqn:E.
    + apply str_eqb_eq in E. subst m. intros K. injection K as ->. exists [], l. now split.
    + intros K. apply IH in K. destruct K as (l1 & l2 & -> & N). exists ((m, b) :: l1), l2. split; [reflexivity|]. intros [K|K]; [|contradiction]. cbn [fst] in K. subst m. rewrite str_eqb_refl in E. discriminate.
  - intros (l1 & l2 & -> & N). induction l1 as [|[m b] l1 IH]; cbn [app aget]; [now rewrite str_eqb_refl|]. destruct (str_eqb n m) eqn:E; [apply str_eqb_eq in E; subst m; elim N; now left|]. apply IH. intros K. apply N. now right.
Qed.
Lemma aset_split {A} (l1 l2 : list (str * A)) n a b : ~ In n (map fst l1) -> aset (l1 ++ (n, a) :: l2) n b = l1 ++ (n, b) :: l2.
Proof.
  induction l1 as [|[m x] l1 IH]; intros N; cbn [app aset]; [now rewrite str_eqb_refl|]. destruct (str_eqb n m) eqn:E; [apply str_eqb_eq in E; subst m; elim N; now left|]. rewrite IH; [reflexivity|]. intros K. apply N. now right.
Qed.
Lemma load_kept old data l : load_data old data = old ++ l <-> kept old data l.
Proof.
  destruct (load_data_kept data old) as (m & E & K). split; [intros H; rewrite E in H; apply app_inv_head in H; now subst|]. intros K'. rewrite E. f_equal. now apply (kept_fun old data).
Qed.
Lemma split_unique {A} (l1 l2 l1' l2' : list (str * A)) n a a' : l1 ++ (n, a) :: l2 = l1' ++ (n, a') :: l2' -> ~ In n (map fst l1) -> ~ In n (map fst l1') -> l1 = l1' /\ a = a' /\ l2 = l2'.
Proof.
  revert l1'. induction l1 as [|x l1 IH]; intros l1' E N N'; (destruct l1' as [|y l1']; cbn [app] in E).
  - injection E as -> ->. auto.
  - injection E as <- _. elim N'. now left.
  - injection E as -> _. elim N. now left.
  - injection E as <- E. apply IH in E; [|intros K; apply N; now right|intros K; apply N'; now right]. destruct E as (-> & -> & ->). auto.
Qed.
Section O.
Variable order : list nat -> list nat.
Theorem puts_iff base l n o l' : put_input w order base l n o = Ok l' <-> SpecInputs.puts w order base l n o l'.
Proof.
  unfold put_input. destruct (aget l n) as [old|] eqn:G.
  - apply aget_split in G. destruct G as (l1 & l2 & -> & N). cbv zeta.
    assert (M : forall ds, (match in_data (io_input o) with [] => do more <- url_data w base (io_urls old) (io_ext old) (io_filters old); Ok (in_data (io_input old) ++ more) | _ => Ok (load_data (in_data (io_input old)) (in_data (io_input o))) end) = Ok ds <-> more_data w base old (in_data (io_input o)) ds).
    { intros ds. unfold more_data. destruct (in_data (io_input o)) as [|x new].
      - split.
        + intros K. destruct (url_data _ _ _ _ _) as [more|] eqn:U; [|discriminate]. cbn [rbind] in K. apply files_iff in U. right. split; [reflexivity|]. exists more. split; [exact U|congruence].
        + intros [[H _]|(_ & more & U & ->)]; [congruence|]. apply files_iff in U. now rewrite U.
      - destruct (load_data_kept (x :: new) (in_data (io_input old))) as (m & E & KM). split.
        + intros K. left. split; [discriminate|]. exists m. split; [exact KM|congruence].
        + intros [(_ & m' & KM' & ->)|[H _]]; [|discriminate]. rewrite E. do 2 f_equal. now apply (kept_fun _ _ _ _ KM KM'). }
    assert (MM : match in_data (io_input o) with [] => do more <- url_data w base (io_urls old) (io_ext old) (io_filters old); Ok (in_data (io_input old) ++ more) | (_ :: _) as new => Ok (load_data (in_data (io_input old)) new) end =
      match in_data (io_input o) with [] => do more <- url_data w base (io_urls old) (io_ext old) (io_filters old); Ok (in_data (io_input old) ++ more) | _ => Ok (load_data (in_data (io_input old)) (in_data (io_input o))) end) by now destruct (in_data (io_input o)).
    rewrite MM. clear MM. split.
    + intros K. destruct (match in_data (io_input o) with [] => _ | _ => _ end) as [ds|] eqn:D; [|discriminate]. cbn [rbind] in K. pose proof (proj1 (M ds) eq_refl) as Y. rewrite aset_split in K by exact N. injection K as <-. now apply SpecInputs.pu_old.
    + intros K. inversion K as [l0 n0 o0 X|l1' n' old' l2' o' ds X Y]; subst.
      * elim X. rewrite map_app. apply in_or_app. right. now left.
      * apply split_unique in H; [|assumption|assumption]. destruct H as (-> & -> & ->). apply M in Y. rewrite Y. cbn [rbind]. now rewrite aset_split.
  - apply aget_none in G. rewrite aset_new by exact G. split.
    + intros K. injection K as <-. now apply SpecInputs.pu_new.
    + intros K. inversion K as [l0 n0 o0 X|l1' n' old' l2' o' ds X Y]; subst; [reflexivity|]. elim G. rewrite map_app. apply in_or_app. right. now left.
Qed.
Lemma tags_iff base tags : forall l l', rfold (add_tag w order tgs base) tags l = Ok l' <-> tags_give w tgs order base tags l l'.
Proof.
  induction tags as [|e es IH]; intros l l'; cbn [rfold].
  - split; [intros K; injection K as <-; constructor|]. intros K. inversion K. reflexivity.
  - unfold add_tag at 1. split.
    + intros K. destruct (tag_input w tgs base e) as [[n o]|] eqn:T; [|discriminate]. cbn [rbind] in K. destruct (put_input w order base l n o) as [l1|] eqn:P; [|discriminate]. cbn [rbind] in K. apply tag_iff in T. apply puts_iff in P. apply IH in K. now apply (ts_more w tgs order base e es l n o l1).
    + intros K. inversion K as [|? ? ? n o l1 ? T P R]; subst. apply tag_iff in T. apply puts_iff in P. apply IH in R. rewrite T. cbn [rbind]. rewrite P. exact R.
Qed.
Lemma texts_gone all ds : sublist is_data all ds <-> filter (fun d => negb (is_text d)) all = ds.
Proof. apply sublist_filter. intros x _. unfold is_data. destruct x; cbn; split; intros H; try congruence; try discriminate. elim (H s eq_refl) || (elim (H x eq_refl)) || (exfalso; eapply H; reflexivity). Qed.
Lemma group_inputs_iff base ns : forall l l', rfold (add_group_input w tgs base) ns l = Ok l' <-> groups_give w tgs base ns l l'.
Proof.
  induction ns as [|n ns IH]; intros l l'; cbn [rfold].
  - split; [intros K; injection K as <-; constructor|]. intros K. inversion K. reflexivity.
  - unfold add_group_input at 1. destruct (aget l n) as [o|] eqn:G.
    + cbn [rbind]. assert (I : In n (map fst l)). { apply aget_split in G. destruct G as (l1 & l2 & -> & _). rewrite map_app. apply in_or_app. right. now left. }
      rewrite IH. split; [intros K; now apply gg_there|]. intros K. inversion K; subst; [assumption|contradiction].
    + apply aget_none in G. split.
      * intros K. destruct (load_files w _ [] [] false) as [all|] eqn:L; [|discriminate]. cbn [rbind] in K. rewrite aset_new in K by exact G. apply IH in K. apply loads_iff in L.
        destruct (load_data_kept (filter (fun d => negb (is_text d)) all) []) as (m & E & KM). apply (gg_path w tgs base n ns l all (filter (fun d => negb (is_text d)) all) m (extract_groups tgs n [$"all"])); try assumption; [now apply texts_gone|now apply groups_iff|]. cbn [app] in E. now rewrite <- E.
      * intros K. inversion K as [|? ? ? ? X|? ? ? all ds ds' gs ? X L S KM GF R]; subst; [contradiction|]. apply loads_iff in L. rewrite L. cbn [rbind]. rewrite aset_new by exact G. apply IH. apply texts_gone in S. rewrite S. apply groups_iff in GF. change $"all" with (t_ "all"). rewrite GF.
        apply load_kept in KM. cbn [app] in KM. now rewrite KM.
Qed.
Theorem inputs_iff base tags l : template_inputs w order tgs base tags = Ok l <-> inputs_are w tgs order base tags l.
Proof.
  unfold template_inputs, inputs_are. rewrite flat_map_concat_map. split.
  - intros K. destruct (rfold (add_tag w order tgs base) tags []) as [l1|] eqn:T; [|discriminate]. cbn [rbind] in K. exists l1. split; [now apply tags_iff|now apply group_inputs_iff].
  - intros (l1 & T & G). apply tags_iff in T. apply group_inputs_iff in G. rewrite T. exact G.
Qed.
End O.
End W.
