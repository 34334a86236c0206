(** * HeadersFacts3: the variables of the columns (for C122). *)
From Coq Require Import Lia.
From Verif Require Import PyBase DictFacts StrFacts Template Attributes FormRegex Results SpecAttr LexFacts2 GrammarFacts GrammarFacts2 ReprFacts MatchVar SpecVariable VariableFacts VariableFacts2 VariableFacts3 SpecHeaders.
Local Open Scope string_scope.
Local Open Scope list_scope.

Lemma made_iff vars g ws d l d' : sub_variables vars g ws d = Ok (l, d') <-> columns_made vars g ws d l d'.
Proof.
  split.
  - revert d l d'. induction ws as [|w ws IH]; intros d l d' H; cbn [sub_variables] in H; [injection H as <- <-; constructor|].
    destruct (new_variable vars g (w ++ $" | strip | exclude(" ++ w ++ $")") [] d) as [v|] eqn:E; [|discriminate]. cbn [rbind] in H. destruct (sub_variables vars g ws (v_defaults (vo_st v))) as [[l0 d0]|] eqn:E2; [|discriminate]. cbn [rbind] in H. injection H as <- <-.
    apply variable_iff in E. apply IH in E2. now apply cm_more.
  - induction 1 as [d|w ws d v l d' Hv H IH]; [reflexivity|]. cbn [sub_variables]. apply variable_iff in Hv. change (column_text w) with (w ++ $" | strip | exclude(" ++ w ++ $")") in Hv. rewrite Hv. cbn [rbind]. rewrite IH. reflexivity.
Qed.

(** ** ordinary headings *)
Definition letters_only (w : str) : Prop := Forall (fun x => a_letter x \/ a_digit x) w.
Lemma letters_lack c w : letters_only w -> ~ a_letter c -> ~ a_digit c -> lacks c w.
Proof. intros H H1 H2 K. unfold letters_only in H. rewrite Forall_forall in H. destruct (H _ K); contradiction. Qed.
Lemma identifier_letters w : SpecAttr.identifier w -> w <> [] /\ letters_only w.
Proof. intros (c & t & -> & Hc & Ht). split; [discriminate|]. constructor; [now left|exact Ht]. Qed.
Ltac no_letter := unfold a_letter, a_digit; cbn; lia.
Lemma word_not_call w : lacks "(" w -> not_a_call w.
Proof. intros H n t o -> _ _ (_ & sp & _ & ->). apply H. apply in_or_app. right. apply in_or_app. right. now left. Qed.
Lemma letters_nospace w : letters_only w -> no_space w.
Proof. apply Forall_impl. intros c. assert (K : forall x, (negb (is_space x) || negb ((N.leb 65 (code x) && N.leb (code x) 90) || (N.leb 97 (code x) && N.leb (code x) 122) || N.eqb (code x) 95 || (N.leb 48 (code x) && N.leb (code x) 57)))%bool = true) by (intros [[] [] [] [] [] [] [] []]; vm_compute; reflexivity).
  specialize (K c). intros H. destruct (is_space c); [|reflexivity]. exfalso. cbn [negb orb] in K. apply Bool.negb_true_iff in K. rewrite !Bool.orb_false_iff, !Bool.andb_false_iff, !N.leb_gt, N.eqb_neq in K. unfold a_letter, a_digit in H. lia. Qed.
Lemma letters_word w : letters_only w -> word_text w.
Proof. apply Forall_impl. intros c. assert (K : forall x, (is_word x || negb ((N.leb 65 (code x) && N.leb (code x) 90) || (N.leb 97 (code x) && N.leb (code x) 122) || N.eqb (code x) 95 || (N.leb 48 (code x) && N.leb (code x) 57)))%bool = true) by (intros [[] [] [] [] [] [] [] []]; vm_compute; reflexivity).
  specialize (K c). intros H. destruct (is_word c); [reflexivity|]. exfalso. cbn [negb orb] in K. apply Bool.negb_true_iff in K. rewrite !Bool.orb_false_iff, !Bool.andb_false_iff, !N.leb_gt, N.eqb_neq in K. unfold a_letter, a_digit in H. lia. Qed.
Lemma identifier_no_digit w : SpecAttr.identifier w -> ~ starts_with_digit w.
Proof. intros (c & t & -> & Hc & _). cbn. unfold is_dec, between. rewrite Bool.andb_true_iff, !N.leb_le. unfold a_letter in Hc. cbn. lia. Qed.
Lemma word_item w : SpecAttr.identifier w -> item_means w {| at_name := w; at_args := []; at_kwargs := [] |}.
Proof. intros H. apply identifier_letters in H as [Hn Hl]. apply im_word; [apply word_not_call, letters_lack; [exact Hl|no_letter..]|exact Hn|now apply letters_nospace]. Qed.
Lemma exclude_item w : SpecAttr.identifier w -> name_means w (VStr w) -> item_means ($"exclude(" ++ w ++ $")") {| at_name := $"exclude"; at_args := [VStr w]; at_kwargs := [] |}.
Proof.
  intros Hi Hm. pose proof (identifier_letters w Hi) as [Hn Hl]. apply (im_call _ $"exclude" w); [|exact Hn|].
  - split; [discriminate|]. split; [repeat (apply Forall_cons; [reflexivity|]); constructor|]. split.
    + exists ("("%char :: w ++ [")"%char]). split; [reflexivity|]. split; [apply (letters_lack nl); [exact Hl|no_letter..]|]. exists []. split; [now left|reflexivity].
    + intros n' t' o' E Hne (_ & sp & Hsp & Et). subst t'. destruct (Nat.le_gt_cases (length $"exclude") (length n')) as [|Hlt]; [assumption|exfalso].
      assert (En : nth_error ($"exclude(" ++ w ++ $")") (length n' + length sp) = Some "("%char) by (rewrite E, app_assoc, nth_error_app2; rewrite app_length; [now rewrite Nat.sub_diag|lia]).
      change (length $"exclude") with 7 in Hlt. assert (Lsp : length sp <= 1) by (destruct Hsp as [->|(c & -> & _)]; cbn; lia).
      destruct Hsp as [->|(c & -> & Hc)].
      * cbn [length] in En. rewrite Nat.add_0_r in En. do 7 (destruct n' as [|? n']; [cbn in En; try discriminate; cbn in Hlt; try lia|cbn [length] in *]). lia.
      * assert (Ec : nth_error ($"exclude(" ++ w ++ $")") (length n') = Some c) by (rewrite E, nth_error_app2, Nat.sub_diag by lia; reflexivity).
        do 7 (destruct n' as [|? n']; [cbn in Ec; try (injection Ec as <-; discriminate); cbn in Hlt; try lia|cbn [length] in *]). lia.
  - exists [TName w], []. destruct Hi as (c & t & -> & Hc & Ht). split; [rewrite <- (app_nil_r (c :: t)) at 1; apply word_spells; [exact Hc|exact Ht|apply safe_nil|constructor]|]. split; [apply su_one, de_name, Hm|]. split; [split; constructor|reflexivity].
Qed.
Lemma column_attributes w : SpecAttr.identifier w -> name_means w (VStr w) ->
  get_attributes (column_text w) = Ok [{| at_name := w; at_args := []; at_kwargs := [] |}; {| at_name := $"strip"; at_args := []; at_kwargs := [] |}; {| at_name := $"exclude"; at_args := [VStr w]; at_kwargs := [] |}].
Proof.
  intros Hi Hm. pose proof (identifier_letters w Hi) as [Hn Hl]. apply attributes_iff. unfold items_of, column_text. change (t_ " | strip | exclude(") with ($" | strip | exclude("). change (t_ ")") with $")".
  assert (Hb : lacks "|" w) by (apply letters_lack; [exact Hl|no_letter..]).
  assert (E : w ++ $" | strip | exclude(" ++ w ++ $")" = join ["|"%char] [w ++ $" "; $" strip "; $" exclude(" ++ w ++ $")"]).
  { cbn [join]. rewrite <- !app_assoc. reflexivity. }
  rewrite E, split_join; [|discriminate|].
  2:{ repeat (apply Forall_cons; [|]); try constructor; try (apply lacks_app; [|intros [K|[]]; discriminate]); try exact Hb.
      - intros K. repeat (destruct K as [K|K]; [discriminate|]). exact K.
      - apply lacks_app; [intros K; repeat (destruct K as [K|K]; [discriminate|]); exact K|]. apply lacks_app; [exact Hb|intros [K|[]]; discriminate]. }
  cbn [map]. pose proof (letters_nospace w Hl) as Hs. 
  assert (E1 : strip (w ++ $" ") = w).
  { rewrite <- (app_nil_l (w ++ $" ")). apply strip_padded; [constructor|repeat (apply Forall_cons; [reflexivity|]); constructor| | |exact Hn].
    - intros c t ->. now inversion Hs.
    - intros u x Eu. rewrite Eu in Hs. apply Forall_app in Hs as [_ Hx]. now inversion Hx. }
  assert (E2 : strip $" strip " = $"strip") by reflexivity.
  assert (E3 : strip ($" exclude(" ++ w ++ $")") = $"exclude(" ++ w ++ $")").
  { change ($" exclude(" ++ w ++ $")") with ([space] ++ ($"exclude(" ++ w ++ $")")). rewrite <- (app_nil_r ($"exclude(" ++ w ++ $")")) at 1. apply strip_padded; [repeat constructor|constructor| | |discriminate].
    - intros c t Ec. change ($"exclude(" ++ w ++ $")") with ("e"%char :: $"xclude(" ++ w ++ $")") in Ec. assert (c = "e"%char) as -> by congruence. reflexivity.
    - intros u x Eu. rewrite app_assoc in Eu. change $")" with [")"%char] in Eu. apply app_inj_tail in Eu as [_ <-]. reflexivity. }
  rewrite E1, E2, E3. cbn [filter].
  assert (F1 : str_eqb w [] = false) by (apply Bool.not_true_is_false; intros K; apply str_eqb_eq in K; contradiction). rewrite F1. cbn [negb].
  constructor; [now apply word_item|]. constructor; [|constructor; [now apply exclude_item|constructor]].
  apply word_item. exists "s"%char, $"trip". split; [reflexivity|]. split; [unfold a_letter; cbn; lia|]. repeat (apply Forall_cons; [left; unfold a_letter; cbn; lia|]). constructor.
Qed.
(** the variable of an ordinary column: its value is stripped, and the heading itself is no value *)
Definition column_variable (vars : dict) (g : option str) (w : str) (d : dict) : varobj :=
  let x := match dget vars (KS w) with Some y => y | None => VStr w end in
  {| vo_text := column_text w; vo_name := w; vo_orig := w; vo_dict := {| at_name := w; at_args := []; at_kwargs := [] |};
     vo_attrs := [{| at_name := $"strip"; at_args := []; at_kwargs := [] |}; {| at_name := $"exclude"; at_args := [VStr w]; at_kwargs := [] |}];
     vo_st := {| v_funcs := [{| at_name := $"strip"; at_args := []; at_kwargs := [] |}; {| at_name := $"exclude"; at_args := [x]; at_kwargs := [] |}];
                 v_action := AAdd; v_isline := false; v_skipvar := false; v_skipre := false; v_res := []; v_defaults := group_default g w d |} |}.
Theorem column_plain vars g w d : SpecAttr.identifier w -> name_means w (VStr w) -> ~ among w own_meaning ->
  new_variable vars g (column_text w) [] d = Ok (column_variable vars g w d).
Proof.
  intros Hi Hm Ho. pose proof (identifier_letters w Hi) as [Hn Hl]. assert (Es : sanitize w = w) by (apply name_iff, name_kept; [now apply letters_word|now apply identifier_no_digit]).
  pose proof (column_attributes w Hi Hm) as Ha. apply variable_iff.
  set (a0 := {| at_name := w; at_args := []; at_kwargs := [] |}) in *. set (a1 := {| at_name := $"strip"; at_args := []; at_kwargs := [] |}) in *. set (a2 := {| at_name := $"exclude"; at_args := [VStr w]; at_kwargs := [] |}) in *.
  exists a0, [a1; a2], [(t_ "strip", a1); (t_ "exclude", a2)], [a1; {| at_name := $"exclude"; at_args := [match dget vars (KS w) with Some y => y | None => VStr w end]; at_kwargs := [] |}], [], None.
  split; [exact Ha|]. assert (Eo : own_call a0 = []). { unfold own_call. cbn [at_name a0]. rewrite Es. destruct (in_strs w (map t_ own_meaning)) eqn:E; [|reflexivity]. apply SessionFacts.in_strs_In in E. contradiction. }
  assert (N1 : t_ "strip" <> t_ "chain") by discriminate. assert (N2 : t_ "exclude" <> t_ "chain") by discriminate.
  split; [|split].
  - rewrite Eo. cbn [app map]. apply ex_function; [exact N1|]. apply ex_function; [exact N2|constructor].
  - apply (da_more vars _ _ (t_ "strip", a1) [(t_ "exclude", a2)] [a1] [] None [{| at_name := $"exclude"; at_args := [match dget vars (KS w) with Some y => y | None => VStr w end]; at_kwargs := [] |}] [] None).
    + apply do_function.
      * intros K. apply SessionFacts.in_strs_In in K. vm_compute in K. discriminate.
      * apply np_no; intros K; apply SessionFacts.in_strs_In in K; vm_compute in K; discriminate.
    + apply (da_more vars _ _ (t_ "exclude", a2) [] [{| at_name := $"exclude"; at_args := [match dget vars (KS w) with Some y => y | None => VStr w end]; at_kwargs := [] |}] [] None [] [] None); [|constructor].
      apply (do_named vars _ _ (t_ "exclude") a2 [match dget vars (KS w) with Some y => y | None => VStr w end]); [apply SessionFacts.in_strs_In; vm_compute; reflexivity|]. cbn [at_args a2]. constructor; [|constructor].
      exists (dget vars (KS w)). split; [now apply nv_key|reflexivity].
  - unfold column_variable. cbn [at_name a0]. rewrite Es. f_equal.
Qed.
