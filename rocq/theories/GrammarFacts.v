(** * GrammarFacts: the values and arguments that are read are those of the grammar (for C120). *)
From Coq Require Import Lia.
From Verif Require Import PyBase DictFacts StrFacts Attributes SpecAttr LexFacts LexFacts2.
Local Open Scope string_scope.
Local Open Scope list_scope.

Scheme denotes_m := Minimality for denotes Sort Prop
with listed_m := Minimality for listed Sort Prop
with paired_m := Minimality for paired Sort Prop.
Combined Scheme grammar_ind from denotes_m, listed_m, paired_m.

(** ** names *)
Lemma in_words n l : existsb (str_eqb n) l = true <-> In n l.
Proof. rewrite existsb_exists. split; [intros (x & H & E); apply str_eqb_eq in E; now subst|intros H; exists n; split; [exact H|apply str_eqb_refl]]. Qed.
Lemma index_nth n l i : index_of n l = Some i -> nth_error l i = Some n.
Proof.
  revert i. induction l as [|x l IH]; intros i; cbn [index_of]; [discriminate|]. destruct (str_eqb n x) eqn:E.
  - intros H. injection H as <-. apply str_eqb_eq in E. now subst.
  - destruct (index_of n l) as [j|]; cbn [option_map]; [|discriminate]. intros H. injection H as <-. cbn [nth_error]. now apply IH.
Qed.
Lemma index_in n l : In n l -> index_of n l <> None.
Proof. induction l as [|x l IH]; cbn [index_of]; [intros []|]. intros [->|H]; [rewrite str_eqb_refl; discriminate|]. destruct (str_eqb n x); [discriminate|]. destruct (index_of n l); [discriminate|]. now apply IH in H. Qed.
Lemma nth_index n l i : NoDup l -> nth_error l i = Some n -> index_of n l = Some i.
Proof.
  intros Hd. revert i. induction Hd as [|x l Hx Hd IH]; intros [|i]; cbn [nth_error]; try discriminate.
  - intros H. injection H as ->. cbn [index_of]. now rewrite str_eqb_refl.
  - intros H. cbn [index_of]. destruct (str_eqb n x) eqn:E; [apply str_eqb_eq in E; subst; exfalso; apply Hx; now apply nth_error_In in H|]. now rewrite (IH i H).
Qed.
Lemma module_names_eq : module_names = map list_ascii_of_string objects. Proof. reflexivity. Qed.
Lemma keywords_eq : keywords = map list_ascii_of_string reserved. Proof. reflexivity. Qed.
Lemma nodup_b (l : list str) : (fix go (l : list str) := match l with [] => true | x :: t => (negb (existsb (str_eqb x) t) && go t)%bool end) l = true -> NoDup l.
Proof. induction l as [|x l IH]; intros H; [constructor|]. apply Bool.andb_true_iff in H. destruct H as [H1 H2]. constructor; [|now apply IH]. intros K. apply in_words in K. rewrite K in H1. discriminate. Qed.
Lemma objects_nodup : NoDup module_names.
Proof. apply nodup_b. vm_compute. reflexivity. Qed.
Lemma lower_special n i : index_of n module_names = Some i -> existsb (str_eqb (lower n)) [$"false"; $"true"; $"none"] = false.
Proof.
  intros H. apply index_nth, nth_error_In in H. assert (K : forallb (fun n => negb (existsb (str_eqb (lower n)) [$"false"; $"true"; $"none"])) module_names = true) by (vm_compute; reflexivity).
  rewrite forallb_forall in K. specialize (K n H). now apply Bool.negb_true_iff in K.
Qed.
(** the words of Python's keyword list in any case are not "false", "true", "none" *)
Lemma lower_keyword n : existsb (str_eqb n) keywords = true -> existsb (str_eqb (lower n)) [$"false"; $"true"; $"none"] = false.
Proof.
  intros H. apply in_words in H. assert (K : forallb (fun n => negb (existsb (str_eqb (lower n)) [$"false"; $"true"; $"none"])) keywords = true) by (vm_compute; reflexivity).
  rewrite forallb_forall in K. specialize (K n H). now apply Bool.negb_true_iff in K.
Qed.
Lemma name_value_iff n v : name_value n = Some v <-> name_means n v.
Proof.
  unfold name_value. split.
  - destruct (index_of n module_names) as [i|] eqn:Ei.
    + intros H. injection H as <-. apply nm_object. rewrite <- module_names_eq. now apply index_nth.
    + destruct (existsb (str_eqb n) keywords) eqn:Ek; [discriminate|]. intros H. match type of H with Some ?x = _ => assert (Ev : v = x) by congruence; clear H; rewrite Ev; clear Ev end.
      destruct (str_eqb (lower n) $"false") eqn:E1; [apply nm_false; now apply str_eqb_eq|].
      destruct (str_eqb (lower n) $"true") eqn:E2; [apply nm_true; now apply str_eqb_eq|].
      destruct (str_eqb (lower n) $"none") eqn:E3; [apply nm_none; now apply str_eqb_eq|].
      apply nm_text.
      * unfold word_in. rewrite <- module_names_eq. intros K. now apply index_in in K.
      * unfold word_in. rewrite <- keywords_eq. intros K. apply in_words in K. congruence.
      * unfold word_in. intros K. apply in_words in K. cbn [map existsb] in K. change (list_ascii_of_string "false") with $"false" in K. change (list_ascii_of_string "true") with $"true" in K. change (list_ascii_of_string "none") with $"none" in K. rewrite E1, E2, E3 in K. discriminate.
  - assert (S : forall w, In w [$"false"; $"true"; $"none"] -> lower n = w -> index_of n module_names = None /\ existsb (str_eqb n) keywords = false).
    { intros w Hw E. assert (K : existsb (str_eqb (lower n)) [$"false"; $"true"; $"none"] = true) by (apply in_words; now rewrite E). split.
      - destruct (index_of n module_names) as [i|] eqn:Ei; [|reflexivity]. apply lower_special in Ei. congruence.
      - destruct (existsb (str_eqb n) keywords) eqn:Ek; [|reflexivity]. apply lower_keyword in Ek. congruence. }
    intros H. destruct H as [i H|H|H|H|H1 H2 H3].
    + rewrite <- module_names_eq in H. now rewrite (nth_index n _ i objects_nodup H).
    + destruct (S $"false" ltac:(now left) H) as [-> ->]. rewrite H. reflexivity.
    + destruct (S $"true" ltac:(right; now left) H) as [-> ->]. rewrite H. reflexivity.
    + destruct (S $"none" ltac:(right; right; now left) H) as [-> ->]. rewrite H. reflexivity.
    + assert (E0 : index_of n module_names = None).
      { destruct (index_of n module_names) as [i|] eqn:Ei; [|reflexivity]. exfalso. apply H1. unfold word_in. rewrite <- module_names_eq. apply index_nth in Ei. now apply nth_error_In in Ei. }
      rewrite E0. assert (E1 : existsb (str_eqb n) keywords = false).
      { destruct (existsb (str_eqb n) keywords) eqn:Ek; [|reflexivity]. exfalso. apply H2. unfold word_in. rewrite <- keywords_eq. now apply in_words. }
      rewrite E1. assert (E2 : forall w, In w [$"false"; $"true"; $"none"] -> str_eqb (lower n) w = false).
      { intros w Hw. destruct (str_eqb (lower n) w) eqn:E; [|reflexivity]. exfalso. apply H3. apply str_eqb_eq in E. rewrite E. exact Hw. }
      rewrite (E2 $"false") by now left. rewrite (E2 $"true") by (right; now left). rewrite (E2 $"none") by (right; right; now left). reflexivity.
Qed.
Lemma key_lit_iff v k : key_lit v = Some k <-> is_key v k.
Proof. split; [destruct v; cbn; intros H; try discriminate; injection H as <-; constructor|now destruct 1]. Qed.

(** ** texts one after the other *)
Definition not_text (ts : list token) : Prop := forall s t, ts <> TStr s :: t.
Lemma strings_iff ts a r : more_strings ts = (a, r) <-> exists ss, ts = map TStr ss ++ r /\ a = concat ss /\ not_text r.
Proof.
  revert a r. induction ts as [|t ts IH]; intros a r.
  - cbn [more_strings]. split.
    + intros H. injection H as <- <-. exists []. repeat split. intros s t K. discriminate.
    + intros (ss & E & -> & _). destruct ss; [|discriminate]. cbn [map app] in E. now subst r.
  - destruct t; cbn [more_strings].
    1,3,4: split; [intros H; injection H as <- <-; exists []; repeat split; intros ? ? K; discriminate|intros (ss & E & -> & _); destruct ss; [cbn [map app] in E; now subst r|discriminate]].
    destruct (more_strings ts) as [a' r'] eqn:E. specialize (IH a' r'). destruct (proj1 IH eq_refl) as (ss' & E1 & E2 & E3). split.
    + intros H. injection H as <- <-. exists (s :: ss'). cbn [map app concat]. rewrite E1 at 1. subst a'. auto.
    + intros (ss & E4 & -> & E5). destruct ss as [|s' ss]; [cbn [map app] in E4; subst r; now contradiction (E5 s ts)|].
      cbn [map app] in E4. injection E4 as -> E4. cbn [concat].
      assert (G : forall ss r ss' r', map TStr ss ++ r = map TStr ss' ++ r' -> not_text r -> not_text r' -> ss = ss' /\ r = r').
      { clear. induction ss as [|s ss IH]; intros r [|s' ss'] r' E H H'; cbn [map app] in E.
        - auto.
        - subst r. now contradiction (H s' (map TStr ss' ++ r')).
        - subst r'. now contradiction (H' s (map TStr ss ++ r)).
        - injection E as -> E. destruct (IH _ _ _ E H H') as [-> ->]. auto. }
      rewrite E4 in E1. destruct (G _ _ _ _ E1 E5 E3) as [-> ->]. now subst a'.
Qed.

(** ** what is read is in the grammar *)
Lemma expr_eq f ts : expr (S f) ts =
    match ts with
    | TName n :: t => match name_value n with Some v => Some (v, t) | None => None end
    | TInt z :: t => Some (VInt z, t)
    | TStr s :: t => let '(a, r) := more_strings t in Some (VStr (s ++ a), r)
    | TOp c :: t =>
        if Ascii.eqb c "-" then match t with TInt z :: r => Some (VInt (- z), r) | _ => None end
        else if Ascii.eqb c "[" then list_items f t []
        else if Ascii.eqb c "{" then dict_items f t []
        else if Ascii.eqb c "(" then
          match expr f t with Some (v, r :: rest) => if is_op ")" r then Some (v, rest) else None | _ => None end
        else None
    | [] => None
    end.
Proof. reflexivity. Qed.
Definition opens (c : ascii) (ts : list token) : option (list token) := match ts with TOp d :: r => if Ascii.eqb d c then Some r else None | _ => None end.
Lemma opens_iff c ts r : opens c ts = Some r <-> ts = TOp c :: r.
Proof.
  unfold opens. destruct ts as [|[| | |d] ts]; split; intros H; try discriminate.
  - destruct (Ascii.eqb_spec d c) as [->|]; [now injection H as ->|discriminate].
  - injection H as -> ->. now rewrite Ascii.eqb_refl.
Qed.
Lemma list_items_eq f ts acc : list_items (S f) ts acc = match opens "]" ts with Some r => Some (VList (rev acc), r) | None => list_item f ts acc end.
Proof. destruct ts as [|[| | |d] ts]; cbn [list_items opens]; try reflexivity. now destruct (Ascii.eqb d "]"). Qed.
Lemma list_item_eq f ts acc : list_item (S f) ts acc = match expr f ts with
    | Some (v, r0) => match opens "," r0 with Some r => list_items f r (v :: acc) | None => match opens "]" r0 with Some r => Some (VList (rev (v :: acc)), r) | None => None end end
    | None => None end.
Proof. cbn [list_item]. destruct (expr f ts) as [[v [|[| | |d] ts']]|]; cbn [opens]; try reflexivity. destruct (Ascii.eqb d ","); [reflexivity|]. now destruct (Ascii.eqb d "]"). Qed.
Lemma dict_items_eq f ts acc : dict_items (S f) ts acc = match opens "}" ts with Some r => Some (VDict acc, r) | None => dict_item f ts acc end.
Proof. destruct ts as [|[| | |d] ts]; cbn [dict_items opens]; try reflexivity. now destruct (Ascii.eqb d "}"). Qed.
Lemma dict_item_eq f ts acc : dict_item (S f) ts acc = match expr f ts with
    | Some (k, r0) => match opens ":" r0, key_lit k with
        | Some r, Some k' => match expr f r with
            | Some (v, r1) => match opens "," r1 with Some r => dict_items f r (dset acc k' v) | None => match opens "}" r1 with Some r => Some (VDict (dset acc k' v), r) | None => None end end
            | None => None end
        | _, _ => None end
    | None => None end.
Proof.
  cbn [dict_item]. destruct (expr f ts) as [[k [|[| | |c] ts']]|]; cbn [opens]; try reflexivity. destruct (Ascii.eqb c ":"); [|now destruct (key_lit k)].
  destruct (key_lit k) as [k'|]; [|reflexivity]. destruct (expr f ts') as [[v [|[| | |d] r']]|]; cbn [opens]; try reflexivity. destruct (Ascii.eqb d ","); [reflexivity|]. now destruct (Ascii.eqb d "}").
Qed.

Lemma grammar_sound : forall f,
  (forall ts v r, expr f ts = Some (v, r) -> exists p, ts = p ++ r /\ denotes p v) /\
  (forall ts acc v r, list_items f ts acc = Some (v, r) -> exists p vs, ts = p ++ TOp "]"%char :: r /\ listed p vs /\ v = VList (rev acc ++ vs)) /\
  (forall ts acc v r, list_item f ts acc = Some (v, r) -> exists p vs, ts = p ++ TOp "]"%char :: r /\ listed p vs /\ v = VList (rev acc ++ vs)) /\
  (forall ts acc v r, dict_items f ts acc = Some (v, r) -> exists p es, ts = p ++ TOp "}"%char :: r /\ paired p es /\ v = VDict (fold_left (fun d e => dset d (fst e) (snd e)) es acc)) /\
  (forall ts acc v r, dict_item f ts acc = Some (v, r) -> exists p es, ts = p ++ TOp "}"%char :: r /\ paired p es /\ v = VDict (fold_left (fun d e => dset d (fst e) (snd e)) es acc)).
Proof.
  induction f as [|f (IH1 & IH2 & IH3 & IH4 & IH5)]; [repeat split; intros; discriminate|]. repeat split.
  - intros ts v r H. rewrite expr_eq in H. destruct ts as [|[n|s|z|c] t]; [discriminate| | | |].
    + destruct (name_value n) as [v'|] eqn:E; [|discriminate]. injection H as <- <-. exists [TName n]. split; [reflexivity|]. apply de_name. now apply name_value_iff.
    + destruct (more_strings t) as [a r'] eqn:E. injection H as <- <-. apply strings_iff in E. destruct E as (ss & -> & -> & _). exists (map TStr (s :: ss)). split; [reflexivity|]. change (s ++ concat ss) with (concat (s :: ss)). now apply de_text.
    + injection H as <- <-. exists [TInt z]. split; [reflexivity|constructor].
    + destruct (Ascii.eqb_spec c "-") as [->|_].
      { destruct t as [|[| |z|] t]; try discriminate. injection H as <- <-. exists [TOp "-"%char; TInt z]. split; [reflexivity|constructor]. }
      destruct (Ascii.eqb_spec c "[") as [->|_].
      { apply IH2 in H. destruct H as (p & vs & -> & Hp & ->). exists (TOp "["%char :: p ++ [TOp "]"%char]). split; [cbn [app]; now rewrite <- app_assoc|]. cbn [rev app]. now apply de_list. }
      destruct (Ascii.eqb_spec c "{") as [->|_].
      { apply IH4 in H. destruct H as (p & es & -> & Hp & ->). exists (TOp "{"%char :: p ++ [TOp "}"%char]). split; [cbn [app]; now rewrite <- app_assoc|]. now apply de_dict. }
      destruct (Ascii.eqb_spec c "(") as [->|_]; [|discriminate].
      destruct (expr f t) as [[v' [|[| | |d] r']]|] eqn:E; try discriminate. cbn [is_op] in H. destruct (Ascii.eqb_spec ")" d) as [<-|]; [|discriminate]. injection H as <- <-.
      apply IH1 in E. destruct E as (p & -> & Hp). exists (TOp "("%char :: p ++ [TOp ")"%char]). split; [cbn [app]; now rewrite <- app_assoc|]. now apply de_paren.
  - intros ts acc v r H. rewrite list_items_eq in H. destruct (opens "]" ts) as [r'|] eqn:E; [|now apply IH3].
    injection H as <- <-. apply opens_iff in E. subst ts. exists [], []. split; [reflexivity|]. split; [constructor|]. now rewrite app_nil_r.
  - intros ts acc v r H. rewrite list_item_eq in H. destruct (expr f ts) as [[v' r0]|] eqn:E; [|discriminate]. apply IH1 in E. destruct E as (p & -> & Hp).
    destruct (opens "," r0) as [r1|] eqn:E1.
    + apply opens_iff in E1. subst r0. apply IH2 in H. destruct H as (p' & vs & -> & Hp' & ->). exists (p ++ TOp ","%char :: p'), (v' :: vs). split; [now rewrite <- app_assoc|]. split; [now constructor|]. cbn [rev]. now rewrite <- app_assoc.
    + destruct (opens "]" r0) as [r1|] eqn:E2; [|discriminate]. injection H as <- <-. apply opens_iff in E2. subst r0. exists p, [v']. split; [reflexivity|]. split; [now constructor|reflexivity].
  - intros ts acc v r H. rewrite dict_items_eq in H. destruct (opens "}" ts) as [r'|] eqn:E; [|now apply IH5].
    injection H as <- <-. apply opens_iff in E. subst ts. exists [], []. split; [reflexivity|]. split; [constructor|reflexivity].
  - intros ts acc v r H. rewrite dict_item_eq in H. destruct (expr f ts) as [[k r0]|] eqn:E; [|discriminate]. apply IH1 in E. destruct E as (p & -> & Hp).
    destruct (opens ":" r0) as [r1|] eqn:E1; [|discriminate]. apply opens_iff in E1. subst r0. destruct (key_lit k) as [k'|] eqn:Ek; [|discriminate]. apply key_lit_iff in Ek.
    destruct (expr f r1) as [[v' r2]|] eqn:E; [|discriminate]. apply IH1 in E. destruct E as (p2 & -> & Hp2).
    destruct (opens "," r2) as [r3|] eqn:E1.
    + apply opens_iff in E1. subst r2. apply IH4 in H. destruct H as (p' & es & -> & Hp' & ->). exists (p ++ TOp ":"%char :: p2 ++ TOp ","%char :: p'), ((k', v') :: es).
      split; [rewrite <- app_assoc; cbn [app]; now rewrite <- app_assoc|]. split; [now apply pa_more with k|reflexivity].
    + destruct (opens "}" r2) as [r3|] eqn:E2; [|discriminate]. injection H as <- <-. apply opens_iff in E2. subst r2. exists (p ++ TOp ":"%char :: p2), [(k', v')].
      split; [now rewrite <- app_assoc|]. split; [now apply pa_one with k|reflexivity].
Qed.

(** ** what is in the grammar is read *)
Lemma op_not_text c r : not_text (TOp c :: r).
Proof. intros s t K. discriminate. Qed.
Lemma denotes_ne ts v : denotes ts v -> ts <> [].
Proof. intros H. destruct H as [| | |ss H| | |]; try discriminate. destruct ss; [congruence|discriminate]. Qed.
Lemma opens_denotes c ts v r : denotes ts v -> c <> "-"%char -> c <> "["%char -> c <> "{"%char -> c <> "("%char -> opens c (ts ++ r) = None.
Proof.
  intros H H1 H2 H3 H4. destruct H as [| | |ss H| | |]; cbn [app opens]; try reflexivity.
  - now rewrite (proj2 (Ascii.eqb_neq _ _)) by congruence.
  - destruct ss; [congruence|reflexivity].
  - now rewrite (proj2 (Ascii.eqb_neq _ _)) by congruence.
  - now rewrite (proj2 (Ascii.eqb_neq _ _)) by congruence.
  - now rewrite (proj2 (Ascii.eqb_neq _ _)) by congruence.
Qed.
Lemma opens_other c d r : c <> d -> opens c (TOp d :: r) = None.
Proof. intros H. cbn [opens]. now rewrite (proj2 (Ascii.eqb_neq d c)) by congruence. Qed.
Lemma opens_same c r : opens c (TOp c :: r) = Some r.
Proof. now apply opens_iff. Qed.
Lemma grammar_complete :
  (forall ts v, denotes ts v -> forall f r, 3 * length ts <= f -> not_text r -> expr f (ts ++ r) = Some (v, r)) /\
  (forall ts vs, listed ts vs -> forall f r acc, 3 * length ts + 2 <= f -> list_items f (ts ++ TOp "]"%char :: r) acc = Some (VList (rev acc ++ vs), r)) /\
  (forall ts es, paired ts es -> forall f r acc, 3 * length ts + 2 <= f -> dict_items f (ts ++ TOp "}"%char :: r) acc = Some (VDict (fold_left (fun d e => dset d (fst e) (snd e)) es acc), r)).
Proof.
  apply grammar_ind.
  - intros n v H f r Hf Hr. cbn [length] in Hf. destruct f as [|f]; [lia|]. rewrite expr_eq. cbn [app]. apply name_value_iff in H. now rewrite H.
  - intros z f r Hf Hr. cbn [length] in Hf. destruct f as [|f]; [lia|]. reflexivity.
  - intros z f r Hf Hr. cbn [length] in Hf. destruct f as [|f]; [lia|]. reflexivity.
  - intros ss H f r Hf Hr. destruct ss as [|s ss]; [congruence|]. cbn [map length] in Hf. destruct f as [|f]; [lia|]. rewrite expr_eq. cbn [map app].
    assert (E : more_strings (map TStr ss ++ r) = (concat ss, r)) by (apply strings_iff; exists ss; auto). rewrite E. reflexivity.
  - intros ts v _ IH f r Hf Hr. cbn [length] in Hf. rewrite app_length in Hf. cbn [length] in Hf. destruct f as [|f]; [lia|]. rewrite expr_eq. cbn [app]. rewrite <- app_assoc. cbn [app].
    change (Ascii.eqb "(" "-") with false. change (Ascii.eqb "(" "[") with false. change (Ascii.eqb "(" "{") with false. change (Ascii.eqb "(" "(") with true. cbn match.
    rewrite IH; [|lia|apply op_not_text]. cbn [is_op]. now rewrite Ascii.eqb_refl.
  - intros ts vs _ IH f r Hf Hr. cbn [length] in Hf. rewrite app_length in Hf. cbn [length] in Hf. destruct f as [|f]; [lia|]. rewrite expr_eq. cbn [app]. rewrite <- app_assoc. cbn [app].
    change (Ascii.eqb "[" "-") with false. change (Ascii.eqb "[" "[") with true. cbn match. rewrite IH by lia. reflexivity.
  - intros ts es _ IH f r Hf Hr. cbn [length] in Hf. rewrite app_length in Hf. cbn [length] in Hf. destruct f as [|f]; [lia|]. rewrite expr_eq. cbn [app]. rewrite <- app_assoc. cbn [app].
    change (Ascii.eqb "{" "-") with false. change (Ascii.eqb "{" "[") with false. change (Ascii.eqb "{" "{") with true. cbn match. rewrite IH by lia. reflexivity.
  - intros f r acc Hf. destruct f as [|f]; [cbn in Hf; lia|]. rewrite list_items_eq. cbn [app]. rewrite opens_same, app_nil_r. reflexivity.
  - intros ts v H IH f r acc Hf. destruct f as [|[|f]]; try lia. rewrite list_items_eq, (opens_denotes "]" ts v _ H) by discriminate. rewrite list_item_eq, IH; [|lia|apply op_not_text].
    rewrite (opens_other "," "]") by discriminate. rewrite opens_same. reflexivity.
  - intros ts v ts' vs H IH _ IH' f r acc Hf. rewrite app_length in Hf. cbn [length] in Hf. destruct f as [|[|f]]; try lia. rewrite <- app_assoc. cbn [app]. rewrite list_items_eq, (opens_denotes "]" ts v _ H) by discriminate.
    rewrite list_item_eq, IH; [|lia|apply op_not_text]. rewrite opens_same, IH' by lia. cbn [rev]. now rewrite <- app_assoc.
  - intros f r acc Hf. destruct f as [|f]; [cbn in Hf; lia|]. rewrite dict_items_eq. cbn [app]. rewrite opens_same. reflexivity.
  - intros tk k k' tv v H IH Hk Hv IHv f r acc Hf. rewrite app_length in Hf. cbn [length] in Hf. destruct f as [|[|f]]; try lia. rewrite <- app_assoc. cbn [app].
    rewrite dict_items_eq, (opens_denotes "}" tk k _ H) by discriminate. rewrite dict_item_eq, IH; [|lia|apply op_not_text]. rewrite opens_same. apply key_lit_iff in Hk. rewrite Hk.
    rewrite IHv; [|lia|apply op_not_text]. rewrite (opens_other "," "}") by discriminate. rewrite opens_same. reflexivity.
  - intros tk k k' tv v ts es H IH Hk Hv IHv _ IH' f r acc Hf. rewrite app_length in Hf. cbn [length] in Hf. rewrite app_length in Hf. cbn [length] in Hf. destruct f as [|[|f]]; try lia. rewrite <- app_assoc. cbn [app]. rewrite <- app_assoc. cbn [app].
    rewrite dict_items_eq, (opens_denotes "}" tk k _ H) by discriminate. rewrite dict_item_eq, IH; [|lia|apply op_not_text]. rewrite opens_same. apply key_lit_iff in Hk. rewrite Hk.
    rewrite IHv; [|lia|apply op_not_text]. rewrite opens_same. rewrite IH' by lia. reflexivity.
Qed.
