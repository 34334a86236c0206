(** * NamedTree: a template element with group elements of plain text. *)
From Coq Require Import Lia.
From Verif Require Import PyBase DictFacts StrFacts Template Xml XmlFacts Files Load LoadFacts.
Local Open Scope string_scope.
Local Open Scope list_scope.

Notation attributes_text := (flat_map (attr_text text_char)).
Notation attr_ok a := (NoDup (map fst a) /\ Forall (fun kv : str * str => name_ok (fst kv) /\ chars_ok (snd kv)) a).
Definition group_rest (a : list (str * str)) (t : str) : str := $"group" ++ attributes_text a ++ $">" ++ t ++ $"</group>".
Lemma named_element a s r g : attr_ok a -> plain_text s -> 2 * length (s ++ $"</group>" ++ r) + 10 <= g ->
  element g (group_rest a s ++ r) = Some ($"group", a, s, [], r).
Proof.
  intros [Ha1 Ha2] Hs Hg. destruct g as [|g]; [lia|]. cbn [element]. unfold group_rest. rewrite <- !app_assoc.
  assert (En : xml_name ($"group" ++ attributes_text a ++ $">" ++ s ++ $"</group>" ++ r) = Some ($"group", attributes_text a ++ $">" ++ s ++ $"</group>" ++ r)).
  { apply name_read; [split; [reflexivity|repeat constructor]|]. destruct a as [|kv a]; reflexivity. }
  rewrite En.
  assert (Ea : attrs_of (S (length (attributes_text a ++ $">" ++ s ++ $"</group>" ++ r))) (attributes_text a ++ $">" ++ s ++ $"</group>" ++ r) [] = Some (a, false, s ++ $"</group>" ++ r)).
  { change ($">" ++ s ++ $"</group>" ++ r) with (tag_end false ++ s ++ $"</group>" ++ r). apply (attrs_read a [] false); [exact Ha2|exact Ha1|]. lia. }
  rewrite Ea. change $"</group>" with ($"</" ++ $"group>"). rewrite <- app_assoc. change ($"</group>") with ($"</" ++ $"group>") in Hg. rewrite <- app_assoc in Hg.
  rewrite content_plain; [|exact Hs|lia]. rewrite app_assoc. change ($"</" ++ $"group>") with (($"</" ++ $"group") ++ $">"). rewrite <- (app_assoc _ $">" r), after_app.
  change ($">" ++ r) with (">"%char :: r). rewrite skip_space_stop by reflexivity. reflexivity.
Qed.
Definition group_src (at_ : list (str * str) * str) : str := "<"%char :: group_rest (fst at_) (snd at_).
Definition group_elem (at_ : list (str * str) * str) : elem := Elem $"group" (fst at_) (snd at_) [] [].
Lemma content_step a s u r G x cs : attr_ok a -> plain_text s -> 2 * length (group_rest a s ++ u) + 11 <= S G -> content G u = Some ([], cs, r) -> x = Elem $"group" a s [] [] ->
  content (S G) (group_src (a, s) ++ u) = Some ([], x :: cs, r).
Proof.
  intros Ha Hs HG Hu ->. unfold group_src. cbn [fst snd app].
  assert (Hel : element G (group_rest a s ++ u) = Some ($"group", a, s, [], u)).
  { apply named_element; [exact Ha|exact Hs|]. unfold group_rest in HG. rewrite !app_length in *. change (length $"group") with 5 in HG. lia. }
  set (s3 := group_rest a s ++ u) in *. assert (H3 : exists v, s3 = "g"%char :: v) by (eexists; reflexivity). clearbody s3. destruct H3 as (v & ->). clear HG.
  cbn [content]. change (Ascii.eqb "<" "<") with true. cbn match.
  change (after $"</" ("<"%char :: "g"%char :: v)) with (@None str). change (after $"<!--" ("<"%char :: "g"%char :: v)) with (@None str). change (after $"<![CDATA[" ("<"%char :: "g"%char :: v)) with (@None str). cbn match.
  rewrite Hel, Hu. reflexivity.
Qed.
Lemma content_groups gs : Forall (fun g => attr_ok (fst g) /\ plain_text (snd g)) gs -> forall G, 2 * length (flat_map group_src gs ++ $"</template>") + 11 <= G ->
  content G (flat_map group_src gs ++ $"</template>") = Some ([], map group_elem gs, $"</template>").
Proof.
  induction 1 as [|[a s] gs [Ha Hs] _ IH]; intros G HG.
  - cbn [flat_map app map]. change $"</template>" with ($"</" ++ $"template>"). apply end_content. cbn [flat_map app] in HG. change (length $"</template>") with 11 in HG. change (length ($"</" ++ $"template>")) with 11. lia.
  - destruct G as [|G]; [lia|]. cbn [flat_map map]. rewrite <- app_assoc. cbn [flat_map] in HG. rewrite <- app_assoc in HG. unfold group_src at 1 in HG. cbn [fst snd app length] in HG. apply content_step; [exact Ha|exact Hs|lia| |reflexivity].
    apply IH. rewrite app_length in HG. lia.
Qed.
(** a text with carriage returns only where XML would turn them into line feeds *)
Definition template_src (gs : list (list (str * str) * str)) : str := $"<template>" ++ flat_map group_src gs ++ $"</template>".
Definition groups_tree (gs : list (list (str * str) * str)) : elem := Elem $"template" [] [] (map group_elem gs) [].
Lemma parse_groups gs : Forall (fun g => attr_ok (fst g) /\ plain_text (snd g)) gs -> lacks cr (flat_map group_src gs) -> xml_parse (template_src gs) = Some (groups_tree gs).
Proof.
  intros H Hcr. unfold template_src. change $"<template>" with ("<"%char :: $"template" ++ [">"%char]). 
  change (("<"%char :: $"template" ++ [">"%char]) ++ flat_map group_src gs ++ $"</template>") with ("<"%char :: $"template" ++ ">"%char :: flat_map group_src gs ++ $"</template>").
  rewrite (xml_parse_tag $"template" _ template_name_ok).
  rewrite newlines_id. 2:{ intros K. apply in_app_or in K as [K|K]; [now apply Hcr|]. cbn in K. repeat (destruct K as [K|K]; [discriminate K|]). destruct K. }
  rewrite content_groups; [reflexivity|exact H|]. change (length $"template") with 8. lia.
Qed.
Theorem tree_groups w gs : gs <> [] -> Forall (fun g => attr_ok (fst g) /\ plain_text (snd g)) gs -> lacks cr (flat_map group_src gs) -> template_tree w (template_src gs) = Ok (groups_tree gs).
Proof.
  intros Hne H Hcr. assert (Ec : construct_etree (template_src gs) = Ok (groups_tree gs)).
  { unfold construct_etree, construct. rewrite (parse_groups gs H Hcr). change (str_eqb (lower (e_tag (groups_tree gs))) $"template") with true. cbn [rbind]. cbn [groups_tree e_children]. destruct gs; [congruence|reflexivity]. }
  rewrite (template_tree_same w _ _ Ec).
  - f_equal. apply lf_tree_id. unfold groups_tree. cbn [no_cr]. rewrite no_cr_all. split; [intros []|]. split; [intros []|]. apply Forall_forall. intros c Hc. apply in_map_iff in Hc as ([a s] & <- & Hi). cbn [group_elem no_cr fst snd]. split; [|split; [intros []|exact I]].
    intros K. apply Hcr. apply in_flat_map. exists (a, s). split; [exact Hi|]. unfold group_src, group_rest. cbn [fst snd]. right. apply in_or_app. right. apply in_or_app. right. apply in_or_app. right. apply in_or_app. now left.
  - intros c Hc. inversion Hc as [|? d ? ? ? ? ? Hd Hw]; subst; [discriminate|]. apply in_map_iff in Hd as ([a s] & <- & _). inversion Hw as [|? d ? ? ? ? ? Hd Hw2]; subst; [discriminate|destruct Hd].
  - intros c Hc K. apply in_map_iff in Hc as ([a s] & <- & _). discriminate K.
Qed.
