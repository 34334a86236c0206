(** * Properties of template loading: C112, C113 *)
From Verif Require Import PyBase DictFacts StrFacts Regex Results Template Attributes FormRegex MatchVar Parser Compile Loaders Xml Session Files Inputs Load XmlFacts LoadFacts.
Local Open Scope string_scope.
Local Open Scope list_scope.

(** ** C112: the tree that the groups are made of is the tree of the template's text *)
(** ttp reads the text, writes the tree as text (handle_extend) and reads it again (load_template_xml) *)
Theorem C112_tree_survives : forall w t e,
  construct_etree t = Ok e -> (forall c, within c e -> e_tag c <> $"extend") -> macros_run w e -> template_tree w t = Ok (lf_tree e).
Proof. exact template_tree_same. Qed.
Print Assumptions C112_tree_survives.
Theorem C112_unchanged : forall w t e,
  lacks "&" t -> construct_etree t = Ok e -> (forall c, within c e -> e_tag c <> $"extend") -> macros_run w e -> template_tree w t = Ok e.
Proof. exact template_tree_id. Qed.
Print Assumptions C112_unchanged.
(** any tree that is written and read is the same tree, line ends apart *)
Theorem C112_write_read : forall n a x cs, tree_ok (Elem n a x cs []) -> xml_parse (xml_text (Elem n a x cs [])) = Some (lf_tree (Elem n a x cs [])).
Proof. exact xml_round_trip. Qed.
Print Assumptions C112_write_read.
(** what is read can be written *)
Theorem C112_read_is_writable : forall s e, xml_parse s = Some e -> tree_ok e /\ e_tail e = [].
Proof. exact xml_parse_ok. Qed.
Print Assumptions C112_read_is_writable.
Definition x112 : str := $"<template><group name=""i &lt; &quot;1&quot;""><!-- a -->a &lt; b<![CDATA[<&]]></group> x &amp; y</template>".
Example C112_ex : exists e, construct_etree x112 = Ok e /\ lf_tree e = e /\ template_tree no_files x112 = Ok e /\
  e = Elem $"template" [] [] [Elem $"group" [($"name", $"i < ""1""")] $"a < b<&" [] $" x & y"] [].
Proof. vm_compute. eexists. repeat split. Qed.
(** a carriage return written as a reference is a line feed to the groups *)
Example C112_limits : construct_etree $"<template><group>a&#13;b</group></template>" = Ok (Elem $"template" [] [] [Elem $"group" [] ($"a" ++ [chr 13] ++ $"b") [] []] []) /\
  template_tree no_files $"<template><group>a&#13;b</group></template>" = Ok (Elem $"template" [] [] [Elem $"group" [] ($"a" ++ [nl] ++ $"b") [] []] []).
Proof. vm_compute. repeat split. Qed.

(** ** C113: template and group tags can be left out *)
(** a text without tags is the text of one group, between line breaks *)
Theorem C113_plain_text : forall w t, lacks "<" t -> lacks "&" t -> chars_ok t -> containsb $"]]>" t = false ->
  template_tree w t = Ok (Elem $"template" [] [] [Elem $"group" [($"name", $"_anonymous_")] (newlines ([nl] ++ t ++ [nl])) [] []] []).
Proof. intros w t H1 H2 H3 H4. exact (template_tree_plain w t (conj H1 (conj H2 (conj H3 H4)))). Qed.
Print Assumptions C113_plain_text.
Example C113_plain_ex : template_tree no_files ($"interface {{ name }}" ++ [chr 13; nl] ++ $" mtu {{ mtu }}") =
  Ok (Elem $"template" [] [] [Elem $"group" [($"name", $"_anonymous_")] ([nl] ++ $"interface {{ name }}" ++ [nl] ++ $" mtu {{ mtu }}" ++ [nl]) [] []] []).
Proof. vm_compute. reflexivity. Qed.
(** a text that is a template element with tags inside is that element *)
Theorem C113_template_element : forall t e, xml_parse t = Some e -> lower (e_tag e) = $"template" -> e_children e <> [] -> construct_etree t = Ok e.
Proof. intros t e H Ht Hc. unfold construct_etree, construct. rewrite H, Ht, str_eqb_refl. cbn [rbind]. destruct (e_children e); [now elim Hc|reflexivity]. Qed.
Print Assumptions C113_template_element.
(** any other text with tags means the same as the text between template tags *)
Theorem C113_no_template_element : forall t e, (forall e', xml_parse t = Some e' -> lower (e_tag e') <> $"template") ->
  xml_parse ($"<template>" ++ [nl] ++ t ++ [nl] ++ $"</template>") = Some e -> e_children e <> [] ->
  construct_etree t = Ok e /\ construct_etree ($"<template>" ++ [nl] ++ t ++ [nl] ++ $"</template>") = Ok e.
Proof.
  intros t e Hn H Hc. assert (Hr : lower (e_tag e) = $"template") by (assert (K : parse_xml (wrapped t) = Ok e) by (apply parse_xml_ok; exact H); rewrite wrapped_eq in K; apply wrapped_root in K; apply K).
  split; [|now apply C113_template_element]. unfold construct_etree, construct.
  assert (Hp : parse_xml (wrapped t) = Ok e) by (apply parse_xml_ok; exact H).
  destruct (xml_parse t) as [e'|] eqn:E.
  - assert (Hx : str_eqb (lower (e_tag e')) $"template" = false) by (apply str_eqb_neq, Hn; reflexivity). rewrite Hx, Hp. cbn [rbind]. destruct (e_children e); [now elim Hc|reflexivity].
  - rewrite Hp. cbn [rbind]. destruct (e_children e); [now elim Hc|reflexivity].
Qed.
Print Assumptions C113_no_template_element.
(** a text that cannot be read either way is refused *)
Theorem C113_malformed : forall w t, (forall e', xml_parse t = Some e' -> lower (e_tag e') <> $"template") ->
  xml_parse ($"<template>" ++ [nl] ++ t ++ [nl] ++ $"</template>") = None -> template_tree w t = Raise ParseError.
Proof.
  intros w t Hn H. unfold template_tree, construct_etree, construct.
  assert (Hp : parse_xml (wrapped t) = Raise ParseError) by (unfold parse_xml, wrapped; now rewrite H).
  destruct (xml_parse t) as [e'|] eqn:E.
  - assert (Hx : str_eqb (lower (e_tag e')) $"template" = false) by (apply str_eqb_neq, Hn; reflexivity). now rewrite Hx, Hp.
  - now rewrite Hp.
Qed.
Print Assumptions C113_malformed.
Example C113_ex : (forall e', xml_parse $"<group>a {{ b }}</group>" = Some e' -> lower (e_tag e') <> $"template") /\
  construct_etree $"<group>a {{ b }}</group>" = Ok (Elem $"template" [] [nl] [Elem $"group" [] $"a {{ b }}" [] [nl]] []) /\
  template_tree no_files $"a {{ b }} < c" = Raise ParseError /\ template_tree no_files $"<group>a {{ b }}" = Raise ParseError.
Proof.
  split; [|vm_compute; repeat split]. intros e' H.
  assert (E : option_map e_tag (xml_parse $"<group>a {{ b }}</group>") = Some $"group") by (vm_compute; reflexivity).
  rewrite H in E. cbn in E. injection E as E. rewrite E. vm_compute. discriminate.
Qed.
