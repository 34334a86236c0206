(** * LoadFacts: the tree a template is made of. *)
From Coq Require Import Lia.
From Verif Require Import PyBase Regex Results Template Attributes FormRegex MatchVar MatchFuncs GroupFuncs Parser Compile FuncTable Loaders Xml Session Files Inputs Load
  DictFacts StrFacts EscapeFacts XmlFacts.
Local Open Scope string_scope.
Local Open Scope list_scope.

Lemma lacks_b c s : existsb (Ascii.eqb c) s = false -> lacks c s.
Proof. intros H K. apply not_true_iff_false in H. apply H, existsb_exists. exists c. split; [exact K|apply Ascii.eqb_refl]. Qed.
Lemma misc_lt f c u : Ascii.eqb "!" c = false -> misc (S f) ("<"%char :: c :: u) = Some ("<"%char :: c :: u).
Proof.
  intros H. cbn [misc]. rewrite skip_space_stop by reflexivity.
  change (after $"<!--" ("<"%char :: c :: u)) with (if Ascii.eqb "!" c then after $"--" u else None). now rewrite H.
Qed.
Definition finish (n : str) (o : option (str * list elem * str)) : option elem :=
  match o with
  | Some (x, cs, r2) =>
      match after ($"</" ++ n) r2 with
      | Some r3 => match after $">" (skip_space r3) with
                   | Some r4 => match misc (S (length r4)) r4 with Some [] => Some (Elem n [] x cs []) | _ => None end
                   | None => None end
      | None => None end
  | None => None
  end.
Lemma xml_parse_tag n s : name_ok n ->
  xml_parse ("<"%char :: n ++ ">"%char :: s) = finish n (content (5 + 2 * length n + 2 * length (newlines s)) (newlines s)).
Proof.
  intros Hn. unfold xml_parse. change ("<"%char :: n ++ ">"%char :: s) with (["<"%char] ++ n ++ [">"%char] ++ s).
  rewrite newlines_plain by (intros [K|[]]; discriminate K). rewrite newlines_plain by now apply name_no_cr. rewrite newlines_plain by (intros [K|[]]; discriminate K).
  set (s' := newlines s). cbn [app]. destruct n as [|c n]; [now destruct Hn|]. cbn [app]. rewrite misc_lt by (apply name_start_no_bang, Hn).
  change (Ascii.eqb "<" "<") with true. cbn match.
  assert (El : 2 + 2 * length ("<"%char :: c :: n ++ ">"%char :: s') = S (5 + 2 * length (c :: n) + 2 * length s')) by (cbn [length]; rewrite app_length; cbn [length]; lia).
  rewrite El. set (f := 5 + 2 * length (c :: n) + 2 * length s'). cbn [element]. change (c :: n ++ ">"%char :: s') with ((c :: n) ++ ">"%char :: s'). rewrite (name_read (c :: n) (">"%char :: s') Hn eq_refl).
  assert (Ha : attrs_of (S (length (">"%char :: s'))) (">"%char :: s') [] = Some ([], false, s')) by (cbn [attrs_of]; rewrite skip_space_stop by reflexivity; reflexivity).
  rewrite Ha. unfold finish. destruct (content f s') as [[[x cs] r2]|]; [|reflexivity]. destruct (after _ r2) as [r3|]; [|reflexivity]. destruct (after $">" (skip_space r3)) as [r4|]; reflexivity.
Qed.
Lemma finish_tag n o e : finish n o = Some e -> exists x cs r, o = Some (x, cs, r) /\ e = Elem n [] x cs [].
Proof.
  unfold finish. destruct o as [[[x cs] r2]|]; [|discriminate]. destruct (after _ r2) as [r3|]; [|discriminate]. destruct (after $">" (skip_space r3)) as [r4|]; [|discriminate].
  destruct (misc _ r4) as [[|]|]; [|discriminate..]. intros K. injection K as <-. eauto.
Qed.
Lemma parse_xml_ok t e : parse_xml t = Ok e <-> xml_parse t = Some e.
Proof. unfold parse_xml. destruct (xml_parse t); split; congruence. Qed.
Lemma template_name_ok : name_ok $"template".
Proof. split; [reflexivity|repeat constructor]. Qed.
Lemma template_tag s : $"<template>" ++ s = "<"%char :: $"template" ++ ">"%char :: s.
Proof. change $"<template>" with ("<"%char :: $"template" ++ [">"%char]). cbn [app]. now rewrite <- app_assoc. Qed.
Definition anon_open : str := $"<group name=""_anonymous_"">".
Lemma wrapped_group_eq t : wrapped_group t = "<"%char :: $"template" ++ ">"%char :: anon_open ++ [nl] ++ t ++ [nl] ++ $"</group></template>".
Proof.
  unfold wrapped_group. rewrite <- template_tag. change $"<template><group name=""_anonymous_"">" with ($"<template>" ++ anon_open). now rewrite <- app_assoc.
Qed.
Lemma anon_children g s x cs r : content (S g) (anon_open ++ s) = Some (x, cs, r) -> cs <> [].
Proof.
  intros Ec. change anon_open with ("<"%char :: "g"%char :: $"roup name=""_anonymous_"">") in Ec. cbn [app] in Ec. set (s3 := $"roup name=""_anonymous_"">" ++ s) in Ec. clearbody s3. cbn [content] in Ec. change (Ascii.eqb "<" "<") with true in Ec. cbn match in Ec.
  change (after $"</" ("<"%char :: "g"%char :: s3)) with (@None str) in Ec. change (after $"<!--" ("<"%char :: "g"%char :: s3)) with (@None str) in Ec. change (after $"<![CDATA[" ("<"%char :: "g"%char :: s3)) with (@None str) in Ec. cbn match in Ec.
  destruct (element _ _) as [[[[[? ?] ?] ?] ?]|]; [|discriminate]. destruct (content _ _) as [[[? ?] ?]|]; [|discriminate]. injection Ec as <- <- <-. discriminate.
Qed.
Lemma wrapped_group_children t e : parse_xml (wrapped_group t) = Ok e -> e_children e <> [].
Proof.
  intros H. apply parse_xml_ok in H. rewrite wrapped_group_eq in H.
  rewrite xml_parse_tag in H by exact template_name_ok. apply finish_tag in H as (x & cs & r & Ec & ->). cbn [e_children].
  rewrite newlines_plain in Ec by (apply lacks_b; reflexivity). exact (anon_children _ _ _ _ _ Ec).
Qed.
Lemma wrapped_root s e : parse_xml ("<"%char :: $"template" ++ ">"%char :: s) = Ok e -> lower (e_tag e) = $"template" /\ tree_ok e /\ e_tail e = [].
Proof.
  intros K. apply parse_xml_ok in K. pose proof (xml_parse_ok _ _ K) as [K1 K2].
  rewrite xml_parse_tag in K by exact template_name_ok. apply finish_tag in K as (x & cs & r & _ & E0). split; [rewrite E0; reflexivity|]. now split.
Qed.
Lemma wrapped_eq t : wrapped t = "<"%char :: $"template" ++ ">"%char :: [nl] ++ t ++ [nl] ++ $"</template>".
Proof. unfold wrapped. now rewrite template_tag. Qed.
Lemma construct_root t fmt e : construct t fmt = Ok e -> lower (e_tag e) = $"template" /\ e_children e <> [] /\ tree_ok e /\ e_tail e = [].
Proof.
  unfold construct. intros H.
  assert (H0 : exists e0, lower (e_tag e0) = $"template" /\ tree_ok e0 /\ e_tail e0 = [] /\
    (match xml_parse t with Some e => if str_eqb (lower (e_tag e)) $"template" then Ok e else parse_xml (wrapped fmt) | None => parse_xml (wrapped fmt) end) = Ok e0).
  { assert (Hw : forall e0, parse_xml (wrapped fmt) = Ok e0 -> lower (e_tag e0) = $"template" /\ tree_ok e0 /\ e_tail e0 = []) by (intros e0; rewrite wrapped_eq; apply wrapped_root).
    destruct (xml_parse t) as [e1|] eqn:E1.
    - destruct (str_eqb (lower (e_tag e1)) $"template") eqn:E2.
      + exists e1. apply str_eqb_eq in E2. apply xml_parse_ok in E1 as [? ?]. auto.
      + destruct (parse_xml (wrapped fmt)) as [e0|] eqn:E3; [|discriminate]. exists e0. pose proof (Hw _ eq_refl) as (? & ? & ?). auto.
    - destruct (parse_xml (wrapped fmt)) as [e0|] eqn:E3; [|discriminate]. exists e0. pose proof (Hw _ eq_refl) as (? & ? & ?). auto. }
  destruct H0 as (e0 & T1 & T2 & T3 & E0). rewrite E0 in H. cbn [rbind] in H. destruct (e_children e0) as [|c cs] eqn:Ec.
  - pose proof (wrapped_group_children _ _ H). rewrite wrapped_group_eq in H. apply wrapped_root in H as (? & ? & ?). auto.
  - injection H as <-. rewrite Ec. repeat split; auto. discriminate.
Qed.

(** ** without extend tags *)
Inductive within : elem -> elem -> Prop :=
| within_self e : within e e
| within_child e c n a x cs t : In c cs -> within e c -> within e (Elem n a x cs t).
Lemma has_tag_within n e : has_tag n e = true <-> exists c, within c e /\ e_tag c = n.
Proof.
  induction e as [m a x cs t IH] using elem_ind2. cbn [has_tag]. rewrite orb_true_iff, existsb_exists. split.
  - intros [E|(c & Hc & E)].
    + apply str_eqb_eq in E as ->. exists (Elem n a x cs t). split; [constructor|reflexivity].
    + rewrite Forall_forall in IH. apply (IH c Hc) in E as (d & Hd & E). exists d. split; [|exact E]. now apply within_child with c.
  - intros (c & Hc & E). inversion Hc as [|? d ? ? ? ? ? Hd Hw]; subst.
    + left. apply str_eqb_refl.
    + right. exists d. split; [exact Hd|]. rewrite Forall_forall in IH. apply (IH d Hd). eauto.
Qed.
(** the macro tags can be run *)
Definition macros_run (w : world) (e : elem) : Prop :=
  forall c, In c (e_children e) -> e_tag c = $"macro" -> e_text c <> [] /\ exists o, w_exec w (e_text c) = Ok o.
Lemma macros_run_ok w e : macros_run w e -> exists ms, rfold (parse_macro w) (filter is_macro (e_children e)) [] = Ok ms.
Proof.
  unfold macros_run. destruct e as [n a x cs t]. cbn [e_children]. generalize (@nil (str * macro)). induction cs as [|c cs IH]; intros l H; cbn [filter]; [now exists l|].
  unfold is_macro at 1. destruct (str_eqb (e_tag c) $"macro") eqn:E; [|apply IH; intros d Hd; apply H; now right].
  cbn [rfold]. apply str_eqb_eq in E. destruct (H c (or_introl eq_refl) E) as (Ne & o & Eo). unfold parse_macro at 1. destruct (e_text c); [congruence|]. rewrite Eo. cbn [rbind]. apply IH. intros d Hd. apply H. now right.
Qed.
Theorem template_tree_same w t e : construct_etree t = Ok e -> (forall c, within c e -> e_tag c <> $"extend") -> macros_run w e -> template_tree w t = Ok (lf_tree e).
Proof.
  intros H Hx Hm. destruct (macros_run_ok w e Hm) as [ms Em]. assert (Hn : has_tag $"extend" e = false).
  { apply not_true_iff_false. intros K. apply has_tag_within in K as (c & Hc & K). now apply Hx in Hc. }
  unfold template_tree. rewrite H. cbn [rbind]. unfold extended. rewrite Em. cbn [rbind]. rewrite Hn.
  apply construct_root in H as (H1 & H2 & H3 & H4). destruct e as [n a x cs t0]. cbn [e_tag e_children e_tail] in *. subst t0.
  unfold construct_etree, construct. rewrite (xml_round_trip n a x cs H3). cbn [lf_tree e_tag e_children]. rewrite H1, str_eqb_refl. cbn [rbind e_children].
  destruct cs as [|c cs]; [congruence|]. reflexivity.
Qed.
(** carriage returns come from references only *)
Fixpoint no_cr (e : elem) : Prop := match e with Elem _ _ x cs t => lacks cr x /\ lacks cr t /\ (fix go (l : list elem) := match l with [] => True | c :: l => no_cr c /\ go l end) cs end.
Lemma no_cr_all cs : (fix go (l : list elem) := match l with [] => True | c :: l => no_cr c /\ go l end) cs <-> Forall no_cr cs.
Proof. induction cs as [|c cs IH]; split; intros H; [constructor|exact I|constructor; [apply H|apply IH, H]|inversion H; subst; split; [assumption|now apply IH]]. Qed.
Lemma lf_tree_id e : no_cr e -> lf_tree e = e.
Proof.
  induction e as [m a x cs t IH] using elem_ind2. cbn [no_cr lf_tree]. rewrite no_cr_all. intros (H1 & H2 & H3). rewrite !newlines_id by assumption. f_equal.
  rewrite <- (map_id cs) at 2. apply map_ext_in. intros c Hc. rewrite Forall_forall in *. auto.
Qed.
Definition clean_src (s : str) : Prop := lacks "&" s /\ lacks cr s.
Lemma clean_suffix a s : clean_src (a ++ s) -> clean_src s.
Proof. intros [H1 H2]. split; intros K; [apply H1|apply H2]; apply in_or_app; now right. Qed.
Lemma clean_prefix a s : clean_src (a ++ s) -> clean_src a.
Proof. intros [H1 H2]. split; intros K; [apply H1|apply H2]; apply in_or_app; now left. Qed.
Lemma after_some p s r : after p s = Some r -> s = p ++ r.
Proof.
  revert s. induction p as [|a p IH]; intros s H; [now injection H as ->|]. destruct s as [|b s]; [discriminate|]. cbn [after] in H. destruct (Ascii.eqb a b) eqn:E; [|discriminate].
  apply Ascii.eqb_eq in E as ->. cbn [app]. f_equal. now apply IH.
Qed.
Lemma skip_space_suffix s : exists a, s = a ++ skip_space s.
Proof. unfold skip_space. destruct (span_of xml_space s) as [a b] eqn:E. apply span_of_spec in E as (-> & _). now exists a. Qed.
Lemma attr_value_suffix f q : forall s v r, attr_value f q s = Some (v, r) -> exists a, s = a ++ r.
Proof.
  induction f as [|f IH]; intros s v r H; [discriminate|]. cbn [attr_value] in H. destruct s as [|c t]; [discriminate|].
  destruct (Ascii.eqb c q); [injection H as <- <-; now exists [c]|]. destruct (Ascii.eqb c "<"); [discriminate|]. destruct (Ascii.eqb c "&").
  - destruct (reference t) as [[x r1]|] eqn:E; [|discriminate]. destruct (attr_value f q r1) as [[v1 r2]|] eqn:E1; [|discriminate]. injection H as <- <-. apply IH in E1 as (a & ->).
    unfold reference in E. destruct (span_of _ t) as [b [|z r']] eqn:Es; [discriminate|]. apply span_of_spec in Es as (-> & _). match type of E with match ?o with _ => _ end = _ => destruct o; [|discriminate] end.
    injection E as _ ->. exists (c :: b ++ z :: a). cbn [app]. rewrite <- app_assoc. reflexivity.
  - destruct (xml_char c); [|discriminate]. destruct (attr_value f q t) as [[v1 r2]|] eqn:E1; [|discriminate]. injection H as <- <-. apply IH in E1 as (a & ->). now exists (c :: a).
Qed.
Lemma attrs_of_suffix f : forall s acc l e r, attrs_of f s acc = Some (l, e, r) -> exists a, s = a ++ r.
Proof.
  induction f as [|f IH]; intros s acc l e r H; [discriminate|]. cbn [attrs_of] in H. destruct (skip_space_suffix s) as (a0 & E0). rewrite E0. set (s1 := skip_space s) in *.
  destruct (after $"/>" s1) as [r0|] eqn:E1; [injection H as _ _ <-; apply after_some in E1 as ->; exists (a0 ++ $"/>"); now rewrite <- app_assoc|].
  destruct (after $">" s1) as [r0|] eqn:E2; [injection H as _ _ <-; apply after_some in E2 as ->; exists (a0 ++ $">"); now rewrite <- app_assoc|].
  destruct (Nat.eqb _ _); [discriminate|]. destruct (xml_name s1) as [[n r1]|] eqn:En; [|discriminate]. apply xml_name_ok in En as [_ ->].
  destruct (skip_space_suffix r1) as (a1 & E3). destruct (after $"=" (skip_space r1)) as [r2|] eqn:E4; [|discriminate]. apply after_some in E4. destruct (skip_space_suffix r2) as (a2 & E5).
  destruct (skip_space r2) as [|q r3] eqn:E6; [discriminate|]. destruct (_ && _)%bool; [|discriminate]. destruct (attr_value _ q r3) as [[v r4]|] eqn:Ev; [|discriminate].
  apply attr_value_suffix in Ev as (a3 & ->). apply IH in H as (a4 & ->). rewrite E3, E4, E5.
  exists (a0 ++ n ++ a1 ++ $"=" ++ a2 ++ q :: a3 ++ a4). rewrite <- !app_assoc. cbn [app]. rewrite <- !app_assoc. reflexivity.
Qed.
Lemma until_some d s a r : until d s = Some (a, r) -> exists b c, s = b ++ r /\ s = a ++ c.
Proof.
  unfold until. destruct (find_at d s) as [i|]; [|discriminate]. intros H. injection H as <- <-. exists (firstn (i + length d) s), (skipn i s). now rewrite !firstn_skipn.
Qed.
Lemma content_no_cr f :
  (forall s x cs r, content f s = Some (x, cs, r) -> clean_src s -> (exists a, s = a ++ r) /\ lacks cr x /\ Forall no_cr cs) /\
  (forall s n a x cs r, element f s = Some (n, a, x, cs, r) -> clean_src s -> (exists a, s = a ++ r) /\ lacks cr x /\ Forall no_cr cs).
Proof.
  induction f as [|f [IHc IHe]]; [split; intros; discriminate|]. split.
  - intros s x cs r H Hs. cbn [content] in H. destruct s as [|c t]; [injection H as <- <- <-; split; [now exists []|]; split; [intros []|constructor]|].
    assert (Hmore : forall y r0, lacks cr y -> (exists a, c :: t = a ++ r0) -> match content f r0 with Some (t, cs, r') => Some (y ++ t, cs, r') | None => None end = Some (x, cs, r) ->
      (exists a, c :: t = a ++ r) /\ lacks cr x /\ Forall no_cr cs).
    { intros y r0 Hy (a & Ea) K. destruct (content f r0) as [[[t0 cs0] r']|] eqn:E; [|discriminate]. injection K as <- <- <-. rewrite Ea in Hs. apply IHc in E as ((a1 & ->) & E1 & E2); [|now apply clean_suffix in Hs].
      split; [exists (a ++ a1); rewrite Ea; apply app_assoc|]. split; [now apply lacks_app|exact E2]. }
    destruct (Ascii.eqb c "<").
    + destruct (after $"</" (c :: t)); [injection H as <- <- <-; split; [now exists []|]; split; [intros []|constructor]|]. destruct (after $"<!--" (c :: t)) as [r0|] eqn:E0.
      * destruct (comment_end r0) as [r1|] eqn:E1; [|discriminate]. unfold comment_end in E1. destruct (until $"--" r0) as [[y r2]|] eqn:E2; [|discriminate]. destruct (forallb xml_char y); [|discriminate].
        apply after_some in E0, E1. apply until_some in E2 as (b & d & E2 & _). apply (Hmore [] r1); [intros []| |exact H]. exists ($"<!--" ++ b ++ $">"). rewrite E0, E2, E1, <- !app_assoc. reflexivity.
      * destruct (after $"<![CDATA[" (c :: t)) as [r0|] eqn:E1.
        -- destruct (until $"]]>" r0) as [[y r1]|] eqn:E2; [|discriminate]. destruct (forallb xml_char y) eqn:Ey; [|discriminate]. apply until_some in E2 as (b & d & E2 & E3). apply after_some in E1.
           apply (Hmore y r1); [| |exact H].
           ++ rewrite E1, E3 in Hs. apply clean_suffix, clean_prefix in Hs. apply Hs.
           ++ exists ($"<![CDATA[" ++ b). now rewrite E1, E2, <- app_assoc.
        -- destruct (element f t) as [[[[[n a] y] cs0] r0]|] eqn:Ee; [|discriminate]. destruct (content f r0) as [[[tail more] r1]|] eqn:Ec; [|discriminate]. injection H as <- <- <-.
           apply (clean_suffix [c] t) in Hs. apply IHe in Ee as ((a1 & E3) & H3 & H4); [|exact Hs]. rewrite E3 in Hs. apply clean_suffix in Hs. apply IHc in Ec as ((a2 & E4) & H5 & H6); [|exact Hs].
           split; [exists (c :: a1 ++ a2); rewrite E3, E4; cbn [app]; now rewrite <- app_assoc|]. split; [intros []|]. constructor; [|exact H6]. cbn [no_cr]. rewrite no_cr_all. auto.
    + destruct (Ascii.eqb c "&") eqn:Ea.
      * apply Ascii.eqb_eq in Ea as ->. exfalso. apply (proj1 Hs). now left.
      * destruct (prefixb $"]]>" (c :: t)); [discriminate|]. destruct (xml_char c) eqn:Ec; [|discriminate]. apply (Hmore [c] t); [|now exists [c]|exact H].
        intros [K|[]]. apply (proj2 Hs). left. exact K.
  - intros s n a x cs r H Hs. cbn [element] in H. destruct (xml_name s) as [[n0 r0]|] eqn:En; [|discriminate]. apply xml_name_ok in En as [_ ->]. apply clean_suffix in Hs.
    destruct (attrs_of (S (length r0)) r0 []) as [[[a0 e0] r1]|] eqn:Ea; [|discriminate]. apply attrs_of_suffix in Ea as (a1 & ->). apply clean_suffix in Hs.
    destruct e0.
    + injection H as <- <- <- <- <-. split; [exists (n0 ++ a1); apply app_assoc|]. split; [intros []|constructor].
    + destruct (content f r1) as [[[x0 cs0] r2]|] eqn:Ec; [|discriminate]. destruct (after ($"</" ++ n0) r2) as [r3|] eqn:E3; [|discriminate]. destruct (after $">" (skip_space r3)) as [r4|] eqn:E4; [|discriminate].
      injection H as <- <- <- <- <-. apply IHc in Ec as ((a2 & ->) & E1 & E2); [|exact Hs]. apply after_some in E3, E4. destruct (skip_space_suffix r3) as (a3 & E5).
      split; [|now split]. exists (n0 ++ a1 ++ a2 ++ ($"</" ++ n0) ++ a3 ++ $">"). rewrite E3, E5, E4, <- !app_assoc. reflexivity.
Qed.
Lemma xml_parse_no_cr s e : lacks "&" s -> xml_parse s = Some e -> no_cr e.
Proof.
  intros Hs. unfold xml_parse. destruct (misc _ _) as [[|c r]|] eqn:Em; [discriminate| |discriminate]. destruct (Ascii.eqb c "<"); [|discriminate].
  destruct (element _ r) as [[[[[n a] x] cs] rest]|] eqn:E; [|discriminate]. destruct (misc _ rest) as [[|]|]; [|discriminate..]. intros K. injection K as <-.
  assert (Hcl : clean_src (newlines s)).
  { split; [|apply newlines_lacks]. clear -Hs. assert (G : forall n s, length s <= n -> lacks "&" s -> lacks "&" (newlines s)).
    { induction n as [|n IH]; intros [|c t] Hn Hl; try (cbn in Hn; lia); try (intros []). cbn [newlines]. cbn [length] in Hn.
      assert (Ht : lacks "&" t) by (intros K; apply Hl; now right). destruct (Ascii.eqb c (chr 13)) eqn:E.
      - destruct t as [|d t']; [intros [K|[]]; discriminate K|]. cbn [length] in Hn. destruct (Ascii.eqb d nl); (intros [K|K]; [discriminate K|]).
        + apply (IH t') in K; auto; [lia|]. intros K2. apply Ht. now right.
        + apply (IH (d :: t')) in K; auto. cbn [length]; lia.
      - intros [K|K]; [subst; apply Hl; now left|]. apply (IH t) in K; auto. lia. }
    apply (G (length s)); [lia|exact Hs]. }
  assert (Hm : forall f s r, misc f s = Some r -> exists a, s = a ++ r).
  { clear. induction f as [|f IH]; intros s r H; [discriminate|]. cbn [misc] in H. destruct (skip_space_suffix s) as (a & Ea). destruct (after $"<!--" (skip_space s)) as [r0|] eqn:E0.
    - destruct (comment_end r0) as [r1|] eqn:E1; [|discriminate]. unfold comment_end in E1. destruct (until $"--" r0) as [[y r2]|] eqn:E2; [|discriminate]. destruct (forallb xml_char y); [|discriminate].
      apply after_some in E0, E1. apply until_some in E2 as (b & d & E2 & _). apply IH in H as (a1 & ->). exists (a ++ $"<!--" ++ b ++ $">" ++ a1). rewrite Ea, E0, E2, E1, <- !app_assoc. reflexivity.
    - injection H as <-. now exists a. }
  apply Hm in Em as (a1 & Em). rewrite Em in Hcl. apply clean_suffix in Hcl. apply (clean_suffix [c] r) in Hcl.
  apply content_no_cr in E as (_ & E1 & E2); [|exact Hcl]. cbn [no_cr]. rewrite no_cr_all. split; [exact E1|]. split; [intros []|exact E2].
Qed.
Theorem template_tree_id w t e : lacks "&" t -> construct_etree t = Ok e -> (forall c, within c e -> e_tag c <> $"extend") -> macros_run w e -> template_tree w t = Ok e.
Proof.
  intros Ht H Hx Hm. rewrite (template_tree_same w t e H Hx Hm). rewrite lf_tree_id; [reflexivity|]. revert H. unfold construct_etree, construct.
  assert (Hw : lacks "&" (wrapped t)) by (unfold wrapped; repeat apply lacks_app; try exact Ht; apply lacks_b; reflexivity).
  assert (Hg : lacks "&" (wrapped_group t)) by (unfold wrapped_group; repeat apply lacks_app; try exact Ht; apply lacks_b; reflexivity).
  assert (G : forall e0, (match e_children e0 with [] => parse_xml (wrapped_group t) | _ => Ok e0 end) = Ok e -> no_cr e0 -> no_cr e).
  { intros e0 H H0. destruct (e_children e0); [|injection H as <-; exact H0]. apply parse_xml_ok in H. now apply xml_parse_no_cr in H. }
  assert (Gw : (do e0 <- parse_xml (wrapped t); match e_children e0 with [] => parse_xml (wrapped_group t) | _ => Ok e0 end) = Ok e -> no_cr e).
  { intros H. destruct (parse_xml (wrapped t)) as [e0|] eqn:E; [|discriminate]. cbn [rbind] in H. apply parse_xml_ok in E. apply (G e0 H). now apply xml_parse_no_cr in E. }
  destruct (xml_parse t) as [e1|] eqn:E1; [|exact Gw]. destruct (str_eqb _ _); [|exact Gw]. cbn [rbind]. intros H. apply (G e1 H). now apply xml_parse_no_cr in E1.
Qed.

(** ** text without tags *)
Definition plain_text (t : str) : Prop := lacks "<" t /\ lacks "&" t /\ chars_ok t /\ containsb $"]]>" t = false.
Definition cdata_end : str := ["]"%char; "]"%char; ">"%char].
Lemma no_end_prefix t r : containsb cdata_end t = false -> at_lt r -> prefixb cdata_end (t ++ r) = false.
Proof.
  intros H (u & ->). apply not_true_iff_false. intros K. apply not_true_iff_false in H. apply H. clear H.
  apply containsb_spec. exists []. destruct t as [|a [|b [|c t]]]; cbn [app prefixb cdata_end] in K.
  - discriminate K.
  - apply andb_true_iff in K as [_ K]. discriminate K.
  - apply andb_true_iff in K as [_ K]. apply andb_true_iff in K as [_ K]. discriminate K.
  - rewrite !andb_true_iff in K. destruct K as (K1 & K2 & K3 & _). apply Ascii.eqb_eq in K1 as <-, K2 as <-, K3 as <-. exists t. reflexivity.
Qed.
Lemma content_raw x r cs r' : plain_text x -> at_lt r -> (forall g, 2 * length r + 1 <= g -> content g r = Some ([], cs, r')) ->
  forall f, 2 * length (x ++ r) + 1 <= f -> content f (x ++ r) = Some (x, cs, r').
Proof.
  intros (Hl & Ha & Hc & He) Hr H. change $"]]>" with cdata_end in He. induction Hc as [|c x Hc Hx IH]; intros f Hf; [apply H; exact Hf|].
  pose proof (no_end_prefix (c :: x) r He Hr) as Hnc. change (prefixb cdata_end ((c :: x) ++ r)) with (prefixb $"]]>" (c :: x ++ r)) in Hnc. cbn [app length] in *.
  assert (E1 : Ascii.eqb c "<" = false) by (apply Ascii.eqb_neq; intros ->; apply Hl; now left).
  assert (E2 : Ascii.eqb c "&" = false) by (apply Ascii.eqb_neq; intros ->; apply Ha; now left).
  destruct f; [lia|]. cbn [content]. rewrite E1, E2, Hnc, Hc. rewrite IH; [reflexivity| | | |lia].
  - intros K. apply Hl. now right.
  - intros K. apply Ha. now right.
  - apply not_true_iff_false. intros K. apply not_true_iff_false in He. apply He. rewrite containsb_spec in *. destruct K as (a & b & ->). now exists (c :: a), b.
Qed.
Definition anon_tree (text : str) : elem := Elem $"template" [] [] [Elem $"group" [($"name", $"_anonymous_")] text [] []] [].
Lemma misc_head f s r : misc f s = Some r -> (forall c, In c s -> c <> "<"%char) -> forall c u, r = c :: u -> c <> "<"%char.
Proof.
  destruct f; [discriminate|]. cbn [misc]. intros H Hs. destruct (skip_space_suffix s) as (a & Ea). destruct (after $"<!--" (skip_space s)) as [r0|] eqn:E0.
  - apply after_some in E0. exfalso. apply (Hs "<"%char); [|reflexivity]. rewrite Ea, E0. apply in_or_app. right. now left.
  - injection H as <-. intros c u Ec. apply Hs. rewrite Ea, Ec. apply in_or_app. right. now left.
Qed.
Lemma newlines_in c s : In c (newlines s) -> In c s \/ c = nl.
Proof.
  assert (G : forall n s, length s <= n -> In c (newlines s) -> In c s \/ c = nl).
  { induction n as [|n IH]; intros [|d t] Hn; try (cbn in Hn; lia); try (intros []). cbn [newlines]. cbn [length] in Hn. destruct (Ascii.eqb d (chr 13)).
    - destruct t as [|d' t']; [intros [K|[]]; now right|]. cbn [length] in Hn. destruct (Ascii.eqb d' nl); (intros [K|K]; [now right|]).
      + apply IH in K as [K|K]; [left; cbn; auto|now right|lia].
      + apply IH in K as [K|K]; [left; cbn in *; tauto|now right|cbn [length]; lia].
    - intros [K|K]; [left; now left|]. apply IH in K as [K|K]; [left; now right|now right|lia]. }
  apply (G (length s)). lia.
Qed.
Lemma plain_no_xml t : lacks "<" t -> xml_parse t = None.
Proof.
  intros H. unfold xml_parse. destruct (misc _ _) as [[|c r]|] eqn:E; [reflexivity| |reflexivity].
  apply (misc_head _ _ _) with (c := c) (u := r) in E; [|intros d Hd ->; apply newlines_in in Hd as [Hd|Hd]; [now apply H|discriminate Hd]|reflexivity].
  apply Ascii.eqb_neq in E. now rewrite E.
Qed.
Lemma newlines_app_lt x r : newlines (x ++ "<"%char :: r) = newlines x ++ newlines ("<"%char :: r).
Proof. apply newlines_head_lt. Qed.
Lemma newlines_nil s : newlines s = [] -> s = [].
Proof. destruct s as [|c s]; [reflexivity|]. cbn [newlines]. destruct (Ascii.eqb c (chr 13)); [|discriminate]. destruct s; [discriminate|]. destruct (Ascii.eqb _ nl); discriminate. Qed.
Lemma plain_newlines t : plain_text t -> plain_text (newlines ([nl] ++ t ++ [nl])).
Proof.
  intros (Hl & Ha & Hc & He). set (s := [nl] ++ t ++ [nl]).
  assert (Hin : forall c, In c (newlines s) -> In c t \/ c = nl).
  { intros c K. apply newlines_in in K as [K|K]; [|now right]. unfold s in K. apply in_app_or in K as [[K|[]]|K]; [now right|]. apply in_app_or in K as [K|[K|[]]]; auto. }
  split; [intros K; apply Hin in K as [K|K]; [now apply Hl|discriminate K]|]. split; [intros K; apply Hin in K as [K|K]; [now apply Ha|discriminate K]|].
  split; [unfold chars_ok in *; rewrite Forall_forall in *; intros c K; apply Hin in K as [K| ->]; auto|].
  assert (Hs : containsb cdata_end s = false).
  { apply not_true_iff_false. intros K. apply not_true_iff_false in He. apply He. change $"]]>" with cdata_end. rewrite containsb_spec in *. destruct K as (a & b & E). unfold s in E.
    destruct a as [|x a]; [discriminate E|]. assert (E' : t ++ [nl] = a ++ cdata_end ++ b) by exact (Logic.f_equal (@tl ascii) E). clear E. rename E' into E. destruct b as [|y b _] using rev_ind.
    - exfalso. rewrite app_nil_r in E. change cdata_end with ((["]"%char; "]"%char]) ++ [">"%char]) in E. rewrite app_assoc in E. apply app_inj_tail in E as [_ E]. discriminate E.
    - exists a, b. rewrite app_assoc, app_assoc in E. apply app_inj_tail in E as [E _]. rewrite E. now rewrite <- app_assoc. }
  change $"]]>" with cdata_end. clearbody s. clear -Hs.
  assert (G : forall n s, length s <= n -> containsb cdata_end s = false -> containsb cdata_end (newlines s) = false).
  { clear. induction n as [|n IH]; intros [|c t] Hn H; try (cbn in Hn; lia); try reflexivity. cbn [length] in Hn.
    assert (Ht : containsb cdata_end t = false).
    { apply not_true_iff_false. intros K. apply not_true_iff_false in H. apply H. rewrite containsb_spec in *. destruct K as (a & b & ->). now exists (c :: a), b. }
    assert (Hstep : forall d u, prefixb cdata_end (d :: u) = false -> containsb cdata_end u = false -> containsb cdata_end (d :: u) = false).
    { intros d u H1 H2. cbn [containsb]. rewrite H1. exact H2. }
    cbn [newlines]. destruct (Ascii.eqb c (chr 13)).
    - destruct t as [|d t']; [reflexivity|]. cbn [length] in Hn. destruct (Ascii.eqb d nl).
      + apply Hstep; [reflexivity|]. apply IH; [lia|]. apply not_true_iff_false. intros K. apply not_true_iff_false in Ht. apply Ht. rewrite containsb_spec in *. destruct K as (a & b & ->). now exists (d :: a), b.
      + apply Hstep; [reflexivity|]. apply IH; [cbn [length]; lia|exact Ht].
    - apply Hstep; [|apply IH; [lia|exact Ht]]. apply not_true_iff_false. intros K. apply not_true_iff_false in H. apply H. clear H. apply containsb_spec. exists [].
      cbn [prefixb cdata_end] in K. apply andb_true_iff in K as [K1 K]. apply Ascii.eqb_eq in K1 as <-.
      destruct t as [|d t]; [discriminate K|]. cbn [newlines] in K. destruct (Ascii.eqb d (chr 13)) eqn:Ed.
      { exfalso. destruct t as [|d' t']; [discriminate K|]. destruct (Ascii.eqb d' nl); discriminate K. }
      cbn [prefixb] in K. apply andb_true_iff in K as [K1 K]. apply Ascii.eqb_eq in K1 as <-. destruct t as [|d t]; [discriminate K|]. cbn [newlines] in K. destruct (Ascii.eqb d (chr 13)) eqn:Ed2.
      { exfalso. destruct t as [|d' t']; [discriminate K|]. destruct (Ascii.eqb d' nl); discriminate K. }
      cbn [prefixb] in K. rewrite andb_true_r in K. apply Ascii.eqb_eq in K as <-. now exists t. }
  apply (G (length s)); [lia|exact Hs].
Qed.
Lemma end_content u g : 2 * length ($"</" ++ u) + 1 <= g -> content g ($"</" ++ u) = Some ([], [], $"</" ++ u).
Proof. intros H. exact (content_children [] ($"</" ++ u) (Forall_nil _) (Forall_nil _) (ex_intro _ u eq_refl) g H). Qed.
Lemma content_plain x u g : plain_text x -> 2 * length (x ++ $"</" ++ u) + 1 <= g -> content g (x ++ $"</" ++ u) = Some (x, [], $"</" ++ u).
Proof. intros Hx H. apply content_raw; [exact Hx|now exists ("/"%char :: u)| |exact H]. intros g'. apply end_content. Qed.
Lemma app_tag (n u : str) : ($"</" ++ n) ++ u = "<"%char :: "/"%char :: n ++ u.
Proof. change $"</" with ["<"%char; "/"%char]. reflexivity. Qed.
Lemma parse_wrapped t : plain_text t -> xml_parse (wrapped t) = Some (Elem $"template" [] (newlines ([nl] ++ t ++ [nl])) [] []).
Proof.
  intros Ht. rewrite wrapped_eq. rewrite (xml_parse_tag $"template" ([nl] ++ t ++ [nl] ++ $"</template>") template_name_ok).
  assert (E : newlines ([nl] ++ t ++ [nl] ++ $"</template>") = newlines ([nl] ++ t ++ [nl]) ++ $"</" ++ $"template>").
  { rewrite (app_assoc t), (app_assoc [nl] (t ++ [nl])). change $"</template>" with ("<"%char :: $"/template>"). rewrite newlines_app_lt.
    rewrite (newlines_id ("<"%char :: $"/template>")) by (apply lacks_b; reflexivity). reflexivity. }
  rewrite E. rewrite content_plain; [|now apply plain_newlines|lia]. reflexivity.
Qed.
Lemma finish_end n u : finish n (Some (u, [], ($"</" ++ n) ++ $">")) = Some (Elem n [] u [] []).
Proof. unfold finish. rewrite after_app. reflexivity. Qed.
Lemma anon_element s r g : plain_text s -> 2 * length (s ++ $"</group>" ++ r) + 10 <= g ->
  element g ($"group name=""_anonymous_"">" ++ s ++ $"</group>" ++ r) = Some ($"group", [($"name", $"_anonymous_")], s, [], r).
Proof.
  intros Hs Hg. destruct g as [|g]; [lia|]. cbn [element].
  assert (En : xml_name ($"group name=""_anonymous_"">" ++ s ++ $"</group>" ++ r) = Some ($"group", $" name=""_anonymous_"">" ++ s ++ $"</group>" ++ r)).
  { change $"group name=""_anonymous_"">" with ($"group" ++ $" name=""_anonymous_"">"). rewrite <- app_assoc. apply name_read; [split; [reflexivity|repeat constructor]|reflexivity]. }
  rewrite En.
  assert (Ea : attrs_of (S (length ($" name=""_anonymous_"">" ++ s ++ $"</group>" ++ r))) ($" name=""_anonymous_"">" ++ s ++ $"</group>" ++ r) [] = Some ([($"name", $"_anonymous_")], false, s ++ $"</group>" ++ r)).
  { change $" name=""_anonymous_"">" with (flat_map (attr_text text_char) [($"name", $"_anonymous_")] ++ tag_end false). rewrite <- app_assoc. apply (attrs_read [($"name", $"_anonymous_")] [] false); [|repeat constructor; intros []|lia].
    repeat constructor. }
  rewrite Ea. change $"</group>" with ($"</" ++ $"group>"). rewrite <- app_assoc. change ($"</group>") with ($"</" ++ $"group>") in Hg. rewrite <- app_assoc in Hg.
  rewrite content_plain; [|exact Hs|lia]. rewrite app_assoc. change ($"</" ++ $"group>") with (($"</" ++ $"group") ++ $">"). rewrite <- (app_assoc _ $">" r), after_app.
  change ($">" ++ r) with (">"%char :: r). rewrite skip_space_stop by reflexivity. reflexivity.
Qed.
Lemma content_group s G : plain_text s -> 2 * length (s ++ $"</group>" ++ $"</template>") + 11 <= G ->
  content G (anon_open ++ s ++ $"</group>" ++ $"</template>") = Some ([], [Elem $"group" [($"name", $"_anonymous_")] s [] []], $"</template>").
Proof.
  intros Hp HG. destruct G as [|g]; [lia|]. change anon_open with ("<"%char :: $"group name=""_anonymous_"">"). cbn [app].
  assert (Hel : element g ($"group name=""_anonymous_"">" ++ s ++ $"</group>" ++ $"</template>") = Some ($"group", [($"name", $"_anonymous_")], s, [], $"</template>")) by (apply anon_element; [exact Hp|lia]).
  assert (Hend : content g $"</template>" = Some ([], [], $"</template>")).
  { change $"</template>" with ($"</" ++ $"template>"). apply end_content. rewrite !app_length in HG. change (length $"</template>") with 11 in HG. change (length ($"</" ++ $"template>")) with 11. lia. }
  set (s3 := $"group name=""_anonymous_"">" ++ s ++ $"</group>" ++ $"</template>") in *.
  assert (H3 : exists u, s3 = "g"%char :: u) by (eexists; reflexivity). clearbody s3. destruct H3 as (u & ->). clear HG.
  cbn [content]. change (Ascii.eqb "<" "<") with true. cbn match.
  change (after $"</" ("<"%char :: "g"%char :: u)) with (@None str). change (after $"<!--" ("<"%char :: "g"%char :: u)) with (@None str). change (after $"<![CDATA[" ("<"%char :: "g"%char :: u)) with (@None str). cbn match.
  rewrite Hel, Hend. reflexivity.
Qed.
Lemma parse_wrapped_group t : plain_text t -> xml_parse (wrapped_group t) = Some (anon_tree (newlines ([nl] ++ t ++ [nl]))).
Proof.
  intros Ht. rewrite wrapped_group_eq. rewrite (xml_parse_tag $"template" _ template_name_ok).
  assert (E : newlines (anon_open ++ [nl] ++ t ++ [nl] ++ $"</group></template>") = anon_open ++ newlines ([nl] ++ t ++ [nl]) ++ $"</group>" ++ $"</template>").
  { rewrite newlines_plain by (apply lacks_b; reflexivity). f_equal. rewrite (app_assoc t), (app_assoc [nl] (t ++ [nl])). change $"</group></template>" with ("<"%char :: $"/group></template>"). rewrite newlines_app_lt.
    rewrite (newlines_id ("<"%char :: $"/group></template>")) by (apply lacks_b; reflexivity). reflexivity. }
  rewrite E. pose proof (plain_newlines t Ht) as Hp. set (s := newlines ([nl] ++ t ++ [nl])) in *. clearbody s.
  rewrite content_group; [reflexivity|exact Hp|rewrite (app_length anon_open); change (length anon_open) with 26; change (length $"template") with 8; lia].
Qed.
Theorem construct_plain t : plain_text t -> construct_etree t = Ok (anon_tree (newlines ([nl] ++ t ++ [nl]))).
Proof.
  intros Ht. unfold construct_etree, construct. rewrite (plain_no_xml t (proj1 Ht)).
  assert (E1 : parse_xml (wrapped t) = Ok (Elem $"template" [] (newlines ([nl] ++ t ++ [nl])) [] [])) by (apply parse_xml_ok, parse_wrapped; exact Ht). rewrite E1. cbn [rbind e_children].
  apply parse_xml_ok. now apply parse_wrapped_group.
Qed.
Theorem template_tree_plain w t : plain_text t -> template_tree w t = Ok (anon_tree (newlines ([nl] ++ t ++ [nl]))).
Proof.
  intros Ht. apply template_tree_id; [apply Ht|now apply construct_plain| |].
  - intros c Hc. inversion Hc as [|? d ? ? ? ? ? Hd Hw]; subst; [discriminate|].
    destruct Hd as [<-|[]]. inversion Hw as [|? d ? ? ? ? ? Hd Hw2]; subst; [discriminate|destruct Hd].
  - intros c [<-|[]] K. discriminate K.
Qed.
