(** * TextFacts3: proofs for C125, wildcards and searching. *)
From Coq Require Import Lia.
From Verif Require Import PyBase DictFacts StrFacts Regex SpecRegex RegexFacts EscapeFacts Results Template FormRegex Attributes FuncTable SpecVariable SpecText.
Local Open Scope string_scope.
Local Open Scope list_scope.

Lemma rel_end s c s' c' : rel at_end s c s' c' <-> s = [] /\ s' = [] /\ c' = c.
Proof.
  unfold at_end. cbn [rel]. split.
  - intros (-> & -> & H). destruct s as [|x s]; [auto|]. exfalso. apply (H s c). exists x. auto.
  - intros (-> & -> & ->). split; [reflexivity|]. split; [reflexivity|]. intros s1 c1 (x & H & _). discriminate.
Qed.
Lemma rel_char x s c s' c' : rel (rchar x) s c s' c' <-> s = x :: s' /\ c' = c.
Proof.
  unfold rchar. cbn [rel]. split.
  - intros (y & -> & H & ->). unfold set_match in H. cbn [existsb citem_match xorb] in H. destruct (Ascii.eqb_spec x y) as [->|]; [|discriminate H]. auto.
  - intros [-> ->]. exists x. split; [reflexivity|]. split; [|reflexivity]. unfold set_match. cbn [existsb citem_match xorb]. now rewrite Ascii.eqb_refl.
Qed.
Lemma rel_anychar s c s' c' : rel any_char s c s' c' <-> (exists x, s = x :: s') /\ c' = c.
Proof.
  unfold any_char. cbn [rel]. split.
  - intros (y & -> & _ & ->). split; [now exists y|reflexivity].
  - intros [[x ->] ->]. exists x. repeat split. unfold set_match. cbn [existsb citem_match]. destruct (is_space x); reflexivity.
Qed.
Lemma rel_anystar s c s' c' : rel (RStar true any_char) s c s' c' <-> (exists a, s = a ++ s') /\ c' = c.
Proof.
  cbn [rel]. split.
  - induction 1 as [s c|s c s1 c1 s2 c2 H _ _ [[a ->] ->]]; [split; [now exists []|reflexivity]|]. apply rel_anychar in H as [[x ->] ->]. split; [now exists (x :: a)|reflexivity].
  - intros [[a ->] ->]. induction a as [|x a IH]; [constructor|]. apply (sr_more _ _ _ (a ++ s') c); [apply rel_anychar; split; [exists x; reflexivity|reflexivity]|cbn [app length]; unfold lt; constructor|exact IH].
Qed.
Lemma like_rel p : forall s c, (exists s' c', rel (fn_re p) s c s' c') <-> like p s.
Proof.
  induction p as [|x p IH]; intros s c; cbn [fn_re].
  - split; [intros (s' & c' & H); apply rel_end in H as (-> & _); constructor|]. intros H. inversion H; subst. exists [], c. now apply rel_end.
  - destruct (Ascii.eqb x "*") eqn:E1; [apply Ascii.eqb_eq in E1; subst x|destruct (Ascii.eqb x "?") eqn:E2; [apply Ascii.eqb_eq in E2; subst x|]]; split.
    + intros (s' & c' & (s1 & c1 & H1 & H2)). apply rel_anystar in H1 as [[a ->] ->]. apply lk_any. apply (IH s1 c). eauto.
    + intros H. inversion H as [|p' a s1 H1|p' y s1 H1|p' y s1 N1 N2 H1]; subst; [|congruence]. apply (IH s1 c) in H1 as (s' & c' & H1). exists s', c', s1, c. split; [apply rel_anystar; split; [now exists a|reflexivity]|exact H1].
    + intros (s' & c' & (s1 & c1 & H1 & H2)). apply rel_anychar in H1 as [[y ->] ->]. apply lk_one. apply (IH s1 c). eauto.
    + intros H. inversion H as [|p' a s1 H1|p' y s1 H1|p' y s1 N1 N2 H1]; subst; [|congruence]. apply (IH s1 c) in H1 as (s' & c' & H1). exists s', c', s1, c. split; [apply rel_anychar; split; [now exists y|reflexivity]|exact H1].
    + intros (s' & c' & (s1 & c1 & H1 & H2)). apply rel_char in H1 as [-> ->]. apply lk_char; [now apply Ascii.eqb_neq|now apply Ascii.eqb_neq|]. apply (IH s1 c). eauto.
    + intros H. inversion H as [|p' a s1 H1|p' y s1 H1|p' y s1 N1 N2 H1]; subst; [discriminate E1|discriminate E2|]. apply (IH s1 c) in H1 as (s' & c' & H1). exists s', c', s1, c. split; [now apply rel_char|exact H1].
Qed.
Theorem fnmatch_iff s p : fnmatch s p = true <-> like p s.
Proof.
  unfold fnmatch. rewrite <- (like_rel p s []). destruct (rmatch (fn_re p) s) as [[s' c]|] eqn:E.
  - split; [|reflexivity]. intros _. exists s', c. now apply rmatch_sound.
  - split; [discriminate|]. intros (s' & c & H). exfalso. rewrite rmatch_none in E. exact (E _ _ H).
Qed.

(** searching *)
Lemma found_iff r s : found r s = true <-> exists x t, s = x ++ t /\ rmatch r t <> None.
Proof.
  unfold found, finditer. assert (G : forall n s pos, length s < n -> finditer_go n r s pos <> [] <-> exists x t, s = x ++ t /\ rmatch r t <> None).
  { clear s. induction n as [|n IH]; intros s pos Hn; [lia|]. cbn [finditer_go]. destruct (rmatch r s) as [[s' c]|] eqn:E.
    - split; [|intros _; destruct (length s - length s'); discriminate]. intros _. exists [], s. split; [reflexivity|congruence].
    - destruct s as [|y s].
      + split; [congruence|]. intros (x & t & Ht & K). destruct x; [|discriminate]. cbn [app] in Ht. subst t. contradiction.
      + cbn [length] in Hn. rewrite IH by lia. split; intros (x & t & Ht & K).
        * exists (y :: x), t. split; [cbn [app]; congruence|exact K].
        * destruct x as [|z x]; [cbn [app] in Ht; subst t; contradiction|]. cbn [app] in Ht. exists x, t. split; [congruence|exact K]. }
  rewrite <- (G (S (length s)) s 0) by lia. destruct (finditer_go _ r s 0); split; congruence.
Qed.
Lemma rmatch_some r s : rmatch r s <> None <-> exists a y, s = a ++ y /\ matches r a y.
Proof.
  split.
  - destruct (rmatch r s) as [[y c]|] eqn:E; [|congruence]. intros _. apply rmatch_sound in E. destruct (rel_suffix _ _ _ _ _ E) as [a ->]. exists a, y. split; [reflexivity|]. now exists c.
  - intros (a & y & -> & c & H) E. rewrite rmatch_none in E. exact (E _ _ H).
Qed.
Lemma rel_before_end s c s' c' : rel before_end s c s' c' <-> s' = s /\ c' = c /\ (s = [] \/ s = [nl]).
Proof.
  unfold before_end, ropt. cbn [rel]. fold (rchar nl). split.
  - intros (-> & s1 & s2 & c2 & H & H2). apply rel_end in H2 as (-> & -> & ->). split; [reflexivity|]. destruct H as [H|[H ->]].
    + apply (rel_char nl) in H as [-> ->]. auto.
    + auto.
  - intros (-> & -> & [->| ->]); (split; [reflexivity|]).
    + exists [], [], c. split; [right; auto|]. now apply rel_end.
    + exists [], [], c. split; [left; now apply (rel_char nl)|]. now apply rel_end.
Qed.
Lemma matches_end r a y : matches (RSeq r before_end) a y <-> matches r a y /\ (y = [] \/ y = [chr 10]).
Proof.
  unfold matches. split.
  - intros (c & s1 & c1 & H1 & H2). apply rel_before_end in H2 as (-> & -> & H2). split; [now exists c1|exact H2].
  - intros [(c & H) Hy]. exists c, y, c. split; [exact H|]. now apply rel_before_end.
Qed.
Lemma anchored_end_fun p : exists q, anchored_end p (dollar_at_end p) q /\ q = (if dollar_at_end p then removelast p else p).
Proof.
  unfold dollar_at_end. destruct (rev p) as [|c l] eqn:E.
  - assert (p = []) by (rewrite <- (rev_involutive p), E; reflexivity). subst p. exists []. split; [|reflexivity]. apply ae_none. intros [|]; discriminate.
  - assert (Ep : p = rev l ++ [c]) by (rewrite <- (rev_involutive p), E; reflexivity). subst p. rewrite removelast_last. clear E. destruct (Ascii.eqb c "$") eqn:Ec.
    + apply Ascii.eqb_eq in Ec. subst c. destruct l as [|d l].
      * cbn [rev app]. exists []. split; [|reflexivity]. apply (ae_dollar []). intros [|]; discriminate.
      * cbn [andb]. destruct (Ascii.eqb d "\") eqn:Ed; cbn [negb].
        -- apply Ascii.eqb_eq in Ed. subst d. exists (rev ("\"%char :: l) ++ ["$"%char]). split; [|reflexivity]. cbn [rev]. rewrite <- app_assoc. exact (ae_escaped (rev l)).
        -- exists (rev (d :: l)). split; [|reflexivity]. apply ae_dollar. intros t K. cbn [rev] in K. apply app_inj_tail in K as [_ ->]. now rewrite Ascii.eqb_refl in Ed.
    + exists (rev l ++ [c]). replace (match l with [] => false | d :: _ => (false && negb (Ascii.eqb d "\"))%bool end) with false by (destruct l; reflexivity). split; [|reflexivity]. apply ae_none. intros t K. apply app_inj_tail in K as [_ ->]. now rewrite Ascii.eqb_refl in Ec.
Qed.
Lemma esc_end (a b : str) : a ++ ["\"%char; "$"%char] = b ++ ["$"%char] -> b = a ++ ["\"%char].
Proof. change (a ++ ["\"%char; "$"%char]) with (a ++ ["\"%char] ++ ["$"%char]). rewrite app_assoc. intros H. now apply app_inj_tail in H as [<- _]. Qed.
Lemma anchored_end_det p e q e' q' : anchored_end p e q -> anchored_end p e' q' -> e = e' /\ q = q'.
Proof.
  destruct 1 as [q H|q|q H]; intros K; inversion K as [q1 H1 E1|q1 E1|q1 H1 E1]; subst.
  - apply app_inj_tail in E1 as [-> _]. auto.
  - exfalso. apply (esc_end q1 q) in E1. exact (H _ E1).
  - exfalso. exact (H1 _ eq_refl).
  - exfalso. symmetry in E1. apply (esc_end q q') in E1. exact (H1 _ E1).
  - split; [reflexivity|]. exact (eq_sym E1).
  - auto.
  - exfalso. exact (H _ eq_refl).
  - auto.
  - auto.
Qed.
Lemma anchored_det p b e q b' e' q' : anchored p b e q -> anchored p b' e' q' -> b = b' /\ e = e' /\ q = q'.
Proof.
  destruct 1 as [p e q H|p e q N H]; intros K; inversion K as [p1 e1 q1 H1 E1|p1 e1 q1 N1 H1 E1]; subst.
  - destruct (anchored_end_det _ _ _ _ _ H H1). auto.
  - exfalso. exact (N1 _ eq_refl).
  - exfalso. exact (N _ eq_refl).
  - destruct (anchored_end_det _ _ _ _ _ H H1). auto.
Qed.
Lemma anchored_fun p : exists caret dollar q, anchored p caret dollar q /\ anchors p = (caret, dollar, q).
Proof.
  unfold anchors. destruct p as [|c p].
  - exists false, false, []. split; [apply an_none; [discriminate|]; apply ae_none; intros [|]; discriminate|reflexivity].
  - destruct (Ascii.eqb c "^") eqn:Ec.
    + apply Ascii.eqb_eq in Ec. subst c. destruct (anchored_end_fun p) as (q & Hq & E). exists true, (dollar_at_end p), q. split; [now constructor|]. cbn [tl]. now rewrite <- E.
    + destruct (anchored_end_fun (c :: p)) as (q & Hq & E). exists false, (dollar_at_end (c :: p)), q. split; [apply an_none; [|exact Hq]; intros t K; assert (c = "^"%char) by congruence; subst c; now rewrite Ascii.eqb_refl in Ec|]. now rewrite <- E.
Qed.
Lemma anchored_re_iff p b r1 : anchored_re p = Ok (b, r1) <->
  exists dollar q r, anchored p b dollar q /\ re_compile q = Some r /\ (b = true \/ dollar = true -> top_alts q = false) /\ r1 = (if dollar then RSeq r before_end else r).
Proof.
  unfold anchored_re. destruct (anchored_fun p) as (caret & dollar & q & Ha & ->). split.
  - destruct (re_compile q) as [r|] eqn:Er; [|discriminate]. destruct ((caret || dollar) && top_alts q)%bool eqn:Et; [discriminate|]. intros H. injection H as <- <-. exists dollar, q, r. split; [exact Ha|]. split; [exact Er|]. split; [|reflexivity].
    intros K. destruct (top_alts q); [|reflexivity]. rewrite andb_true_r in Et. apply orb_false_iff in Et as [-> ->]. destruct K; discriminate.
  - intros (dollar' & q' & r & Ha' & Er & Ht & ->). destruct (anchored_det _ _ _ _ _ _ _ Ha Ha') as (<- & <- & <-). rewrite Er. replace ((caret || dollar) && top_alts q)%bool with false; [reflexivity|].
    symmetry. destruct caret, dollar; cbn [orb andb]; try apply Ht; auto.
Qed.
Theorem search_iff p s b : re_search p s = Ok b <->
  exists caret dollar q r, anchored p caret dollar q /\ re_compile q = Some r /\ (caret = true \/ dollar = true -> top_alts q = false) /\ (b = true <-> occurs r caret dollar s).
Proof.
  assert (O : forall caret dollar r, (if caret : bool then match rmatch (if dollar : bool then RSeq r before_end else r) s with Some _ => true | None => false end else found (if dollar then RSeq r before_end else r) s) = true <-> occurs r caret dollar s).
  { intros caret dollar r. assert (M : forall a y, matches (if dollar then RSeq r before_end else r) a y <-> matches r a y /\ (dollar = true -> y = [] \/ y = [chr 10])) by (intros a y; destruct dollar; [rewrite matches_end; tauto|split; [intros H; split; [exact H|discriminate]|tauto]]). unfold occurs. destruct caret.
    - transitivity (rmatch (if dollar then RSeq r before_end else r) s <> None); [destruct (rmatch _ s); split; congruence|]. rewrite rmatch_some. split.
      + intros (a & y & -> & H). apply M in H as [H Hd]. exists [], a, y. auto.
      + intros (x & a & y & -> & H & Hx & Hd). rewrite (Hx eq_refl). exists a, y. split; [reflexivity|]. apply M. auto.
    - rewrite found_iff. split.
      + intros (x & t & -> & H). apply rmatch_some in H as (a & y & -> & H). apply M in H as [H Hd]. exists x, a, y. repeat split; auto; discriminate.
      + intros (x & a & y & -> & H & Hx & Hd). exists x, (a ++ y). split; [reflexivity|]. apply rmatch_some. exists a, y. split; [reflexivity|]. apply M. auto. }
  unfold re_search. split.
  - destruct (anchored_re p) as [[caret r1]|e] eqn:E; [|discriminate]. cbn [rbind]. intros H. apply anchored_re_iff in E as (dollar & q & r & Ha & Er & Ht & ->). exists caret, dollar, q, r. split; [exact Ha|]. split; [exact Er|]. split; [exact Ht|]. rewrite <- (O caret dollar r). split; congruence.
  - intros (caret & dollar & q & r & Ha & Er & Ht & Hb). assert (E : anchored_re p = Ok (caret, if dollar then RSeq r before_end else r)) by (apply anchored_re_iff; eauto 8). rewrite E. cbn [rbind]. f_equal. apply Bool.eq_iff_eq_true. rewrite (O caret dollar r). symmetry. exact Hb.
Qed.

(** substituting *)
Lemma adv_sound adv r s s' c : rmatch_adv adv r s = Some (s', c) -> rel r s [] s' c /\ (adv = true -> length s' < length s).
Proof.
  unfold rmatch_adv. intros H. apply (proj1 (mt_both r)) in H as (s1 & c1 & H1 & H2). destruct (adv && _)%bool eqn:E; [discriminate|]. injection H2 as -> ->. split; [exact H1|]. intros ->. cbn [andb] in E. now apply Nat.leb_gt in E.
Qed.
Lemma no_match_iff adv r s : no_match adv r s <-> rmatch_adv adv r s = None.
Proof.
  split.
  - intros H. destruct (rmatch_adv adv r s) as [[s' c]|] eqn:E; [|reflexivity]. exfalso. apply adv_sound in E as [R L]. destruct (rel_suffix _ _ _ _ _ R) as [a ->]. apply (H a s' eq_refl); [|now exists c]. intros Ha ->. specialize (L Ha). cbn [app] in L. lia.
  - intros E a y -> Na [c M]. unfold rmatch_adv in E. apply (proj2 (mt_both r) _ [] _ y c M) in E; [exact E|]. intros d K. destruct (adv && _)%bool eqn:F; [|discriminate K]. apply andb_true_iff in F as [F1 F2]. apply Nat.leb_le in F2. rewrite app_length in F2. specialize (Na F1). destruct a; [congruence|cbn [length] in F2; lia].
Qed.
Lemma preferred_iff adv r s s' c : rmatch_adv adv r s = Some (s', c) -> forall a y, preferred adv r s a y <-> y = s' /\ a = firstn (length s - length s') s.
Proof.
  intros E a y. destruct (rel_suffix _ _ _ _ _ (proj1 (adv_sound _ _ _ _ _ E))) as [w ->]. replace (firstn (length (w ++ s') - length s') (w ++ s')) with w by (rewrite app_length; replace (length w + length s' - length s') with (length w) by lia; now rewrite firstn_app, Nat.sub_diag, firstn_all, app_nil_r).
  unfold preferred. fold (rmatch_adv adv r (w ++ s')). split.
  - intros (Es & c' & E'). assert (y = s') by congruence. subst y. split; [reflexivity|]. now apply app_inv_tail in Es.
  - intros [-> ->]. split; [reflexivity|]. now exists c.
Qed.
Definition steps_left (adv : bool) (s : str) : nat := 2 * length s + (if adv then 0 else 1).
Lemma subn_iff r b tp : forall f n adv s t, steps_left adv s < f -> subn_go f n b adv r tp s = t <-> replaced r b (fun a k => k = expand_template tp a) adv n s t.
Proof.
  induction f as [|f IH]; intros n adv s t Hf; [lia|]. cbn [subn_go]. destruct (match n with Some 0 => true | _ => false end) eqn:En.
  { destruct n as [[|n]|]; try discriminate. split; [intros <-; constructor|]. intros H. inversion H; subst; congruence. }
  assert (Nn : n <> Some 0) by (intros ->; discriminate).
  set (body := match rmatch_adv adv r s with Some (s', _) => match length s - length s' with O => expand_template tp [] ++ subn_go f (option_map Nat.pred n) b true r tp s | _ => expand_template tp (firstn (length s - length s') s) ++ (if b then s' else subn_go f (option_map Nat.pred n) b false r tp s') end | None => if b then s else match s with [] => [] | x :: t0 => x :: subn_go f n b false r tp t0 end end).
  transitivity (body = t).
  { destruct n as [[|n]|]; try discriminate En; subst body; cbv zeta; (destruct (rmatch_adv adv r s) as [[s' c]|]; [|reflexivity]); destruct (length s - length s'); reflexivity. }
  subst body. clear En. unfold steps_left in *. destruct (rmatch_adv adv r s) as [[s' c]|] eqn:E.
  - pose proof (preferred_iff _ _ _ _ _ E) as P. assert (M : ~ no_match adv r s) by (rewrite no_match_iff; congruence). destruct (adv_sound _ _ _ _ _ E) as [R L]. destruct (rel_suffix _ _ _ _ _ R) as [w Es]. destruct w as [|x w].
    + cbn [app] in Es. subst s'. rewrite Nat.sub_diag in *. cbn [firstn] in P. destruct adv; [specialize (L eq_refl); lia|]. split.
      * intros <-. eapply rd_empty; [exact Nn|now apply P|reflexivity|]. apply IH; [lia|reflexivity].
      * intros H. inversion H as [m0 s0|m0 n0 s0 a y0 k t0 H0 H1 H2 H3 Hb H4|m0 n0 s0 a y0 k H0 H1 H2 H3 Hb|n0 s0 k t0 H0 H1 H2 H3|m0 n0 c0 s0 t0 H0 H1 Hb H2|m0 n0 s0 H0 H1 Hb]; subst; try congruence; try contradiction; try (apply P in H1 as [_ ->]; congruence).
        apply IH in H3; [|lia]. now rewrite H3.
    + assert (Ln : exists m, length s - length s' = S m) by (subst s; exists (length w); cbn [app length]; rewrite app_length; lia). destruct Ln as [m Lm]. rewrite Lm in *. assert (Ls : length s' < length s) by lia. clear Es.
      assert (Nf : firstn (S m) s <> []) by (destruct s; discriminate). split.
      * intros <-. destruct b.
        -- eapply rd_only; [exact Nn|apply P; split; reflexivity|exact Nf|reflexivity|reflexivity].
        -- eapply rd_match; [exact Nn|apply P; split; reflexivity|exact Nf|reflexivity|reflexivity|]. apply IH; [destruct adv; lia|reflexivity].
      * intros H. inversion H as [m0 s0|m0 n0 s0 a y0 k t0 H0 H1 H2 H3 Hb H4|m0 n0 s0 a y0 k H0 H1 H2 H3 Hb|n0 s0 k t0 H0 H1 H2 H3|m0 n0 c0 s0 t0 H0 H1 Hb H2|m0 n0 s0 H0 H1 Hb]; subst; try congruence; try contradiction.
        -- apply P in H1 as [-> ->]. apply IH in H4; [|destruct adv; lia]. cbv beta. now rewrite H4.
        -- apply P in H1 as [-> ->]. reflexivity.
        -- exfalso. apply P in H1 as [_ H1]. congruence.
  - assert (M : no_match adv r s) by now apply no_match_iff. assert (P : forall a y, ~ preferred adv r s a y) by (intros a y (_ & c & K); fold (rmatch_adv adv r s) in K; congruence). split.
    + intros <-. destruct b; [apply rd_end; auto|]. destruct s as [|x s]; [apply rd_end; auto|]. cbn [length] in Hf. apply rd_skip; auto. apply IH; [destruct adv; lia|reflexivity].
    + intros H. inversion H as [m0 s0|m0 n0 s0 a y0 k t0 H0 H1 H2 H3 Hb H4|m0 n0 s0 a y0 k H0 H1 H2 H3 Hb|n0 s0 k t0 H0 H1 H2 H3|m0 n0 c0 s0 t0 H0 H1 Hb H2|m0 n0 s0 H0 H1 Hb]; subst; try congruence; try (exfalso; eapply P; eassumption).
      * cbn [length] in Hf. apply IH in H2; [|destruct adv; lia]. now rewrite H2.
      * destruct b; [reflexivity|]. destruct Hb as [Hb| ->]; [discriminate|reflexivity].
Qed.
Lemma replaced_ext r b o1 o2 m n s t : (forall a k, o1 a k <-> o2 a k) -> replaced r b o1 m n s t -> replaced r b o2 m n s t.
Proof. intros H. induction 1; [apply rd_enough|eapply rd_match|eapply rd_only|eapply rd_empty|eapply rd_skip|eapply rd_end]; eauto; now apply H. Qed.
Theorem subn_str_iff p template s count t : re_subn p template s count = Ok t <->
  exists caret dollar q r, anchored p caret dollar q /\ re_compile q = Some r /\ (caret = true \/ dollar = true -> top_alts q = false) /\
    (exists k, SpecPath.writes [] template k) /\
    replaced (if dollar then RSeq r before_end else r) caret (fun a k => SpecPath.writes a template k) false (match count with 0 => None | _ => Some count end) s t.
Proof.
  unfold re_subn. assert (Ls : steps_left false s < S (S (2 * length s))) by (unfold steps_left; lia).
  pose proof (EscapeFacts.template_writes (S (length template)) template ltac:(lia)) as W. unfold EscapeFacts.ptok in W. destruct (parse_template (S (length template)) template) as [tp|e].
  - assert (O : forall a k, k = expand_template tp a <-> SpecPath.writes a template k) by (intros a k; split; [intros ->; apply W|intros H; exact (EscapeFacts.writes_one _ _ _ H _ (W a))]). split.
    + destruct (anchored_re p) as [[b r1]|] eqn:E; [|discriminate]. cbn [rbind]. intros H. apply anchored_re_iff in E as (dollar & q & r & Ha & Er & Ht & ->). exists b, dollar, q, r. repeat (split; [assumption|]). split; [exists (expand_template tp []); apply W|]. apply (replaced_ext _ _ _ _ _ _ _ _ O). apply subn_iff with (f := S (S (2 * length s))); [exact Ls|congruence].
    + intros (b & dollar & q & r & Ha & Er & Ht & _ & H). assert (E : anchored_re p = Ok (b, if dollar then RSeq r before_end else r)) by (apply anchored_re_iff; eauto 8). rewrite E. cbn [rbind]. apply (replaced_ext _ _ _ _ _ _ _ _ (fun a k => iff_sym (O a k))) in H. apply subn_iff with (f := S (S (2 * length s))) in H; [|exact Ls]. now rewrite H.
  - destruct (W []) as [-> N]. split; [destruct (anchored_re p) as [[b r1]|]; [|discriminate]; cbn [rbind]; destruct (existsb _ p); discriminate|]. intros (b & d & q & r & _ & _ & _ & (k & K) & _). now elim (N k).
Qed.
