(** * LineFacts: the expression generated for a template line *)
From Verif Require Import PyBase DictFacts Regex SpecRegex RegexFacts Template FormRegex SpecLine SpecForm StrFacts ReadFacts LitFacts.
Local Open Scope string_scope.
Local Open Scope list_scope.

(** ** no doubled character *)
Lemma containsb_cons x c s : containsb [x; x] (c :: s) = false <->
  (match s with d :: _ => (Ascii.eqb x c && Ascii.eqb x d)%bool = false | [] => True end) /\ containsb [x; x] s = false.
Proof.
  cbn [containsb prefixb]. destruct s as [|d s].
  - rewrite Bool.andb_false_r. cbn. tauto.
  - rewrite Bool.andb_true_r. rewrite Bool.orb_false_iff. reflexivity.
Qed.
Lemma nd_cons x c s : nd x (c :: s) <-> (match s with d :: _ => (Ascii.eqb x c && Ascii.eqb x d)%bool = false | [] => Ascii.eqb x c = false end) /\ nd x s.
Proof.
  unfold nd. cbn [app]. rewrite containsb_cons. destruct s as [|d s]; cbn [app]; [|reflexivity]. rewrite Ascii.eqb_refl, Bool.andb_true_r. reflexivity.
Qed.
Lemma nd_nil x : nd x [].
Proof. unfold nd. cbn. now rewrite Bool.andb_false_r. Qed.
Lemma nd_app x a b : nd x a -> nd x b -> nd x (a ++ b).
Proof.
  intros Ha Hb. induction a as [|c a IH]; [exact Hb|]. apply nd_cons in Ha as [H1 H2]. cbn [app]. apply nd_cons. split; [|now apply IH].
  destruct a as [|d a]; cbn [app]; [|exact H1]. rewrite H1. now destruct b.
Qed.
Lemma nd_prefix x s t : nd x s -> s <> [] -> prefixb [x; x] (s ++ x :: t) = false.
Proof.
  intros H Hn. destruct s as [|c s]; [congruence|]. apply nd_cons in H as [H _]. cbn [app]. destruct s as [|d s]; cbn [app prefixb].
  - now rewrite H.
  - rewrite Bool.andb_true_r. exact H.
Qed.
Lemma nd_suffix x a b : nd x (a ++ b) -> nd x b.
Proof. induction a as [|c a IH]; intros H; [exact H|]. apply IH. now apply nd_cons in H. Qed.
Lemma nd_contains x s : nd x s -> containsb [x; x] s = false.
Proof.
  induction s as [|c s IH]; intros H; [reflexivity|]. apply nd_cons in H as [H1 H2]. apply containsb_cons. split; [now destruct s|now apply IH].
Qed.
Lemma nd_all x s : Forall (fun c => c <> x) s -> nd x s.
Proof.
  induction 1 as [|c s Hc _ IH]; [apply nd_nil|]. apply nd_cons. assert (E : Ascii.eqb x c = false) by (apply Ascii.eqb_neq; congruence).
  rewrite E. split; [now destruct s|exact IH].
Qed.

(** ** the variables of a line *)
Lemma any_all c : set_match false [CNSpaceC; CSpaceC] c = true.
Proof. unfold set_match. cbn [existsb citem_match xorb]. destruct (is_space c); reflexivity. Qed.
Lemma star_lazy (k : str -> caps -> mres) w : forall n t c, length (w ++ t) <= n ->
  (forall a b, w = a ++ b -> b <> [] -> k (b ++ t) c = None) -> k t c <> None ->
  star_mt any_char false k n (w ++ t) c = k t c.
Proof.
  induction w as [|x w IH]; intros n t c Hl Hk Ht; cbn [app].
  - destruct n; cbn [star_mt]; destruct (k t c); congruence.
  - cbn [app length] in Hl. destruct n as [|n]; [lia|]. cbn [star_mt]. rewrite (Hk [] (x :: w) eq_refl ltac:(discriminate) : k (x :: w ++ t) c = None).
    unfold any_char. rewrite mt_set, any_all. assert (L : Nat.ltb (length (w ++ t)) (length (x :: w ++ t)) = true) by (apply Nat.ltb_lt; cbn [length]; lia).
    rewrite L. fold any_char. apply IH; [lia| |exact Ht]. intros a b E Hb. apply (Hk (x :: a) b); [now rewrite E|exact Hb].
Qed.
Lemma rmatch_var v rest : var_text v -> rmatch var_re (brace v ++ rest) = Some (rest, [($"1", v)]).
Proof.
  intros [Hv Hd]. destruct v as [|x w]; [congruence|]. cbn [tl] in Hd. unfold rmatch, var_re. rewrite mt_seq, mt_lit_prefix'.
  unfold brace. change (prefixb $"{{" (($"{{" ++ (x :: w) ++ $"}}") ++ rest)) with true. cbn iota.
  change (skipn (length $"{{") (($"{{" ++ (x :: w) ++ $"}}") ++ rest)) with (x :: (w ++ $"}}") ++ rest).
  rewrite mt_seq.
  change (mt (RGroup $"1" (rplus_lazy any_char)) ?s ?c ?k) with (mt (rplus_lazy any_char) s c (fun s' c' => k s' (cap_set $"1" (firstn (length s - length s') s) c'))).
  cbv beta. unfold rplus_lazy. rewrite mt_seq. unfold any_char at 1. rewrite mt_set, any_all, mt_star.
  set (k := fun s' (c' : caps) => _). rewrite <- app_assoc.
  assert (Hk : forall u c, k u c = if prefixb $"}}" u then Some (skipn 2 u, cap_set $"1" (firstn (length (x :: w ++ $"}}" ++ rest) - length u) (x :: w ++ $"}}" ++ rest)) c) else None).
  { intros u c. unfold k. rewrite mt_lit_prefix', <- !app_assoc. reflexivity. }
  rewrite star_lazy.
  - rewrite Hk. change (prefixb $"}}" ($"}}" ++ rest)) with true. cbn iota. change (skipn 2 ($"}}" ++ rest)) with rest. f_equal. f_equal. cbn [cap_set]. f_equal. f_equal.
    rewrite app_comm_cons. rewrite app_length. replace (length (x :: w) + length ($"}}" ++ rest) - length ($"}}" ++ rest)) with (length (x :: w)) by lia.
    now rewrite firstn_app, Nat.sub_diag, firstn_all, firstn_O, app_nil_r.
  - reflexivity.
  - intros a b -> Hb. rewrite Hk. rewrite (nd_prefix cls b (cls :: rest) (nd_suffix cls a b Hd) Hb : prefixb $"}}" (b ++ $"}}" ++ rest) = false). reflexivity.
  - rewrite Hk. discriminate.
Qed.
Lemma rmatch_novar s : prefixb $"{{" s = false -> rmatch var_re s = None.
Proof. intros H. unfold rmatch, var_re. rewrite mt_seq, mt_lit_prefix', H. reflexivity. Qed.

Fixpoint spans (lit : str) (parts : list (str * str)) (pos : nat) : list (nat * nat) :=
  match parts with
  | [] => []
  | (v, l) :: ps => let a := pos + length lit in let b := a + length (brace v) in (a, b) :: spans l ps b
  end.
Lemma finditer_skip r t : forall lit n pos, length lit < n ->
  (forall a b, lit = a ++ b -> b <> [] -> rmatch r (b ++ t) = None) ->
  finditer_go n r (lit ++ t) pos = finditer_go (n - length lit) r t (pos + length lit).
Proof.
  induction lit as [|c lit IH]; intros n pos Hl Hr; cbn [app length] in *.
  - now rewrite Nat.sub_0_r, Nat.add_0_r.
  - destruct n as [|n]; [lia|]. cbn [finditer_go]. rewrite (Hr [] (c :: lit) eq_refl ltac:(discriminate) : rmatch r (c :: lit ++ t) = None).
    rewrite IH; [f_equal; lia|lia|]. intros a b E Hb. apply (Hr (c :: a) b); [now rewrite E|exact Hb].
Qed.
Lemma finditer_none r : forall s n pos, (forall a b, s = a ++ b -> rmatch r b = None) -> finditer_go n r s pos = [].
Proof.
  induction s as [|c s IH]; intros n pos H; destruct n as [|n]; try reflexivity; cbn [finditer_go].
  - now rewrite (H [] [] eq_refl).
  - rewrite (H [] (c :: s) eq_refl). apply IH. intros a b E. apply (H (c :: a) b). now rewrite E.
Qed.
Lemma brace_len v : length (brace v) = 4 + length v.
Proof. unfold brace. rewrite !app_length. cbn. lia. Qed.
Lemma finditer_body parts : forall lit n pos, cut lit parts -> length (body lit parts) < n ->
  map (fun m => (m_start m, m_end m)) (finditer_go n var_re (body lit parts) pos) = spans lit parts pos /\
  flat_map (fun m => map snd (m_caps m)) (finditer_go n var_re (body lit parts) pos) = map fst parts.
Proof.
  induction parts as [|[v l] ps IH]; intros lit n pos Hc Hn.
  - cbn [body] in *. rewrite app_nil_r in *. rewrite finditer_none; [split; reflexivity|]. intros a b E. apply rmatch_novar. cbn [cut] in Hc.
    apply Bool.not_true_is_false. intros K. apply prefixb_app in K as [u ->]. subst lit.
    assert (containsb $"{{" (a ++ $"{{" ++ u) = true) by (apply containsb_spec; eauto). congruence.
  - destruct Hc as (H1 & H2 & H3). cbn [body] in *. rewrite !app_length, brace_len in Hn.
    rewrite finditer_skip.
    + remember (n - length lit) as m eqn:Em. destruct m as [|m]; [lia|]. cbn [finditer_go].
      rewrite (rmatch_var v (body l ps) H2). rewrite !app_length, brace_len.
      replace (4 + length v + length (body l ps) - length (body l ps)) with (S (3 + length v)) by lia. cbn [map flat_map].
      destruct (IH l m (pos + length lit + S (3 + length v)) H3 ltac:(lia)) as [E1 E2].
      rewrite E1, E2. cbn [m_start m_end m_caps map snd app fst]. split; [|reflexivity]. cbn [spans]. rewrite brace_len.
      replace (4 + length v) with (S (3 + length v)) by lia. reflexivity.
    + lia.
    + intros a b -> Hb. apply rmatch_novar. apply nd_suffix in H1.
      change (brace v ++ body l ps) with (opn :: opn :: (v ++ $"}}") ++ body l ps). exact (nd_prefix opn b _ H1 Hb).
Qed.
Lemma spans_body lit parts : cut lit parts -> spans_of (body lit parts) = spans lit parts 0.
Proof. intros H. apply (finditer_body parts lit (S (length (body lit parts))) 0 H). lia. Qed.
Lemma vars_body lit parts : cut lit parts -> vars_in (body lit parts) = map fst parts.
Proof. intros H. apply (finditer_body parts lit (S (length (body lit parts))) 0 H). lia. Qed.

(** ** the escaped line *)
Fixpoint esc_body (xs xd : bool) (lit : str) (parts : list (str * str)) : str :=
  lit_source xs xd lit ++ match parts with [] => [] | (v, l) :: ps => brace v ++ esc_body xs xd l ps end.
Lemma esc_chunks_body xs xd parts : forall lit pre,
  esc_chunks xs xd (pre ++ body lit parts) (spans lit parts (length pre)) (length pre) = esc_body xs xd lit parts.
Proof.
  induction parts as [|[v l] ps IH]; intros lit pre; cbn [spans esc_chunks body esc_body].
  - rewrite skipn_app_exact. now rewrite !app_nil_r.
  - rewrite skipn_app_exact. replace (length pre + length lit - length pre) with (length lit) by lia.
    rewrite firstn_app, Nat.sub_diag, firstn_all, firstn_O, app_nil_r. f_equal.
    replace (pre ++ lit ++ brace v ++ body l ps) with ((pre ++ lit) ++ brace v ++ body l ps) by now rewrite <- app_assoc.
    replace (length pre + length lit) with (length (pre ++ lit)) by apply app_length.
    rewrite skipn_app_exact. replace (length (pre ++ lit) + length (brace v) - length (pre ++ lit)) with (length (brace v)) by lia.
    rewrite firstn_app, Nat.sub_diag, firstn_all, firstn_O, app_nil_r. f_equal.
    specialize (IH l ((pre ++ lit) ++ brace v)). rewrite app_length in IH. rewrite <- app_assoc in IH. exact IH.
Qed.
Lemma lstrip_indent indent s : Forall (fun c => is_space c = true) indent -> (match s with [] => True | c :: _ => is_space c = false end) ->
  lstrip (indent ++ s) = s /\ indent_of (indent ++ s) = indent.
Proof.
  intros Hi Hs. assert (E : lstrip (indent ++ s) = s). { unfold lstrip. rewrite lstrip_app by exact Hi. now apply lstrip_id. }
  split; [exact E|]. unfold indent_of. rewrite E, app_length. replace (length indent + length s - length s) with (length indent) by lia.
  now rewrite firstn_app, Nat.sub_diag, firstn_all, firstn_O, app_nil_r.
Qed.

(** ** replacing the variables *)
Lemma tok_src_head xs xd c t : exists d u, tok_src xs xd c ++ t = d :: u /\ d <> opn.
Proof.
  unfold tok_src. destruct (negb xs && Ascii.eqb c space)%bool; [eexists _, _; split; [reflexivity|discriminate]|].
  destruct (negb xd && is_dec c)%bool; [eexists _, _; split; [reflexivity|discriminate]|]. unfold esc_c. destruct (special c) eqn:E.
  - eexists _, _. split; [reflexivity|discriminate].
  - eexists _, _. split; [reflexivity|]. intros ->. discriminate.
Qed.
Lemma nd_lit_source xs xd l : nd opn l -> nd opn (lit_source xs xd l).
Proof.
  rewrite lit_source_norm.
  assert (H : forall n l, length l <= n -> nd opn l -> nd opn (flat_map (tok_src xs xd) (norm xs xd l))).
  { clear l. induction n as [|n IH]; intros l Hl Hd; (destruct l as [|c t]; [apply nd_nil|]); [cbn in Hl; lia|]. cbn [length] in Hl.
    destruct (run_of xs xd c) as [r|] eqn:Er.
    - rewrite (norm_run xs xd c t r Er). set (p := fun d => _). cbn [flat_map]. apply nd_app.
      + unfold run_of in Er. destruct (negb xs && blank c)%bool eqn:E1.
        * injection Er as <-. apply Bool.andb_true_iff in E1 as [Hx _]. unfold tok_src. rewrite Hx. reflexivity.
        * destruct (negb xd && is_dec c)%bool eqn:E2; [|discriminate]. injection Er as <-. apply Bool.andb_true_iff in E2 as [Hx _].
          unfold tok_src. rewrite Hx. change (Ascii.eqb "0" space) with false. rewrite Bool.andb_false_r. reflexivity.
      + apply IH; [pose proof (lstrip_len p t); lia|]. destruct (lstrip_split p t) as (w & E & _). apply nd_cons in Hd as [_ Hd]. rewrite E in Hd. eapply nd_suffix, Hd.
    - rewrite (norm_plain xs xd c t Er). cbn [flat_map]. apply nd_cons in Hd as [H1 H2]. specialize (IH t ltac:(lia) H2).
      assert (Et : tok_src xs xd c = esc_c c).
      { unfold tok_src, run_of in *. destruct (negb xs && blank c)%bool eqn:E1; [discriminate|]. destruct (negb xd && is_dec c)%bool eqn:E2; [discriminate|].
        destruct xs; [reflexivity|]. cbn [negb andb] in *. now rewrite (blank_not_space c E1). }
      rewrite Et. destruct (Ascii.eqb opn c) eqn:Ec.
      + apply Ascii.eqb_eq in Ec. subst c. destruct t as [|d t]; [discriminate H1|].
        change (esc_c opn) with [bs; opn]. cbn [app]. apply nd_cons. split; [reflexivity|]. apply nd_cons. split; [|exact IH].
        destruct (norm xs xd (d :: t)) as [|d' n'] eqn:En; [now apply norm_nil in En|]. cbn [flat_map].
        destruct (tok_src_head xs xd d' (flat_map (tok_src xs xd) n')) as (y & u & -> & Hy). rewrite Ascii.eqb_refl. cbn [andb].
        apply Ascii.eqb_neq. congruence.
      + apply nd_app; [|exact IH]. unfold esc_c. destruct (special c).
        * apply nd_cons. split; [reflexivity|]. apply nd_cons. split; [exact Ec|apply nd_nil].
        * apply nd_cons. split; [exact Ec|apply nd_nil]. }
  apply (H (length l)). lia.
Qed.
Lemma brace_cons v t : brace v ++ t = opn :: opn :: (v ++ $"}}") ++ t.
Proof. reflexivity. Qed.
Lemma prefixb_brace v s : prefixb (brace v) s = true -> prefixb [opn; opn] s = true.
Proof. intros H. apply prefixb_app in H as [t ->]. reflexivity. Qed.
Lemma nd_nobrace a v t : nd opn a -> a <> [] -> prefixb (brace v) (a ++ opn :: t) = false.
Proof.
  intros H Hn. apply Bool.not_true_is_false. intros K. apply prefixb_brace in K. rewrite (nd_prefix opn a t H Hn) in K. discriminate.
Qed.
Lemma replace_at v new rest : forall done, nd opn done -> replace_one (brace v) new (done ++ brace v ++ rest) = done ++ new ++ rest.
Proof.
  induction done as [|c done IH]; intros H.
  - cbn [app]. assert (E : prefixb (brace v) (brace v ++ rest) = true) by (apply prefixb_app; eauto).
    destruct (brace v ++ rest) eqn:Eb; [discriminate|]. cbn [replace_one]. rewrite E. rewrite <- Eb, skipn_app_exact. reflexivity.
  - pose proof (nd_nobrace (c :: done) v (opn :: (v ++ $"}}") ++ rest) H ltac:(discriminate)) as E. rewrite <- brace_cons in E.
    cbn [app replace_one]. cbn [app] in E. rewrite E. rewrite IH; [reflexivity|]. now apply nd_cons in H.
Qed.
Lemma find_brace v rest : forall done, nd opn done -> find_at (brace v) (done ++ brace v ++ rest) = Some (length done).
Proof.
  induction done as [|c done IH]; intros H.
  - cbn [app]. assert (E : prefixb (brace v) (brace v ++ rest) = true) by (apply prefixb_app; eauto).
    destruct (brace v ++ rest) eqn:Eb; [discriminate|]. cbn [find_at]. now rewrite E.
  - pose proof (nd_nobrace (c :: done) v (opn :: (v ++ $"}}") ++ rest) H ltac:(discriminate)) as E. rewrite <- brace_cons in E.
    cbn [app find_at]. cbn [app] in E. rewrite E. rewrite IH; [reflexivity|]. now apply nd_cons in H.
Qed.
Lemma no_brace_prefix v s : containsb [opn; opn] s = false -> prefixb (brace v) s = false.
Proof.
  intros H. apply Bool.not_true_is_false. intros K. apply prefixb_brace in K. destruct s; cbn [containsb] in H; rewrite K in H; discriminate.
Qed.
Lemma replace_none v new : forall s, containsb [opn; opn] s = false -> replace_one (brace v) new s = s.
Proof.
  induction s as [|c s IH]; intros H; cbn [replace_one]; rewrite (no_brace_prefix v _ H); [reflexivity|]. rewrite IH; [reflexivity|]. now apply containsb_cons in H.
Qed.
Lemma find_none v : forall s, containsb [opn; opn] s = false -> find_at (brace v) s = None.
Proof.
  induction s as [|c s IH]; intros H; cbn [find_at]; rewrite (no_brace_prefix v _ H); [reflexivity|]. rewrite IH; [reflexivity|]. now apply containsb_cons in H.
Qed.
Lemma contains_app x a b : containsb [x; x] a = false -> containsb [x; x] b = false -> (match b with c :: _ => c <> x | [] => True end) -> containsb [x; x] (a ++ b) = false.
Proof.
  intros Ha Hb Hh. induction a as [|c a IH]; [exact Hb|]. apply containsb_cons in Ha as [H1 H2]. cbn [app]. apply containsb_cons. split; [|now apply IH].
  destruct a as [|d a]; cbn [app]; [|exact H1]. destruct b as [|d b]; [exact I|]. assert (E : Ascii.eqb x d = false) by (apply Ascii.eqb_neq; congruence). now rewrite E, Bool.andb_false_r.
Qed.
Lemma contains_prefix x a b : containsb [x; x] (a ++ b) = false -> containsb [x; x] a = false.
Proof.
  intros H. apply Bool.not_true_is_false. intros K. apply containsb_spec in K as (u & w & ->).
  assert (containsb [x; x] ((u ++ [x; x] ++ w) ++ b) = true); [|congruence]. apply containsb_spec. exists u, (w ++ b). now rewrite <- !app_assoc.
Qed.

(** ** a trailing blank token *)
Definition ends_blank (s : str) : bool := prefixb (rev blank_src) (rev s).
Lemma strip_blank_no s : ends_blank s = false -> strip_blank_src s = s.
Proof. unfold ends_blank, strip_blank_src. intros ->. reflexivity. Qed.
Lemma strip_blank_yes s : strip_blank_src (s ++ blank_src) = s.
Proof.
  unfold strip_blank_src. rewrite rev_app_distr. assert (E : prefixb (rev blank_src) (rev blank_src ++ rev s) = true) by (apply prefixb_app; eauto).
  rewrite E, app_length. replace (length s + length blank_src - length blank_src) with (length s) by lia. now rewrite firstn_app, Nat.sub_diag, firstn_all, firstn_O, app_nil_r.
Qed.
Lemma ends_blank_last a c : c <> "+"%char -> ends_blank (a ++ [c]) = false.
Proof.
  intros H. unfold ends_blank. rewrite rev_app_distr. cbn [rev app]. change (rev blank_src) with ("+"%char :: rev $"[ \t]"). cbn [prefixb].
  assert (E : Ascii.eqb "+" c = false) by (apply Ascii.eqb_neq; congruence). now rewrite E.
Qed.
Lemma ends_blank_last2 a d c : d <> "]"%char -> ends_blank (a ++ [d; c]) = false.
Proof.
  intros H. unfold ends_blank. rewrite rev_app_distr. cbn [rev app]. change (rev blank_src) with ("+"%char :: "]"%char :: rev $"[ \t"). cbn [prefixb].
  assert (E : Ascii.eqb "]" d = false) by (apply Ascii.eqb_neq; congruence). rewrite E. cbn [andb]. now rewrite Bool.andb_false_r.
Qed.
Lemma ends_blank_tok xs xd a c : (negb xs && Ascii.eqb c space)%bool = false -> ends_blank (a ++ tok_src xs xd c) = false.
Proof.
  intros H. unfold tok_src. rewrite H. destruct (negb xd && is_dec c)%bool.
  - change digit_src with ([bs] ++ ["d"%char; "+"%char]). rewrite app_assoc. apply ends_blank_last2. discriminate.
  - unfold esc_c. destruct (special c) eqn:E; [apply ends_blank_last2; discriminate|]. apply ends_blank_last. intros ->. discriminate.
Qed.
Lemma norm_app_blank xd u w : w <> [] -> Forall (fun x => blank x = true) w -> (forall a c, u = a ++ [c] -> blank c = false) ->
  norm false xd (u ++ w) = norm false xd u ++ [space].
Proof.
  intros Hw Hb. assert (H : forall n u, length u <= n -> (forall a c, u = a ++ [c] -> blank c = false) -> norm false xd (u ++ w) = norm false xd u ++ [space]).
  { clear u. induction n as [|n IH]; intros u Hl Hu.
    - destruct u; [|cbn in Hl; lia]. cbn [app norm]. destruct w as [|x w]; [congruence|]. inversion Hb; subst.
      rewrite (norm_run false xd x w space) by (unfold run_of; now rewrite H1). rewrite (lstrip_ext _ blank) by apply same_blank.
      rewrite <- (app_nil_r w), lstrip_app by assumption. reflexivity.
    - destruct u as [|c u]; [apply (IH []); [cbn; lia|exact Hu]|]. cbn [length] in Hl.
      assert (Hu' : forall a d, u = a ++ [d] -> blank d = false) by (intros a d E; apply (Hu (c :: a) d); now rewrite E).
      cbn [app]. destruct (run_of false xd c) as [r|] eqn:Er.
      + rewrite !(norm_run false xd c _ r Er). set (p := fun d => _).
        assert (E : lstrip_p p (u ++ w) = lstrip_p p u ++ w /\ (forall a d, lstrip_p p u = a ++ [d] -> blank d = false)).
        { destruct (lstrip_split p u) as (z & Ez & Hz). rewrite Ez at 1. rewrite <- app_assoc, lstrip_app by exact Hz. split.
          - destruct (lstrip_p p u) as [|y u'] eqn:Eu.
            + cbn [app]. destruct w as [|x w]; [congruence|]. inversion Hb; subst. cbn [lstrip_p]. assert (Ep : p x = false); [|now rewrite Ep].
              unfold p. unfold run_of. cbn [negb andb]. rewrite H1. cbn [same_run]. rewrite app_nil_r in *.
              destruct z as [|y u].
              * apply Ascii.eqb_neq. intros ->. assert (blank c = false) by (apply (Hu [] c); reflexivity).
                unfold run_of in Er. rewrite H in Er. cbn in Er. destruct (negb xd && is_dec c)%bool; discriminate.
              * destruct (exists_last (l := y :: u) ltac:(discriminate)) as (a & d & Ed). rewrite Ed in *. apply Forall_app in Hz as [_ Hz]. inversion Hz as [|? ? Hd _]; subst.
                assert (Eb : blank d = false) by (apply (Hu' a d); reflexivity). apply Ascii.eqb_neq. intros ->. unfold p in Hd. rewrite same_blank in Hd. congruence.
            + cbn [app lstrip_p]. pose proof (lstrip_head p u) as K. rewrite Eu in K. now rewrite K.
          - intros a d E. apply (Hu' (z ++ a) d). rewrite Ez, E. apply app_assoc. }
        destruct E as [-> E]. rewrite IH; [reflexivity| |exact E]. pose proof (lstrip_len p u). lia.
      + rewrite !(norm_plain false xd c _ Er). rewrite IH; [reflexivity|lia|exact Hu']. }
  apply (H (length u)). lia.
Qed.
Lemma rstrip_split p s : exists w, s = rstrip_p p s ++ w /\ Forall (fun x => p x = true) w /\ forall a c, rstrip_p p s = a ++ [c] -> p c = false.
Proof.
  unfold rstrip_p. destruct (lstrip_split p (rev s)) as (w & E & H). exists (rev w). split; [|split].
  - rewrite <- rev_app_distr, <- E. symmetry. apply rev_involutive.
  - apply Forall_forall. intros x Hx. apply in_rev in Hx. rewrite Forall_forall in H. now apply H.
  - intros a c E2. pose proof (lstrip_head p (rev s)) as K. destruct (lstrip_p p (rev s)) as [|y u]; [destruct a; discriminate|]. cbn [rev] in E2.
    apply app_inj_tail in E2 as [_ ->]. exact K.
Qed.
Lemma norm_snoc xs xd z : forall b, exists a y, norm xs xd (b ++ [z]) = a ++ [y] /\ run_of xs xd y = run_of xs xd z.
Proof.
  assert (H : forall n b, length b <= n -> exists a y, norm xs xd (b ++ [z]) = a ++ [y] /\ run_of xs xd y = run_of xs xd z); [|intros b; now apply (H (length b))].
  induction n as [|n IH]; intros b Hl; (destruct b as [|c b]; [cbn [app]|]).
  1,3: destruct (run_of xs xd z) as [r|] eqn:E; [exists [], r; cbn [norm]; rewrite E; split; [reflexivity|]; now rewrite (run_rep xs xd z r E)|
    exists [], z; cbn [norm]; rewrite E; split; [reflexivity|now rewrite ?E]].
  1: cbn in Hl; lia. cbn [length] in Hl. cbn [app]. destruct (run_of xs xd c) as [r|] eqn:Er.
  - rewrite (norm_run xs xd c _ r Er). set (p := fun d : ascii => same_run (Some r) (run_of xs xd d)). destruct (lstrip_split p (b ++ [z])) as (w & Ew & Hw). destruct (lstrip_p p (b ++ [z])) as [|y u] eqn:Eu.
    + exists [], r. split; [reflexivity|]. rewrite app_nil_r in Ew. rewrite <- Ew in Hw. apply Forall_app in Hw as [_ Hw]. inversion Hw as [|? ? K _]; subst.
      apply same_run_eq in K. now rewrite K, (run_rep xs xd c r Er).
    + destruct (exists_last (l := y :: u) ltac:(discriminate)) as (b' & z' & Eb'). rewrite Eb' in *. rewrite app_assoc in Ew. apply app_inj_tail in Ew as [Ew <-].
      destruct (IH b') as (a & y' & E1 & E2); [subst b; rewrite app_length in Hl; lia|]. exists (r :: a), y'. now rewrite E1.
  - rewrite (norm_plain xs xd c _ Er). destruct (IH b ltac:(lia)) as (a & y & E1 & E2). exists (c :: a), y. now rewrite E1.
Qed.
Lemma strip_lit xs xd pre l : ends_blank pre = false -> strip_blank_src (pre ++ lit_source xs xd l) = pre ++ lit_source xs xd (chop xs l).
Proof.
  intros Hp. unfold chop. destruct xs.
  - apply strip_blank_no. rewrite lit_source_norm. destruct (norm true xd l) as [|c n] eqn:E; [cbn [flat_map]; now rewrite app_nil_r|].
    destruct (exists_last (l := c :: n) ltac:(discriminate)) as (a & d & ->). rewrite flat_map_app. cbn [flat_map]. rewrite app_nil_r, app_assoc. now apply ends_blank_tok.
  - destruct (rstrip_split blank l) as (w & E & Hw & Hl). rewrite E at 1. destruct w as [|x w].
    + rewrite app_nil_r. apply strip_blank_no. rewrite lit_source_norm. rewrite app_nil_r in E. rewrite <- E in *.
      destruct (norm false xd l) as [|c n] eqn:En; [cbn [flat_map]; now rewrite app_nil_r|].
      destruct (exists_last (l := c :: n) ltac:(discriminate)) as (a & d & Ed). rewrite Ed, flat_map_app. cbn [flat_map]. rewrite app_nil_r, app_assoc.
      apply ends_blank_tok. cbn [negb andb]. apply Ascii.eqb_neq. intros ->. 
      destruct l as [|y l]; [discriminate|]. destruct (exists_last (l := y :: l) ltac:(discriminate)) as (b & z & Ez).
      assert (Hz : blank z = false) by (apply (Hl b z); exact Ez).
      destruct (norm_snoc false xd z b) as (a' & y' & E1 & E2). rewrite <- Ez, En, Ed in E1. apply app_inj_tail in E1 as [_ <-].
      unfold run_of in E2. rewrite Hz in E2. cbn [negb andb] in E2. destruct (negb xd && is_dec z)%bool; discriminate.
    + rewrite lit_source_norm, (norm_app_blank xd (rstrip_p blank l) (x :: w)) by (discriminate || assumption). rewrite flat_map_app, app_assoc. cbn [flat_map]. rewrite app_nil_r.
      change (tok_src false xd space) with blank_src. rewrite strip_blank_yes. now rewrite <- lit_source_norm.
Qed.
