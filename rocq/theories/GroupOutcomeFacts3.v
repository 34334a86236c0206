(** * GroupOutcomeFacts3: itemize, macro, sformat, to_ip and lookup (C134). *)
From Verif Require Import PyBase DictFacts StrFacts Regex Tree Results ResultsFacts MatchFuncs SpecMatch MatchFacts GroupFuncs SpecGroup GroupFacts SpecVariable SpecText TextFacts InputFacts SpecCalls SpecOutcome OutcomeFacts OutcomeFacts2 SpecGroupOutcome GroupOutcomeFacts GroupOutcomeFacts2.
Local Open Scope string_scope.
Local Open Scope list_scope.

(** ** itemize *)
Lemma lstrip_len p (s : str) : exists a, s = a ++ lstrip_p p s /\ Forall (fun c => p c = true) a.
Proof.
  induction s as [|c s (a & E & F)]; [exists []; split; [reflexivity|constructor]|]. cbn [lstrip_p]. destruct (p c) eqn:P; [|exists []; split; [reflexivity|constructor]].
  exists (c :: a). split; [cbn [app]; now rewrite <- E|now constructor].
Qed.
Lemma one_star_is p : one_star p = single_star p.
Proof.
  unfold one_star, single_star, split_stars. cbn [fst snd]. change (is_c star_c) with (fun c => Ascii.eqb star_c c). change (rstrip_p (Ascii.eqb star_text) p) with (rstrip_p (fun c => Ascii.eqb star_c c) p).
  set (q := rstrip_p (fun c => Ascii.eqb star_c c) p).
  destruct (Nat.leb 2 (length p - length q) || Nat.eqb (length p - length q) 0)%bool eqn:E; [reflexivity|].
  apply Bool.orb_false_iff in E as [E1 E2]. apply PeanoNat.Nat.leb_gt in E1. apply PeanoNat.Nat.eqb_neq in E2.
  destruct (lstrip_len (fun c => Ascii.eqb star_c c) (rev p)) as (a & Ha & Fa). assert (P : p = q ++ rev a).
  { rewrite <- (rev_involutive p), Ha, rev_app_distr. reflexivity. }
  assert (L : length p = length q + length a) by (rewrite P at 1; now rewrite app_length, rev_length).
  destruct a as [|c [|c' a]]; cbn [length] in L; try lia. inversion Fa as [|? ? Fc _]. apply Ascii.eqb_eq in Fc. rewrite P, <- Fc. reflexivity.
Qed.
Lemma starred_iff p r : one_star_last p = r <-> starred p r.
Proof.
  unfold one_star_last. split.
  - intros <-. destruct (opt_last p) as [x|] eqn:E; [|apply opt_last_None in E as ->; constructor]. apply opt_last_Some in E as [l ->].
    rewrite set_last_app, one_star_is. constructor.
  - intros K; destruct K as [a p|]; [|reflexivity]. rewrite opt_last_app, set_last_app, one_star_is. reflexivity.
Qed.
Lemma pair_in_iff v r : pair_of v = r <-> pair_in v r.
Proof.
  unfold pair_of. revert r. apply gives.
  - destruct (iter v) as [l|e] eqn:E; cbn [rbind]; apply iterates_iff in E; [|now apply pi_none].
    destruct l as [|k [|x [|y l]]]; try (eapply pi_length; [exact E|discriminate]).
    destruct (looked_dec k) as [[k' K]|K]; rewrite K; cbn [rbind]; [eapply pi_pair; [exact E|now apply looked_iff]|eapply pi_no_key; [exact E|now apply looked_bad]].
  - intros a b H K. destruct H, K; repeat match goal with A : iterates v _ |- _ => apply iterates_iff in A | A : looked_up _ _ |- _ => apply looked_iff in A | A : forall k, ~ looked_up _ k |- _ => apply looked_bad in A end;
      try congruence; try (match goal with A : iter v = Ok ?x, B : iter v = Ok ?y |- _ => assert (x = y) by congruence end; subst; try contradiction; try congruence).
    all: try (match goal with A : [_; _] = [_; _] |- _ => injection A as ? ?; subst; congruence end).
    all: exfalso; match goal with A : length [_; _] <> 2 |- _ => apply A; reflexivity end.
Qed.
Lemma pairs_iff l : forall d r, rfold (fun d x => do (k, y) <- pair_of x; Ok (dset d k y)) l d = r <-> pairs_added l d r.
Proof.
  induction l as [|v l IH]; intros d r; cbn [rfold].
  - split; [intros <-; constructor|intros K; now inversion K].
  - destruct (pair_of v) as [[k x]|e] eqn:E; cbn [rbind]; apply pair_in_iff in E; split.
    + intros K. eapply pd_next; [exact E|now apply IH].
    + intros K; inversion K; subst; match goal with A : pair_in v _ |- _ => apply pair_in_iff in A; apply pair_in_iff in E; rewrite E in A end; [|discriminate]. apply IH. congruence.
    + intros <-. now apply pd_bad.
    + intros K; inversion K; subst; match goal with A : pair_in v _ |- _ => apply pair_in_iff in A; apply pair_in_iff in E; congruence end.
Qed.
Lemma updated_iff d v r : update_any d v = r <-> updated d v r.
Proof.
  assert (E : not_dict v -> update_any d v = do l <- iter v; rfold (fun d x => do (k, y) <- pair_of x; Ok (dset d k y)) l d) by (intros H; destruct v; try reflexivity; absurd).
  destruct (dict_dec v) as [[e ->]|H].
  - cbn [update_any]. split; [intros <-; constructor|]. intros K; inversion K; subst; try reflexivity; absurd.
  - rewrite (E H). split.
    + intros <-. destruct (iter v) as [l|x] eqn:I; cbn [rbind]; apply iterates_iff in I; [eapply ud_pairs; [exact H|exact I|now apply pairs_iff]|now apply ud_bad].
    + intros K; inversion K; subst; [absurd| |]; match goal with A : iterates v _ |- _ => apply iterates_iff in A; rewrite A end; cbn [rbind]; [now apply pairs_iff|reflexivity].
Qed.
Theorem g_itemize_iff k2i k path st r : g_itemize k2i k path st = r <-> itemize_gives k2i k path st r.
Proof.
  unfold g_itemize. split.
  - intros <-. destruct (py_in k (fs_data st)) as [[|]|e] eqn:E; cbn [rbind negb]; apply text_in_iff in E; [|now apply iz_absent|now apply iz_bad].
    destruct path as [|ch path].
    + destruct (one_star_last (fs_path st)) as [p|e] eqn:S; cbn [rbind]; apply starred_iff in S; [|now apply iz_no_path].
      destruct (update_any (fs_cache st) (fs_data st)) as [c|e] eqn:U; cbn [rbind]; [|apply updated_iff in U; eapply iz_no_update; solve [eassumption|reflexivity]].
      destruct (fs_data st) as [|b|z|s|l|d|n] eqn:D; try (inversion E; fail).
      * apply updated_iff in U. eapply iz_text; rewrite ?D; solve [eassumption|reflexivity].
      * apply updated_iff in U. eapply iz_list; rewrite ?D; solve [eassumption|reflexivity].
      * apply in_dict in E as [v E]. rewrite E. cbn [update_any] in U. injection U as <-. eapply iz_value; rewrite ?D; solve [eassumption|reflexivity].
    + assert (N : ch :: path <> []) by discriminate. revert N. generalize (ch :: path). clear ch path. intros path N.
      destruct (update_any (fs_cache st) (fs_data st)) as [c|e] eqn:U; cbn [rbind]; apply updated_iff in U; [|now apply iz_path_no_update].
      destruct (one_star_last (dotted path)) as [p|e] eqn:S; cbn [rbind]; apply starred_iff in S.
      2: { exfalso. destruct (dotted_ne path) as (x & y & Q). rewrite Q in S. inversion S. }
      destruct (form_path (e_vars (fs_env st)) p (fs_data st) c) as [[[o w] c1]|e] eqn:F; cbn [rbind]; [|eapply iz_path_bad; try eassumption; now apply dotted_iff].
      destruct (dict_dec w) as [[d ->]|Hw]; [cbn [sub_data rbind]|rewrite sub_no_dict by exact Hw; cbn [rbind]; eapply iz_no_dict; try eassumption; now apply dotted_iff].
      destruct (dget d (KS k)) as [v|] eqn:G; [|eapply iz_used_up; try eassumption; now apply dotted_iff].
      destruct o as [[|i is]|]; try (eapply iz_nowhere; try eassumption; [now apply dotted_iff|auto]).
      destruct (save_cur k2i false (fs_results st) (i :: is) v) as [x|e] eqn:V; cbn [rbind]; [eapply iz_saved|eapply iz_not_saved]; try eassumption; now apply dotted_iff.
  - intros K; destruct K; repeat match goal with A : text_in k _ _ |- _ => apply text_in_iff in A | A : starred _ _ |- _ => apply starred_iff in A | A : updated _ _ _ |- _ => apply updated_iff in A | A : dotted_path _ _ |- _ => apply dotted_iff in A end;
      try (match goal with A : py_in k _ = _ |- _ => rewrite A; cbn [rbind negb] end; try reflexivity).
    1-2: subst path; cbn [rbind]; repeat match goal with A : one_star_last _ = _ |- _ => rewrite A; cbn [rbind] | A : update_any _ _ = _ |- _ => rewrite A; cbn [rbind] end; reflexivity.
    + subst path. match goal with A : fs_data st = VDict _ |- _ => rewrite A end. cbn [py_in]. unfold dmem. match goal with A : dget _ _ = Some _ |- _ => rewrite A end. cbn [rbind negb].
      match goal with A : one_star_last _ = _ |- _ => rewrite A; cbn [rbind] end. cbn [update_any rbind]. reflexivity.
    + subst path. match goal with A : one_star_last _ = _ |- _ => rewrite A; cbn [rbind] end. match goal with A : fs_data st = _ |- _ => rewrite A end. match goal with A : update_any _ _ = _ |- _ => rewrite A; cbn [rbind] end. reflexivity.
    + subst path. match goal with A : one_star_last _ = _ |- _ => rewrite A; cbn [rbind] end. match goal with A : fs_data st = _ |- _ => rewrite A end. match goal with A : update_any _ _ = _ |- _ => rewrite A; cbn [rbind] end. reflexivity.
    + destruct path; [contradiction|]. match goal with A : update_any _ _ = _ |- _ => rewrite A; cbn [rbind] end. reflexivity.
    + destruct path; [contradiction|]. match goal with A : update_any _ _ = _ |- _ => rewrite A; cbn [rbind] end. subst. match goal with A : one_star_last _ = _ |- _ => rewrite A; cbn [rbind] end. match goal with A : form_path _ _ _ _ = _ |- _ => rewrite A; cbn [rbind] end. reflexivity.
    + destruct path; [contradiction|]. match goal with A : update_any _ _ = _ |- _ => rewrite A; cbn [rbind] end. subst. match goal with A : one_star_last _ = _ |- _ => rewrite A; cbn [rbind] end. match goal with A : form_path _ _ _ _ = _ |- _ => rewrite A; cbn [rbind] end. now rewrite sub_no_dict.
    + destruct path; [contradiction|]. match goal with A : update_any _ _ = _ |- _ => rewrite A; cbn [rbind] end. subst. match goal with A : one_star_last _ = _ |- _ => rewrite A; cbn [rbind] end. match goal with A : form_path _ _ _ _ = _ |- _ => rewrite A; cbn [rbind] end. cbn [sub_data rbind]. match goal with A : dget _ _ = _ |- _ => rewrite A end. reflexivity.
    + destruct path; [contradiction|]. match goal with A : update_any _ _ = _ |- _ => rewrite A; cbn [rbind] end. subst. match goal with A : one_star_last _ = _ |- _ => rewrite A; cbn [rbind] end. match goal with A : form_path _ _ _ _ = _ |- _ => rewrite A; cbn [rbind] end. cbn [sub_data rbind]. match goal with A : dget _ _ = _ |- _ => rewrite A end. match goal with A : _ \/ _ |- _ => destruct A; subst; reflexivity end.
    + destruct path; [contradiction|]. match goal with A : update_any _ _ = _ |- _ => rewrite A; cbn [rbind] end. subst. match goal with A : one_star_last _ = _ |- _ => rewrite A; cbn [rbind] end. match goal with A : form_path _ _ _ _ = _ |- _ => rewrite A; cbn [rbind] end. cbn [sub_data rbind]. match goal with A : dget _ _ = _ |- _ => rewrite A end. match goal with A : save_cur _ _ _ _ _ = _ |- _ => rewrite A end. reflexivity.
    + destruct path; [contradiction|]. match goal with A : update_any _ _ = _ |- _ => rewrite A; cbn [rbind] end. subst. match goal with A : one_star_last _ = _ |- _ => rewrite A; cbn [rbind] end. match goal with A : form_path _ _ _ _ = _ |- _ => rewrite A; cbn [rbind] end. cbn [sub_data rbind]. match goal with A : dget _ _ = _ |- _ => rewrite A end. match goal with A : save_cur _ _ _ _ _ = _ |- _ => rewrite A end. reflexivity.
Qed.

(** ** macro *)
Lemma first_iff {A} (known : list (str * A)) n m : find (fun x => str_eqb n (fst x)) known = Some m <-> fst m = n /\ exists a b, known = a ++ (n, snd m) :: b /\ forall m', ~ In (n, m') a.
Proof.
  induction known as [|[j x] known IH]; cbn [find fst].
  - split; [discriminate|]. intros (_ & a & b & H & _). destruct a; discriminate.
  - destruct (str_eqb n j) eqn:Q.
    + apply str_eqb_eq in Q. subst j. split.
      * intros [= <-]. split; [reflexivity|]. exists [], known. split; [reflexivity|]. intros m' [].
      * intros (F & a & b & H & N). destruct a as [|y a]; cbn [app] in H; injection H as H1 H2; [subst; destruct m; cbn [fst snd] in *; congruence|].
        exfalso. subst y. apply (N x). now left.
    + rewrite IH. split.
      * intros (F & a & b & -> & N). split; [exact F|]. exists ((j, x) :: a), b. split; [reflexivity|]. intros m' [H|H]; [|exact (N m' H)]. injection H as H _. subst j. rewrite str_eqb_refl in Q. discriminate.
      * intros (F & a & b & H & N). split; [exact F|]. destruct a as [|y a]; cbn [app] in H; injection H as H1 H2.
        -- exfalso. subst j. rewrite str_eqb_refl in Q. discriminate.
        -- exists a, b. split; [exact H2|]. intros m' M. apply (N m'). now right.
Qed.
Lemma none_iff {A} (known : list (str * A)) n : find (fun x => str_eqb n (fst x)) known = None <-> forall m, ~ In (n, m) known.
Proof.
  split.
  - intros H m K. apply (find_none _ _ H) in K. cbn [fst] in K. rewrite str_eqb_refl in K. discriminate.
  - intros H. destruct (find _ known) as [[j x]|] eqn:E; [|reflexivity]. exfalso. apply find_some in E as [E1 E2]. cbn [fst] in E2. apply str_eqb_eq in E2. subst j. exact (H x E1).
Qed.
Lemma named_first known n m : first_named known n m <-> find (fun x => str_eqb n (fst x)) known = Some (n, m).
Proof.
  rewrite first_iff. cbn [fst snd]. split.
  - intros K; destruct K. split; [reflexivity|eauto].
  - intros (_ & a & b & H & N). now apply (fn_first _ _ _ a b).
Qed.
Lemma find_name {A} (known : list (str * A)) n j x : find (fun x => str_eqb n (fst x)) known = Some (j, x) -> j = n.
Proof. intros H. apply find_some in H as [_ H]. cbn [fst] in H. apply str_eqb_eq in H. congruence. Qed.
Lemma run_iff known names : forall v r, run_macros known names v = r <-> macros_run known names v r.
Proof.
  induction names as [|n names IH]; intros v r; cbn [run_macros].
  - split; [intros <-; constructor|intros K; now inversion K].
  - split.
    + intros <-. destruct (find (fun m => str_eqb n (fst m)) known) as [[j m]|] eqn:F.
      * pose proof (find_name _ _ _ _ F). subst j. apply named_first in F. cbn [snd]. destruct (m v) as [[| |w]|e] eqn:M; cbn [rbind].
        -- eapply mr_false; eassumption.
        -- eapply mr_same; try eassumption. now apply IH.
        -- eapply mr_new; try eassumption. now apply IH.
        -- eapply mr_bad; eassumption.
      * apply mr_unknown; [now apply none_iff|now apply IH].
    + intros K; inversion K; subst; try (match goal with A : first_named _ _ _ |- _ => apply named_first in A; rewrite A end; cbn [snd]; match goal with A : _ v = _ |- _ => rewrite A end; cbn [rbind]; try reflexivity; now apply IH).
      match goal with A : forall m, ~ In _ _ |- _ => apply none_iff in A; rewrite A end. now apply IH.
Qed.
Lemma words_are args names : macro_words args names <-> macro_names args = names.
Proof.
  unfold macro_words, macro_names. assert (E : flat_map (fun a => map strip (split $"," a)) args = map strip (concat (map (split $",") args))).
  { induction args as [|a args IH]; [reflexivity|]. cbn [flat_map map concat]. now rewrite map_app, IH. }
  rewrite E. split.
  - intros (parts & H1 & H2). apply strips in H2. assert (map (split $",") args = parts) as ->; [|exact H2].
    clear E H2. induction H1 as [|a p args parts H _ IH]; [reflexivity|]. cbn [map]. rewrite IH. apply cut_iff in H; [|discriminate]. change (t_ ",") with ($",") in H. now rewrite H.
  - intros H. exists (map (split $",") args). split; [|now apply strips]. clear. induction args; constructor; [apply cut_iff; [discriminate|reflexivity]|assumption].
Qed.
Theorem g_macro_iff known args st r : g_macro known args st = r <-> macro_gives known args st r.
Proof.
  unfold g_macro. split.
  - intros <-. destruct (run_macros known (macro_names args) (fs_data st)) as [[v b]|e] eqn:E; cbn [rbind]; apply run_iff in E.
    + rewrite holding_with. eapply mg_ok; [now apply words_are|exact E].
    + eapply mg_bad; [now apply words_are|exact E].
  - intros K; destruct K as [names v b W R|names e W R]; apply words_are in W; subst names; apply run_iff in R; rewrite R; reflexivity.
Qed.

(** ** sformat *)
Section Format.
Variable fmt : str -> dict -> res str.
Lemma formatted_iff s d r : fmt_kw fmt s d = r <-> formatted fmt s d r.
Proof.
  unfold fmt_kw. destruct (forallb _ d) eqn:T.
  - apply texts_b in T. split; [intros H; now apply fm_texts|]. intros K; destruct K; [assumption|contradiction].
  - assert (N : ~ text_keys d) by (intros N; apply texts_b in N; congruence). split; [intros <-; now apply fm_bad|]. intros K; destruct K; [contradiction|reflexivity].
Qed.
Theorem g_sformat_iff s field st r : g_sformat fmt s field st = r <-> changes st (sformat_to fmt s field st) r.
Proof.
  unfold g_sformat. split.
  - intros <-. destruct (dict_dec (fs_data st)) as [[d Hd]|Hd].
    + rewrite Hd. destruct (fmt_kw fmt s d) as [t|e] eqn:F; apply formatted_iff in F.
      * apply (ch_ok st). now apply (sm_record _ _ _ _ d t).
      * assert (C : e = KeyError \/ e <> KeyError) by (destruct e; solve [now left|right; discriminate]). destruct C as [->|C].
        -- set (all := dupdate _ d). destruct (fmt_kw fmt s all) as [t|e] eqn:F2; apply formatted_iff in F2.
           ++ apply (ch_ok st). now apply (sm_vars _ _ _ _ d t).
           ++ assert (C : e = KeyError \/ e <> KeyError) by (destruct e; solve [now left|right; discriminate]). destruct C as [->|C].
              ** assert (S : keep st = Ok (holding st (VDict d), true)) by (unfold keep; now rewrite holding_data). rewrite S. apply (ch_ok st). now apply (sm_missing _ _ _ _ d).
              ** replace (match e with KeyError => keep st | _ => Raise e end) with (@Raise (fstate * bool) e) by (destruct e; congruence). apply ch_bad. now apply (sm_vars_bad _ _ _ _ d e).
        -- replace (match e with KeyError => _ | _ => Raise e end) with (@Raise (fstate * bool) e) by (destruct e; congruence). apply ch_bad. now apply (sm_bad _ _ _ _ d e).
    + replace (match fs_data st with VDict d => _ | _ => Raise TypeError end) with (@Raise (fstate * bool) TypeError) by (destruct (fs_data st); try reflexivity; absurd).
      apply ch_bad. now apply sm_no_dict.
  - intros K; destruct K as [v K|e K]; inversion K; subst; repeat match goal with A : formatted _ _ _ _ |- _ => apply formatted_iff in A end;
      try (match goal with A : fs_data st = VDict _ |- _ => rewrite A end; repeat match goal with A : fmt_kw _ _ _ = _ |- _ => rewrite A end; try reflexivity).
    + unfold keep. now rewrite holding_data.
    + destruct e; congruence.
    + destruct e; congruence.
    + destruct (fs_data st); try reflexivity. absurd.
Qed.
End Format.

(** ** to_ip *)
Theorem g_to_ip_iff ip_of ipk maskk st r : g_to_ip ip_of ipk maskk st = r <-> changes st (to_ip_to ip_of ipk maskk (fs_data st)) r.
Proof.
  unfold g_to_ip. split.
  - intros <-. assert (S : keep st = Ok (holding st (fs_data st), true)) by (rewrite holding_self; reflexivity).
    destruct (py_in ipk (fs_data st)) as [[|]|e] eqn:E1; cbn [rbind negb]; apply text_in_iff in E1; [|rewrite S; apply ch_ok; now apply ip_no_ip|apply ch_bad; now apply ip_bad].
    destruct (py_in maskk (fs_data st)) as [[|]|e] eqn:E2; cbn [rbind negb]; [|apply text_in_iff in E2; rewrite S; apply ch_ok; now apply ip_no_mask|].
    2: { exfalso. apply (py_in_raises maskk ipk) in E2. apply text_in_iff in E1. congruence. }
    apply text_in_iff in E2. destruct (dict_dec (fs_data st)) as [[d Hd]|Hd].
    + rewrite Hd in E1, E2. apply in_dict in E1 as [x E1], E2 as [y E2]. unfold set_data. rewrite !Hd. cbn [sub_data rbind]. rewrite E1. cbn [rbind]. rewrite E2.
      destruct (ip_of (py_str x ++ $"/" ++ py_str y)) as [v|] eqn:I.
      * cbn [rbind]. unfold keep. rewrite holding_with. apply (ch_ok st). eapply ip_made; eassumption.
      * assert (S' : keep st = Ok (holding st (VDict d), true)) by (unfold keep; now rewrite holding_data). rewrite S'. apply (ch_ok st). eapply ip_not_made; eassumption.
    + rewrite sub_no_dict by exact Hd. cbn [rbind]. apply ch_bad. now apply ip_no_dict.
  - intros K; destruct K as [v K|e K]; inversion K; subst; repeat match goal with A : text_in _ _ _ |- _ => apply text_in_iff in A; rewrite A; cbn [rbind negb] end; unfold keep; try (rewrite holding_self); try reflexivity.
    + match goal with A : VDict ?d = fs_data st |- _ => rename A into Hd end. symmetry in Hd. unfold set_data. rewrite Hd. cbn [py_in sub_data]. unfold dmem. repeat match goal with A : dget _ _ = Some _ |- _ => rewrite A; cbn [rbind negb] end.
      match goal with A : ip_of _ = _ |- _ => change (t_ "/") with ($"/") in A; rewrite A end. reflexivity.
    + match goal with A : VDict ?d = fs_data st |- _ => rename A into Hd end. symmetry in Hd. rewrite ?Hd. cbn [py_in sub_data]. unfold dmem. repeat match goal with A : dget _ _ = Some _ |- _ => rewrite A; cbn [rbind negb] end.
      match goal with A : ip_of _ = _ |- _ => change (t_ "/") with ($"/") in A; rewrite A end. now rewrite holding_data.
    + now rewrite sub_no_dict.
Qed.

(** ** lookup *)
Lemma begins_iff lookups ts main results src r : src <> NoSource ->
  begins lookups ts main results src r <-> group_lookup_source lookups ts main results src = match r with Ok x => Ok (Some x) | Raise e => Raise e end.
Proof.
  intros NS. split.
  - intros H; destruct H; cbn [group_lookup_source]; repeat match goal with A : dotted_path _ _ |- _ => apply dotted_iff in A; rewrite A end; try reflexivity;
      try (match goal with T : template_table _ _ _ |- _ => apply template_iff in T end; destruct (find_template n ts) as [[| | | |[|y l]| |]|]; congruence);
      repeat match goal with A : text_in _ _ _ |- _ => apply text_in_iff in A; rewrite A; cbn [rbind] | A : iterates _ _ |- _ => apply iterates_iff in A; rewrite A; cbn [rbind] | A : SpecOutcome.group_table _ _ _ |- _ => apply group_iff in A; rewrite A; cbn [rbind] end; try reflexivity.
    + subst main. cbn [py_in sub_data]. unfold dmem. match goal with A : dget _ _ = Some _ |- _ => rewrite A end. reflexivity.
    + now rewrite sub_no_dict.
  - destruct src as [s|s|s|]; [..|congruence]; cbn [group_lookup_source]; destruct (dotted_ne s) as (n & p & E); rewrite E; pose proof (proj2 (dotted_iff _ _) E) as D.
    + intros K. destruct r as [x|e]; [|discriminate]. assert (x = (lookups, n :: p)) by congruence. subst. now constructor.
    + intros K. pose proof (proj2 (template_iff ts n _) eq_refl) as T. destruct (find_template n ts) as [[|b|z|t|[|y l]|d|o]|]; destruct r as [x|e]; try discriminate K;
        try (match type of K with Ok (Some ?u) = Ok (Some ?v) => assert (v = u) by congruence; subst v end); try (match type of K with Raise ?u = Raise ?v => assert (v = u) by congruence; subst v end);
        solve [eapply bg_template; eassumption|eapply bg_template_bad; eassumption|eapply bg_no_template; eassumption].
    + intros K. destruct (py_in n main) as [[|]|e] eqn:M; cbn [rbind] in K; apply text_in_iff in M.
      * destruct (dict_dec main) as [[d ->]|Hm].
        -- apply in_dict in M as [v M]. cbn [sub_data rbind] in K. rewrite M in K. destruct r as [x|e]; [|discriminate]. assert (x = (v, p)) by congruence. subst. eapply bg_here; solve [eassumption|reflexivity].
        -- rewrite sub_no_dict in K by exact Hm. cbn [rbind] in K. destruct r as [x|e]; [discriminate|]. assert (e = TypeError) by congruence. subst. eapply bg_here_bad; eassumption.
      * destruct (iter results) as [l|e] eqn:I; cbn [rbind] in K; apply iterates_iff in I.
        -- destruct (find_group n l) as [v|e] eqn:G; cbn [rbind] in K; apply group_iff in G; destruct r as [x|e']; try discriminate K.
           ++ assert (x = (v, p)) by congruence. subst. eapply bg_group; eassumption.
           ++ assert (e' = e) by congruence. subst. eapply bg_group_bad; eassumption.
        -- destruct r as [x|e']; try discriminate K. assert (e' = e) by congruence. subst. eapply bg_no_results; eassumption.
      * destruct r as [x|e']; [discriminate|]. assert (e' = e) by congruence. subst. eapply bg_main_bad; eassumption.
Qed.
Definition says (k : str) (data table : val) : res (option val) :=
  match table with
  | VDict d => do x <- sub_data data k; match x with None => Ok None | Some v => do kk <- key_of (bool_number v); Ok (dget d kk) end
  | _ => Ok (Some VNone)
  end.
Lemma says_iff k data table r : says k data table = r <-> table_says k data table r.
Proof.
  unfold says. split.
  - intros <-. destruct table as [|b|z|s|l|t|n]; try (apply ty_no_table; other).
    destruct (dict_dec data) as [[d ->]|H]; [cbn [sub_data rbind]|rewrite sub_no_dict by exact H; now apply ty_no_dict].
    destruct (dget d (KS k)) as [x|] eqn:D; [|eapply ty_no_key; [reflexivity|exact D]].
    destruct (looked_dec x) as [[kk K]|K]; rewrite K; cbn [rbind]; [|eapply ty_unhashable; [reflexivity|exact D|now apply looked_bad]].
    apply looked_iff in K. destruct (dget t kk) as [y|] eqn:T; [eapply ty_found|eapply ty_not_found]; solve [reflexivity|eassumption].
  - intros K; destruct K; subst; try (cbn [sub_data rbind]); repeat match goal with A : looked_up _ _ |- _ => apply looked_iff in A | A : forall k, ~ looked_up _ k |- _ => apply looked_bad in A end;
      repeat match goal with A : dget _ (KS k) = _ |- _ => rewrite A | A : key_of _ = _ |- _ => rewrite A end; cbn [rbind]; try congruence; try reflexivity.
    + now rewrite sub_no_dict.
    + destruct t; try reflexivity. absurd.
Qed.
Definition act (k : str) (add : option str) (replace update : bool) (f data : val) : res val :=
  match laction_of add replace update f with
  | LAdd n => match data with VDict d => Ok (VDict (dset d (KS n) f)) | _ => Ok data end
  | LUpdate => match data, f with VDict d, VDict e => Ok (VDict (dupdate d e)) | _, _ => Raise AttributeError end
  | LReplace => match data with VDict d => Ok (VDict (dset d (KS k) f)) | _ => Raise TypeError end
  | LNothing => Ok data
  end.
Lemma act_iff k add replace update f data r : act k add replace update f data = r <-> acts k add replace update f data r.
Proof.
  unfold act, laction_of. split.
  - intros <-. destruct add as [n|].
    + destruct (dict_dec data) as [[d ->]|H]; [eapply at_field; reflexivity|]. replace (match data with VDict d => _ | _ => Ok data end) with (@Ok val data) by (destruct data; try reflexivity; absurd). eapply at_no_field; [reflexivity|exact H].
    + destruct (update && match f with VDict _ => true | _ => false end)%bool eqn:U.
      * apply andb_prop in U as [U F]. destruct f as [| | | | |e|]; try discriminate F. destruct (dict_dec data) as [[d ->]|H]; [eapply at_update; solve [reflexivity|exact U]|].
        replace (match data with VDict d => _ | _ => Raise AttributeError end) with (@Raise val AttributeError) by (destruct data; try reflexivity; absurd). eapply at_no_update; solve [reflexivity|exact U|exact H].
      * assert (U' : update = false \/ not_dict f). { destruct update; [right|now left]. intros e ->. discriminate. }
        destruct replace; [|eapply at_nothing; solve [reflexivity|exact U']].
        destruct (dict_dec data) as [[d ->]|H]; [eapply at_replace; solve [reflexivity|exact U']|].
        replace (match data with VDict d => _ | _ => Raise TypeError end) with (@Raise val TypeError) by (destruct data; try reflexivity; absurd). eapply at_no_replace; solve [reflexivity|exact U'|exact H].
  - assert (U : update = false \/ not_dict f -> (update && match f with VDict _ => true | _ => false end)%bool = false).
    { intros [->|H]; [reflexivity|]. destruct update; [|reflexivity]. destruct f; try reflexivity. absurd. }
    intros K; destruct K; subst; cbn [andb]; try (rewrite U by assumption); try reflexivity.
    + destruct v; try reflexivity. absurd.
    + destruct v; try reflexivity. absurd.
    + destruct v; try reflexivity. absurd.
Qed.
Lemma lookup_in_is table path k add replace update st :
  group_lookup_in table path k add replace update st =
  do v <- (do t <- walk_get path table; do o <- says k (fs_data st) t; match o with None => Ok (fs_data st) | Some f => act k add replace update f (fs_data st) end);
  Ok (holding st v, true).
Proof.
  unfold group_lookup_in. destruct (walk_get path table) as [t|]; cbn [rbind]; [|reflexivity].
  change (match t with VDict d => _ | _ => Ok (Some VNone) end) with (says k (fs_data st) t). destruct (says k (fs_data st) t) as [[f|]|]; cbn [rbind]; [|unfold keep; now rewrite holding_self|reflexivity].
  unfold act, set_data, keep. destruct (laction_of add replace update f); cbn [rbind]; [destruct (fs_data st) eqn:D|destruct (fs_data st) eqn:D, f|destruct (fs_data st) eqn:D|];
    cbn [rbind]; try reflexivity; rewrite ?holding_self, ?(holding_data st _ D); reflexivity.
Qed.
Theorem g_lookup_iff lookups ts main results src k add replace update st r :
  g_lookup lookups ts main results src k add replace update st = r <-> changes st (glookup_to lookups ts main results k add replace update (fs_data st) src) r.
Proof.
  set (f := do s <- group_lookup_source lookups ts main results src;
            match s with None => Ok (fs_data st) | Some (table, path) => do t <- walk_get path table; do o <- says k (fs_data st) t; match o with None => Ok (fs_data st) | Some f => act k add replace update f (fs_data st) end end).
  assert (E : g_lookup lookups ts main results src k add replace update st = do v <- f; Ok (holding st v, true)).
  { unfold g_lookup, f. destruct (group_lookup_source _ _ _ _ src) as [[[table path]|]|]; cbn [rbind]; [apply lookup_in_is|unfold keep; now rewrite holding_self|reflexivity]. }
  rewrite E. apply changes_iff. clear E. unfold f. clear f. generalize (fs_data st). intros data r'.
  assert (NS : src = NoSource \/ src <> NoSource) by (destruct src; solve [now left|right; discriminate]). destruct NS as [->|NS].
  { cbn [group_lookup_source rbind]. split; [intros <-; constructor|]. intros K; inversion K; subst; try reflexivity; match goal with A : begins _ _ _ _ NoSource _ |- _ => inversion A end. }
  split.
  - intros <-. destruct (group_lookup_source lookups ts main results src) as [[[table path]|]|e] eqn:S; cbn [rbind].
    + apply (begins_iff _ _ _ _ _ (Ok (table, path)) NS) in S.
      destruct (walk_get path table) as [t|e] eqn:W; cbn [rbind]; apply walks_iff in W; [|eapply lo_no_way; eassumption].
      destruct (says k data t) as [[x|]|e] eqn:Y; cbn [rbind]; apply says_iff in Y; [|eapply lo_not_found; eassumption|eapply lo_bad; eassumption].
      eapply lo_found; try eassumption. now apply act_iff.
    + exfalso. destruct src as [s|s|s|]; try congruence; cbn [group_lookup_source] in S; destruct (dotted_ne s) as (n & p & D); rewrite D in S; try discriminate.
      * destruct (find_template n ts) as [[| | | |[|y l]| |]|]; discriminate.
      * destruct (py_in n main) as [[|]|]; cbn [rbind] in S; try discriminate.
        -- destruct (sub_data main n) as [[v|]|]; discriminate.
        -- destruct (iter results); cbn [rbind] in S; [|discriminate]. destruct (find_group n _); discriminate.
    + apply (begins_iff _ _ _ _ _ (Raise e) NS) in S. now apply lo_no_start.
  - intros K; destruct K; [congruence|..]; match goal with A : begins _ _ _ _ _ _ |- _ => apply (begins_iff _ _ _ _ _ _ NS) in A; rewrite A end; cbn [rbind]; try reflexivity;
      match goal with A : walks _ _ _ |- _ => apply walks_iff in A; rewrite A end; cbn [rbind]; try reflexivity;
      match goal with A : table_says _ _ _ _ |- _ => apply says_iff in A; rewrite A end; cbn [rbind]; try reflexivity. now apply act_iff.
Qed.
