(** * MadeFacts: proofs for C123, lines and expressions. *)
From Coq Require Import Lia.
From Verif Require Import PyBase DictFacts StrFacts Regex FormRegex Results Template Attributes MatchVar Compile SpecGroups SpecVariable VariableFacts VariableFacts2 SpecMade.
Local Open Scope string_scope.
Local Open Scope list_scope.

(** ** used lines *)
Definition use1 (l : str) : list str :=
  if (negb (match strip l with [] => true | _ => false end) && negb (prefixb $"##" (lstrip l)))%bool then
    match vars_in (rstrip l) with [] => [] | _ => [rstrip l] end else [].
Lemma prefix_iff p s : prefixb p s = true <-> exists t, s = p ++ t.
Proof.
  revert s. induction p as [|a p IH]; intros s; [split; [now exists s|reflexivity]|]. destruct s as [|b s]; cbn [prefixb]; [split; [discriminate|intros (t & K); discriminate]|].
  rewrite Bool.andb_true_iff, IH. split.
  - intros [E (t & ->)]. apply Ascii.eqb_eq in E. subst b. now exists t.
  - intros (t & E). injection E as <- ->. split; [apply Ascii.eqb_refl|now exists t].
Qed.
Lemma used_fun l r : used l r <-> r = use1 l.
Proof.
  unfold use1. assert (Hp : prefixb $"##" (lstrip l) = true <-> exists t, lstrip l = t_ "##" ++ t) by apply prefix_iff. split.
  - destruct 1 as [l H1 H2 H3|l H|l t H|l H].
    + destruct (strip l); [congruence|]. destruct (prefixb _ _); [destruct (proj1 Hp eq_refl) as (t & K); now destruct (H2 t)|]. cbn [negb andb]. now destruct (vars_in (rstrip l)).
    + now rewrite H.
    + rewrite (proj2 Hp (ex_intro _ t H)). now rewrite Bool.andb_false_r.
    + rewrite H. now destruct (_ && _)%bool.
  - intros ->. destruct (strip l) as [|c s] eqn:Es; [now apply us_blank|]. destruct (prefixb _ _) eqn:E; cbn [negb andb].
    + destruct (proj1 Hp eq_refl) as (t & K). now apply (us_comment l t).
    + destruct (vars_in (rstrip l)) eqn:Ev; [now apply us_plain|]. apply us_yes; [congruence| |congruence]. intros t K. assert (false = true) by (apply Hp; now exists t). discriminate.
Qed.
Lemma used_all ls lss : Forall2 used ls lss <-> lss = map use1 ls.
Proof.
  split.
  - induction 1 as [|l r ls lss H _ IH]; [reflexivity|]. apply used_fun in H. cbn [map]. now rewrite H, IH.
  - intros ->. induction ls as [|l ls IH]; cbn [map]; constructor; [now apply used_fun|exact IH].
Qed.
Lemma used_lines_eq data : used_lines data = concat (map use1 (splitlines data)).
Proof.
  unfold used_lines. induction (splitlines data) as [|l ls IH]; [reflexivity|]. cbn [filter map concat]. rewrite <- IH. unfold use1. destruct (_ && _)%bool; [|reflexivity]. cbn [map filter]. now destruct (vars_in (rstrip l)).
Qed.

(** ** dictionaries as lists *)
Definition puts {A} (l x : list (str * A)) : list (str * A) := fold_left (fun x nv => put (fst nv) (snd nv) x) l x.
Lemma firsts_in l n : In n (firsts l) <-> In n l.
Proof.
  induction l as [|m l IH]; [reflexivity|]. cbn [firsts In]. rewrite filter_In, IH, Bool.negb_true_iff. destruct (list_eq_dec ascii_dec m n) as [->|D]; [tauto|]. apply str_eqb_neq in D. rewrite D. split; intuition.
Qed.
Lemma firsts_nodup l : NoDup (firsts l).
Proof. induction l as [|m l IH]; cbn [firsts]; constructor; [|now apply NoDup_filter]. rewrite filter_In, str_eqb_refl. intros [_ K]. discriminate. Qed.
Lemma filter_id {A} (f : A -> bool) l : (forall x, In x l -> f x = true) -> filter f l = l.
Proof. induction l as [|x l IH]; intros H; [reflexivity|]. cbn [filter]. rewrite (H x (or_introl eq_refl)), IH; [reflexivity|]. intros y Hy. apply H. now right. Qed.
Lemma firsts_snoc l n : firsts (l ++ [n]) = if in_strs n l then firsts l else firsts l ++ [n].
Proof.
  induction l as [|m l IH]; [reflexivity|]. cbn [app firsts]. rewrite IH. destruct (in_strs n (m :: l)) eqn:E.
  - apply SessionFacts.in_strs_In in E. destruct (in_strs n l) eqn:E2; [reflexivity|]. destruct E as [->|E]; [|apply SessionFacts.in_strs_In in E; congruence]. rewrite filter_app. cbn [filter]. now rewrite str_eqb_refl, app_nil_r.
  - assert (N : ~ In n (m :: l)) by (intros K; apply SessionFacts.in_strs_In in K; congruence). assert (E2 : in_strs n l = false) by (destruct (in_strs n l) eqn:X; [apply SessionFacts.in_strs_In in X; destruct N; now right|reflexivity]). rewrite E2, filter_app. cbn [filter].
    assert (D : m <> n) by (intros ->; apply N; now left). apply str_eqb_neq in D. now rewrite D.
Qed.
Lemma in_strs_b n l : in_strs n l = true <-> In n l. Proof. apply SessionFacts.in_strs_In. Qed.
Lemma put_keys {A} n (v : A) x : map fst (put n v x) = if in_strs n (map fst x) then map fst x else map fst x ++ [n].
Proof.
  induction x as [|[m b] x IH]; [reflexivity|]. cbn [put map fst]. destruct (str_eqb n m) eqn:E.
  - apply str_eqb_eq in E. subst m. cbn [map fst]. assert (K : in_strs n (n :: map fst x) = true) by (apply in_strs_b; now left). now rewrite K.
  - cbn [map fst]. rewrite IH. apply str_eqb_neq in E. destruct (in_strs n (map fst x)) eqn:E2.
    + assert (K : in_strs n (m :: map fst x) = true) by (apply in_strs_b; right; now apply in_strs_b). now rewrite K.
    + assert (K : in_strs n (m :: map fst x) = false). { destruct (in_strs n (m :: map fst x)) eqn:K; [|reflexivity]. apply in_strs_b in K as [K|K]; [congruence|]. apply in_strs_b in K. congruence. }
      now rewrite K.
Qed.
Lemma put_in {A} n (v : A) x m b : NoDup (map fst x) -> In (m, b) (put n v x) <-> (m = n /\ b = v) \/ (m <> n /\ In (m, b) x).
Proof.
  induction x as [|[k c] x IH]; intros Hd; cbn [put].
  - cbn. split; [intros [E|[]]; injection E as <- <-; now left|intros [[-> ->]|[_ []]]; now left].
  - inversion Hd as [|? ? Hn Hd']; subst. cbn [fst] in *. destruct (str_eqb n k) eqn:E.
    + apply str_eqb_eq in E. subst k. cbn [In]. split.
      * intros [K|K]; [injection K as <- <-; now left|]. right. split; [|now right]. intros ->. apply Hn. apply (in_map fst) in K. exact K.
      * intros [[-> ->]|[D [K|K]]]; [now left|congruence|now right].
    + apply str_eqb_neq in E. cbn [In]. rewrite (IH Hd'). split.
      * intros [K|[K|[D K]]]; [injection K as <- <-; right; split; [congruence|now left]|now left|right; split; [exact D|now right]].
      * intros [K|[D [K|K]]]; [right; now left|now left|right; right; now split].
Qed.
Lemma last_for_snoc {A} l n (v : A) m : last_for (l ++ [(n, v)]) m = if str_eqb m n then Some v else last_for l m.
Proof. unfold last_for. rewrite filter_app, map_app. cbn [filter fst]. destruct (str_eqb m n); cbn [map snd]; [now rewrite opt_last_app|now rewrite app_nil_r]. Qed.
Lemma puts_dict {A} (l : list (str * A)) : as_dict l (puts l []).
Proof.
  induction l as [|[n v] l IH] using rev_ind; [split; [reflexivity|intros n v []]|]. destruct IH as [H1 H2]. unfold puts in *. rewrite fold_left_app. cbn [fold_left fst snd]. set (x := fold_left _ l []) in *. assert (Hd : NoDup (map fst x)) by (rewrite H1; apply firsts_nodup). split.
  - rewrite put_keys, map_app. cbn [map fst]. rewrite firsts_snoc, H1.
    assert (E : in_strs n (firsts (map fst l)) = in_strs n (map fst l)). { apply Bool.eq_iff_eq_true. rewrite !in_strs_b. apply firsts_in. }
    now rewrite E.
  - intros m b Hb. apply (put_in _ _ _ _ _ Hd) in Hb. rewrite last_for_snoc. destruct Hb as [[-> ->]|[D Hb]]; [now rewrite str_eqb_refl|]. apply str_eqb_neq in D. rewrite D. now apply H2.
Qed.
Lemma dict_unique {A} (l x y : list (str * A)) : as_dict l x -> as_dict l y -> x = y.
Proof.
  intros [H1 H2] [H3 H4]. rewrite <- H1 in H3. clear H1. revert y H3 H4. induction x as [|[n v] x IH]; intros [|[m w] y] H3 H4; try discriminate; [reflexivity|]. cbn [map fst] in H3. injection H3 as -> H3.
  assert (v = w) as -> by (pose proof (H2 n v (or_introl eq_refl)); pose proof (H4 n w (or_introl eq_refl)); congruence). f_equal. apply IH; [intros k b K; apply H2; now right|congruence|intros k b K; apply H4; now right].
Qed.
Lemma dict_puts {A} (l x : list (str * A)) : as_dict l x <-> x = puts l [].
Proof. split; [intros H; eapply dict_unique; [exact H|apply puts_dict]|intros ->; apply puts_dict]. Qed.

(** ** what a match does *)
Definition act1 (a : action) (m : made) : action := if is_start a then a else if str_eqb (vo_name (fst m)) $"ignore" then a else acts m.
Lemma ignored_b m : str_eqb (vo_name (fst m)) $"ignore" = true <-> ignored m. Proof. unfold ignored. apply str_eqb_eq. Qed.
Lemma act_step m l a : fold_left act1 (m :: l) a = fold_left act1 l (if is_start a then a else if str_eqb (vo_name (fst m)) $"ignore" then a else acts m).
Proof. reflexivity. Qed.
Lemma act_start l a : is_start a = true -> fold_left act1 l a = a.
Proof. induction l as [|m l IH] in a |- *; intros H; [reflexivity|]. rewrite act_step. rewrite H. now apply IH. Qed.
Lemma act_ignored l a : Forall ignored l -> fold_left act1 l a = a.
Proof. induction 1 as [|m l H _ IH] in a |- *; [reflexivity|]. rewrite act_step. rewrite (proj2 (ignored_b m) H). destruct (is_start a); apply IH. Qed.
Lemma act_nostart l a : Forall (fun x => ignored x \/ is_start (acts x) = false) l -> is_start a = false -> is_start (fold_left act1 l a) = false.
Proof.
  induction 1 as [|m l H _ IH] in a |- *; intros Ha; [exact Ha|]. cbn [fold_left]. apply IH. unfold act1. rewrite Ha. destruct (str_eqb _ _) eqn:E; [exact Ha|]. destruct H as [H|H]; [apply ignored_b in H; congruence|exact H].
Qed.
Lemma action_eq ms a : line_action ms a <-> a = fold_left act1 ms AAdd.
Proof.
  split.
  - destruct 1 as [l1 m l2 H1 H2 H3|l1 m l2 H1 H2 H3|l H]; [| |now rewrite act_ignored].
    + rewrite fold_left_app. rewrite act_step. rewrite (act_nostart l1 AAdd H1 eq_refl). destruct (str_eqb _ _) eqn:E; [apply ignored_b in E; contradiction|]. now rewrite act_start.
    + apply Forall_app in H1 as [H1 _]. rewrite fold_left_app. rewrite act_step. rewrite (act_ignored l2); [|exact H3]. rewrite (act_nostart l1 AAdd H1 eq_refl). destruct (str_eqb _ _) eqn:E; [apply ignored_b in E; contradiction|reflexivity].
  - intros ->. induction ms as [|m ms IH] using rev_ind; [apply la_none; constructor|]. rewrite fold_left_app. cbn [fold_left]. set (a := fold_left act1 ms AAdd) in *.
    assert (Step : Forall (fun x => ignored x \/ is_start (acts x) = false) ms -> ~ ignored m -> line_action (ms ++ [m]) (acts m)).
    { intros H Hm. destruct (is_start (acts m)) eqn:Es; [now apply la_start|]. apply la_last; [|exact Hm|constructor]. apply Forall_app. split; [exact H|]. constructor; [now right|constructor]. }
    unfold act1. destruct (is_start a) eqn:Ea.
    + inversion IH as [l1 m0 l2 H1 H2 H3 H4 H5|l1 m0 l2 H1 H2 H3 H4 H5|l H H4 H5].
      * rewrite <- app_assoc. now apply la_start.
      * apply Forall_app in H1 as [_ H1]. inversion H1 as [|? ? [K|K] _]; [contradiction|congruence].
      * rewrite <- H5 in Ea. discriminate.
    + destruct (str_eqb _ _) eqn:E.
      * apply ignored_b in E. inversion IH as [l1 m0 l2 H1 H2 H3 H4 H5|l1 m0 l2 H1 H2 H3 H4 H5|l H H4 H5].
        -- rewrite H5 in H3. congruence.
        -- rewrite <- app_assoc. apply la_last; [exact H1|exact H2|]. apply Forall_app. split; [exact H3|]. now constructor.
        -- apply la_none. apply Forall_app. split; [exact H|]. now constructor.
      * apply Step; [|intros K; apply ignored_b in K; congruence]. inversion IH as [l1 m0 l2 H1 H2 H3 H4 H5|l1 m0 l2 H1 H2 H3 H4 H5|l H H4 H5].
        -- rewrite H5 in H3. congruence.
        -- apply Forall_app in H1 as [H1 H1']. apply Forall_app. split; [exact H1|]. inversion H1'; subst. constructor; [assumption|]. eapply Forall_impl; [|exact H3]. now left.
        -- eapply Forall_impl; [|exact H]. now left.
Qed.

(** ** a line *)
Section L.
Variables (vars : dict) (g : option str).
Definition skips (m : made) : bool := v_skipre (vo_st (fst m)).
Lemma line_run line ts : forall st st', rfold (compile_variable vars g line) ts st = Ok st' <->
  exists ms d' r', line_made vars g line ts (ls_defaults st) (ls_regex st) ms d' r' /\ ls_defaults st' = d' /\ ls_regex st' = r' /\ ls_skip st' = (ls_skip st || existsb skips ms)%bool /\
    ls_vars st' = puts (flat_map named (filter (fun m => negb (skips m)) ms)) (ls_vars st) /\
    ls_action st' = fold_left act1 (filter (fun m => negb (skips m)) ms) (ls_action st) /\
    ls_isline st' = (ls_isline st || existsb (fun m => v_isline (vo_st (fst m))) (filter (fun m => negb (skips m)) ms))%bool.
Proof.
  induction ts as [|t ts IH]; intros st st'; cbn [rfold].
  - split.
    + intros E. injection E as <-. exists [], (ls_defaults st), (ls_regex st). split; [constructor|]. cbn. now rewrite !Bool.orb_false_r.
    + intros (ms & d' & r' & H & E1 & E2 & E3 & E4 & E5 & E6). inversion H; subst. cbn in *. rewrite Bool.orb_false_r in *. destruct st, st'; cbn in *. congruence.
  - unfold compile_variable at 1. split.
    + intros E. destruct (new_variable vars g t line (ls_defaults st)) as [v|] eqn:Ev; [|discriminate]. apply variable_iff in Ev. cbn [rbind] in E. destruct (v_skipre (vo_st v)) eqn:Es.
      * cbn [rbind] in E. apply IH in E as (ms & d' & r' & H & E1 & E2 & E3 & E4 & E5 & E6). cbn [ls_regex ls_vars ls_action ls_isline ls_skip ls_defaults] in *.
        exists ((v, []) :: ms), d', r'. split; [now apply lm_set with (v := v)|]. split; [exact E1|]. split; [exact E2|]. assert (Ek : skips (v, []) = true) by exact Es. cbn [existsb filter]. rewrite Ek. cbn [negb orb] in *. rewrite Bool.orb_true_r. now repeat split.
      * destruct (variable_regex vars g v line (ls_regex st) (v_defaults (vo_st v))) as [[[r1 subs] d1]|] eqn:Er; [|discriminate]. cbn [rbind] in E.
        apply IH in E as (ms & d' & r' & H & E1 & E2 & E3 & E4 & E5 & E6). cbn [ls_regex ls_vars ls_action ls_isline ls_skip ls_defaults] in *.
        exists ((v, subs) :: ms), d', r'. split; [now apply lm_variable with (r1 := r1) (d1 := d1)|]. split; [exact E1|]. split; [exact E2|]. assert (Ek : skips (v, subs) = false) by exact Es. cbn [existsb filter]. rewrite Ek. cbn [negb orb]. split; [exact E3|].
        cbn [flat_map fold_left existsb fst]. rewrite E4, E5, E6. repeat split.
        -- unfold puts. rewrite fold_left_app. f_equal. unfold named. cbn [fst snd]. rewrite fold_left_app. f_equal. now destruct (v_skipvar (vo_st v)).
        -- now destruct (ls_isline st).
    + intros (ms & d' & r' & H & E1 & E2 & E3 & E4 & E5 & E6). inversion H as [|? ? ? ? v l ? ? Hv Hs Hl|? ? ? ? v r1 cols d1 l ? ? Hv Hs Hr Hl]; subst; apply variable_iff in Hv; rewrite Hv; cbn [rbind]; rewrite Hs.
      * cbn [rbind]. apply IH. exists l, (ls_defaults st'), (ls_regex st'). cbn [ls_regex ls_vars ls_action ls_isline ls_skip ls_defaults]. split; [exact Hl|]. assert (Ek : skips (v, []) = true) by exact Hs. cbn [existsb filter] in *. rewrite Ek in *. cbn [negb orb] in *. rewrite Bool.orb_true_r in E3. now repeat split.
      * rewrite Hr. cbn [rbind]. apply IH. exists l, (ls_defaults st'), (ls_regex st'). cbn [ls_regex ls_vars ls_action ls_isline ls_skip ls_defaults]. split; [exact Hl|]. assert (Ek : skips (v, cols) = false) by exact Hs. cbn [existsb filter] in *. rewrite Ek in *. cbn [negb orb] in *.
        split; [reflexivity|]. split; [reflexivity|]. split; [exact E3|]. cbn [flat_map fold_left existsb fst] in *. rewrite E4, E5, E6. repeat split.
        -- unfold puts. rewrite fold_left_app. f_equal. unfold named. cbn [fst snd]. rewrite fold_left_app. f_equal. now destruct (v_skipvar (vo_st v)).
        -- now destruct (ls_isline st).
Qed.
Lemma line_exact line d ox d' : Compile.compile_line vars g line d = Ok (ox, d') <-> exists ms, line_gives vars g line d ms ox d'.
Proof.
  unfold Compile.compile_line. set (st0 := {| ls_regex := []; ls_vars := []; ls_action := AAdd; ls_isline := false; ls_skip := false; ls_defaults := d |}).
  assert (Flt : forall ms, existsb skips ms = false -> filter (fun m => negb (skips m)) ms = ms). { intros ms K. apply filter_id. intros m Hm. destruct (skips m) eqn:E; [|reflexivity]. assert (existsb skips ms = true) by (apply existsb_exists; now exists m). congruence. }
  split.
  - destruct (rfold (compile_variable vars g line) (vars_in line) st0) as [st|] eqn:E; [|discriminate]. cbn [rbind]. apply line_run in E as (ms & d1 & r1 & H & E1 & E2 & E3 & E4 & E5 & E6). cbn [st0 ls_regex ls_vars ls_action ls_isline ls_skip ls_defaults orb] in *. intros Ho. exists ms, r1.
    rewrite E3 in Ho. destruct (existsb skips ms) eqn:Es.
    + injection Ho as <- <-. subst d1. split; [exact H|]. left. split; [|reflexivity]. apply existsb_exists in Es as (m & Hm & Hs). now exists m.
    + rewrite (Flt ms Es) in *. rewrite E2 in Ho. destruct (re_compile r1) as [re|] eqn:Er; [|discriminate]. injection Ho as <- <-. subst d1. split; [exact H|]. right. split.
      * apply Forall_forall. intros m Hm. destruct (v_skipre (vo_st (fst m))) eqn:K; [|reflexivity]. assert (existsb skips ms = true) by (apply existsb_exists; now exists m). congruence.
      * eexists. split; [reflexivity|]. cbn [x_text x_re x_isline x_action x_vars]. split; [reflexivity|]. split; [reflexivity|]. split; [rewrite E6; apply existsb_exists|]. split; [now apply action_eq|]. now apply dict_puts.
  - intros (ms & r & H & K).
    assert (X : exists st, rfold (compile_variable vars g line) (vars_in line) st0 = Ok st /\ ls_defaults st = d' /\ ls_regex st = r /\ ls_skip st = existsb skips ms /\
      ls_vars st = puts (flat_map named (filter (fun m => negb (skips m)) ms)) [] /\ ls_action st = fold_left act1 (filter (fun m => negb (skips m)) ms) AAdd /\
      ls_isline st = existsb (fun m => v_isline (vo_st (fst m))) (filter (fun m => negb (skips m)) ms)).
    { exists {| ls_regex := r; ls_vars := puts (flat_map named (filter (fun m => negb (skips m)) ms)) []; ls_action := fold_left act1 (filter (fun m => negb (skips m)) ms) AAdd; ls_isline := existsb (fun m => v_isline (vo_st (fst m))) (filter (fun m => negb (skips m)) ms); ls_skip := existsb skips ms; ls_defaults := d' |}.
      split; [|cbn; repeat split]. apply line_run. exists ms, d', r. cbn. repeat split. exact H. }
    destruct X as (st & -> & E1 & E2 & E3 & E4 & E5 & E6). cbn [rbind]. rewrite E3, E1, E2. destruct K as [[(m & Hm & Hs) ->]|[Hs (x & -> & X1 & X2 & X3 & X4 & X5)]].
    + assert (existsb skips ms = true) as -> by (apply existsb_exists; now exists m). reflexivity.
    + assert (Es : existsb skips ms = false). { destruct (existsb skips ms) eqn:Es; [|reflexivity]. apply existsb_exists in Es as (m & Hm & K). rewrite Forall_forall in Hs. specialize (Hs m Hm). unfold skips in K. congruence. }
      rewrite Es, X2. rewrite (Flt ms Es) in *. apply action_eq in X4. apply dict_puts in X5. destruct x as [x1 x2 x3 x4 x5]. cbn [x_text x_re x_isline x_action x_vars] in *. subst x1. rewrite E4, E5, E6, <- X4, <- X5.
      assert (existsb (fun m => v_isline (vo_st (fst m))) ms = x5) as ->; [|reflexivity]. apply Bool.eq_iff_eq_true. rewrite existsb_exists. symmetry. exact X3.
Qed.
Lemma lines_exact ls : forall d xs d', Compile.compile_lines vars g ls d = Ok (xs, d') <-> exists ms, lines_give vars g ls d ms xs d'.
Proof.
  induction ls as [|l ls IH]; intros d xs d'; cbn [Compile.compile_lines].
  - split; [intros E; injection E as <- <-; exists []; constructor|]. intros (ms & H). inversion H; subst. reflexivity.
  - split.
    + destruct (Compile.compile_line vars g l d) as [[ox d1]|] eqn:E; [|discriminate]. cbn [rbind]. apply line_exact in E as (ms & Hm). destruct (Compile.compile_lines vars g ls d1) as [[xs1 d2]|] eqn:E2; [|discriminate]. cbn [rbind]. apply IH in E2 as (ms' & Hm'). intros E. injection E as <- <-.
      exists (map (pair l) ms ++ ms'). now apply lg_more with (d1 := d1).
    + intros (ms & H). inversion H as [|? ? ? ms0 ox d1 ms' xs0 ? Hl Hr]; subst. assert (E : Compile.compile_line vars g l d = Ok (ox, d1)) by (apply line_exact; now exists ms0). rewrite E. cbn [rbind].
      assert (E2 : Compile.compile_lines vars g ls d1 = Ok (xs0, d')) by (apply IH; now exists ms'). now rewrite E2.
Qed.
End L.
