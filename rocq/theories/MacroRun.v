(** * MacroRun: lemmas for SpecMacro (C132). *)
From Verif Require Import PyBase Regex Template Attributes MatchVar MatchFuncs GroupFuncs Parser Compile FuncTable Results Session Files Inputs OutputTags Load Run
  SpecVariable SpecAttr SpecText SpecCalls SpecInputs SpecOutputTags DictFacts StrFacts CallFacts CallFacts3 TextFacts InputFacts OutputRunFacts LoadedFacts SpecMacro.
Local Open Scope string_scope.
Local Open Scope list_scope.

Section M.
Variable ms : list (str * macro).
(** looking up a name, in any of the ways that the code does it *)
Lemma looked n : (exists f, defined ms n f /\ find (fun m => str_eqb (fst m) n) ms = Some (n, f)) \/ (~ In n (map fst ms) /\ find (fun m => str_eqb (fst m) n) ms = None).
Proof. pose proof (find_defined ms n) as D. destruct (find (fun m => str_eqb (fst m) n) ms) as [[n' f]|]; [left; destruct D as [-> D]; now exists f|now right]. Qed.
Lemma defined_in n f : defined ms n f -> In n (map fst ms).
Proof. intros (p & q & -> & _). rewrite map_app. apply in_or_app. right. now left. Qed.
Ltac same_def D := match goal with H : defined ms ?n ?g |- _ => lazymatch g with ?f' => rewrite (defined_unique _ _ _ _ H D) in * end end.
Theorem match_macro_iff n d r : f_macro ms d n = Ok r <-> match_macro ms n d r.
Proof.
  unfold f_macro. match goal with |- context [find ?p ?l] => change (find p l) with (find (fun m : str * macro => str_eqb (fst m) n) ms) end. destruct (looked n) as [(f & D & ->)|[N ->]]; cbn [rbind].
  - split.
    + intros K. destruct (f d) as [x|] eqn:F; [|discriminate]. cbn [rbind] in K. destruct x as [v|l].
      * destruct v as [|b| | | | |]; try (injection K as <-; eapply mm_value; [exact D|exact F|discriminate|discriminate]); [injection K as <-; eapply mm_none; eassumption|]. destruct b; injection K as <-; eapply mm_bool; eassumption.
      * assert (Q : (exists v new, l = [v; VDict new]) \/ (forall v new, l <> [v; VDict new])).
        { destruct l as [|v [|[| | | | |new|] [|]]]; try (right; intros ? ? E; discriminate E). left. now exists v, new. }
        destruct Q as [(v & new & ->)|Q]; [injection K as <-; eapply mm_fields; eassumption|].
        assert (E : Ok (VObj 0, FNone) = Ok r) by (destruct l as [|v [|[| | | | |new|] [|]]]; try exact K; now elim (Q v new)). injection E as <-. eapply mm_tuple; eassumption.
    + intros K. destruct K as [N|g b G E|g G E|g v G E N1 N2|g v new G E|g l G E Q]; try (rewrite (defined_unique _ _ _ _ D G), E; cbn [rbind]).
      * now apply defined_in in D.
      * now destruct b.
      * reflexivity.
      * destruct v as [|b| | | | |]; try reflexivity; [congruence|]. now elim (N1 b).
      * reflexivity.
      * destruct l as [|v [|[| | | | |new|] [|]]]; try reflexivity. now elim (Q v new).
  - split; [intros K; injection K as <-; now constructor|]. intros K. destruct K as [_|g b G E|g G E|g v G E N1 N2|g v new G E|g l G E Q]; try reflexivity; now apply defined_in in G.
Qed.
Lemma names_iff args names : macro_names args = names <-> names_given args names.
Proof.
  unfold macro_names, names_given. rewrite flat_map_concat_map. assert (E : concat (map (fun a => map strip (split $"," a)) args) = map strip (concat (map (split $",") args))) by (rewrite concat_map, map_map; reflexivity). rewrite E. split.
  - intros <-. exists (map (split $",") args). split; [apply (f2_map _ (split $",")); [intros a b; symmetry; apply cut_iff; discriminate|reflexivity]|now apply strips].
  - intros (pss & F & S). apply (f2_map _ (split $",")) in F; [|intros a b; symmetry; apply cut_iff; discriminate]. subst pss. now apply strips in S.
Qed.
Lemma goes_iff v : (py_eq v (VBool true) || py_eq v VNone)%bool = true <-> goes_on v.
Proof.
  unfold goes_on. destruct v as [|[]|z| | | |]; cbn; try (split; [discriminate|intros [K|[K|K]]; discriminate K]); try tauto.
  rewrite orb_false_r, Z.eqb_eq. split; [intros ->; tauto|intros [K|[K|K]]; congruence].
Qed.
Lemma g_looked n : (exists f, defined ms n f /\ find (fun m => str_eqb n (fst m)) (g_macros ms) = Some (n, fun v => do r <- f v; gm_of r)) \/ (~ In n (map fst ms) /\ find (fun m => str_eqb n (fst m)) (g_macros ms) = None).
Proof.
  assert (E : find (fun m => str_eqb n (fst m)) (g_macros ms) = match find (fun m => str_eqb (fst m) n) ms with Some m => Some (fst m, fun v => do r <- snd m v; gm_of r) | None => None end).
  { unfold g_macros. induction ms as [|[m f] l IH]; [reflexivity|]. cbn [map find fst]. assert (S : str_eqb n m = str_eqb m n) by (apply Bool.eq_iff_eq_true; rewrite !str_eqb_eq; split; congruence). rewrite S. destruct (str_eqb m n); [reflexivity|exact IH]. }
  rewrite E. destruct (looked n) as [(f & D & ->)|[N ->]]; [left; exists f; split; [exact D|reflexivity]|right; now split].
Qed.
Lemma gm_iff r x : gm_of r = Ok x <-> (r = MVal (VBool false) /\ x = MFalse) \/ (exists v, r = MVal v /\ goes_on v /\ x = MGoOn) \/ (exists v, r = MVal v /\ v <> VBool false /\ ~ goes_on v /\ x = MNew v).
Proof.
  destruct r as [v|l].
  2: { split; [discriminate|]. intros [[K _]|[(v & K & _)|(v & K & _)]]; discriminate. }
  assert (G : v <> VBool false -> gm_of (MVal v) = Ok (if (py_eq v (VBool true) || py_eq v VNone)%bool then MGoOn else MNew v)) by (intros H; destruct v as [|[]| | | | |]; try reflexivity; congruence).
  assert (Q : v = VBool false \/ v <> VBool false) by (destruct v as [|[]| | | | |]; try (right; congruence); now left). destruct Q as [->|Q].
  - cbn [gm_of]. split; [intros K; injection K as <-; now left|]. intros [[_ ->]|[(v & K & [H|[H|H]] & _)|(v & K & H & _)]]; [reflexivity|injection K as <-; discriminate..|injection K as <-; now elim H].
  - rewrite (G Q). destruct (py_eq v (VBool true) || py_eq v VNone)%bool eqn:E.
    + apply goes_iff in E. split; [intros K; injection K as <-; right; left; now exists v|]. intros [[K _]|[(v' & K & _ & ->)|(v' & K & _ & N & _)]]; [congruence|reflexivity|]. injection K as <-. contradiction.
    + assert (N : ~ goes_on v) by (intros K; apply goes_iff in K; congruence). split; [intros K; injection K as <-; right; right; now exists v|]. intros [[K _]|[(v' & K & N' & _)|(v' & K & _ & _ & ->)]]; [congruence|injection K as <-; contradiction|]. injection K as <-. reflexivity.
Qed.
Theorem group_macros_iff names v v' ok : run_macros (g_macros ms) names v = Ok (v', ok) <-> group_macros ms names v v' ok.
Proof.
  revert v. induction names as [|n l IH]; intros v; cbn [run_macros]; [split; [intros K; injection K as <- <-; constructor|intros K; now inversion K]|].
  destruct (g_looked n) as [(f & D & ->)|[N ->]]; cbn [snd].
  - split.
    + intros K. destruct (f v) as [r|] eqn:F; [|discriminate]. cbn [rbind] in K. destruct (gm_of r) as [x|] eqn:G; [|discriminate]. cbn [rbind] in K. apply gm_iff in G as [[-> ->]|[(w & -> & G & ->)|(w & -> & G1 & G2 & ->)]].
      * injection K as <- <-. eapply gm_drop; eassumption.
      * apply IH in K. eapply gm_same; eassumption.
      * apply IH in K. eapply gm_new; eassumption.
    + intros K. inversion K as [|? ? ? ? ? N|? g ? ? G E|? g ? ? r ? ? G E O K'|? g ? ? r ? ? G E O1 O2 K']; subst; try (rewrite (defined_unique _ _ _ _ D G), E; cbn [rbind]).
      * now apply defined_in in D.
      * reflexivity.
      * rewrite (proj2 (gm_iff (MVal r) MGoOn)) by (right; left; now exists r). cbn [rbind]. now apply IH.
      * rewrite (proj2 (gm_iff (MVal r) (MNew r))) by (right; right; now exists r). cbn [rbind]. now apply IH.
  - split; [intros K; apply IH in K; now apply gm_unknown|]. intros K. inversion K as [|? ? ? ? ? _ K'|? g ? ? G E|? g ? ? r ? ? G E O K'|? g ? ? r ? ? G E O1 O2 K']; subst; [now apply IH|now apply defined_in in G..].
Qed.
Theorem input_macro_iff n text t go : input_call ms text (macro_call [n]) = Ok (t, go) <-> input_macro ms n text t go.
Proof.
  unfold input_call, macro_call. cbn [at_name]. change (str_eqb (t_ "macro") $"extract_commands") with false. change (str_eqb (t_ "macro") $"test") with false. change (str_eqb (t_ "macro") $"macro") with true. cbv iota.
  unfold macro_text. cbn [at_args at_kwargs map]. change (bind (sig [req $"macro_name"]) [VStr n] []) with (Ok {| b_params := [VStr n]; b_star := []; b_kwonly := [] |}). cbn [rbind]. change (p1 {| b_params := [VStr n]; b_star := []; b_kwonly := [] |}) with (VStr n). cbn [s_arg rbind].
  destruct (looked n) as [(f & D & ->)|[N ->]]; cbn [snd].
  - split.
    + intros K. destruct (f (VStr text)) as [r|] eqn:F; [|discriminate]. cbn [rbind] in K. destruct r as [v|]; [|discriminate]. destruct v; try discriminate; injection K as <- <-; [eapply im_none|eapply im_bool|eapply im_text]; eassumption.
    + intros K. destruct K as [N|g b G E|g G E|g s G E]; [now apply defined_in in D|rewrite (defined_unique _ _ _ _ D G), E; reflexivity..].
  - split; [intros K; injection K as <- <-; now constructor|]. intros K. destruct K as [_|g b G E|g G E|g s G E]; [reflexivity|now apply defined_in in G..].
Qed.
Theorem inputs_run_iff fs text t : input_text ms fs text = Ok t <-> inputs_run (fun a x y go => input_call ms x a = Ok (y, go)) fs text t.
Proof.
  revert text. induction fs as [|a fs IH]; intros text; cbn [input_text]; [split; [intros K; injection K as <-; constructor|intros K; now inversion K]|]. split.
  - intros K. destruct (input_call ms text a) as [[x go]|] eqn:E; [|discriminate]. cbn [rbind] in K. destruct go; [eapply ir_next; [exact E|now apply IH]|injection K as <-; now apply ir_stop].
  - intros K. inversion K as [|? ? ? x ? E K'|? ? ? x E]; subst; rewrite E; cbn [rbind]; [now apply IH|reflexivity].
Qed.
End M.
(** ** outputs *)
Lemma macros_nth ts : forall cur i t, nth_error ts i = Some t -> exists ms, nth_error (output_macros cur ts) i = Some ms /\
  ((tp_macros t <> [] /\ tp_outputs t <> [] /\ ms = tp_macros t) \/
   ((tp_macros t = [] \/ tp_outputs t = []) /\ exists j u, j < i /\ nth_error ts j = Some u /\ tp_macros u <> [] /\ tp_outputs u <> [] /\ (forall k v, j < k < i -> nth_error ts k = Some v -> tp_macros v = [] \/ tp_outputs v = []) /\ ms = tp_macros u) \/
   ((forall k v, k <= i -> nth_error ts k = Some v -> tp_macros v = [] \/ tp_outputs v = []) /\ ms = cur)).
Proof.
  induction ts as [|t0 ts IH]; intros cur i t E; [destruct i; discriminate|]. cbn [output_macros]. set (cur' := match tp_outputs t0 with [] => cur | _ :: _ => match tp_macros t0 with [] => cur | _ :: _ => _ end end).
  assert (C : (tp_macros t0 <> [] /\ tp_outputs t0 <> [] /\ cur' = tp_macros t0) \/ ((tp_macros t0 = [] \/ tp_outputs t0 = []) /\ cur' = cur)).
  { unfold cur'. destruct (tp_outputs t0); [right; split; [now right|reflexivity]|]. destruct (tp_macros t0); [right; split; [now left|reflexivity]|left; repeat split; congruence]. }
  clearbody cur'. destruct i as [|i].
  - injection E as <-. exists cur'. split; [reflexivity|]. destruct C as [C|[C ->]]; [now left|]. right. right. split; [|reflexivity]. intros k v L K. assert (k = 0) by lia. subst k. injection K as <-. exact C.
  - destruct (IH cur' i t E) as (ms & N & H). exists ms. split; [exact N|]. destruct H as [H|[[H1 (j & u & L & Hu & A & B & Hk & ->)]|[Hk ->]]].
    + now left.
    + right. left. split; [exact H1|]. exists (S j), u. split; [lia|]. split; [exact Hu|]. split; [exact A|]. split; [exact B|]. split; [|reflexivity]. intros k v L2 K. destruct k as [|k]; [lia|]. apply (Hk k v); [lia|exact K].
    + assert (T : tp_macros t = [] \/ tp_outputs t = []) by (apply (Hk i t); [lia|exact E]). destruct C as [(A & B & ->)|[C ->]].
      * right. left. split; [exact T|]. exists 0, t0. split; [lia|]. split; [reflexivity|]. split; [exact A|]. split; [exact B|]. split; [|reflexivity]. intros k v L2 K. destruct k as [|k]; [lia|]. apply (Hk k v); [lia|exact K].
      * right. right. split; [|reflexivity]. intros k v L2 K. destruct k as [|k]; [injection K as <-; exact C|]. apply (Hk k v); [lia|exact K].
Qed.
Lemma last_macros ts : ts <> [] -> exists u, nth_error ts (pred (length ts)) = Some u /\ parsed_macros ts = tp_macros u.
Proof.
  unfold parsed_macros. induction ts as [|t ts IH]; intros H; [congruence|]. destruct ts as [|t2 ts]; [now exists t|]. destruct IH as (u & N & E); [discriminate|]. exists u. split; [exact N|]. exact E.
Qed.
Theorem outputs_see_iff ts i ms : nth_error (output_macros (parsed_macros ts) ts) i = Some ms <-> outputs_see ts i ms.
Proof.
  assert (F : forall t, nth_error ts i = Some t -> exists m, nth_error (output_macros (parsed_macros ts) ts) i = Some m /\ outputs_see ts i m).
  { intros t E. destruct (macros_nth ts (parsed_macros ts) i t E) as (m & N & H). exists m. split; [exact N|]. destruct H as [(A & B & ->)|[[T (j & u & L & Hu & A & B & Hk & ->)]|[Hk ->]]].
    - now apply os_own.
    - eapply os_before; eassumption.
    - destruct (last_macros ts) as (u & Hu & ->); [intros ->; destruct i; discriminate|]. eapply os_last; eassumption. }
  split.
  - intros N. destruct (nth_error ts i) as [t|] eqn:E.
    + destruct (F t eq_refl) as (m & N' & O). congruence.
    + assert (L : forall l cur, length (output_macros cur l) = length l) by (induction l as [|t l IH]; intros cur; cbn [output_macros length]; [reflexivity|now rewrite IH]). apply nth_error_None in E. rewrite <- (L ts (parsed_macros ts)) in E. apply nth_error_None in E. congruence.
  - intros O. assert (X : exists t, nth_error ts i = Some t) by (destruct O as [t E|t j u E|t u E]; now exists t). destruct X as [t E]. destruct (F t E) as (m & N & O'). rewrite N. f_equal.
    clear F N. destruct (macros_nth ts [] i t E) as (_ & _ & _).
    destruct O as [t1 E1 A1 B1|t1 j1 u1 E1 T1 L1 H1 A1 B1 K1|t1 u1 E1 K1 H1]; destruct O' as [t2 E2 A2 B2|t2 j2 u2 E2 T2 L2 H2 A2 B2 K2|t2 u2 E2 K2 H2]; try congruence.
    + assert (t1 = t2) by congruence. subst t2. destruct T2; contradiction.
    + assert (t1 = t2) by congruence. subst t2. destruct (K2 i t1) as [?|?]; [lia|exact E1|contradiction..].
    + assert (t1 = t2) by congruence. subst t2. destruct T1; contradiction.
    + destruct (Nat.lt_trichotomy j1 j2) as [Q|[Q|Q]].
      * destruct (K1 j2 u2) as [?|?]; [lia|exact H2|contradiction..].
      * subst j2. congruence.
      * destruct (K2 j1 u1) as [?|?]; [lia|exact H1|contradiction..].
    + destruct (K2 j1 u1) as [?|?]; [lia|exact H1|contradiction..].
    + assert (t1 = t2) by congruence. subst t2. destruct (K1 i t1) as [?|?]; [lia|exact E1|contradiction..].
    + destruct (K1 j2 u2) as [?|?]; [lia|exact H2|contradiction..].
Qed.
Lemma session_template ts i t ms : nth_error ts i = Some t -> outputs_see ts i ms -> nth_error (ss_templates (session_of ts)) i = Some (template_of ms (i, t)).
Proof.
  intros E O. apply outputs_see_iff in O. unfold session_of. cbn [ss_templates].
  assert (G : forall (k : nat) (l : list tpl) (ml : list (list (str * macro))) (i : nat), nth_error l i = Some t -> nth_error ml i = Some ms -> nth_error (map (fun x => template_of (snd x) (fst x)) (combine (Load.number k l) ml)) i = Some (template_of ms (k + i, t))).
  { clear. intros k l. revert k. induction l as [|a l IH]; intros k ml i E M; [destruct i; discriminate|]. destruct ml as [|m ml]; [destruct i; discriminate|]. cbn [Load.number combine map]. destruct i as [|i].
    - cbn [nth_error] in *. rewrite Nat.add_0_r. cbn [fst snd]. congruence.
    - cbn [nth_error] in *. rewrite (IH (S k) ml i E M). now rewrite Nat.add_succ_r. }
  exact (G 0 ts _ i E O).
Qed.
Theorem group_iff ms args st st' ok : g_macro (g_macros ms) args st = Ok (st', ok) <-> exists names v, names_given args names /\ group_macros ms names (fs_data st) v ok /\ st' = with_data st v.
Proof.
  unfold g_macro. split.
  - intros K. destruct (run_macros (g_macros ms) (macro_names args) (fs_data st)) as [[v o]|] eqn:E; [|discriminate]. cbn [rbind] in K. injection K as <- <-. exists (macro_names args), v. split; [now apply names_iff|]. split; [now apply group_macros_iff|reflexivity].
  - intros (names & v & N & G & ->). apply (proj2 (names_iff _ _)) in N. subst names. apply (proj2 (group_macros_iff _ _ _ _ _)) in G. now rewrite G.
Qed.
Theorem outputs_macros ts i t : nth_error ts i = Some t -> exists ms, outputs_see ts i ms /\ (forall ms', outputs_see ts i ms' -> ms' = ms) /\ nth_error (ss_templates (session_of ts)) i = Some (template_of ms (i, t)).
Proof.
  intros E. destruct (macros_nth ts (parsed_macros ts) i t E) as (m & N & _). exists m. pose proof (proj1 (outputs_see_iff ts i m) N) as O. split; [exact O|]. split; [|now apply session_template].
  intros m' O'. apply (proj2 (outputs_see_iff ts i m')) in O'. congruence.
Qed.
