(** * TemplateFacts3: what marks a line *)
From Verif Require Import PyBase DictFacts StrFacts Regex Results Template SpecTemplate TemplateFacts.
Local Open Scope string_scope.
Local Open Scope list_scope.
Set Default Proof Using "Type".

Lemma apply_says name blank c n : cv_action (apply_name name blank c n) = match says n name with Some a => a | None => cv_action c end /\
  cv_name (apply_name name blank c n) = cv_name c /\
  cv_isline (apply_name name blank c n) = (str_eqb n $"_line_" || cv_isline c)%bool /\
  cv_skip (apply_name name blank c n) = ((blank && str_eqb n $"set") || cv_skip c)%bool.
Proof.
  unfold apply_name, says, in_strs. cbn [existsb].
  destruct (str_eqb_spec n $"_start_") as [->|]; [cbn; destruct blank; auto|].
  destruct (str_eqb_spec n $"_end_") as [->|]; [cbn; destruct blank; auto|].
  destruct (str_eqb_spec n $"_headers_") as [->|]; [cbn; destruct blank; auto|].
  destruct (str_eqb_spec n $"joinmatches") as [->|]; [cbn; destruct blank; auto|].
  destruct (str_eqb_spec n $"_line_") as [->|]; [cbn; destruct blank; auto|].
  destruct (str_eqb_spec n $"set") as [->|]; destruct blank; cbn; auto.
Qed.

Lemma fold_says name blank ns : forall c,
  cv_name (fold_left (apply_name name blank) ns c) = cv_name c /\
  ((Forall (fun n => says n name = None) ns /\ cv_action (fold_left (apply_name name blank) ns c) = cv_action c) \/
   (exists before n after, ns = before ++ n :: after /\ Forall (fun n => says n name = None) after /\ says n name = Some (cv_action (fold_left (apply_name name blank) ns c)))) /\
  (cv_isline (fold_left (apply_name name blank) ns c) = true <-> In $"_line_" ns \/ cv_isline c = true) /\
  (cv_skip (fold_left (apply_name name blank) ns c) = true <-> (blank = true /\ In $"set" ns) \/ cv_skip c = true).
Proof.
  induction ns as [|n ns IH]; intros c; cbn [fold_left].
  - split; [reflexivity|]. split; [left; split; [constructor|reflexivity]|]. cbn [In]. tauto.
  - destruct (apply_says name blank c n) as (A1 & A2 & A3 & A4). destruct (IH (apply_name name blank c n)) as (I1 & I2 & I3 & I4).
    split; [congruence|]. split; [|split].
    + destruct I2 as [(F & E)|(b & m & a & -> & F & E)].
      * rewrite A1 in E. destruct (says n name) as [a|] eqn:Es; [|left; split; [now constructor|exact E]].
        right. exists [], n, ns. rewrite E. auto.
      * right. exists (n :: b), m, a. auto.
    + rewrite I3, A3. cbn [In]. destruct (str_eqb_spec n $"_line_") as [->|Hn]; cbn [orb]; tauto.
    + rewrite I4, A4. cbn [In]. destruct (str_eqb_spec n $"set") as [->|Hn]; destruct blank; cbn [andb orb]; intuition congruence.
Qed.

Lemma compile_var_spec names_of blank v n fs : names_of v = n :: fs ->
  cv_name (compile_var names_of blank v) = sanitize n /\
  decided (sanitize n :: fs) (sanitize n) (cv_action (compile_var names_of blank v)) /\
  (cv_isline (compile_var names_of blank v) = true <-> In $"_line_" (sanitize n :: fs)) /\
  (cv_skip (compile_var names_of blank v) = true <-> blank = true /\ In $"set" (sanitize n :: fs)).
Proof.
  intros E. unfold compile_var. rewrite E.
  set (c0 := {| cv_name := sanitize n; cv_action := AAdd; cv_isline := false; cv_skip := false |}).
  change (fold_left (apply_name (sanitize n) blank) fs (apply_name (sanitize n) blank c0 (sanitize n)))
    with (fold_left (apply_name (sanitize n) blank) (sanitize n :: fs) c0).
  destruct (fold_says (sanitize n) blank (sanitize n :: fs) c0) as (H1 & H2 & H3 & H4). split; [exact H1|]. split; [exact H2|].
  split; [rewrite H3|rewrite H4]; cbn; intuition discriminate.
Qed.

Definition is_real (c : cvar) : bool := negb (str_eqb (cv_name c) $"ignore").
Lemma line_fold cs : forall a l sk,
  Forall (fun c => cv_skip c = false) cs ->
  let r := fold_left line_step cs (a, l, sk) in
  snd r = sk /\ (snd (fst r) = true <-> l = true \/ Exists (fun c => cv_isline c = true) cs) /\
  (if is_start a then fst (fst r) = a
   else (exists b c af, filter is_real cs = b ++ c :: af /\ Forall (fun c => is_start (cv_action c) = false) b /\ is_start (cv_action c) = true /\ fst (fst r) = cv_action c) \/
        (Forall (fun c => is_start (cv_action c) = false) (filter is_real cs) /\ fst (fst r) = match rev (filter is_real cs) with c :: _ => cv_action c | [] => a end)).
Proof.
  induction cs as [|c cs IH]; intros a l sk HF; cbn [fold_left].
  - cbn. split; [reflexivity|]. split; [split; [auto|intros [H|H]; [exact H|inversion H]]|]. destruct (is_start a); [reflexivity|]. right. split; [constructor|reflexivity].
  - inversion HF as [|? ? Hc HF']; subst. unfold line_step at 2 4 6 8 10. rewrite Hc.
    assert (L : (if l then l else cv_isline c) = true <-> l = true \/ cv_isline c = true) by (destruct l; intuition congruence).
    destruct (is_start a) eqn:Ea.
    + destruct (IH a (if l then l else cv_isline c) sk HF') as (I1 & I2 & I3). cbn zeta in *. rewrite Ea in I3.
      split; [exact I1|]. split; [|exact I3]. rewrite I2, L, Exists_cons. tauto.
    + assert (Hf : filter is_real (c :: cs) = if str_eqb (cv_name c) $"ignore" then filter is_real cs else c :: filter is_real cs)
        by (cbn [filter]; unfold is_real at 1; now destruct (str_eqb (cv_name c) $"ignore")).
      destruct (str_eqb (cv_name c) $"ignore") eqn:Ei.
      * destruct (IH a (if l then l else cv_isline c) sk HF') as (I1 & I2 & I3). cbn zeta in *. rewrite Ea in I3.
        split; [exact I1|]. split; [rewrite I2, L, Exists_cons; tauto|]. rewrite Hf. exact I3.
      * destruct (IH (cv_action c) (if l then l else cv_isline c) sk HF') as (I1 & I2 & I3). cbn zeta in *.
        split; [exact I1|]. split; [rewrite I2, L, Exists_cons; tauto|]. rewrite Hf.
        destruct (is_start (cv_action c)) eqn:Es.
        -- left. exists [], c, (filter is_real cs). auto.
        -- destruct I3 as [(b & x & af & E & Hb & Hx & Hr)|(Hff & Hr)].
           ++ left. exists (c :: b), x, af. rewrite E. repeat split; auto.
           ++ right. split; [now constructor|]. rewrite Hr. cbn [rev]. destruct (rev (filter is_real cs)); reflexivity.
Qed.
Lemma line_skip cs : forall a l sk, snd (fold_left line_step cs (a, l, sk)) = true <-> sk = true \/ Exists (fun c => cv_skip c = true) cs.
Proof.
  induction cs as [|c cs IH]; intros a l sk; cbn [fold_left]; [cbn; split; [auto|intros [H|H]; [exact H|inversion H]]|].
  rewrite Exists_cons. unfold line_step at 2. destruct (cv_skip c) eqn:E; rewrite IH; [tauto|]. intuition congruence.
Qed.

Definition blank_of (line : str) : bool := match rstrip (without_vars line) with [] => true | _ => false end.
Lemma compile_line_spec names_of line :
  let cs := map (compile_var names_of (blank_of line)) (vars_in line) in
  match compile_line names_of line with
  | None => Exists (fun c => cv_skip c = true) cs
  | Some r => ~ Exists (fun c => cv_skip c = true) cs /\ rl_line r = line /\ line_decided cs (rl_action r) /\
              (rl_isline r = true <-> Exists (fun c => cv_isline c = true) cs)
  end.
Proof.
  cbn zeta. unfold compile_line. fold (blank_of line). set (cs := map _ _).
  destruct (fold_left line_step cs (AAdd, false, false)) as [[a l] sk] eqn:E.
  assert (Hs := line_skip cs AAdd false false). rewrite E in Hs. cbn [snd] in Hs. destruct sk.
  - destruct Hs as [Hs _]. destruct (Hs eq_refl) as [K|K]; [discriminate|exact K].
  - assert (Hn : ~ Exists (fun c => cv_skip c = true) cs) by (intros K; assert (false = true) by (apply Hs; now right); discriminate).
    split; [exact Hn|]. cbn [rl_line rl_action rl_isline]. split; [reflexivity|].
    assert (HF : Forall (fun c => cv_skip c = false) cs).
    { apply Forall_forall. intros c Hc. destruct (cv_skip c) eqn:Ec; [|reflexivity]. exfalso. apply Hn, Exists_exists. eauto. }
    assert (Hl := line_fold cs AAdd false false HF). rewrite E in Hl. cbn [fst snd is_start] in Hl. destruct Hl as (_ & H2 & H3).
    split; [exact H3|]. rewrite H2. intuition discriminate.
Qed.
