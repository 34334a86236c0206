(** * SessionHist: histories of calls, inputs, result structures *)
From Verif Require Import PyBase DictFacts PyEqFacts Session SpecSession SessionFacts.
From Coq Require Import Sorting.Sorted Sorting.Permutation.
Local Open Scope string_scope.
Local Open Scope list_scope.

Set Default Proof Using "Type".
Section Hist.
Context {Fn G : Type}.
Local Notation input := (input Fn).
Local Notation template := (template Fn).
Local Notation session := (session Fn G).
Local Notation job := (@job Fn).
Variables (fsize : str -> res Z) (tsize : str -> Z) (load : val -> list datum) (nofuncs : Fn)
  (order : list nat -> list nat)
  (prs : nat -> G -> list nat -> Fn -> datum -> val -> res (G * val))
  (multi : template -> G -> res (G * template)).

(** a template without outputs and with a documented results method *)
Definition plain (t : template) : Prop := documented_method t /\ t_outputs t = [].
(** the multiprocess step only touches results, and keeps a list a list *)
Definition multi_keeps : Prop := forall t g g' t', multi t g = Ok (g', t') ->
  same_but_results t t' /\ (t_method t = $"per_input" -> forall l, t_results t = VList l -> exists l', t_results t' = VList l').

Lemma plain_same t t' : same_but_results t t' ->
  (t_method t = $"per_input" -> forall l, t_results t = VList l -> exists l', t_results t' = VList l') -> plain t -> plain t'.
Proof.
  intros (?&?&Hm&?&?&Ho) Hk [[[Hp [l Hl]]|Hp] Hout]; split; try congruence.
  - left. split; [congruence|]. eauto.
  - right. congruence.
Qed.

Lemma plain_inputs t l : plain t -> plain (set_inputs t l).
Proof. clear tsize prs load fsize. unfold plain, documented_method. destruct t; cbn. tauto. Qed.

Lemma add_input_plain (s : session) d i t g : Forall plain (ss_templates s) -> Forall plain (ss_templates (add_input load nofuncs order s d i t g)).
Proof.
  intros H. unfold add_input. destruct (load d); [exact H|]. cbn. apply Forall_map. eapply Forall_impl; [|exact H]. intros a Ha.
  destruct (selected t a); [|exact Ha]. unfold update_input. destruct (aget _ _); now apply plain_inputs.
Qed.
Lemma clear_input_plain (s : session) t : Forall plain (ss_templates s) -> Forall plain (ss_templates (clear_input s t)).
Proof.
  intros H. cbn. apply Forall_map. eapply Forall_impl; [|exact H]. intros a Ha. destruct (selected t a); [|exact Ha]. now apply plain_inputs.
Qed.

Lemma template_parsed_keeps t g g' t' : template_parsed prs t g g' t' ->
  same_but_results t t' /\ (t_method t = $"per_input" -> forall l, t_results t = VList l -> exists l', t_results t' = VList l').
Proof. intros H. inversion H; subst; split; eauto. intros Hm. rewrite Hm in *. discriminate. Qed.

Lemma each_plain (f : template -> G -> res (G * template)) ts :
  (forall t g g' t', In t ts -> f t g = Ok (g', t') -> plain t') ->
  forall g g' ts', each f ts g = Ok (g', ts') -> Forall plain ts'.
Proof.
  induction ts as [|t ts IH]; intros Hf g g' ts' H; cbn [each] in H; [injection H as _ <-; constructor|].
  destruct (f t g) as [[g1 t1]|e] eqn:E; [|discriminate]. cbn [rbind] in H.
  destruct (each f ts g1) as [[g2 ts2]|e] eqn:E'; [|discriminate]. cbn [rbind] in H. injection H as _ <-.
  constructor; [eapply Hf; [now left|exact E]|]. eapply IH; [|exact E']. intros; eapply Hf; [right|]; eassumption.
Qed.

Lemma run_outputs_plain (t : template) : t_outputs t = [] -> run_outputs t = Ok t.
Proof. intros H. unfold run_outputs. rewrite H. cbn. f_equal. now destruct t. Qed.
Lemma rmap_outputs_plain (ts : list template) : Forall plain ts -> rmap run_outputs ts = Ok ts.
Proof.
  intros H. apply rmap_Forall2. induction H as [|t ts Ht _ IH]; constructor; [|exact IH]. apply run_outputs_plain. apply Ht.
Qed.

Lemma parse_plain (s : session) one mult s' : multi_keeps -> Forall plain (ss_templates s) ->
  parse fsize tsize prs multi s one mult = Ok s' -> Forall plain (ss_templates s').
Proof.
  intros Hmk Hp H. unfold parse in H. destruct (data_size fsize tsize s) as [[z n]|e]; [|discriminate]. cbn [rbind] in H.
  assert (K : forall f, (forall t g g' t', In t (ss_templates s) -> f t g = Ok (g', t') -> plain t') ->
    (do (g, ts) <- each f (ss_templates s) (ss_global s); do ts' <- rmap run_outputs ts; Ok (set_templates (set_global s g) ts')) = Ok s' ->
    Forall plain (ss_templates s')).
  { intros f Hf H'. destruct (each f (ss_templates s) (ss_global s)) as [[g ts]|e] eqn:E; [|discriminate]. cbn [rbind] in H'.
    assert (Hts := each_plain f _ Hf _ _ _ E). rewrite (rmap_outputs_plain ts Hts) in H'. cbn [rbind] in H'. injection H' as <-. exact Hts. }
  rewrite Forall_forall in Hp.
  assert (K1 : forall t g g' t', In t (ss_templates s) -> parse_one prs t g = Ok (g', t') -> plain t').
  { intros t g g' t' Hin Hx. assert (Ht := Hp t Hin). apply (proj1 (parse_one_spec prs t g g' t' (proj1 Ht))) in Hx.
    destruct (template_parsed_keeps _ _ _ _ Hx). eapply plain_same; eauto. }
  assert (K2 : forall t g g' t', In t (ss_templates s) -> multi t g = Ok (g', t') -> plain t').
  { intros t g g' t' Hin Hx. destruct (Hmk _ _ _ _ Hx). eapply plain_same; eauto. }
  destruct (is_true one && is_true mult)%bool; [discriminate|].
  destruct (is_true one); [exact (K _ K1 H)|]. destruct (is_true mult); [exact (K _ K2 H)|].
  destruct (_ && _)%bool; [exact (K _ K2 H)|exact (K _ K1 H)].
Qed.

Lemma clear_plain (s : session) names s' : Forall plain (ss_templates s) -> clear_result s names = Ok s' -> Forall plain (ss_templates s').
Proof.
  intros Hp H. unfold clear_result in H. destruct (rmap _ _) as [ts|e] eqn:E; [|discriminate]. cbn [rbind] in H. injection H as <-.
  apply rmap_Forall2 in E. cbn. revert Hp. induction E as [|t t' ts ts' Ht _ IH]; intros Hp; inversion Hp; subst; constructor; [|auto].
  destruct (match names with [] => true | _ => in_strs (t_name t) names end); [|injection Ht as <-; assumption].
  destruct (clear_val (t_results t)) as [v|e] eqn:Ev; [|discriminate]. cbn [rbind] in Ht. injection Ht as <-.
  eapply plain_same; [apply set_results_same| |eassumption]. intros _ l Hl. rewrite Hl in Ev. cbn in Ev. injection Ev as <-. now exists [].
Qed.

Lemma exec_plain (s : session) o s' : multi_keeps -> Forall plain (ss_templates s) ->
  exec fsize tsize load nofuncs order prs multi s o = Ok s' -> Forall plain (ss_templates s').
Proof.
  intros Hmk Hp H. destruct o; cbn in H.
  - injection H as <-. now apply add_input_plain.
  - injection H as <-. unfold set_input. apply add_input_plain. now apply clear_input_plain.
  - injection H as <-. now apply clear_input_plain.
  - eapply parse_plain; eauto.
  - eapply clear_plain; eauto.
Qed.
Lemma execs_plain h : forall (s s' : session), multi_keeps -> Forall plain (ss_templates s) ->
  execs fsize tsize load nofuncs order prs multi s h = Ok s' -> Forall plain (ss_templates s').
Proof.
  induction h as [|o h IH]; intros s s' Hmk Hp H; cbn in H; [injection H as <-; exact Hp|].
  destruct (exec _ _ _ _ _ _ _ s o) as [s1|e] eqn:E; [|discriminate]. cbn [rbind] in H.
  exact (IH _ _ Hmk (exec_plain _ _ _ Hmk Hp E) H).
Qed.

(** ** the first parse: the same templates and inputs, nothing parsed yet *)
Definition fresh (g0 : G) (s : session) : session :=
  {| ss_templates := map (fun t => set_results t (VList [])) (ss_templates s); ss_global := g0; ss_threshold := ss_threshold s |}.
Definition results (s : session) : list val := map t_results (ss_templates s).

Lemma memoryless_job id g g0 j m g1 v : memoryless prs -> run_job prs id g j m = Ok (g1, v) -> exists g2, run_job prs id g0 j m = Ok (g2, v).
Proof.
  intros Hm. unfold run_job. intros H. specialize (Hm id g g0 (fst (fst j)) (snd (fst j)) (snd j) m).
  destruct (prs id g (fst (fst j)) (snd (fst j)) (snd j) m) as [[ga va]|e]; [|discriminate]. injection H as <- <-.
  destruct (prs id g0 (fst (fst j)) (snd (fst j)) (snd j) m) as [[gb vb]|e]; [|contradiction]. subst. now exists gb.
Qed.
Lemma separately_any id : memoryless prs -> forall js g g' vs, separately (run_job prs id) g js g' vs ->
  forall g0, exists g0', separately (run_job prs id) g0 js g0' vs.
Proof.
  intros Hm js g g' vs H. induction H as [g|g j g1 v js g2 vs Hr _ IH]; intros g0; [exists g0; constructor|].
  destruct (memoryless_job id g g0 j _ _ _ Hm Hr) as [ga Ha]. destruct (IH ga) as [gb Hb]. exists gb. econstructor; eassumption.
Qed.
Lemma together_any id : memoryless prs -> forall js g v g' v', together (run_job prs id) g v js g' v' ->
  forall g0, exists g0', together (run_job prs id) g0 v js g0' v'.
Proof.
  intros Hm js g v g' v' H. induction H as [g v|g v j g1 v1 js g2 v2 Hr _ IH]; intros g0; [exists g0; constructor|].
  destruct (memoryless_job id g g0 j _ _ _ Hm Hr) as [ga Ha]. destruct (IH ga) as [gb Hb]. exists gb. econstructor; eassumption.
Qed.

(** two templates that differ in their results only *)
Lemma parsed_transfer t t0 g g' t' : memoryless prs -> same_but_results t t0 -> plain t ->
  (t_method t = $"per_input" -> t_results t0 = t_results t) ->
  template_parsed prs t g g' t' -> forall g0, exists g0' t0', template_parsed prs t0 g0 g0' t0' /\ t_results t0' = t_results t'.
Proof.
  intros Hm Hs Hpl Hr H g0. assert (Hs' := Hs). destruct Hs' as (Hid & _ & Hme & _ & Hin & _). inversion H; subst.
  - destruct (separately_any _ Hm _ _ _ _ H2 g0) as [g0' Hg]. exists g0', (set_results t0 (VList (old ++ ds))).
    split; [|cbn; congruence]. eapply tp_per_input; try reflexivity; try apply set_results_same; try eassumption.
    + congruence.
    + rewrite Hr by assumption. assumption.
    + rewrite Hid, (same_jobs _ _ Hs). eassumption.
  - destruct (together_any _ Hm _ _ _ _ _ H1 g0) as [g0' Hg]. exists g0', (set_results t0 (t_results t')).
    split; [|reflexivity]. eapply tp_per_template; try reflexivity; try apply set_results_same; try eassumption.
    + congruence.
    + rewrite Hid, (same_jobs _ _ Hs). eassumption.
Qed.

Lemma in_turn_transfer (ts : list template) : memoryless prs -> forall ts0 g g' ts' g0, in_turn (template_parsed prs) ts g g' ts' ->
  Forall2 (fun t t0 => same_but_results t t0 /\ plain t /\ (t_method t = $"per_input" -> t_results t0 = t_results t)) ts ts0 ->
  exists g0' ts0', in_turn (template_parsed prs) ts0 g0 g0' ts0' /\ map t_results ts0' = map t_results ts'.
Proof.
  intros Hm. induction ts as [|t ts IH]; intros ts0 g g' ts' g0 H HF.
  - inversion H; subst. inversion HF; subst. exists g0, []. split; constructor.
  - inversion H as [|? ? g1 t1 ? g2 ts2 Ht Hts]; subst. inversion HF as [|? t0 ? ts0' [Hs [Hpl Hr]] HF']; subst.
    destruct (parsed_transfer _ _ _ _ _ Hm Hs Hpl Hr Ht g0) as (ga & ta & Hta & Era).
    destruct (IH _ _ _ _ ga Hts HF') as (gb & tsb & Hb & Eb). exists gb, (ta :: tsb). split; [econstructor; eassumption|].
    cbn. rewrite Era, Eb. reflexivity.
Qed.

Lemma outputs_none (ts ts' : list template) : Forall (fun t : template => t_outputs t = []) ts -> Forall2 outputs_run ts ts' -> ts' = ts.
Proof.
  intros Ho H. induction H as [|t t' ts ts' [Hs Hp] _ IH]; [reflexivity|]. inversion Ho as [|? ? H1 H2]; subst. rewrite H1 in Hp.
  assert (E : t_results t' = t_results t) by (inversion Hp; reflexivity).
  rewrite (same_eq _ _ Hs), IH, E by assumption. destruct t; reflexivity.
Qed.
Lemma outputs_none_refl (ts : list template) : Forall (fun t : template => t_outputs t = []) ts -> Forall2 outputs_run ts ts.
Proof.
  induction 1 as [|t ts Ht _ IH]; constructor; [|exact IH]. split; [repeat split|]. rewrite Ht. constructor.
Qed.
Lemma in_turn_outputs ts g g' ts' : in_turn (template_parsed prs) ts g g' ts' -> Forall plain ts -> Forall (fun t : template => t_outputs t = []) ts'.
Proof.
  induction 1 as [|t g g1 t1 ts g2 ts2 Ht _ IH]; intros Hp; constructor; inversion Hp; subst; [|auto].
  destruct (template_parsed_keeps _ _ _ _ Ht) as [(?&?&?&?&?&Ho) _]. rewrite Ho. now apply H1.
Qed.

Lemma same_data (s s0 : session) : Forall2 same_but_results (ss_templates s) (ss_templates s0) -> all_data s0 = all_data s.
Proof.
  unfold all_data. induction 1 as [|t t0 ts ts0 (?&?&?&?&Hi&?) _ IH]; [reflexivity|]. cbn. rewrite IH. f_equal. unfold data_of. now rewrite Hi.
Qed.

Definition transferable (s s0 : session) : Prop := 
  Forall2 (fun t t0 => same_but_results t t0 /\ plain t /\ (t_method t = $"per_input" -> t_results t0 = t_results t)) (ss_templates s) (ss_templates s0)
  /\ ss_threshold s0 = ss_threshold s.

Lemma transfer_same (s s0 : session) : transferable s s0 -> Forall2 same_but_results (ss_templates s) (ss_templates s0).
Proof. clear multi. intros [H _]. eapply Forall2_imp; [|exact H]. cbn. tauto. Qed.
Lemma transfer_files (s s0 : session) : transferable s s0 -> files_exist fsize s -> files_exist fsize s0.
Proof. intros H Hf. unfold files_exist. rewrite (same_data _ _ (transfer_same _ _ H)). exact Hf. Qed.
Lemma transfer_multi (s s0 : session) one mult : transferable s s0 -> uses_multi fsize tsize s0 one mult -> uses_multi fsize tsize s one mult.
Proof.
  intros H [H1 H2]. assert (E := same_data _ _ (transfer_same _ _ H)). split; [exact H1|]. unfold total_size in *. rewrite E in H2.
  rewrite <- (proj2 H). exact H2.
Qed.
Lemma transfer_doc (s s0 : session) : transferable s s0 -> Forall documented_method (ss_templates s0).
Proof.
  intros [H _]. induction H as [|t t0 ts ts0 [(?&?&Hm&?&?&?) [[[[Hp [l Hl]]|Hp] _] Hr]] _ IH]; constructor; try exact IH.
  - left. split; [congruence|]. exists l. rewrite Hr by assumption. assumption.
  - right. congruence.
Qed.
Lemma transfer_outputs (s s0 : session) : transferable s s0 -> Forall (fun t : template => t_outputs t = []) (ss_templates s0).
Proof.
  intros [H _]. induction H as [|t t0 ts ts0 [(?&?&Hm&?&?&Ho) [[_ Hp] Hr]] _ IH]; constructor; try exact IH. congruence.
Qed.
Lemma transfer_plain (s s0 : session) : transferable s s0 -> Forall plain (ss_templates s0).
Proof.
  intros H. assert (Hd := transfer_doc _ _ H). assert (Ho := transfer_outputs _ _ H). rewrite Forall_forall in *. intros t Ht. split; auto.
Qed.

Lemma parse_transfer (s s0 : session) one mult s' : memoryless prs -> transferable s s0 -> files_exist fsize s ->
  ~ (one = VBool true /\ mult = VBool true) -> ~ uses_multi fsize tsize s one mult ->
  parse fsize tsize prs multi s one mult = Ok s' ->
  exists s0', parse fsize tsize prs multi s0 one mult = Ok s0' /\ results s0' = results s'.
Proof.
  intros Hm HT Hf Hb Hu H.
  assert (Hpl : Forall plain (ss_templates s)) by (destruct HT as [HT _]; clear - HT; induction HT as [|? ? ? ? (?&?&?)]; constructor; auto).
  assert (Hd : Forall documented_method (ss_templates s)) by (eapply Forall_impl; [|exact Hpl]; intros t Ht; apply Ht).
  apply parse_session in H; try assumption. destruct H as (g & ts & Hi & Ho & Hg & Hth).
  assert (ss_templates s' = ts) as Ets by (apply outputs_none; [eapply in_turn_outputs; eassumption|exact Ho]).
  destruct (in_turn_transfer _ Hm _ _ _ _ (ss_global s0) Hi (proj1 HT)) as (g0' & ts0' & Hi0 & Er).
  exists {| ss_templates := ts0'; ss_global := g0'; ss_threshold := ss_threshold s0 |}. split.
  - apply parse_session; try assumption; [now apply (transfer_files s)| |now apply (transfer_doc s)|].
    + intros Hc. apply Hu. eapply transfer_multi; eassumption.
    + exists g0', ts0'. split; [exact Hi0|]. cbn. repeat split. apply outputs_none_refl. eapply in_turn_outputs; [exact Hi0|].
      now apply (transfer_plain s).
  - unfold results. cbn. rewrite Ets. exact Er.
Qed.

Lemma clear_all_shape (s s1 : session) : clear_result s [] = Ok s1 ->
  Forall2 (fun t t1 => exists v, clear_val (t_results t) = Ok v /\ t1 = set_results t v) (ss_templates s) (ss_templates s1) /\
  ss_threshold s1 = ss_threshold s.
Proof.
  unfold clear_result. intros H. destruct (rmap _ _) as [ts|e] eqn:E; [|discriminate]. cbn [rbind] in H. injection H as <-. split; [|reflexivity].
  cbn. apply rmap_Forall2 in E. eapply Forall2_imp; [|exact E]. intros t t1 Ht. cbn in Ht.
  destruct (clear_val (t_results t)) as [v|]; [|discriminate]. cbn in Ht. injection Ht as <-. eauto.
Qed.

Lemma clear_transfer (s s1 : session) g0 : Forall plain (ss_templates s) -> clear_result s [] = Ok s1 ->
  transferable s1 (fresh g0 s) /\ transferable (fresh g0 s) s1.
Proof. clear multi.
  intros Hp H. assert (Hp1 := clear_plain _ _ _ Hp H). destruct (clear_all_shape _ _ H) as [HF Hth].
  unfold transferable, fresh. cbn [ss_templates ss_threshold].
  assert (K : Forall2 (fun t1 t0 => same_but_results t1 t0 /\ (t_method t1 = $"per_input" -> t_results t0 = t_results t1) /\ plain t1 /\ plain t0)
    (ss_templates s1) (map (fun t => set_results t (VList [])) (ss_templates s))).
  { clear - HF Hp Hp1. induction HF as [|t t1 ts ts1 (v & Hv & ->) _ IH]; [constructor|]. inversion Hp; inversion Hp1; subst. cbn.
    constructor; [|auto]. split; [destruct t; repeat split|]. split.
    - intros Hm. cbn in Hm. cbn. destruct (proj1 H1) as [[_ [l Hl]]|Hm']; [|exfalso; rewrite Hm' in Hm; discriminate]. rewrite Hl in Hv. cbn in Hv. congruence.
    - split; [assumption|]. eapply plain_same; [apply set_results_same| |exact H1]. intros _ l _. now exists []. }
  split; (split; [|congruence]).
  - eapply Forall2_imp; [|exact K]. cbn. tauto.
  - clear - K. induction K as [|t1 t0 ts1 ts0 (Hs & Hr & Hp1 & Hp0) _ IH]; constructor; [|exact IH]. split.
    + unfold same_but_results in *. intuition congruence.
    + split; [exact Hp0|]. intros Hm. symmetry. apply Hr. destruct Hs as (?&?&Hm'&?). congruence.
Qed.

(** clear_result, then parse: what a first parse returns, whatever happened before *)
Theorem clear_then_parse (s : session) h s1 s2 one mult g0 : memoryless prs -> multi_keeps -> Forall plain (ss_templates s) ->
  execs fsize tsize load nofuncs order prs multi s h = Ok s1 -> clear_result s1 [] = Ok s2 ->
  files_exist fsize s1 -> ~ (one = VBool true /\ mult = VBool true) -> ~ uses_multi fsize tsize s1 one mult ->
  forall rs, (exists s', parse fsize tsize prs multi s2 one mult = Ok s' /\ results s' = rs) <->
             (exists s', parse fsize tsize prs multi (fresh g0 s1) one mult = Ok s' /\ results s' = rs).
Proof.
  intros Hm Hmk Hp Hh Hc Hf Hb Hu rs. assert (Hp1 := execs_plain _ _ _ Hmk Hp Hh).
  destruct (clear_transfer _ _ g0 Hp1 Hc) as [T1 T2].
  assert (TT : Forall2 same_but_results (ss_templates s1) (ss_templates (fresh g0 s1))).
  { cbn. clear. induction (ss_templates s1) as [|t ts IH]; constructor; [repeat split|exact IH]. }
  assert (E1 : all_data (fresh g0 s1) = all_data s1) by now apply same_data.
  assert (Hf0 : files_exist fsize (fresh g0 s1)) by (unfold files_exist; rewrite E1; exact Hf).
  assert (Hu0 : ~ uses_multi fsize tsize (fresh g0 s1) one mult).
  { intros [Hx Hy]. apply Hu. split; [exact Hx|]. unfold total_size in *. now rewrite E1 in Hy. }
  assert (Hf2 : files_exist fsize s2) by now apply (transfer_files _ _ T2).
  assert (Hu2 : ~ uses_multi fsize tsize s2 one mult) by (intros Hx; apply Hu0; eapply transfer_multi; eassumption).
  split; intros (s' & H & E).
  - destruct (parse_transfer _ _ _ _ _ Hm T1 Hf2 Hb Hu2 H) as (s0' & H0 & E0). exists s0'. split; [exact H0|congruence].
  - destruct (parse_transfer _ _ _ _ _ Hm T2 Hf0 Hb Hu0 H) as (s0' & H0 & E0). exists s0'. split; [exact H0|congruence].
Qed.

(** ** parse() again: the new results come after the old ones *)
Lemma parsed_append t g g' t' : memoryless prs -> plain t -> template_parsed prs t g g' t' -> forall g0,
  exists g0' t0', template_parsed prs (set_results t (VList [])) g0 g0' t0' /\
    (t_method t = $"per_input" -> exists old new, t_results t = VList old /\ t_results t0' = VList new /\ t_results t' = VList (old ++ new)) /\
    (t_method t = $"per_template" -> t_results t' = t_results t0').
Proof.
  intros Hm Hpl H g0. inversion H; subst.
  - destruct (separately_any _ Hm _ _ _ _ H2 g0) as [g0' Hg]. exists g0', (set_results t (VList ds)). split.
    + eapply tp_per_input with (old := []) (ds := ds); try eassumption; try reflexivity; destruct t; repeat split.
    + split; [intros _; exists old, ds; auto|intros Hx; rewrite Hx in *; discriminate].
  - destruct (together_any _ Hm _ _ _ _ _ H1 g0) as [g0' Hg]. exists g0', (set_results t (t_results t')). split.
    + eapply tp_per_template; try eassumption; try reflexivity; destruct t; repeat split.
    + split; [intros Hx; rewrite Hx in *; discriminate|reflexivity].
Qed.

Inductive appended : list template -> list template -> list template -> Prop :=
| ap_nil : appended [] [] []
| ap_cons t t' t0 ts ts' ts0 :
    (t_method t = $"per_input" -> exists old new, t_results t = VList old /\ t_results t0 = VList new /\ t_results t' = VList (old ++ new)) ->
    (t_method t = $"per_template" -> t_results t' = t_results t0) -> appended ts ts' ts0 ->
    appended (t :: ts) (t' :: ts') (t0 :: ts0).

Lemma in_turn_append (ts : list template) g g' ts' : memoryless prs -> Forall plain ts -> in_turn (template_parsed prs) ts g g' ts' -> forall g0,
  exists g0' ts0', in_turn (template_parsed prs) (map (fun t => set_results t (VList [])) ts) g0 g0' ts0' /\ appended ts ts' ts0'.
Proof.
  intros Hm Hp H. induction H as [|t g g1 t1 ts g2 ts2 Ht _ IH]; intros g0; [exists g0, []; split; constructor|]. inversion Hp; subst.
  destruct (parsed_append _ _ _ _ Hm H1 Ht g0) as (ga & ta & Ha & H3 & H4). destruct (IH H2 ga) as (gb & tb & Hb & H5).
  exists gb, (ta :: tb). split; [econstructor; eassumption|]. now constructor.
Qed.

Theorem parse_again (s : session) h s1 s2 one mult g0 : memoryless prs -> multi_keeps -> Forall plain (ss_templates s) ->
  execs fsize tsize load nofuncs order prs multi s h = Ok s1 ->
  files_exist fsize s1 -> ~ (one = VBool true /\ mult = VBool true) -> ~ uses_multi fsize tsize s1 one mult ->
  parse fsize tsize prs multi s1 one mult = Ok s2 ->
  exists s0, parse fsize tsize prs multi (fresh g0 s1) one mult = Ok s0 /\
             appended (ss_templates s1) (ss_templates s2) (ss_templates s0).
Proof.
  intros Hm Hmk Hp Hh Hf Hb Hu H. assert (Hp1 := execs_plain _ _ _ Hmk Hp Hh).
  assert (Hd : Forall documented_method (ss_templates s1)) by (eapply Forall_impl; [|exact Hp1]; intros t Ht; apply Ht).
  apply parse_session in H; try assumption. destruct H as (g & ts & Hi & Ho & Hg & Hth).
  assert (ss_templates s2 = ts) as -> by (apply outputs_none; [eapply in_turn_outputs; eassumption|exact Ho]).
  destruct (in_turn_append _ _ _ _ Hm Hp1 Hi g0) as (g0' & ts0 & Hi0 & Ha).
  assert (E1 : all_data (fresh g0 s1) = all_data s1).
  { apply same_data. cbn. clear. induction (ss_templates s1) as [|t ts IH]; constructor; [repeat split|exact IH]. }
  assert (Hp0 : Forall plain (ss_templates (fresh g0 s1))).
  { cbn. apply Forall_map. eapply Forall_impl; [|exact Hp1]. intros t Ht. eapply plain_same; [apply set_results_same| |exact Ht].
    intros _ l _. now exists []. }
  exists {| ss_templates := ts0; ss_global := g0'; ss_threshold := ss_threshold s1 |}. split; [|exact Ha].
  apply parse_session.
  - unfold files_exist. rewrite E1. exact Hf.
  - exact Hb.
  - intros [Hx Hy]. apply Hu. split; [exact Hx|]. unfold total_size in *. now rewrite E1 in Hy.
  - eapply Forall_impl; [|exact Hp0]. intros t Ht. apply Ht.
  - exists g0', ts0. split; [exact Hi0|]. cbn. repeat split. apply outputs_none_refl. eapply in_turn_outputs; eassumption.
Qed.

(** ** result structures *)
Lemma flat_items_spec l : forall acc, flat_items acc l = acc ++ concat (map items1 l).
Proof.
  unfold flat_items. induction l as [|v l IH]; intros acc; cbn [fold_left map concat]; [now rewrite app_nil_r|].
  rewrite IH. destruct v; cbn [items1]; now rewrite <- app_assoc.
Qed.
Lemma flat_list_spec (ts : list template) : flat_list ts = flattened (map t_results ts).
Proof.
  unfold flat_list, flattened. enough (H : forall acc,
    fold_left (fun acc (t : template) => match t_results t with VList l => flat_items acc l | r => acc ++ [r] end) ts acc
    = acc ++ concat (map (fun r => concat (map items1 (items1 r))) (map t_results ts))) by (now rewrite H).
  induction ts as [|t ts IH]; intros acc; cbn [fold_left map concat]; [now rewrite app_nil_r|].
  rewrite IH. destruct (t_results t); cbn [items1 map concat]; rewrite ?flat_items_spec; rewrite <- ?app_assoc; cbn [app]; try reflexivity.
Qed.

Lemma as_dictionary_spec (ts : list template) : Forall (fun t : template => t_name t <> []) ts -> NoDup (map t_name ts) ->
  as_dictionary ts = map (fun t => (KS (t_name t), t_results t)) ts.
Proof.
  intros Hn Hd. unfold as_dictionary.
  enough (H : forall d : dict, (forall t, In t ts -> ~ In (KS (t_name t)) (map fst d)) ->
    fold_left (fun d (t : template) => match t_name t with [] => d | _ => dset d (KS (t_name t)) (t_results t) end) ts d
    = d ++ map (fun t => (KS (t_name t), t_results t)) ts) by (rewrite H; [reflexivity|intros t _ []]).
  induction ts as [|t ts IH]; intros d Hk; cbn [fold_left map]; [now rewrite app_nil_r|].
  inversion Hn; inversion Hd; subst.
  assert (E : dset d (KS (t_name t)) (t_results t) = d ++ [(KS (t_name t), t_results t)]).
  { assert (Hkt := Hk t (or_introl eq_refl)). clear - Hkt. induction d as [|[k v] d IHd]; [reflexivity|]. cbn [dset].
    destruct (key_eqb_spec (KS (t_name t)) k) as [E|E]; [exfalso; apply Hkt; left; cbn; congruence|].
    cbn [app]. rewrite IHd; [reflexivity|]. intros Hi. apply Hkt. now right. }
  destruct (t_name t) eqn:Et; [congruence|]. rewrite E. rewrite IH; [now rewrite <- app_assoc|assumption|assumption|].
  intros t0 Ht0. rewrite map_app. intros Hi. apply in_app_or in Hi as [Hi|[Hi|[]]].
  - exact (Hk t0 (or_intror Ht0) Hi).
  - cbn in Hi. injection Hi as Hi. rewrite Hi in H5. apply H5. apply in_map_iff. exists t0. now split.
Qed.

Lemma pick_in names (ts : list template) t : In t (pick names ts) <-> In t ts /\ (names = [] \/ In (t_name t) names).
Proof. clear tsize multi fsize.
  unfold pick. destruct names as [|n names]; [split; [auto|tauto]|]. rewrite filter_In, in_strs_In. split; [tauto|].
  intros [H [Hx|Hx]]; [discriminate|tauto].
Qed.
End Hist.
