(** * WorkersSession: multiprocess parsing of templates and sessions *)
From Verif Require Import PyBase DictFacts Session SpecSession SessionFacts SessionHist Workers WorkersFacts.
From Coq Require Import Sorting.Permutation.
Local Open Scope string_scope.
Local Open Scope list_scope.

Set Default Proof Using "Type".

Section P.
Context {Fn G : Type}.
Local Notation job := (@job Fn).
Local Notation template := (template Fn).
Local Notation session := (session Fn G).
Variable prs : nat -> G -> list nat -> Fn -> datum -> val -> res (G * val).

(** a worker's treatment of one task: set_data with main_results={}, parse: ttp.py 870-877 *)
Definition worker_run (t : template) (g : G) (j : job) : res (G * val) := run_job prs (t_id t) g j (VDict []).

(** a possible outcome of parsing [t] with [n] processes: ttp.py 460-496 *)
Definition multi_outcome (n : nat) (t : template) (g : G) (t' : template) : Prop :=
  exists s acc, steps (worker_run t) (start n g (jobs t)) s /\ finished s acc /\ collect t acc = Ok t'.

(** a multiprocess mode: whatever it returns is the outcome of some schedule;
    the parent's own state is left alone *)
Definition process_pool (multi : template -> G -> res (G * template)) : Prop :=
  forall t g g' t', multi t g = Ok (g', t') -> g' = g /\ exists n, multi_outcome n t g t'.

Lemma collect_per_input vs : forall (t : template) old t', t_method t = $"per_input" -> t_results t = VList old ->
  (collect t vs = Ok t' <-> exists ds, Forall2 shaped vs ds /\ t' = set_results t (VList (old ++ ds))).
Proof.
  unfold collect. induction vs as [|v vs IH]; intros t old t' Hm Hr; cbn [rfold].
  - split.
    + intros H. injection H as <-. exists []. split; [constructor|]. rewrite app_nil_r, <- Hr. now destruct t.
    + intros (ds & Hd & ->). inversion Hd. rewrite app_nil_r, <- Hr. now destruct t.
  - destruct (form_results t v) as [t1|e] eqn:Ef; cbn [rbind].
    + apply (form_results_per_input t old v t1 Hm Hr) in Ef as (d & Hd & ->). rewrite (IH _ (old ++ [d])); [|exact Hm|reflexivity]. split.
      * intros (ds & Hf & ->). exists (d :: ds). split; [now constructor|]. unfold set_results; cbn. now rewrite <- app_assoc.
      * intros (ds & Hf & ->). inversion Hf; subst. exists l'. split; [assumption|]. unfold set_results; cbn.
        assert (y = d) as -> by (apply form_datum_spec in Hd; match goal with H : shaped v y |- _ => apply form_datum_spec in H; congruence end).
        now rewrite <- app_assoc.
    + split; [discriminate|]. intros (ds & Hf & ->). inversion Hf; subst.
      assert (Hx : form_results t v = Ok (set_results t (VList (old ++ [y])))) by (apply (form_results_per_input t old); eauto).
      congruence.
Qed.

Lemma collect_same vs : forall (t t' : template), collect t vs = Ok t' -> same_but_results t t'.
Proof.
  unfold collect. induction vs as [|v vs IH]; intros t t' H; cbn [rfold] in H.
  - injection H as <-. repeat split.
  - destruct (form_results t v) as [t1|e] eqn:Ef; [|discriminate]. cbn [rbind] in H. apply IH in H.
    apply (same_trans _ t1); [|exact H]. clear - Ef. unfold form_results in Ef. destruct (form_datum v) as [d|e]; [|discriminate]. cbn [rbind] in Ef.
    destruct (str_eqb _ _); [injection Ef as <-; apply set_results_same|].
    destruct (str_eqb _ _); [|injection Ef as <-; repeat split]. destruct (t_results t); try discriminate. injection Ef as <-. apply set_results_same.
Qed.

(** the value of a job, when parsing has no memory *)
Definition value_at (g : G) (t : template) (j : job) : option val :=
  match worker_run t g j with Ok (_, v) => Some v | Raise _ => None end.
Lemma value_any t g0 : memoryless prs -> forall g j,
  match worker_run t g j with Ok (_, v) => value_at g0 t j = Some v | Raise _ => value_at g0 t j = None end.
Proof.
  intros Hm g j. unfold value_at, worker_run, run_job. specialize (Hm (t_id t) g g0 (fst (fst j)) (snd (fst j)) (snd j) (VDict [])).
  destruct (prs _ g _ _ _ _) as [[g1 v1]|e1], (prs _ g0 _ _ _ _) as [[g2 v2]|e2]; try contradiction; congruence.
Qed.

Lemma separately_values t g0 : memoryless prs -> forall js g g' vs,
  separately (run_job prs (t_id t)) g js g' vs -> map Some vs = map (value_at g0 t) js.
Proof.
  intros Hm js g g' vs H. induction H as [|g j g1 v js g2 vs Hr _ IH]; [reflexivity|]. cbn. rewrite IH. f_equal.
  assert (K := value_any t g0 Hm g j). unfold worker_run in K. rewrite Hr in K. now symmetry.
Qed.
Lemma values_separately t g0 : memoryless prs -> forall js vs, map Some vs = map (value_at g0 t) js -> forall g,
  exists g', separately (run_job prs (t_id t)) g js g' vs.
Proof.
  intros Hm js. induction js as [|j js IH]; intros [|v vs] H g; try discriminate; [exists g; constructor|].
  cbn in H. injection H as Hv H. assert (K := value_any t g0 Hm g j).
  destruct (worker_run t g j) as [[g1 v1]|e] eqn:E; [|congruence]. destruct (IH vs H g1) as [g' Hg]. exists g'.
  econstructor; [|exact Hg]. unfold worker_run in E. rewrite E. congruence.
Qed.

Lemma Permutation_Some (l1 : list val) (l2 : list (option val)) : Permutation (map Some l1) l2 -> exists l, l2 = map Some l /\ Permutation l1 l.
Proof.
  intros H. apply Permutation_sym in H. apply Permutation_map_inv in H as (l & -> & H). exists l. split; [reflexivity|exact H].
Qed.

Lemma shaped_fun v d d' : shaped v d -> shaped v d' -> d = d'.
Proof. intros H H'. apply form_datum_spec in H, H'. congruence. Qed.
Lemma shaped_all_fun vs ds : Forall2 shaped vs ds -> forall ds', Forall2 shaped vs ds' -> ds' = ds.
Proof. induction 1; intros ds' H'; inversion H'; subst; [reflexivity|]. f_equal; [eapply shaped_fun; eassumption|auto]. Qed.

(** ** both modes succeed together, with the same items *)
Theorem outcome_single n t g g0 t2 old : memoryless prs -> t_method t = $"per_input" -> t_results t = VList old ->
  multi_outcome n t g t2 -> exists g1 t1 ds1 ds2, parse_one prs t g0 = Ok (g1, t1) /\
    t_results t1 = VList (old ++ ds1) /\ t_results t2 = VList (old ++ ds2) /\ Permutation ds1 ds2 /\ same_but_results t t1 /\ same_but_results t t2.
Proof.
  intros Hm Hme Hr (s & acc & Hs & Hf & Hc).
  assert (HP := collected (worker_run t) (value_at g0 t) (value_any t g0 Hm) n g (jobs t) s acc Hs Hf).
  apply Permutation_Some in HP as (vs & Ev & HP). destruct (values_separately t g0 Hm (jobs t) vs (eq_sym Ev) g0) as [g1 Hsep].
  apply (collect_per_input acc t old t2 Hme Hr) in Hc as (ds2 & Hd & ->).
  destruct (Permutation_Forall2 HP Hd) as (ds1 & HP2 & Hd1). exists g1, (set_results t (VList (old ++ ds1))), ds1, ds2.
  split; [|repeat split; now apply Permutation_sym]. apply parse_one_spec; [left; eauto|].
  eapply tp_per_input; eauto using set_results_same.
Qed.

Lemma job_ok_dead t g g1 vs : memoryless prs -> separately (run_job prs (t_id t)) g (jobs t) g1 vs ->
  forall j, In j (jobs t) -> forall g', exists g2 v, worker_run t g' j = Ok (g2, v).
Proof.
  intros Hm H. induction H as [|g j g1 v js g2 vs Hr _ IH]; intros x Hx g'; [destruct Hx|].
  destruct Hx as [<-|Hx]; [|now apply IH]. destruct (memoryless_job prs _ _ g' _ _ _ _ Hm Hr) as [ga Ha]. exists ga, v. exact Ha.
Qed.

(** if the single-process parse succeeds, every run of the processes ends, and where it
    ends everything was collected *)
Theorem single_outcome n t g g0 g1 t1 old s : 1 <= n -> memoryless prs -> t_method t = $"per_input" -> t_results t = VList old ->
  parse_one prs t g0 = Ok (g1, t1) ->
  steps (worker_run t) (start n g (jobs t)) s -> (forall s', ~ step (worker_run t) s s') ->
  exists acc t2, finished s acc /\ collect t acc = Ok t2.
Proof.
  intros Hn Hm Hme Hr Hp Hs Hstuck. apply parse_one_spec in Hp; [|left; eauto]. inversion Hp; subst; [|rewrite Hme in *; discriminate].
  assert (Hgood := job_ok_dead t g0 g1 vs Hm H1).
  assert (Hal := alive_jobs (worker_run t) n g (jobs t) s Hgood Hs).
  destruct (progress (worker_run t) n g (jobs t) s Hn Hs Hal) as [[acc Hf]|[s' Hs']]; [|now apply Hstuck in Hs'].
  exists acc. assert (HP := collected (worker_run t) (value_at g0 t) (value_any t g0 Hm) n g (jobs t) s acc Hs Hf).
  rewrite <- (separately_values t g0 Hm _ _ _ _ H1) in HP. apply Permutation_sym, Permutation_Some in HP as (vs' & Ev & HP).
  assert (vs' = acc) as -> by (clear - Ev; revert vs' Ev; induction acc; intros [|? ?] E; try discriminate; [reflexivity|]; cbn in E; injection E as -> E; f_equal; auto).
  destruct (Permutation_Forall2 HP H2) as (ds2 & HP2 & Hd2). eexists. split; [exact Hf|]. apply (collect_per_input acc t old _ Hme Hr). eauto.
Qed.

(** some run ends *)
Lemma some_end run n g js : exists s, steps run (@start Fn G n g js) s /\ forall s', ~ step run s s'.
Proof.
  assert (H : forall k s, cost s <= k -> exists s', steps run s s' /\ forall s'', ~ step run s' s'').
  { clear. assert (D : forall s, (exists s', step run s s') \/ (forall s', ~ step run s s')).
    { clear. intros s. 
      assert (E : forall l, (exists s', step_l run l s = Some s') \/ step_l run l s = None) by (intros l; destruct (step_l run l s); eauto).
      assert (W : forall f : nat -> label, (forall i, length (workers s) <= i -> step_l run (f i) s = None) ->
        (exists i s', step_l run (f i) s = Some s') \/ (forall i, step_l run (f i) s = None)).
      { intros f Hf. assert (K : forall m, (exists i s', step_l run (f i) s = Some s') \/ (forall i, i < m -> step_l run (f i) s = None)).
        { induction m as [|m [?|IH]]; [right; lia|now left|]. destruct (E (f m)) as [[s' Hs']|Hn]; [left; eauto|]. right. intros i Hi.
          destruct (Nat.eq_dec i m) as [->|]; [exact Hn|]. apply IH. lia. }
        destruct (K (length (workers s))) as [?|K2]; [now left|]. right. intros i.
        destruct (Nat.lt_ge_cases i (length (workers s))); auto. }
      assert (O : forall g i, length (workers s) <= i -> on_worker (G := G) (Fn := Fn) g s i = None).
      { intros g i Hi. unfold on_worker. now rewrite (proj2 (nth_error_None _ _) Hi). }
      destruct (E LParent) as [[s' H]|H0]; [left; exists s'; now exists LParent|].
      destruct (W LGet) as [(i & s' & H)|H1]; [intros; now apply O|left; exists s'; now exists (LGet i)|].
      destruct (W LParse) as [(i & s' & H)|H2]; [intros; now apply O|left; exists s'; now exists (LParse i)|].
      destruct (W LAck) as [(i & s' & H)|H3]; [intros; now apply O|left; exists s'; now exists (LAck i)|].
      destruct (W LPut) as [(i & s' & H)|H4]; [intros; now apply O|left; exists s'; now exists (LPut i)|].
      destruct (W LFlush) as [(i & s' & H)|H5]; [intros; now apply O|left; exists s'; now exists (LFlush i)|].
      right. intros s' [l Hl]. destruct l; congruence. }
    induction k as [|k IH]; intros s Hs.
    - exists s. split; [constructor|]. intros s'' H. apply step_cost in H. lia.
    - destruct (D s) as [[s1 H1]|H1]; [|exists s; split; [constructor|exact H1]].
      destruct (IH s1) as (s2 & H2 & H3); [apply step_cost in H1; lia|]. exists s2. split; [econstructor; eassumption|exact H3]. }
  exact (H _ _ (le_n _)).
Qed.

Theorem modes_agree n t g g0 old : 1 <= n -> memoryless prs -> t_method t = $"per_input" -> t_results t = VList old ->
  (exists g1 t1, parse_one prs t g0 = Ok (g1, t1)) <-> (exists t2, multi_outcome n t g t2).
Proof.
  intros Hn Hm Hme Hr. split.
  - intros (g1 & t1 & Hp). destruct (some_end (worker_run t) n g (jobs t)) as (s & Hs & He).
    destruct (single_outcome n t g g0 g1 t1 old s Hn Hm Hme Hr Hp Hs He) as (acc & t2 & Hf & Hc). exists t2, s, acc. auto.
  - intros (t2 & Ho). destruct (outcome_single n t g g0 t2 old Hm Hme Hr Ho) as (g1 & t1 & _ & _ & Hp & _). eauto.
Qed.

(** ** C25 and C29 fit together *)
Lemma pool_keeps multi : process_pool multi -> multi_keeps multi.
Proof.
  intros Hp t g g' t' H. destruct (Hp _ _ _ _ H) as (-> & n & s & acc & Hs & Hf & Hc). split; [now apply collect_same in Hc|].
  intros Hm l Hl. apply (collect_per_input acc t l t' Hm Hl) in Hc as (ds & _ & ->). cbn. eauto.
Qed.

(** the results of two templates: same old items, the new ones in any order *)
Definition same_items (t t1 t2 : template) : Prop :=
  exists old ds1 ds2, t_results t = VList old /\ t_results t1 = VList (old ++ ds1) /\ t_results t2 = VList (old ++ ds2) /\
    Permutation ds1 ds2 /\ length ds1 = length (jobs t).

Lemma each_modes multi ts : memoryless prs -> process_pool multi ->
  Forall (fun t : template => t_method t = $"per_input" /\ exists l, t_results t = VList l) ts ->
  forall g g1 ts1 g0 g2 ts2, each (parse_one prs) ts g = Ok (g1, ts1) -> each multi ts g0 = Ok (g2, ts2) ->
    exists l, map fst l = ts1 /\ map snd l = ts2 /\ Forall2 (fun t p => same_items t (fst p) (snd p)) ts l.
Proof.
  intros Hm Hp HF. induction HF as [|t ts [Hme [old Hr]] HF IH]; intros g g1 ts1 g0 g2 ts2 H1 H2; cbn [each] in H1, H2.
  - injection H1 as <- <-. injection H2 as <- <-. exists []. repeat split; constructor.
  - destruct (parse_one prs t g) as [[ga ta]|e] eqn:Ea; [|discriminate]. cbn [rbind] in H1.
    destruct (each (parse_one prs) ts ga) as [[gb tb]|e] eqn:Eb; [|discriminate]. cbn [rbind] in H1. injection H1 as <- <-.
    destruct (multi t g0) as [[gc tc]|e] eqn:Ec; [|discriminate]. cbn [rbind] in H2.
    destruct (each multi ts gc) as [[gd td]|e] eqn:Ed; [|discriminate]. cbn [rbind] in H2. injection H2 as <- <-.
    destruct (IH _ _ _ _ _ _ Eb Ed) as (l & <- & <- & HFl). exists ((ta, tc) :: l). split; [reflexivity|]. split; [reflexivity|].
    constructor; [|exact HFl]. cbn. destruct (Hp _ _ _ _ Ec) as (_ & n & Ho).
    destruct (outcome_single n t g0 g tc old Hm Hme Hr Ho) as (gx & tx & d1 & d2 & Hx & R1 & R2 & P & _).
    assert (tx = ta) as -> by congruence. exists old, d1, d2. repeat (split; [assumption|]).
    apply parse_one_spec in Ea; [|left; eauto]. inversion Ea; subst; [|rewrite Hme in *; discriminate].
    assert (old0 = old) as -> by congruence. assert (ds = d1) as <- by (apply (app_inv_head old); congruence).
    assert (length vs = length (jobs t)) by (clear - H1; induction H1; cbn; congruence).
    assert (length vs = length ds) by (clear - H2; induction H2; cbn; congruence). congruence.
Qed.

Theorem session_modes fsize tsize multi (s s1 s2 : session) : memoryless prs -> process_pool multi ->
  Forall (fun t : template => t_method t = $"per_input" /\ (exists l, t_results t = VList l) /\ t_outputs t = []) (ss_templates s) ->
  parse fsize tsize prs multi s (VBool true) VNone = Ok s1 -> parse fsize tsize prs multi s VNone (VBool true) = Ok s2 ->
  exists l, map fst l = ss_templates s1 /\ map snd l = ss_templates s2 /\ Forall2 (fun t p => same_items t (fst p) (snd p)) (ss_templates s) l.
Proof.
  intros Hm Hp HF. unfold parse. destruct (data_size fsize tsize s) as [[z n]|e]; [|discriminate]. cbn [rbind is_true andb].
  intros H1 H2.
  assert (HFp : Forall plain (ss_templates s)).
  { eapply Forall_impl; [|exact HF]. intros t (A & B & C). split; [left; now split|exact C]. }
  destruct (each (parse_one prs) (ss_templates s) (ss_global s)) as [[ga ta]|e] eqn:Ea; [|discriminate]. cbn [rbind] in H1.
  destruct (each multi (ss_templates s) (ss_global s)) as [[gb tb]|e] eqn:Eb; [|discriminate]. cbn [rbind] in H2.
  assert (Pa : Forall plain ta).
  { eapply each_plain; [|exact Ea]. intros t g g' t' Hin H. assert (Hpl := proj1 (Forall_forall _ _) HFp t Hin).
    apply parse_one_spec in H; [|apply Hpl]. apply (template_parsed_keeps prs t g g' t') in H as [Hs Hk]. eapply plain_same; eassumption. }
  assert (Pb : Forall plain tb).
  { eapply each_plain; [|exact Eb]. intros t g g' t' Hin H. assert (Hpl := proj1 (Forall_forall _ _) HFp t Hin).
    apply (pool_keeps multi Hp) in H as [Hs Hk]. eapply plain_same; eassumption. }
  rewrite (rmap_outputs_plain ta Pa) in H1. rewrite (rmap_outputs_plain tb Pb) in H2. cbn [rbind] in H1, H2.
  injection H1 as <-. injection H2 as <-. cbn. eapply each_modes; try eassumption.
  eapply Forall_impl; [|exact HF]. intros t (A & B & C). now split.
Qed.
End P.

(** ** function tables *)
Section F.
Context {F : Type}.

(** [f] is the last function given for this scope and name *)
Definition last_added (l : list (key * key * F)) (scope name : key) (f : F) : Prop :=
  exists l1 l2, l = l1 ++ (scope, name, f) :: l2 /\ ~ exists f', In (scope, name, f') l2.
Fixpoint found (l : list (key * key * F)) (scope name : key) : option F :=
  match l with
  | [] => None
  | (s, n, f) :: l => match found l scope name with
                      | Some f' => Some f'
                      | None => if (key_eqb scope s && key_eqb name n)%bool then Some f else None
                      end
  end.
Lemma found_none l s n : found l s n = None <-> ~ exists f, In (s, n, f) l.
Proof.
  induction l as [|[[s' n'] f'] l IH]; cbn [found].
  - split; [intros _ [f []]|reflexivity].
  - destruct (found l s n) as [f|] eqn:E.
    + split; [discriminate|]. intros H. exfalso. assert (K : Some f <> None) by discriminate. apply K. apply IH. intros [g Hg]. apply H. exists g. now right.
    + destruct (key_eqb_spec s s') as [->|Hs]; cbn [andb].
      * destruct (key_eqb_spec n n') as [->|Hn].
        -- split; [discriminate|]. intros H. exfalso. apply H. exists f'. now left.
        -- split; [|reflexivity]. intros _ [f [H|H]]; [congruence|]. apply (proj1 IH eq_refl). eauto.
      * split; [|reflexivity]. intros _ [f [H|H]]; [congruence|]. apply (proj1 IH eq_refl). eauto.
Qed.
Lemma found_last l s n f : found l s n = Some f <-> last_added l s n f.
Proof.
  induction l as [|[[s' n'] f'] l IH]; cbn [found].
  - split; [discriminate|]. intros (l1 & l2 & H & _). destruct l1; discriminate.
  - destruct (found l s n) as [g|] eqn:E.
    + rewrite IH. split.
      * intros (l1 & l2 & -> & H). exists ((s', n', f') :: l1), l2. now split.
      * intros (l1 & l2 & H & Hn). destruct l1 as [|x l1]; cbn in H; [injection H as -> -> -> ->|assert (Hl : l = l1 ++ (s, n, f) :: l2) by congruence; exists l1, l2; now split].
        exfalso. assert (K : found l2 s n = None) by now apply found_none. congruence.
    + apply found_none in E. destruct (key_eqb_spec s s') as [->|Hs]; cbn [andb]; [destruct (key_eqb_spec n n') as [->|Hn]|].
      * split.
        -- intros H. injection H as ->. exists [], l. now split.
        -- intros (l1 & l2 & H & Hn). destruct l1 as [|x l1]; cbn in H; [congruence|]. assert (Hl : l = l1 ++ (s', n', f) :: l2) by congruence. rewrite Hl in E. exfalso. apply E. exists f. apply in_or_app. right. now left.
      * split; [discriminate|]. intros (l1 & l2 & H & Hn'). destruct l1 as [|x l1]; cbn in H; [congruence|]. exfalso. apply (f_equal (@tl _)) in H. cbn in H. rewrite H in E. apply E. exists f. apply in_or_app. right. now left.
      * split; [discriminate|]. intros (l1 & l2 & H & Hn'). destruct l1 as [|x l1]; cbn in H; [congruence|]. exfalso. apply (f_equal (@tl _)) in H. cbn in H. rewrite H in E. apply E. exists f. apply in_or_app. right. now left.
Qed.

Lemma lookup_dset (tbl : scopes F) s d s' n : lookup_fun (dset tbl s d) s' n = if key_eqb s' s then dget d n else lookup_fun tbl s' n.
Proof.
  unfold lookup_fun. destruct (key_eqb_spec s' s) as [->|H]; [now rewrite dget_dset_same|]. now rewrite dget_dset_other by congruence.
Qed.
Lemma dget_dset (d : list (key * F)) n f n' : dget (dset d n f) n' = if key_eqb n' n then Some f else dget d n'.
Proof. destruct (key_eqb_spec n' n) as [->|H]; [now rewrite dget_dset_same|]. now rewrite dget_dset_other by congruence. Qed.

Lemma add_functions_spec l : forall (tbl custom t c : scopes F), add_functions tbl custom l = Ok (t, c) ->
  (forall s n, lookup_fun t s n = match found l s n with Some f => Some f | None => lookup_fun tbl s n end) /\
  (forall s n, lookup_fun c s n = match found l s n with Some f => Some f | None => lookup_fun custom s n end) /\
  (forall s, dget c s = None <-> dget custom s = None /\ ~ exists n f, In (s, n, f) l) /\ (dwf custom -> dwf c).
Proof.
  induction l as [|[[s0 n0] f0] l IH]; intros tbl custom t c H; cbn [add_functions] in H.
  - injection H as <- <-. repeat split; auto; try tauto. intros [n [f []]].
  - unfold add_function in H. destruct (dget tbl s0) as [names|] eqn:Et; [|discriminate]. cbn [rbind] in H.
    apply IH in H as (H1 & H2 & H3 & H4). cbn [found]. split; [|split; [|split]].
    + intros s n. rewrite H1. destruct (found l s n); [reflexivity|]. rewrite lookup_dset.
      destruct (key_eqb_spec s s0) as [->|]; [|reflexivity]. cbn [andb]. rewrite dget_dset. destruct (key_eqb n n0); [reflexivity|].
      unfold lookup_fun. now rewrite Et.
    + intros s n. rewrite H2. destruct (found l s n); [reflexivity|]. rewrite lookup_dset.
      destruct (key_eqb_spec s s0) as [->|]; [|reflexivity]. cbn [andb]. rewrite dget_dset. destruct (key_eqb n n0); [reflexivity|].
      unfold lookup_fun. destruct (dget custom s0); reflexivity.
    + intros s. rewrite H3. destruct (key_eqb_spec s s0) as [->|Hs].
      * rewrite dget_dset_same. split; [intros [? _]; discriminate|]. intros [_ H]. exfalso. apply H. exists n0, f0. now left.
      * rewrite dget_dset_other by congruence. split; intros [Ha Hb]; (split; [exact Ha|]); intros (n & f & Hi); apply Hb; exists n, f.
        -- destruct Hi as [Hi|Hi]; [congruence|exact Hi].
        -- now right.
    + intros Hw. apply H4. now apply dwf_dset.
Qed.

Lemma add_functions_ok l : forall (tbl custom : scopes F),
  (exists t c, add_functions tbl custom l = Ok (t, c)) <-> (forall s n f, In (s, n, f) l -> exists d, dget tbl s = Some d).
Proof.
  induction l as [|[[s0 n0] f0] l IH]; intros tbl custom; cbn [add_functions].
  - split; [intros _ ? ? ? []|eauto].
  - unfold add_function. destruct (dget tbl s0) as [names|] eqn:Et; cbn [rbind].
    + rewrite IH. split.
      * intros H s n f [Hi|Hi]; [injection Hi as <- <- <-; eauto|]. destruct (key_eqb_spec s s0) as [->|Hs]; [eauto|].
        destruct (H s n f Hi) as [d Hd]. rewrite dget_dset_other in Hd by congruence. eauto.
      * intros H s n f Hi. destruct (key_eqb_spec s s0) as [->|Hs]; [rewrite dget_dset_same; eauto|].
        rewrite dget_dset_other by congruence. apply (H s n f). now right.
    + split; [intros (t & c & H); discriminate|]. intros H. destruct (H s0 n0 f0 (or_introl eq_refl)) as [d Hd]. congruence.
Qed.

Theorem worker_functions (builtin t c : scopes F) l : add_functions builtin [] l = Ok (t, c) ->
  forall s n, lookup_fun (worker_table builtin c) s n =
    match found l s n with
    | Some f => Some f
    | None => if existsb (fun x => key_eqb s (fst (fst x))) l then None else lookup_fun builtin s n
    end.
Proof.
  intros H s n. destruct (add_functions_spec l _ _ _ _ H) as (_ & H2 & H3 & H4).
  unfold lookup_fun, worker_table. rewrite dget_dupdate by (apply H4; constructor).
  specialize (H2 s n). specialize (H3 s). unfold lookup_fun in H2. destruct (dget c s) as [d|] eqn:Ec.
  - rewrite H2. destruct (found l s n) as [f|]; [reflexivity|]. cbn.
    destruct (existsb _ l) eqn:E; [reflexivity|]. exfalso. assert (K : Some d = None); [|discriminate]. apply H3. split; [reflexivity|].
    intros (n' & f' & Hi). assert (E2 : existsb (fun x : key * key * F => key_eqb s (fst (fst x))) l = true) by (apply existsb_exists; exists (s, n', f'); split; [exact Hi|apply key_eqb_refl]). congruence.
  - destruct (proj1 H3 eq_refl) as [_ Hn]. destruct (found l s n) as [f|] eqn:Ef.
    + exfalso. apply Hn. apply found_last in Ef as (l1 & l2 & -> & _). exists n, f. apply in_or_app. right. now left.
    + destruct (existsb _ l) eqn:E; [|reflexivity]. exfalso. apply existsb_exists in E as ([[s' n'] f'] & Hi & E). cbn in E.
      apply Hn. exists n', f'. destruct (key_eqb_spec s s'); [congruence|discriminate].
Qed.
End F.
