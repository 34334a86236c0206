(** * Properties C29-C32, C86, C87: multiprocess parsing *)
From Verif Require Import PyBase DictFacts Session SpecSession SessionFacts SessionHist Workers WorkersFacts WorkersSession WorkersExact SpecWorkers WorkersOrder Properties_Save Properties_Session.
From Coq Require Import Sorting.Permutation.
Local Open Scope string_scope.
Local Open Scope list_scope.

(** concrete schedules for the examples *)
Fixpoint schedule {Fn G} (run : G -> @job Fn -> res (G * val)) (ls : list label) (s : @world Fn G) : option (@world Fn G) :=
  match ls with
  | [] => Some s
  | l :: ls => match step_l run l s with Some s' => schedule run ls s' | None => None end
  end.
Lemma schedule_steps {Fn G} (run : G -> @job Fn -> res (G * val)) ls : forall s s', schedule run ls s = Some s' -> steps run s s'.
Proof.
  induction ls as [|l ls IH]; intros s s' H; cbn in H; [injection H as <-; constructor|].
  destruct (step_l run l s) as [s1|] eqn:E; [|discriminate]. econstructor; [exists l; exact E|]. now apply IH.
Qed.

Definition outcome_of {Fn G} (run : G -> @job Fn -> res (G * val)) (ls : list label) (s : @world Fn G) : option (list val) :=
  match schedule run ls s with
  | Some s => match parent_ s with Collecting acc => if Nat.eqb (length acc) (todo s) then Some acc else None | _ => None end
  | None => None
  end.
Lemma outcome_of_finished {Fn G} (run : G -> @job Fn -> res (G * val)) ls s acc : outcome_of run ls s = Some acc -> exists s', steps run s s' /\ finished s' acc.
Proof.
  unfold outcome_of. destruct (schedule run ls s) as [s'|] eqn:E; [|discriminate]. destruct (parent_ s') as [| |a] eqn:Ep; try discriminate.
  destruct (Nat.eqb_spec (length a) (todo s')) as [El|]; [|discriminate]. intros H. injection H as <-. exists s'. split; [exact (schedule_steps _ _ _ _ E)|now split].
Qed.
Lemma outcome_of_multi {Fn G} prs (ls : list label) n (t t' : template Fn) (g : G) acc :
  outcome_of (worker_run prs t) ls (start n g (jobs t)) = Some acc -> collect t acc = Ok t' -> multi_outcome prs n t g t'.
Proof. intros H Hc. destruct (outcome_of_finished _ _ _ _ H) as (s & Hs & Hf). exists s, acc. auto. Qed.

(** ** C29 *)
(** per_input: every number of processes and every schedule collects the items the
    single-process parse appends, each exactly once *)
Theorem C29_permutation : forall Fn G prs n (t t2 : template Fn) (g g0 : G) old,
  memoryless prs -> t_method t = $"per_input" -> t_results t = VList old ->
  multi_outcome prs n t g t2 ->
  exists g1 t1 ds1 ds2, parse_one prs t g0 = Ok (g1, t1) /\
    t_results t1 = VList (old ++ ds1) /\ t_results t2 = VList (old ++ ds2) /\ Permutation ds1 ds2 /\
    same_but_results t t1 /\ same_but_results t t2.
Proof. intros. eapply outcome_single; eassumption. Qed.
Print Assumptions C29_permutation.

(** the two modes succeed for the same templates *)
Theorem C29_same_success : forall Fn G prs n (t : template Fn) (g g0 : G) old,
  (1 <= n)%nat -> memoryless prs -> t_method t = $"per_input" -> t_results t = VList old ->
  (exists g1 t1, parse_one prs t g0 = Ok (g1, t1)) <-> (exists t2, multi_outcome prs n t g t2).
Proof. intros. eapply modes_agree; eassumption. Qed.
Print Assumptions C29_same_success.

(** sessions: parse(one=True) against parse(multi=True) *)
Theorem C29_sessions : forall Fn G prs fsize tsize multi (s s1 s2 : session Fn G),
  memoryless prs -> process_pool prs multi ->
  Forall (fun t => t_method t = $"per_input" /\ (exists l, t_results t = VList l) /\ t_outputs t = []) (ss_templates s) ->
  parse fsize tsize prs multi s (VBool true) VNone = Ok s1 ->
  parse fsize tsize prs multi s VNone (VBool true) = Ok s2 ->
  exists l, map fst l = ss_templates s1 /\ map snd l = ss_templates s2 /\
    Forall2 (fun t p => same_items t (fst p) (snd p)) (ss_templates s) l.
Proof. intros. eapply session_modes; eassumption. Qed.
Print Assumptions C29_sessions.

Definition xt2 : template unit := xt 1 "a" "per_input" [($"i", xinp ["x"; "y"]); ($"j", xinp ["z"])] (VList [VInt 9]).
Lemma xprs_memoryless : memoryless xprs.
Proof. intros id [] [] gs f d m. destruct (xprs id tt gs f d m) as [[u v]|e]; reflexivity. Qed.
(** two workers; worker 1 overtakes worker 0, whose buffer is flushed last *)
Definition xsched : list label :=
  [LParent; LParent; LParent; LGet 0; LGet 1; LParse 1; LAck 1; LPut 1; LParent; LFlush 1; LGet 1; LParse 1; LAck 1; LParent; LPut 1;
   LGet 1; LParse 0; LAck 0; LPut 0; LAck 1; LParent; LGet 0; LAck 0; LParent; LParent; LFlush 1; LFlush 0; LParent; LParent].
Example C29_ex : exists t2, multi_outcome xprs 2 xt2 tt t2 /\
  t_results t2 = VList [VInt 9; VDict [(KS ($"y"), VInt 1)]; VDict [(KS ($"z"), VInt 1)]; VDict [(KS ($"x"), VInt 1)]].
Proof.
  eexists. split; [eapply (outcome_of_multi xprs xsched 2 xt2 _ tt); vm_compute; reflexivity|reflexivity].
Qed.
Definition xpool (t : template unit) (g : unit) : res (unit * template unit) :=
  match outcome_of (worker_run xprs t) xsched (start 2 g (jobs t)) with
  | Some acc => do t' <- collect t acc; Ok (g, t')
  | None => Raise TypeError
  end.
Example C29_ex_pool : process_pool xprs xpool /\
  exists s2, parse xfsize xtsize xprs xpool (xs [xt2]) VNone (VBool true) = Ok s2.
Proof.
  split.
  - intros t g g' t' H. unfold xpool in H. destruct (outcome_of _ _ _) as [acc|] eqn:E; [|discriminate].
    destruct (collect t acc) as [t1|e] eqn:Ec; [|discriminate]. cbn [rbind] in H. injection H as <- <-. split; [reflexivity|].
    exists 2%nat. exact (outcome_of_multi _ _ _ _ _ _ _ E Ec).
  - eexists. vm_compute. reflexivity.
Qed.
(** the multiprocess mode satisfies what C25 assumes of it *)
Theorem C29_fits_C25 : forall Fn G prs (multi : template Fn -> G -> res (G * template Fn)),
  process_pool prs multi -> multi_keeps multi.
Proof. intros. eapply pool_keeps; eassumption. Qed.
Print Assumptions C29_fits_C25.

(** ** C30 *)
(** no reachable state without a crashed worker is stuck before all results are in *)
Theorem C30_no_deadlock : forall Fn G (run : G -> @job Fn -> res (G * val)) n g js s,
  (1 <= n)%nat -> steps run (start n g js) s -> (forall w, In w (workers s) -> ~ has_died w) ->
  (exists acc, finished s acc) \/ (exists s', step run s s').
Proof. intros. eapply progress; eassumption. Qed.
Print Assumptions C30_no_deadlock.

(** every run is finite, with an explicit bound *)
Theorem C30_bounded : forall Fn G (run : G -> @job Fn -> res (G * val)) n g js k s,
  stepn run k (start n g js) s -> (k <= 2 + 7 * (length js + n))%nat.
Proof. intros Fn G run n g js k s H. apply stepn_cost in H. rewrite start_cost in H. lia. Qed.
Print Assumptions C30_bounded.

(** so: when no datum makes the parser raise, every run that cannot go on has
    collected one result per datum *)
Theorem C30_completes : forall Fn G (run : G -> @job Fn -> res (G * val)) n g js s,
  (1 <= n)%nat -> (forall j, In j js -> forall g, exists g' v, run g j = Ok (g', v)) ->
  steps run (start n g js) s -> (forall s', ~ step run s s') ->
  exists acc, parent_ s = Collecting acc /\ length acc = length js.
Proof.
  intros Fn G run n g js s Hn Hr Hs He.
  destruct (progress run n g js s Hn Hs (alive_jobs run n g js s Hr Hs)) as [(acc & Hp & Hl)|[s' H]]; [|now apply He in H].
  exists acc. split; [exact Hp|]. now rewrite Hl, (reach_todo run n g js s Hs).
Qed.
Print Assumptions C30_completes.
Example C30_ex : exists s, steps (worker_run xprs xt2) (start 2 tt (jobs xt2)) s /\ (forall s', ~ step (worker_run xprs xt2) s s') /\
  (forall j, In j (jobs xt2) -> forall g, exists g' v, worker_run xprs xt2 g j = Ok (g', v)).
Proof.
  destruct (some_end (worker_run xprs xt2) 2 tt (jobs xt2)) as (s & H1 & H2). exists s. split; [exact H1|]. split; [exact H2|].
  intros j Hj g. cbn in Hj. destruct Hj as [<-|[<-|[<-|[]]]]; eexists; eexists; reflexivity.
Qed.

(** ** C31: per_template with several processes: the structure of one of the data, any of them *)
Theorem C31_outcomes : forall Fn G prs n (t : template Fn) (g g0 : G),
  (2 <= n)%nat -> memoryless prs -> t_method t = $"per_template" -> jobs t <> [] ->
  forall t2, multi_outcome prs n t g t2 <->
    Forall (fun j => exists d, alone prs t g0 j d) (jobs t) /\ exists j d, In j (jobs t) /\ alone prs t g0 j d /\ t2 = set_results t d.
Proof. intros. now apply outcomes_per_template. Qed.
Print Assumptions C31_outcomes.
Theorem C31_one_worker : forall Fn G prs (t : template Fn) (g g0 : G) js j,
  memoryless prs -> t_method t = $"per_template" -> jobs t = js ++ [j] ->
  forall t2, multi_outcome prs 1 t g t2 <->
    Forall (fun j => exists d, alone prs t g0 j d) (jobs t) /\ exists d, alone prs t g0 j d /\ t2 = set_results t d.
Proof. intros. eapply outcomes_one_worker; eassumption. Qed.
Print Assumptions C31_one_worker.
(** so with a single datum the modes agree *)
Theorem C31_one_datum : forall Fn G prs n (t : template Fn) (g g0 : G) j,
  (1 <= n)%nat -> memoryless prs -> t_method t = $"per_template" -> jobs t = [j] ->
  forall t2, multi_outcome prs n t g t2 <-> exists g1, parse_one prs t g0 = Ok (g1, t2).
Proof. intros. eapply multi_one_datum; eassumption. Qed.
Print Assumptions C31_one_datum.
(** and with more they do not *)
Theorem C31_limits :
  ~ (forall Fn G prs n (t t1 t2 : template Fn) (g g1 : G),
       memoryless prs -> t_method t = $"per_template" -> parse_one prs t g = Ok (g1, t1) -> multi_outcome prs n t g t2 ->
       t_results t2 = t_results t1).
Proof.
  intros H. pose (t := xt 1 "a" "per_template" [($"i", xinp ["x"; "y"])] (VList [])).
  pose (t2 := set_results t (VDict [(KS ($"x"), VInt 1)])).
  pose (t1 := set_results t (VDict [(KS ($"x"), VInt 1); (KS ($"y"), VInt 1)])).
  specialize (H unit unit xprs 2%nat t t1 t2 tt tt xprs_memoryless eq_refl). 
  assert (K : t_results t2 = t_results t1); [|discriminate]. apply H; [vm_compute; reflexivity|].
  apply (C31_outcomes unit unit xprs 2 t tt tt (le_n 2) xprs_memoryless eq_refl ltac:(discriminate)). split.
  - repeat (apply Forall_cons || apply Forall_nil); eexists; exists tt; eexists; (split; [vm_compute; reflexivity|]); apply form_datum_spec; vm_compute; reflexivity.
  - eexists. exists (VDict [(KS ($"x"), VInt 1)]). split; [left; reflexivity|]. split; [|reflexivity]. exists tt. eexists. split; [vm_compute; reflexivity|]. apply form_datum_spec; vm_compute; reflexivity.
Qed.
Print Assumptions C31_limits.
Example C31_ex : let t := xt 1 "a" "per_template" [($"i", xinp ["x"])] (VList []) in
  t_method t = $"per_template" /\ (exists j, jobs t = [j]) /\
  exists t2, parse_one xprs t tt = Ok (tt, t2) /\ t_results t2 = VDict [(KS ($"x"), VInt 1)].
Proof. cbn zeta. split; [reflexivity|]. split; [eexists; reflexivity|]. eexists. split; [vm_compute; reflexivity|reflexivity]. Qed.

(** ** C32: custom functions *)
Theorem C32_custom_functions : forall F (builtin t c : scopes F) l,
  add_functions builtin [] l = Ok (t, c) ->
  (* a custom function is found under its name by the parent and by every worker *)
  (forall s n f, last_added l s n f -> lookup_fun t s n = Some f /\ lookup_fun (worker_table builtin c) s n = Some f) /\
  (* in the parent all other names are untouched *)
  (forall s n, (~ exists f, In (s, n, f) l) -> lookup_fun t s n = lookup_fun builtin s n) /\
  (* in a worker the scopes without custom functions are untouched *)
  (forall s n, (~ exists n' f, In (s, n', f) l) -> lookup_fun (worker_table builtin c) s n = lookup_fun builtin s n).
Proof.
  intros F builtin t c l H. assert (Hw := worker_functions _ _ _ _ H). destruct (add_functions_spec l _ _ _ _ H) as (H1 & _).
  split; [|split].
  - intros s n f Hl. apply found_last in Hl. rewrite H1, Hw, Hl. now split.
  - intros s n Hn. apply found_none in Hn. now rewrite H1, Hn.
  - intros s n Hn. rewrite Hw. assert (Hf : found l s n = None) by (apply found_none; intros [f Hf]; apply Hn; eauto). rewrite Hf.
    destruct (existsb _ l) eqn:E; [|reflexivity]. exfalso. apply existsb_exists in E as ([[s' n'] f'] & Hi & E). cbn in E.
    destruct (key_eqb_spec s s') as [->|]; [|discriminate]. apply Hn. eauto.
Qed.
Print Assumptions C32_custom_functions.
Theorem C32_known_scopes : forall F (builtin : scopes F) l,
  (exists t c, add_functions builtin [] l = Ok (t, c)) <-> (forall s n f, In (s, n, f) l -> exists d, dget builtin s = Some d).
Proof. intros. apply add_functions_ok. Qed.
Print Assumptions C32_known_scopes.
Definition xtbl : scopes nat := [(KS ($"group"), [(KS ($"set"), 1); (KS ($"void"), 2)]); (KS ($"match"), [(KS ($"strip"), 3)])]%nat.
Example C32_ex : exists t c, add_functions xtbl [] [(KS ($"group"), KS ($"my"), 7); (KS ($"group"), KS ($"my"), 8)]%nat = Ok (t, c) /\
  lookup_fun (worker_table xtbl c) (KS ($"group")) (KS ($"my")) = Some 8%nat /\
  lookup_fun t (KS ($"group")) (KS ($"set")) = Some 1%nat /\
  lookup_fun (worker_table xtbl c) (KS ($"match")) (KS ($"strip")) = Some 3%nat.
Proof. eexists. eexists. split; [vm_compute; reflexivity|]. vm_compute. repeat split. Qed.

(** ** C87: in a worker a scope with custom functions holds exactly these; every other scope holds
    exactly the built-in functions *)
Theorem C87_scope_replaced : forall F (builtin t c : scopes F) l, add_functions builtin [] l = Ok (t, c) ->
  forall s n,
  ((exists n' f, In (s, n', f) l) ->
     forall f, lookup_fun (worker_table builtin c) s n = Some f <-> last_added l s n f) /\
  ((~ exists n' f, In (s, n', f) l) -> lookup_fun (worker_table builtin c) s n = lookup_fun builtin s n).
Proof.
  intros F builtin t c l H s n. split; [|exact (proj2 (proj2 (C32_custom_functions F builtin t c l H)) s n)].
  intros (n' & f' & Hi) f. rewrite (worker_functions _ _ _ _ H). split.
  - destruct (found l s n) as [x|] eqn:E; [intros Hx; assert (x = f) by congruence; subst x; now apply found_last|].
    destruct (existsb _ l) eqn:Ee; [discriminate|]. exfalso. assert (K : existsb (fun x => key_eqb s (fst (fst x))) l = true); [|congruence].
    apply existsb_exists. exists (s, n', f'). split; [exact Hi|]. cbn. destruct (key_eqb_spec s s); congruence.
  - intros Hl. apply found_last in Hl. now rewrite Hl.
Qed.
Print Assumptions C87_scope_replaced.
(** so a built-in function is lost next to a custom one *)
Theorem C87_limits :
  ~ (forall F (builtin t c : scopes F) l, add_functions builtin [] l = Ok (t, c) ->
       forall s n, (~ exists f, In (s, n, f) l) -> lookup_fun (worker_table builtin c) s n = lookup_fun builtin s n).
Proof.
  intros H. destruct (add_functions xtbl [] [(KS ($"group"), KS ($"my"), 7%nat)]) as [[t c]|e] eqn:E; [|vm_compute in E; discriminate].
  assert (Hw := worker_functions _ _ _ _ E (KS ($"group")) (KS ($"set"))).
  rewrite (H _ _ _ _ _ E) in Hw; [vm_compute in Hw; discriminate|]. intros [f [Hf|[]]]. apply (f_equal (fun x => key_eqb (snd (fst x)) (KS ($"set")))) in Hf. vm_compute in Hf. discriminate.
Qed.
Print Assumptions C87_limits.

(** ** C86: when parse() in several processes ends *)
Theorem C86_ends_iff : forall Fn G (run : G -> @job Fn -> res (G * val)) n g js s,
  (1 <= n)%nat -> steps run (start n g js) s -> (forall s', ~ step run s s') ->
  ((exists acc, finished s acc) <-> (forall w j, In w (workers s) -> w_phase w <> Dead j)).
Proof.
  intros Fn G run n g js s Hn Hs He. rewrite (ends_iff_alive run n g js s Hn Hs He). unfold has_died. split.
  - intros H w j Hw Hj. apply (H w Hw). eauto.
  - intros H w Hw [j Hj]. exact (H w j Hw Hj).
Qed.
Print Assumptions C86_ends_iff.
(** a datum that makes the parser raise hangs parse() under every schedule *)
Theorem C86_raise_hangs : forall Fn G prs n (t : template Fn) (g g0 : G) s,
  memoryless prs -> (1 <= n)%nat -> steps (worker_run prs t) (start n g (jobs t)) s ->
  (forall s', ~ step (worker_run prs t) s s') ->
  ((exists acc, finished s acc) <-> forall j, In j (jobs t) -> exists g' v, run_job prs (t_id t) g0 j (VDict []) = Ok (g', v)).
Proof.
  intros Fn G prs n t g g0 s Hm Hn Hs He.
  rewrite (ends_iff_no_failure (worker_run prs t) (value_at prs g0 t) n g (jobs t) s (value_any prs t g0 Hm) Hn Hs He).
  unfold value_at, worker_run. split; intros H j Hj; specialize (H j Hj).
  - destruct (run_job prs (t_id t) g0 j (VDict [])) as [[g' v]|e]; [eauto|congruence].
  - destruct H as (g' & v & ->). discriminate.
Qed.
Print Assumptions C86_raise_hangs.
Theorem C86_limits :
  ~ (forall Fn G (run : G -> @job Fn -> res (G * val)) n g js s,
       (1 <= n)%nat -> steps run (start n g js) s -> (forall s', ~ step run s s') -> exists acc, finished s acc).
Proof.
  intros H. pose (run := fun (g : unit) (j : @job unit) => (Raise TypeError : res (unit * val))).
  pose (js := [([0%nat], tt, TextData ($"x"))] : list (@job unit)).
  pose (ls := [LParent; LParent; LParent; LGet 0; LParse 0]).
  destruct (schedule run ls (start 1 tt js)) as [s|] eqn:E; [|vm_compute in E; discriminate].
  specialize (H unit unit run 1%nat tt js s (le_n _) (schedule_steps _ _ _ _ E)).
  vm_compute in E. injection E as <-. destruct H as [acc [Hp _]]; [|discriminate].
  intros s' [l Hl]. destruct l as [|[|i]|[|i]|[|i]|[|i]|[|i]]; try (vm_compute in Hl; discriminate);
    cbn in Hl; unfold on_worker in Hl; cbn in Hl; destruct i; cbn in Hl; discriminate.
Qed.
Print Assumptions C86_limits.

(** ** C111: the order of the results.  The results of [n] processes are those of one process in any
    order in which [n] workers can deliver them, each in the order of its own data ([delivered], SpecWorkers.v) *)
Theorem C111_orders : forall Fn G prs n (t : template Fn) (g g0 : G) old,
  memoryless prs -> t_method t = $"per_input" -> t_results t = VList old ->
  forall t2, multi_outcome prs n t g t2 <->
    exists g1 ds out, parse_one prs t g0 = Ok (g1, set_results t (VList (old ++ ds))) /\ delivered n ds out /\ t2 = set_results t (VList (old ++ out)).
Proof. intros. now apply orders_per_input. Qed.
Print Assumptions C111_orders.
(** with one worker that is the order of the data; with two any of the results can come last *)
Theorem C111_one_worker : forall A (ds out : list A), delivered 1 ds out <-> ds = out.
Proof. intros. apply delivered_one. Qed.
Print Assumptions C111_one_worker.
Theorem C111_any_last : forall A n (a b : list A) x, (2 <= n)%nat -> delivered n (a ++ x :: b) (a ++ b ++ [x]).
Proof. intros. now apply delivered_last. Qed.
Print Assumptions C111_any_last.
(** two workers cannot turn three results around *)
Example C111_ex : delivered 2 [1; 2; 3] [2; 1; 3]%nat /\ ~ delivered 2 [1; 2; 3] [3; 2; 1]%nat.
Proof.
  split.
  - exists [[1; 3]; [2]]%nat. split; [reflexivity|]. split.
    + apply (mo_take [] 1 [3] [[2]])%nat. apply (mo_take [[3]] 2 [] [])%nat. apply (mo_take [] 3 [] [[]])%nat. apply mo_done. repeat constructor.
    + apply (mo_take [[1; 3]] 2 [] [])%nat. apply (mo_take [] 1 [3] [[]])%nat. apply (mo_take [] 3 [] [[]])%nat. apply mo_done. repeat constructor.
  - intros (ls & Hn & H1 & H2). destruct ls as [|s1 [|s2 [|? ?]]]; try discriminate.
    assert (T : forall (s1 s2 : list nat) x m, merge_of [s1; s2] (x :: m) -> (exists l, s1 = x :: l /\ merge_of [l; s2] m) \/ (exists l, s2 = x :: l /\ merge_of [s1; l] m)).
    { intros a b x m H. inversion H as [|a' y l b' m' H' E1 E2]; subst. destruct a' as [|? [|? [|? ?]]]; cbn in E1; try discriminate; injection E1 as ? ?; subst; eauto. }
    assert (D : forall (s1 s2 : list nat), merge_of [s1; s2] [] -> s1 = [] /\ s2 = []).
    { intros a b H. inversion H as [? F|]; subst. inversion F as [|? ? ? F']; subst. inversion F'; subst. auto. }
    repeat (match goal with
    | H : merge_of [_; _] (_ :: _) |- _ => let E := fresh in apply T in H as [(? & E & H)|(? & E & H)]; inversion E; subst; try clear E
    | H : merge_of [_; _] [] |- _ => let E1 := fresh in let E2 := fresh in apply D in H as [E1 E2]; try discriminate; subst
    end).
Qed.
