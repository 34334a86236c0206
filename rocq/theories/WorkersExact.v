(** * WorkersExact: when multiprocess parsing ends, and what per_template gives *)
From Verif Require Import PyBase DictFacts Session SpecSession SessionFacts SessionHist Workers WorkersFacts WorkersSession.
From Coq Require Import Sorting.Permutation.
Local Open Scope string_scope.
Local Open Scope list_scope.
Set Default Proof Using "Type".

Section E.
Context {Fn G : Type}.
Local Notation job := (@job Fn).
Local Notation template := (template Fn).

Lemma reach_inv (run : G -> job -> res (G * val)) n g js s : steps run (start n g js) s -> inv n s.
Proof. intros H. apply (steps_inv run (inv n) (start n g js) s) with (2 := start_inv n g js) (3 := H). intros; eapply step_inv; eassumption. Qed.

(** while a worker is dead the parent never gets past join *)
Lemma dead_blocks (run : G -> job -> res (G * val)) n g js s w acc :
  steps run (start n g js) s -> In w (workers s) -> has_died w -> parent_ s <> Collecting acc.
Proof.
  intros H Hw [j Hd] Hp. destruct (reach_inv run n g js s H) as (Hu & _ & _ & Hc). rewrite (Hc acc Hp) in Hu.
  apply In_nth_error in Hw as [i Hi]. assert (K := nth_count active (workers s) i w Hi). unfold active in K at 1. rewrite Hd in K. specialize (K eq_refl). lia.
Qed.

Theorem ends_iff_alive (run : G -> job -> res (G * val)) n g js s :
  1 <= n -> steps run (start n g js) s -> (forall s', ~ step run s s') ->
  ((exists acc, finished s acc) <-> (forall w, In w (workers s) -> ~ has_died w)).
Proof.
  intros Hn Hs He. split.
  - intros [acc [Hp _]] w Hw Hd. exact (dead_blocks run n g js s w acc Hs Hw Hd Hp).
  - intros Hd. destruct (progress run n g js s Hn Hs Hd) as [H|[s' H]]; [exact H|now apply He in H].
Qed.

(** a parser whose failures do not depend on its memory *)
Theorem ends_iff_no_failure (run : G -> job -> res (G * val)) (value : job -> option val) n g js s :
  (forall g j, match run g j with Ok (_, v) => value j = Some v | Raise _ => value j = None end) ->
  1 <= n -> steps run (start n g js) s -> (forall s', ~ step run s s') ->
  ((exists acc, finished s acc) <-> (forall j, In j js -> value j <> None)).
Proof.
  intros Hr Hn Hs He. split.
  - intros [acc Hf] j Hj Hv. assert (HP := collected run value Hr n g js s acc Hs Hf).
    assert (Hi : In (value j) (map Some acc)) by (eapply Permutation_in; [symmetry; exact HP|now apply in_map]).
    rewrite Hv in Hi. apply in_map_iff in Hi as (x & Hx & _). discriminate.
  - intros Hv. apply (ends_iff_alive run n g js s Hn Hs He).
    apply (alive_jobs run n g js s); [|exact Hs]. intros j Hj g0. specialize (Hr g0 j). specialize (Hv j Hj).
    destruct (run g0 j) as [[g' v]|e]; [eauto|congruence].
Qed.

Variable prs : nat -> G -> list nat -> Fn -> datum -> val -> res (G * val).

(** ** per_template *)
Lemma form_per_template (t : template) v : t_method t = $"per_template" ->
  form_results t v = (do d <- form_datum v; Ok (set_results t d)).
Proof. intros Hm. unfold form_results. now rewrite Hm. Qed.
Lemma collect_per_template vs : forall (t t' : template), t_method t = $"per_template" ->
  collect t vs = Ok t' -> t' = match opt_last vs with Some v => set_results t (t_results t') | None => t end /\
  (forall v, In v vs -> exists d, form_datum v = Ok d) /\
  (forall v, opt_last vs = Some v -> form_datum v = Ok (t_results t')).
Proof.
  unfold collect. induction vs as [|v vs IH]; intros t t' Hm H; cbn [rfold] in H.
  - injection H as <-. repeat split; [intros v []|discriminate].
  - rewrite (form_per_template t v Hm) in H.
    destruct (form_datum v) as [d|e] eqn:Ed; [|discriminate]. cbn [rbind] in H.
    destruct (IH (set_results t d) t' Hm H) as (E & Hall & Hlast). destruct vs as [|w vs].
    + cbn in E. subst t'. cbn [opt_last]. repeat split.
      * intros x [<-|[]]. eauto.
      * intros x Hx. injection Hx as <-. exact Ed.
    + repeat split.
      * rewrite opt_last_cons. destruct (opt_last (w :: vs)) as [l|] eqn:El; [exact E|]. apply opt_last_None in El. discriminate.
      * intros x [<-|Hx]; [eauto|now apply Hall].
      * intros x Hx. apply Hlast. now rewrite opt_last_cons in Hx.
Qed.

(** the structure left is that of one of the data alone *)
Theorem multi_per_template n t g g0 t2 : memoryless prs -> t_method t = $"per_template" -> jobs t <> [] ->
  multi_outcome prs n t g t2 ->
  same_but_results t t2 /\
  exists j g' v, In j (jobs t) /\ worker_run prs t g0 j = Ok (g', v) /\ form_datum v = Ok (t_results t2).
Proof.
  intros Hm Hme Hj (s & acc & Hs & Hf & Hc).
  assert (HP := collected (worker_run prs t) (value_at prs g0 t) (value_any prs t g0 Hm) n g (jobs t) s acc Hs Hf).
  destruct (collect_per_template acc t t2 Hme Hc) as (E & _ & Hlast).
  assert (Hlen := Permutation_length HP). rewrite !map_length in Hlen.
  destruct (opt_last acc) as [v|] eqn:El.
  - split; [rewrite E; repeat split|]. assert (Hv : In v acc) by (apply opt_last_Some in El as [l' ->]; apply in_or_app; right; now left).
    assert (Hi : In (Some v) (map (value_at prs g0 t) (jobs t))) by (eapply Permutation_in; [exact HP|now apply in_map]).
    apply in_map_iff in Hi as (j & Hjv & Hij). unfold value_at in Hjv. destruct (worker_run prs t g0 j) as [[g' v']|e] eqn:Er; [|discriminate].
    injection Hjv as ->. exists j, g', v. auto.
  - exfalso. apply Hj. apply opt_last_None in El. subst acc. now apply length_zero_iff_nil.
Qed.

(** with a single datum the mode does not matter *)
Theorem multi_one_datum n t g g0 j : 1 <= n -> memoryless prs -> t_method t = $"per_template" -> jobs t = [j] ->
  forall t2, multi_outcome prs n t g t2 <-> exists g1, parse_one prs t g0 = Ok (g1, t2).
Proof.
  intros Hn Hm Hme Hj t2. rewrite (parse_one_per_template_eq prs t g0 Hme), Hj. cbn [rfold].
  assert (Hv := value_any prs t g0 Hm g0 j). unfold worker_run in Hv. cbn [fst snd]. split.
  - intros (s & acc & Hs & Hf & Hc). rewrite Hj in Hs.
    assert (HP := collected (worker_run prs t) (value_at prs g0 t) (value_any prs t g0 Hm) n g [j] s acc Hs Hf).
    cbn [map] in HP. symmetry in HP. apply Permutation_length_1_inv in HP.
    destruct acc as [|v [|? ?]]; try discriminate. cbn in HP. assert (Hjv : value_at prs g0 t j = Some v) by congruence. rewrite Hjv in Hv.
    unfold value_at, worker_run in Hjv. destruct (run_job prs (t_id t) g0 j (VDict [])) as [[g1 v1]|e]; [|discriminate].
    assert (v1 = v) by congruence. subst v1. unfold collect in Hc. cbn [rfold] in Hc. cbn [rbind] in *. exists g1.
    destruct (form_results t v) as [t3|e]; [|discriminate]. cbn [rbind] in *. congruence.
  - intros [g1 H]. unfold value_at, worker_run in Hv.
    destruct (run_job prs (t_id t) g0 j (VDict [])) as [[g2 v]|e] eqn:Er; [|discriminate]. cbn [rbind] in H.
    destruct (form_results t v) as [t3|e] eqn:Ef; [|discriminate]. cbn [rbind] in H. injection H as -> ->.
    destruct (some_end (worker_run prs t) n g (jobs t)) as (s & Hs & He).
    assert (K : exists acc, finished s acc).
    { apply (ends_iff_no_failure (worker_run prs t) (value_at prs g0 t) n g (jobs t) s (value_any prs t g0 Hm) Hn Hs He).
      rewrite Hj. intros x [<-|[]]. unfold value_at, worker_run. rewrite Er. discriminate. }
    destruct K as [acc Hf]. exists s, acc. split; [exact Hs|]. split; [exact Hf|].
    assert (HP := collected (worker_run prs t) (value_at prs g0 t) (value_any prs t g0 Hm) n g (jobs t) s acc Hs Hf).
    rewrite Hj in HP. cbn [map] in HP. symmetry in HP. apply Permutation_length_1_inv in HP.
    destruct acc as [|x [|? ?]]; try discriminate. cbn in HP. unfold value_at, worker_run in HP. rewrite Er in HP.
    assert (x = v) by congruence. subst x. unfold collect. cbn [rfold]. now rewrite Ef.
Qed.

End E.
