(** * WorkersFacts: every interleaving of the multiprocess parser *)
From Verif Require Import PyBase DictFacts Session SpecSession SessionFacts Workers.
From Coq Require Import Sorting.Permutation.
Local Open Scope list_scope.

(** ** a small permutation solver: both sides are [++] of the same atoms *)
Lemma perm_take {A} (a l r r' : list A) : Permutation r (a ++ r') -> Permutation l r' -> Permutation (a ++ l) r.
Proof. intros H1 H2. rewrite H1. now apply Permutation_app_head. Qed.
Lemma perm_later {A} (a b r r' : list A) : Permutation r (a ++ r') -> Permutation (b ++ r) (a ++ b ++ r').
Proof. intros H. rewrite H. apply Permutation_app_swap_app. Qed.
Lemma perm_last {A} (a : list A) : Permutation a (a ++ []).
Proof. now rewrite app_nil_r. Qed.
Lemma cons_as_app {A} (x : A) l : x :: l = [x] ++ l.
Proof. reflexivity. Qed.
Ltac perm_find := first [ apply Permutation_refl | apply perm_last | apply perm_later; perm_find ].
Ltac perm := rewrite ?map_app, ?app_nil_r, <- ?app_assoc; cbn [app];
  repeat match goal with |- context [?x :: ?l] => lazymatch l with [] => fail | _ => rewrite (cons_as_app x l) end end;
  rewrite <- ?app_assoc;
  repeat (eapply perm_take; [perm_find|]); rewrite ?app_nil_r; try apply Permutation_refl.

Lemma upd_split {A} (l : list A) i x y : nth_error l i = Some x -> exists l1 l2, l = l1 ++ x :: l2 /\ upd l i y = l1 ++ y :: l2.
Proof.
  revert i. induction l as [|a l IH]; intros [|i] H; cbn in H; try discriminate.
  - injection H as ->. now exists [], l.
  - destruct (IH i H) as (l1 & l2 & -> & E). exists (a :: l1), l2. cbn. now rewrite E.
Qed.

Set Default Proof Using "Type".
Section W.
Context {Fn G : Type}.
Local Notation job := (@job Fn).
Local Notation world := (@world Fn G).
Local Notation worker := (@worker Fn G).
Variable run : G -> job -> res (G * val).
Local Notation step := (step run).
Local Notation steps := (steps run).

(** ** a measure that every step decreases *)
Definition w_phase_cost (p : @phase Fn) : nat :=
  match p with Waiting => 0 | Got _ => 5 | Parsed _ => 4 | Acked _ => 3 | Pill => 1 | Stopped => 0 | Dead _ => 0 end.
Definition w_cost (w : worker) : nat := w_phase_cost (w_phase w) + 2 * length (w_buf w).
Definition p_cost (p : @parent Fn) : nat :=
  match p with Putting l => 2 + 7 * length l | Joining => 1 | Collecting _ => 0 end.
Fixpoint sum (l : list nat) : nat := match l with [] => 0 | n :: l => n + sum l end.
Lemma sum_app a b : sum (a ++ b) = sum a + sum b.
Proof. induction a; cbn; lia. Qed.
Definition cost (s : world) : nat :=
  p_cost (parent_ s) + 6 * length (tasks s) + length (queue s) + sum (map w_cost (workers s)).

Lemma upd_cost (l : list worker) i w w' : nth_error l i = Some w ->
  sum (map w_cost (upd l i w')) + w_cost w = sum (map w_cost l) + w_cost w'.
Proof.
  intros H. destruct (upd_split l i w w' H) as (l1 & l2 & -> & ->). rewrite !map_app, !sum_app. cbn. lia.
Qed.

Lemma step_cost s s' : step s s' -> cost s' < cost s.
Proof.
  intros [l H]. unfold cost. destruct l; cbn in H; unfold on_worker in H;
  try (destruct (nth_error (workers s) i) as [w|] eqn:E; [|discriminate]).
  - unfold step_parent in H. destruct (parent_ s) as [[|x l]| |acc] eqn:Ep.
    + injection H as <-. cbn. lia.
    + injection H as <-. cbn. rewrite app_length. cbn. lia.
    + destruct (unfinished s); [|discriminate]. injection H as <-. cbn. lia.
    + destruct (Nat.ltb _ _); [|discriminate]. destruct (queue s) as [|v q]; [discriminate|]. injection H as <-. cbn. lia.
  - unfold step_get in H. destruct (w_phase w) eqn:Ew; try discriminate. destruct (tasks s) as [|x q] eqn:Et; [discriminate|].
    injection H as <-. cbn. assert (K := upd_cost _ _ _ (with_phase w (match x with Some j => Got j | None => Pill end)) E).
    unfold w_cost at 2 4 in K. cbn in K. rewrite Ew in K. destruct x; cbn in *; lia.
  - unfold step_parse in H. destruct (w_phase w) eqn:Ew; try discriminate. destruct (run (w_g w) j) as [[g' v]|e]; injection H as <-; cbn.
    + assert (K := upd_cost _ _ _ {| w_g := g'; w_phase := Parsed v; w_buf := w_buf w |} E). unfold w_cost at 2 4 in K. cbn in K. rewrite Ew in K. cbn in K. lia.
    + assert (K := upd_cost _ _ _ (with_phase w (Dead j)) E). unfold w_cost at 2 4 in K. cbn in K. rewrite Ew in K. cbn in K. lia.
  - unfold step_ack in H. destruct (w_phase w) eqn:Ew; try discriminate; injection H as <-; cbn.
    + assert (K := upd_cost _ _ _ (with_phase w (Acked v)) E). unfold w_cost at 2 4 in K. cbn in K. rewrite Ew in K. cbn in K. lia.
    + assert (K := upd_cost _ _ _ (with_phase w Stopped) E). unfold w_cost at 2 4 in K. cbn in K. rewrite Ew in K. cbn in K. lia.
  - unfold step_put in H. destruct (w_phase w) eqn:Ew; try discriminate; injection H as <-; cbn.
    assert (K := upd_cost _ _ _ {| w_g := w_g w; w_phase := Waiting; w_buf := w_buf w ++ [v] |} E). unfold w_cost at 2 4 in K. cbn in K. rewrite Ew, app_length in K. cbn in K. lia.
  - unfold step_flush in H. destruct (w_buf w) as [|v b] eqn:Ew; try discriminate; injection H as <-; cbn.
    assert (K := upd_cost _ _ _ {| w_g := w_g w; w_phase := w_phase w; w_buf := b |} E). unfold w_cost at 2 4 in K. cbn in K. rewrite Ew in K. cbn in K. rewrite app_length. cbn. lia.
Qed.

(** executions with their length *)
Inductive stepn : nat -> world -> world -> Prop :=
| stepn_0 s : stepn 0 s s
| stepn_S k s s1 s2 : step s s1 -> stepn k s1 s2 -> stepn (S k) s s2.
Lemma stepn_cost k s s' : stepn k s s' -> k + cost s' <= cost s.
Proof. induction 1 as [|k s s1 s2 H _ IH]; [lia|]. apply step_cost in H. lia. Qed.
Lemma sum_repeat n k : sum (repeat k n) = n * k.
Proof. induction n; cbn; lia. Qed.
Lemma start_cost n g (js : list job) : cost (start n g js) = 2 + 7 * (length js + n).
Proof.
  unfold cost, start. cbn [parent_ tasks queue workers p_cost length].
  rewrite app_length, map_length, repeat_length.
  assert (E : map w_cost (repeat {| w_g := g; w_phase := Waiting; w_buf := [] |} n) = repeat 0 n) by (clear; induction n; cbn; congruence).
  rewrite E, sum_repeat. lia.
Qed.

Lemma steps_inv (P : world -> Prop) s s' : (forall a b, P a -> step a b -> P b) -> P s -> steps s s' -> P s'.
Proof. intros H Hs K. induction K; auto. eauto. Qed.

(** ** where the work is: nothing is lost, nothing is done twice *)
Section Pool.
Variable value : job -> option val.
Hypothesis Hrun : forall g j, match run g j with Ok (_, v) => value j = Some v | Raise _ => value j = None end.

Definition task_pool (x : option job) : list (option val) := match x with Some j => [value j] | None => [] end.
Definition phase_pool (p : @phase Fn) : list (option val) :=
  match p with Got j | Dead j => [value j] | Parsed v | Acked v => [Some v] | _ => [] end.
Definition worker_pool (w : worker) : list (option val) := phase_pool (w_phase w) ++ map Some (w_buf w).
Definition parent_pool (p : @parent Fn) : list (option val) :=
  match p with Putting l => flat_map task_pool l | Joining => [] | Collecting acc => map Some acc end.
Definition pool (s : world) : list (option val) :=
  parent_pool (parent_ s) ++ flat_map task_pool (tasks s) ++ map Some (queue s) ++ flat_map worker_pool (workers s).

Lemma worker_pool_upd (l : list worker) i w w' extra : nth_error l i = Some w ->
  Permutation (worker_pool w) (extra ++ worker_pool w') ->
  Permutation (flat_map worker_pool l) (extra ++ flat_map worker_pool (upd l i w')).
Proof.
  intros H HP. destruct (upd_split l i w w' H) as (l1 & l2 & -> & ->). rewrite !flat_map_app. cbn [flat_map]. rewrite HP. perm.
Qed.
Lemma worker_pool_upd' (l : list worker) i w w' extra : nth_error l i = Some w ->
  Permutation (extra ++ worker_pool w) (worker_pool w') ->
  Permutation (extra ++ flat_map worker_pool l) (flat_map worker_pool (upd l i w')).
Proof.
  intros H HP. destruct (upd_split l i w w' H) as (l1 & l2 & -> & ->). rewrite !flat_map_app. cbn [flat_map]. rewrite <- HP. perm.
Qed.

Lemma step_pool s s' : step s s' -> Permutation (pool s) (pool s').
Proof using Hrun.
  intros [l H]. unfold pool. destruct l; cbn in H; unfold on_worker in H;
  try (destruct (nth_error (workers s) i) as [w|] eqn:E; [|discriminate]).
  - unfold step_parent in H. destruct (parent_ s) as [[|x l]| |acc] eqn:Ep.
    + injection H as <-. cbn. reflexivity.
    + injection H as <-. cbn [parent_ parent_pool tasks queue workers flat_map]. rewrite flat_map_app. cbn [flat_map]. rewrite app_nil_r. perm.
    + destruct (unfinished s); [|discriminate]. injection H as <-. cbn. reflexivity.
    + destruct (Nat.ltb _ _); [|discriminate]. destruct (queue s) as [|v q]; [discriminate|]. injection H as <-.
      cbn [parent_ parent_pool tasks queue workers map]. rewrite map_app. cbn [map]. perm.
  - unfold step_get in H. destruct (w_phase w) eqn:Ew; try discriminate. destruct (tasks s) as [|x q] eqn:Et; [discriminate|].
    injection H as <-. cbn [parent_ tasks queue workers flat_map].
    assert (K := worker_pool_upd' _ _ _ (with_phase w (match x with Some j => Got j | None => Pill end)) (task_pool x) E).
    rewrite <- K; [perm|]. unfold worker_pool. cbn. rewrite Ew. destruct x; cbn; reflexivity.
  - unfold step_parse in H. destruct (w_phase w) eqn:Ew; try discriminate. specialize (Hrun (w_g w) j). destruct (run (w_g w) j) as [[g' v]|e]; injection H as <-; cbn [parent_ tasks queue workers set_worker].
    + assert (K := worker_pool_upd _ _ _ {| w_g := g'; w_phase := Parsed v; w_buf := w_buf w |} [] E). rewrite K; [cbn; perm|].
      unfold worker_pool. cbn. rewrite Ew. cbn. now rewrite Hrun.
    + assert (K := worker_pool_upd _ _ _ (with_phase w (Dead j)) [] E). rewrite K; [cbn; perm|].
      unfold worker_pool. cbn. rewrite Ew. reflexivity.
  - unfold step_ack in H. destruct (w_phase w) eqn:Ew; try discriminate; injection H as <-; cbn [parent_ tasks queue workers set_worker acked].
    + assert (K := worker_pool_upd _ _ _ (with_phase w (Acked v)) [] E). rewrite K; [cbn; perm|]. unfold worker_pool. cbn. rewrite Ew. reflexivity.
    + assert (K := worker_pool_upd _ _ _ (with_phase w Stopped) [] E). rewrite K; [cbn; perm|]. unfold worker_pool. cbn. rewrite Ew. reflexivity.
  - unfold step_put in H. destruct (w_phase w) eqn:Ew; try discriminate; injection H as <-; cbn [parent_ tasks queue workers set_worker].
    assert (K := worker_pool_upd _ _ _ {| w_g := w_g w; w_phase := Waiting; w_buf := w_buf w ++ [v] |} [] E). rewrite K; [cbn; perm|].
    unfold worker_pool. cbn. rewrite Ew. cbn [phase_pool]. rewrite map_app. cbn [map]. perm.
  - unfold step_flush in H. destruct (w_buf w) as [|v b] eqn:Ew; try discriminate; injection H as <-; cbn [parent_ tasks queue workers].
    assert (K := worker_pool_upd _ _ _ {| w_g := w_g w; w_phase := w_phase w; w_buf := b |} [Some v] E). rewrite K.
    + rewrite map_app. cbn [map]. perm.
    + unfold worker_pool. cbn [w_phase w_buf]. rewrite Ew. cbn [map]. perm.
Qed.

Lemma start_pool n g js : pool (start n g js) = map value js.
Proof.
  unfold pool, start. cbn. rewrite flat_map_app.
  assert (E1 : forall n, flat_map task_pool (repeat None n) = []) by (clear; induction n; cbn; auto).
  assert (E2 : forall n, flat_map worker_pool (repeat {| w_g := g; w_phase := Waiting; w_buf := [] |} n) = []) by (clear; induction n; cbn; auto).
  rewrite E1, E2, !app_nil_r. clear. induction js; cbn; congruence.
Qed.

Lemma reach_pool n g js s : steps (start n g js) s -> Permutation (pool s) (map value js).
Proof using Hrun.
  intros H. apply (steps_inv (fun s => Permutation (pool s) (map value js)) (start n g js) s); [|rewrite start_pool; reflexivity|exact H].
  intros a b Ha Hab. now rewrite <- (step_pool _ _ Hab).
Qed.
Lemma step_todo s s' : step s s' -> todo s' = todo s.
Proof.
  clear Hrun. intros [l H]. destruct l; cbn in H; unfold on_worker in H;
  try (destruct (nth_error (workers s) i) as [w|] eqn:E; [|discriminate]).
  - unfold step_parent in H. destruct (parent_ s) as [[|x l]| |acc]; try (injection H as <-; reflexivity).
    + destruct (unfinished s); [|discriminate]. now injection H as <-.
    + destruct (Nat.ltb _ _); [|discriminate]. destruct (queue s); [discriminate|]. now injection H as <-.
  - unfold step_get in H. destruct (w_phase w); try discriminate. destruct (tasks s); [discriminate|]. now injection H as <-.
  - unfold step_parse in H. destruct (w_phase w); try discriminate. destruct (run _ _) as [[]|]; now injection H as <-.
  - unfold step_ack in H. destruct (w_phase w); try discriminate; now injection H as <-.
  - unfold step_put in H. destruct (w_phase w); try discriminate; now injection H as <-.
  - unfold step_flush in H. destruct (w_buf w); try discriminate; now injection H as <-.
Qed.
Lemma reach_todo n g js s : steps (start n g js) s -> todo s = length js.
Proof.
  clear Hrun. intros H. apply (steps_inv (fun s => todo s = length js) (start n g js) s) with (2 := eq_refl) (3 := H). intros a b Ha Hab. rewrite <- Ha. now apply step_todo.
Qed.

(** whatever the interleaving, the collected results are those of all jobs *)
Theorem collected n g js s acc : steps (start n g js) s -> finished s acc -> Permutation (map Some acc) (map value js).
Proof using Hrun.
  intros H [Hp Hl]. assert (HP := reach_pool _ _ _ _ H). assert (Hlen := Permutation_length HP). unfold pool in *. rewrite Hp in *. cbn [parent_pool] in *.
  rewrite (reach_todo _ _ _ _ H) in Hl. rewrite map_length, !app_length, map_length in Hlen.
  assert (E : flat_map task_pool (tasks s) ++ map Some (queue s) ++ flat_map worker_pool (workers s) = []).
  { apply length_zero_iff_nil. rewrite !app_length. lia. }
  rewrite E, app_nil_r in HP. exact HP.
Qed.
End Pool.

(** ** progress *)
Definition active (w : worker) : bool := match w_phase w with Got _ | Parsed _ | Pill | Dead _ => true | _ => false end.
Definition gone (w : worker) : bool := match w_phase w with Pill | Stopped => true | _ => false end.
Definition count (p : worker -> bool) (l : list worker) : nat := length (filter p l).
Definition remaining (s : world) : list (option job) := tasks s ++ match parent_ s with Putting l => l | _ => [] end.

Definition inv (n : nat) (s : world) : Prop :=
  unfinished s = length (tasks s) + count active (workers s) /\
  (exists a b, remaining s = map Some a ++ repeat None b /\ b + count gone (workers s) = n /\ (a <> [] -> b = n)) /\
  length (workers s) = n /\
  (forall acc, parent_ s = Collecting acc -> unfinished s = 0).

Lemma count_upd p (l : list worker) i w w' : nth_error l i = Some w ->
  count p (upd l i w') + (if p w then 1 else 0) = count p l + (if p w' then 1 else 0).
Proof.
  intros H. destruct (upd_split l i w w' H) as (l1 & l2 & -> & ->). unfold count. rewrite !filter_app, !app_length. cbn.
  destruct (p w), (p w'); cbn; lia.
Qed.
Lemma upd_length {A} (l : list A) i x : length (upd l i x) = length l.
Proof. revert i; induction l; intros [|i]; cbn; auto. Qed.
Lemma nth_count p (l : list worker) i w : nth_error l i = Some w -> p w = true -> 1 <= count p l.
Proof.
  intros H Hp. unfold count. apply nth_error_In in H. assert (Hi : In w (filter p l)) by (apply filter_In; now split).
  destruct (filter p l); [destruct Hi|cbn; lia].
Qed.

Lemma step_inv n s s' : inv n s -> step s s' -> inv n s'.
Proof.
  intros (Hu & (a & b & Hr & Hb & Hab) & Hn & Hc) [l H]. unfold inv, remaining in *.
  destruct l; cbn in H; unfold on_worker in H;
  try (destruct (nth_error (workers s) i) as [w|] eqn:E; [|discriminate]).
  - unfold step_parent in H. destruct (parent_ s) as [[|x l]| |acc] eqn:Ep.
    + injection H as <-. cbn [parent_ tasks unfinished workers]. split; [exact Hu|]. split; [exists a, b; now rewrite app_nil_r in *|]. split; [exact Hn|]. congruence.
    + injection H as <-. cbn [parent_ tasks unfinished workers]. split; [rewrite app_length; cbn [length]; lia|]. split; [exists a, b; rewrite <- app_assoc; now split|]. split; [exact Hn|]. congruence.
    + destruct (unfinished s) eqn:Eu; [|discriminate]. injection H as <-. cbn [parent_ tasks unfinished workers]. split; [exact Hu|]. split; [eauto|]. split; [exact Hn|]. reflexivity.
    + destruct (Nat.ltb _ _); [|discriminate]. destruct (queue s) as [|v q]; [discriminate|]. injection H as <-. cbn [parent_ tasks unfinished workers].
      split; [exact Hu|]. split; [eauto|]. split; [exact Hn|]. intros _ _. now apply (Hc acc).
  - unfold step_get in H. destruct (w_phase w) eqn:Ew; try discriminate. destruct (tasks s) as [|x q] eqn:Et; [discriminate|].
    injection H as <-. cbn [parent_ tasks unfinished workers].
    set (w' := with_phase w (match x with Some j => Got j | None => Pill end)).
    assert (K1 := count_upd active _ _ _ w' E). assert (K2 := count_upd gone _ _ _ w' E).
    assert (A1 : active w = false) by (unfold active; now rewrite Ew). assert (A2 : gone w = false) by (unfold gone; now rewrite Ew).
    rewrite A1 in K1. rewrite A2 in K2.
    split; [|split; [|split; [now rewrite upd_length|exact Hc]]].
    + assert (active w' = true) as A3 by (unfold w', active; cbn; now destruct x). rewrite A3 in K1. cbn in Hu. lia.
    + destruct a as [|j a]; cbn in Hr.
      * destruct b as [|b]; [discriminate|]. cbn in Hr. injection Hr as -> Hr. exists [], b. cbn. split; [exact Hr|].
        assert (gone w' = true) as A3 by reflexivity. rewrite A3 in K2. split; [lia|congruence].
      * injection Hr as -> Hr. exists a, b. split; [exact Hr|]. assert (gone w' = false) as A3 by reflexivity. rewrite A3 in K2.
        assert (b = n) by (apply Hab; congruence). split; [lia|auto].
  - unfold step_parse in H. destruct (w_phase w) eqn:Ew; try discriminate.
    assert (K : exists w', s' = set_worker s i w' /\ active w' = true /\ gone w' = false).
    { destruct (run (w_g w) j) as [[g' v]|e]; injection H as <-; eexists; (split; [reflexivity|]); now split. }
    destruct K as (w' & -> & A3 & A4). cbn [parent_ tasks unfinished workers set_worker].
    assert (K1 := count_upd active _ _ _ w' E). assert (K2 := count_upd gone _ _ _ w' E).
    assert (A1 : active w = true) by (unfold active; now rewrite Ew). assert (A2 : gone w = false) by (unfold gone; now rewrite Ew).
    rewrite A1, A3 in K1. rewrite A2, A4 in K2.
    split; [lia|]. split; [exists a, b; split; [exact Hr|]; split; [lia|exact Hab]|]. split; [now rewrite upd_length|exact Hc].
  - unfold step_ack in H. 
    assert (A1 : active w = true) by (unfold active; destruct (w_phase w); try discriminate; reflexivity).
    assert (K : exists w', s' = acked (set_worker s i w') /\ active w' = false /\ gone w' = gone w).
    { destruct (w_phase w) eqn:Ew; try discriminate; injection H as <-; eexists; (split; [reflexivity|]); (split; [reflexivity|]); unfold gone; cbn; now rewrite Ew. }
    destruct K as (w' & -> & A3 & A4). cbn [parent_ tasks unfinished workers set_worker acked].
    assert (K1 := count_upd active _ _ _ w' E). assert (K2 := count_upd gone _ _ _ w' E).
    rewrite A1, A3 in K1. rewrite A4 in K2. assert (K3 := nth_count active _ _ _ E A1).
    split; [lia|]. split; [exists a, b; split; [exact Hr|]; split; [destruct (gone w); lia|exact Hab]|]. split; [now rewrite upd_length|].
    intros acc Ha. specialize (Hc acc Ha). lia.
  - unfold step_put in H. destruct (w_phase w) eqn:Ew; try discriminate; injection H as <-; cbn [parent_ tasks unfinished workers set_worker].
    set (w' := {| w_g := w_g w; w_phase := Waiting; w_buf := w_buf w ++ [v] |}).
    assert (K1 := count_upd active _ _ _ w' E). assert (K2 := count_upd gone _ _ _ w' E).
    assert (A1 : active w = false) by (unfold active; now rewrite Ew). assert (A2 : gone w = false) by (unfold gone; now rewrite Ew).
    rewrite A1 in K1. rewrite A2 in K2. cbn in K1, K2.
    split; [lia|]. split; [exists a, b; split; [exact Hr|]; split; [lia|exact Hab]|]. split; [now rewrite upd_length|exact Hc].
  - unfold step_flush in H. destruct (w_buf w) as [|v b'] eqn:Ew; try discriminate; injection H as <-; cbn [parent_ tasks unfinished workers].
    set (w' := {| w_g := w_g w; w_phase := w_phase w; w_buf := b' |}).
    assert (K1 := count_upd active _ _ _ w' E). assert (K2 := count_upd gone _ _ _ w' E).
    assert (A1 : active w' = active w) by reflexivity. assert (A2 : gone w' = gone w) by reflexivity.
    rewrite A1 in K1. rewrite A2 in K2.
    split; [lia|]. split; [exists a, b; split; [exact Hr|]; split; [lia|exact Hab]|]. split; [now rewrite upd_length|exact Hc].
Qed.

Lemma start_inv n g js : inv n (start n g js).
Proof.
  assert (E : forall p, p {| w_g := g; w_phase := Waiting; w_buf := [] |} = false -> count p (repeat {| w_g := g; w_phase := Waiting; w_buf := [] |} n) = 0).
  { intros p Hp. unfold count. clear - Hp. induction n; cbn; [reflexivity|]. now rewrite Hp. }
  unfold inv, start, remaining. cbn [parent_ tasks unfinished workers length app]. rewrite (E active), (E gone) by reflexivity. split; [reflexivity|]. split.
  - exists js, n. split; [reflexivity|]. split; [lia|reflexivity].
  - split; [apply repeat_length|discriminate].
Qed.

Definition has_died (w : worker) : Prop := exists j, w_phase w = Dead j.

Lemma flat_map_nil {A B} (f : A -> list B) l : flat_map f l = [] -> forall x, In x l -> f x = [].
Proof. induction l as [|a l IH]; cbn; intros H x Hx; [destruct Hx|]. apply app_eq_nil in H as [H1 H2]. destruct Hx as [<-|Hx]; auto. Qed.

Theorem progress n g js s : 1 <= n -> steps (start n g js) s -> (forall w, In w (workers s) -> ~ has_died w) ->
  (exists acc, finished s acc) \/ (exists s', step s s').
Proof.
  intros Hn H Hd.
  assert (Hi : inv n s) by (apply (steps_inv (inv n) (start n g js) s) with (2 := start_inv n g js) (3 := H); intros; eapply step_inv; eassumption).
  (* a pool with a total value function counts the jobs *)
  pose (value := fun _ : job => @None val).
  assert (HP : length (pool value s) = length js).
  { assert (K : forall a b, length (pool value a) = length js -> step a b -> length (pool value b) = length js).
    { clear. intros a b Ha [l H]. rewrite <- Ha. clear Ha.
      assert (U : forall l i w w' (d d' : nat), nth_error l i = Some w -> length (worker_pool value w) + d = length (worker_pool value w') + d' ->
        length (flat_map (worker_pool value) l) + d = length (flat_map (worker_pool value) (upd l i w')) + d').
      { intros l0 i w w' d d' Hi He. destruct (upd_split l0 i w w' Hi) as (l1 & l2 & -> & ->). rewrite !flat_map_app, !app_length. cbn. rewrite !app_length. lia. }
      unfold pool. destruct l; cbn in H; unfold on_worker in H; try (destruct (nth_error (workers a) i) as [w|] eqn:E; [|discriminate]).
      - unfold step_parent in H. destruct (parent_ a) as [[|x l]| |acc] eqn:Ep.
        + injection H as <-. reflexivity.
        + injection H as <-. cbn. rewrite !flat_map_app, !app_length. cbn. rewrite !app_length. cbn. lia.
        + destruct (unfinished a); [|discriminate]. injection H as <-. reflexivity.
        + destruct (Nat.ltb _ _); [|discriminate]. destruct (queue a) as [|v q]; [discriminate|]. injection H as <-. cbn.
          rewrite !map_app, !app_length. cbn. rewrite !app_length. cbn. lia.
      - unfold step_get in H. destruct (w_phase w) eqn:Ew; try discriminate. destruct (tasks a) as [|x q] eqn:Et; [discriminate|].
        injection H as <-. cbn [parent_ tasks queue workers flat_map]. rewrite !app_length.
        assert (K := U _ _ _ (with_phase w (match x with Some j => Got j | None => Pill end)) (length (task_pool value x)) 0 E).
        unfold worker_pool in K at 1 2. cbn in K. rewrite Ew in K. destruct x; cbn in K |- *; specialize (K ltac:(lia)); lia.
      - unfold step_parse in H. destruct (w_phase w) eqn:Ew; try discriminate.
        destruct (run (w_g w) j) as [[g' v]|e]; injection H as <-; cbn [parent_ tasks queue workers set_worker]; rewrite !app_length.
        + assert (K := U _ _ _ {| w_g := g'; w_phase := Parsed v; w_buf := w_buf w |} 0 0 E). unfold worker_pool in K at 1 2. cbn in K. rewrite Ew in K. cbn in K. specialize (K eq_refl). lia.
        + assert (K := U _ _ _ (with_phase w (Dead j)) 0 0 E). unfold worker_pool in K at 1 2. cbn in K. rewrite Ew in K. cbn in K. specialize (K eq_refl). lia.
      - unfold step_ack in H. destruct (w_phase w) eqn:Ew; try discriminate; injection H as <-; cbn [parent_ tasks queue workers set_worker acked]; rewrite !app_length.
        + assert (K := U _ _ _ (with_phase w (Acked v)) 0 0 E). unfold worker_pool in K at 1 2. cbn in K. rewrite Ew in K. cbn in K. specialize (K eq_refl). lia.
        + assert (K := U _ _ _ (with_phase w Stopped) 0 0 E). unfold worker_pool in K at 1 2. cbn in K. rewrite Ew in K. cbn in K. specialize (K eq_refl). lia.
      - unfold step_put in H. destruct (w_phase w) eqn:Ew; try discriminate; injection H as <-; cbn [parent_ tasks queue workers set_worker]; rewrite !app_length.
        assert (K := U _ _ _ {| w_g := w_g w; w_phase := Waiting; w_buf := w_buf w ++ [v] |} 0 0 E). unfold worker_pool in K at 1 2. cbn in K. rewrite Ew in K. cbn in K.
        rewrite map_app, app_length in K. cbn in K. specialize (K ltac:(lia)). lia.
      - unfold step_flush in H. destruct (w_buf w) as [|v b'] eqn:Ew; try discriminate; injection H as <-; cbn [parent_ tasks queue workers]; rewrite !app_length, map_app, app_length.
        assert (K := U _ _ _ {| w_g := w_g w; w_phase := w_phase w; w_buf := b' |} 0 1 E). unfold worker_pool in K at 1 2. cbn [w_phase w_buf] in K. rewrite Ew in K. cbn in K.
        rewrite !app_length in K. cbn in K. specialize (K ltac:(lia)). cbn. lia. }
    apply (steps_inv (fun s => length (pool value s) = length js) (start n g js) s) with (3 := H); [exact K|]. rewrite start_pool. apply map_length. }
  destruct Hi as (Hu & (a & b & Hr & Hb & Hab) & Hlen & Hc).
  assert (W : forall w, In w (workers s) -> (exists s', step s s') \/ (w_phase w = Waiting \/ w_phase w = Stopped)).
  { intros w Hw. destruct (In_nth_error _ _ Hw) as [i Hi]. destruct (w_phase w) eqn:Ew; auto; left.
    - destruct (run (w_g w) j) as [[g' v]|e] eqn:Er; eexists; exists (LParse i); cbn; unfold on_worker; rewrite Hi; unfold step_parse; rewrite Ew, Er; reflexivity.
    - eexists; exists (LAck i); cbn; unfold on_worker; rewrite Hi; unfold step_ack; rewrite Ew; reflexivity.
    - eexists; exists (LPut i); cbn; unfold on_worker; rewrite Hi; unfold step_put; rewrite Ew; reflexivity.
    - eexists; exists (LAck i); cbn; unfold on_worker; rewrite Hi; unfold step_ack; rewrite Ew; reflexivity.
    - exfalso. apply (Hd w Hw). now exists j. }
  assert (W2 : (exists s', step s s') \/ forall w, In w (workers s) -> w_phase w = Waiting \/ w_phase w = Stopped).
  { clear - W. induction (workers s) as [|w l IH]; [right; intros w []|]. destruct (W w (or_introl eq_refl)) as [?|Hw]; [now left|].
    destruct IH as [?|IH]; [intros w' Hw'; apply W; now right|now left|]. right. intros w' [<-|Hw']; auto. }
  destruct W2 as [?|W2]; [now right|].
  assert (A0 : count active (workers s) = 0).
  { unfold count. clear - W2. induction (workers s) as [|w l IH]; [reflexivity|]. cbn. unfold active at 1.
    destruct (W2 w (or_introl eq_refl)) as [-> | ->]; apply IH; intros w' Hw'; apply W2; now right. }
  destruct (parent_ s) as [[|x l]| |acc] eqn:Ep.
  - right. eexists. exists LParent. cbn. unfold step_parent. rewrite Ep. reflexivity.
  - right. eexists. exists LParent. cbn. unfold step_parent. rewrite Ep. reflexivity.
  - destruct (unfinished s) eqn:Eu; [right; eexists; exists LParent; cbn; unfold step_parent; rewrite Ep, Eu; reflexivity|].
    (* some task is waiting, so is some worker *)
    right. destruct (tasks s) as [|x q] eqn:Et; [cbn in Hu; lia|].
    assert (Hex : exists w, In w (workers s) /\ w_phase w = Waiting).
    { assert (D : (exists w, In w (workers s) /\ w_phase w = Waiting) \/ forall w, In w (workers s) -> w_phase w = Stopped).
      { clear - W2. induction (workers s) as [|w l IH]; [right; intros w []|]. destruct (W2 w (or_introl eq_refl)) as [Hw|Hw].
        - left. exists w. split; [now left|exact Hw].
        - destruct IH as [(w' & H1 & H2)|IH]; [intros; apply W2; now right|left; exists w'; split; [now right|exact H2]|]. right. intros w' [<-|?]; auto. }
      destruct D as [D|D]; [exact D|exfalso].
      assert (Cg : count gone (workers s) = length (workers s)).
      { unfold count. clear - D. induction (workers s) as [|w l IH]; [reflexivity|]. cbn. unfold gone at 1. rewrite (D w (or_introl eq_refl)). cbn. f_equal.
        apply IH. intros; apply D; now right. }
      assert (b = 0) by lia. subst b. unfold remaining in Hr. rewrite Ep, Et, app_nil_r in Hr. cbn in Hr. rewrite app_nil_r in Hr.
      destruct a as [|j a]; [discriminate|]. assert (0 = n) by (apply Hab; congruence). lia. }
    destruct Hex as (w & Hw & Ew). destruct (In_nth_error _ _ Hw) as [i Hi].
    eexists. exists (LGet i). cbn. unfold on_worker. rewrite Hi. unfold step_get. rewrite Ew, Et. reflexivity.
  - specialize (Hc acc eq_refl). destruct (Nat.ltb_spec (length acc) (todo s)) as [Hlt|Hge].
    + destruct (queue s) as [|v q] eqn:Eq; [|right; eexists; exists LParent; cbn; unfold step_parent; rewrite Ep, Eq; apply Nat.ltb_lt in Hlt; rewrite Hlt; reflexivity].
      right. assert (Ht : tasks s = []) by (apply length_zero_iff_nil; lia).
      rewrite (reach_todo _ _ _ _ H) in Hlt. unfold pool in HP. rewrite Ep, Ht, Eq in HP. cbn in HP. rewrite app_length, map_length in HP.
      assert (Hne : exists w, In w (workers s) /\ w_buf w <> []).
      { assert (D : (exists w, In w (workers s) /\ w_buf w <> []) \/ forall w, In w (workers s) -> w_buf w = []).
        { clear. induction (workers s) as [|w l IH]; [right; intros w []|]. destruct (w_buf w) eqn:Eb.
          - destruct IH as [(w' & H1 & H2)|IH]; [left; exists w'; split; [now right|exact H2]|]. right. intros w' [<-|?]; auto.
          - left. exists w. split; [now left|congruence]. }
        destruct D as [D|D]; [exact D|exfalso].
        assert (Ez : flat_map (worker_pool value) (workers s) = []).
        { clear - W2 D. induction (workers s) as [|w l IH]; [reflexivity|]. cbn. unfold worker_pool at 1. rewrite (D w (or_introl eq_refl)).
          destruct (W2 w (or_introl eq_refl)) as [-> | ->]; cbn; apply IH; intros; (apply W2 || apply D); now right. }
        rewrite Ez in HP. cbn in HP. lia. }
      destruct Hne as (w & Hw & Hb'). destruct (In_nth_error _ _ Hw) as [i Hi]. destruct (w_buf w) as [|v b'] eqn:Eb; [congruence|].
      eexists. exists (LFlush i). cbn. unfold on_worker. rewrite Hi. unfold step_flush. rewrite Eb. reflexivity.
    + left. exists acc. split; [exact Ep|]. rewrite (reach_todo _ _ _ _ H) in *.
      assert (length acc <= length js); [|lia]. unfold pool in HP. rewrite Ep in HP. cbn in HP. rewrite app_length, map_length in HP. lia.
Qed.

(** a worker dies only on a job whose parsing raises *)
Definition fine (js : list job) (s : world) : Prop :=
  (forall j, In (Some j) (remaining s) -> In j js) /\
  (forall w, In w (workers s) -> ~ has_died w /\ forall j, w_phase w = Got j -> In j js).
Lemma alive_jobs n g js s : (forall j, In j js -> forall g, exists g' v, run g j = Ok (g', v)) ->
  steps (start n g js) s -> forall w, In w (workers s) -> ~ has_died w.
Proof.
  intros Hr H. assert (K : fine js s); [|intros w Hw; now apply K].
  apply (steps_inv (fine js) (start n g js) s) with (3 := H).
  - clear - Hr. intros a b (Hq & Ha) [l H].
    assert (U : forall (l : list worker) i w', (forall w, In w l -> ~ has_died w /\ forall j, w_phase w = Got j -> In j js) ->
      ~ has_died w' /\ (forall j, w_phase w' = Got j -> In j js) -> forall w, In w (upd l i w') -> ~ has_died w /\ forall j, w_phase w = Got j -> In j js).
    { clear. induction l as [|x l IH]; intros [|i] w' Hl Hw' w Hw; cbn in Hw; try (now destruct Hw).
      - destruct Hw as [<-|Hw]; [exact Hw'|apply Hl; now right].
      - destruct Hw as [<-|Hw]; [apply Hl; now left|]. eapply IH; [|exact Hw'|exact Hw]. intros; apply Hl; now right. }
    destruct l; cbn in H; unfold on_worker in H; try (destruct (nth_error (workers a) i) as [w|] eqn:E; [|discriminate]).
    + unfold step_parent in H. unfold fine, remaining in *. destruct (parent_ a) as [[|x l]| |acc].
      * injection H as <-. cbn. split; [|exact Ha]. exact Hq.
      * injection H as <-. cbn. split; [|exact Ha]. intros j Hj. apply Hq. now rewrite <- app_assoc in Hj.
      * destruct (unfinished a); [|discriminate]. injection H as <-. now split.
      * destruct (Nat.ltb _ _); [|discriminate]. destruct (queue a); [discriminate|]. injection H as <-. now split.
    + unfold step_get in H. destruct (w_phase w) eqn:Ew; try discriminate. unfold fine, remaining in *. destruct (tasks a) as [|x q]; [discriminate|]. injection H as <-.
      cbn [parent_ tasks workers]. split; [intros j Hj; apply Hq; now right|]. apply U; [exact Ha|]. split.
      * intros [j' Hj]. destruct x; discriminate.
      * intros j Hj. destruct x as [j'|]; [|discriminate]. cbn in Hj. injection Hj as ->. apply Hq. now left.
    + unfold step_parse in H. destruct (w_phase w) eqn:Ew; try discriminate.
      destruct (Hr j) with (g := w_g w) as (g' & v & Er); [apply (proj2 (Ha w (nth_error_In _ _ E))); exact Ew|]. rewrite Er in H. injection H as <-.
      split; [exact Hq|]. cbn [workers set_worker]. apply U; [exact Ha|]. split; [intros [j' Hj]; discriminate|discriminate].
    + unfold step_ack in H. destruct (w_phase w); try discriminate; injection H as <-; (split; [exact Hq|]); cbn [workers set_worker acked]; (apply U; [exact Ha|]); (split; [intros [j' Hj]; discriminate|discriminate]).
    + unfold step_put in H. destruct (w_phase w); try discriminate; injection H as <-; (split; [exact Hq|]); cbn [workers set_worker]; (apply U; [exact Ha|]); (split; [intros [j' Hj]; discriminate|discriminate]).
    + unfold step_flush in H. destruct (w_buf w); try discriminate; injection H as <-. split; [exact Hq|]. cbn [workers]. apply U; [exact Ha|].
      exact (Ha w (nth_error_In _ _ E)).
  - split.
    + unfold remaining. cbn. intros j Hj. apply in_app_or in Hj as [Hj|Hj].
      * apply in_map_iff in Hj as (j' & E & Hj). congruence.
      * apply repeat_spec in Hj. discriminate.
    + cbn. intros w Hw. apply repeat_spec in Hw. subst. split; [intros [j Hj]|]; discriminate.
Qed.
End W.
