(** * WorkersOrder: in which orders the results of a pool of processes arrive *)
From Verif Require Import PyBase DictFacts Session SpecSession SpecWorkers SessionFacts SessionHist Workers WorkersFacts WorkersSession WorkersExact.
From Coq Require Import Sorting.Permutation.
Local Open Scope string_scope.
Local Open Scope list_scope.
Set Default Proof Using "Type".

(** ** merges *)
Section M.
Context {A : Type}.
Implicit Types (ls : list (list A)) (m : list A).
Lemma mo_snoc ls m : merge_of ls m -> forall a l b x, ls = a ++ l :: b -> merge_of (a ++ (l ++ [x]) :: b) (m ++ [x]).
Proof.
  induction 1 as [ls H|a' y l' b' m H IH]; intros a l b x E.
  - subst ls. assert (l = []) as -> by (rewrite Forall_forall in H; apply H; apply in_or_app; right; now left). cbn [app].
    apply mo_take. apply mo_done. exact H.
  - cbn [app].
    assert (K : (a' = a /\ y :: l' = l /\ b' = b) \/ (exists c, a = a' ++ (y :: l') :: c /\ b' = c ++ l :: b) \/ (exists c, a' = a ++ l :: c /\ b = c ++ (y :: l') :: b')).
    { clear - E. revert a E. induction a' as [|h a' IH]; intros [|h2 a] E; cbn in E; injection E as E1 E2.
      - subst. left. auto.
      - right. left. exists a. subst. auto.
      - right. right. exists a'. subst. auto.
      - destruct (IH a E2) as [(-> & -> & ->)|[(c & -> & ->)|(c & -> & ->)]]; subst; [left; auto|right; left; exists c; auto|right; right; exists c; auto]. }
    destruct K as [(-> & <- & ->)|[(c & -> & ->)|(c & -> & ->)]].
    + cbn [app]. apply mo_take. now apply IH.
    + rewrite <- app_assoc. cbn [app]. apply mo_take.
      specialize (IH (a' ++ l' :: c) l b x). rewrite <- !app_assoc in IH. cbn [app] in IH. now apply IH.
    + specialize (IH a l (c ++ l' :: b') x). rewrite <- !app_assoc in IH. cbn [app] in IH.
      specialize (IH eq_refl). assert (R : a ++ (l ++ [x]) :: c ++ (y :: l') :: b' = (a ++ (l ++ [x]) :: c) ++ (y :: l') :: b') by (rewrite <- app_assoc; reflexivity).
      rewrite R. apply mo_take. rewrite <- app_assoc. exact IH.
Qed.
Lemma mo_perm ls m : merge_of ls m -> Permutation (concat ls) m.
Proof.
  induction 1 as [ls H|a x l b m H IH].
  - assert (E : concat ls = []); [|rewrite E; constructor]. induction H as [|? ? -> ? IH]; cbn; auto.
  - rewrite concat_app in *. cbn [concat app] in *. rewrite <- Permutation_middle. now constructor.
Qed.
Lemma mo_map {B} (f : A -> B) ls m : merge_of ls m -> merge_of (map (map f) ls) (map f m).
Proof.
  induction 1 as [ls H|a x l b m H IH]; cbn [map].
  - apply mo_done. induction H as [|? ? -> ? ?]; cbn; constructor; auto.
  - rewrite map_app in *. cbn [map] in *. now apply mo_take.
Qed.
End M.
Lemma mo_Some {A} (ls : list (list A)) (m : list (option A)) : merge_of (map (map Some) ls) m -> exists m', m = map Some m' /\ merge_of ls m'.
Proof.
  intros H. remember (map (map Some) ls) as L eqn:E. revert ls E. induction H as [L H|a x l b m H IH]; intros ls E; subst.
  - exists []. split; [reflexivity|]. apply mo_done. clear - H. induction ls as [|[|? ?] ls IH]; [constructor| |]; cbn in H; inversion H; subst; [constructor; auto|discriminate].
  - symmetry in E. apply map_eq_app in E as (a' & b' & -> & <- & E). apply map_eq_cons in E as (l' & b'' & -> & E & <-).
    destruct l' as [|x' l']; [discriminate|]. cbn in E. injection E as <- <-.
    destruct (IH (a' ++ l' :: b'')) as (m' & -> & Hm); [now rewrite map_app|]. exists (x' :: m'). split; [reflexivity|]. now apply mo_take.
Qed.

Lemma Forall2_len {A B} (R : A -> B -> Prop) l m : Forall2 R l m -> length l = length m.
Proof. induction 1; cbn; congruence. Qed.
Lemma combine_split {A B} (l1 l2 : list A) (w1 w2 : list B) l w : length l1 = length w1 ->
  combine (l1 ++ l :: l2) (w1 ++ w :: w2) = combine l1 w1 ++ (l, w) :: combine l2 w2.
Proof. revert w1. induction l1 as [|x l1 IH]; intros [|y w1] H; try discriminate; [reflexivity|]. cbn. now rewrite IH by (cbn in H; lia). Qed.
Lemma same_length_split {A B} (ls : list A) (w1 w2 : list B) w : length ls = length (w1 ++ w :: w2) ->
  exists l1 l l2, ls = l1 ++ l :: l2 /\ length l1 = length w1 /\ length l2 = length w2.
Proof.
  revert ls. induction w1 as [|y w1 IH]; intros [|x ls] H; cbn in H; try discriminate.
  - exists [], x, ls. repeat split. cbn in H. lia.
  - destruct (IH ls) as (l1 & l & l2 & -> & H1 & H2); [lia|]. exists (x :: l1), l, l2. cbn. auto.
Qed.

Section O.
Context {Fn G : Type}.
Local Notation job := (@job Fn).
Local Notation world := (@world Fn G).
Local Notation worker := (@worker Fn G).
Variable run : G -> job -> res (G * val).
Variable value : job -> option val.
Hypothesis Hrun : forall g j, match run g j with Ok (_, v) => value j = Some v | Raise _ => value j = None end.

(** ** every execution delivers so *)
(** what worker [w] still has to deliver after [l] *)
Definition stream (p : list val * worker) : list (option val) :=
  map Some (fst p) ++ map Some (w_buf (snd p)) ++ phase_pool value (w_phase (snd p)).
Definition arrived (s : world) : list val := match parent_ s with Collecting acc => acc | _ => [] end ++ queue s.
Definition task_jobs (l : list (option job)) : list job := flat_map (fun x => match x with Some j => [j] | None => [] end) l.
Definition waiting_jobs (s : world) : list job := task_jobs (tasks s) ++ match parent_ s with Putting l => task_jobs l | _ => [] end.
Definition ordered (js : list job) (s : world) : Prop :=
  exists taken ls, js = taken ++ waiting_jobs s /\ length ls = length (workers s) /\ merge_of ls (arrived s) /\
    merge_of (map stream (combine ls (workers s))) (map value taken).

Lemma ordered_same js (s s' : world) i w w' : ordered js s -> nth_error (workers s) i = Some w -> workers s' = upd (workers s) i w' ->
  arrived s' = arrived s -> waiting_jobs s' = waiting_jobs s ->
  map Some (w_buf w') ++ phase_pool value (w_phase w') = map Some (w_buf w) ++ phase_pool value (w_phase w) -> ordered js s'.
Proof.
  intros (taken & ls & Hj & Hl & Ha & Hm) Hi Hw Har Hwt Hst. exists taken, ls. rewrite Hwt, Har, Hw. split; [exact Hj|].
  destruct (upd_split _ i w w' Hi) as (w1 & w2 & E1 & E2). rewrite E2. rewrite E1 in Hl, Hm.
  destruct (same_length_split ls w1 w2 w Hl) as (l1 & l & l2 & -> & L1 & L2). split; [rewrite !app_length; cbn; lia|]. split; [exact Ha|].
  rewrite combine_split in * by exact L1. rewrite map_app in *. cbn [map] in *.
  assert (E : stream (l, w') = stream (l, w)) by (unfold stream; cbn [fst snd]; now rewrite Hst). now rewrite E.
Qed.
Lemma step_ordered js s s' : ordered js s -> step run s s' -> ordered js s'.
Proof using Hrun.
  intros HO [l H]. destruct l; cbn in H; unfold on_worker in H;
  try (destruct (nth_error (workers s) i) as [w|] eqn:E; [|discriminate]).
  - destruct HO as (taken & ls & Hj & Hl & Ha & Hm). unfold step_parent in H. destruct (parent_ s) as [[|x l]| |acc] eqn:Ep.
    + injection H as <-. exists taken, ls. unfold waiting_jobs, arrived in *. rewrite Ep in *. cbn in *. auto.
    + injection H as <-. exists taken, ls. unfold waiting_jobs, arrived, task_jobs in *. rewrite Ep in *. cbn [tasks parent_ queue workers] in *.
      split; [|auto]. rewrite Hj. rewrite flat_map_app, <- !app_assoc. cbn [flat_map app]. rewrite <- ?app_assoc. reflexivity.
    + destruct (unfinished s); [|discriminate]. injection H as <-. exists taken, ls. unfold waiting_jobs, arrived in *. rewrite Ep in *. cbn in *. auto.
    + destruct (Nat.ltb _ _); [|discriminate]. destruct (queue s) as [|v q] eqn:Eq; [discriminate|]. injection H as <-.
      exists taken, ls. unfold waiting_jobs, arrived in *. rewrite Ep, Eq in *. cbn [tasks parent_ queue workers] in *. rewrite <- app_assoc. auto.
  - destruct HO as (taken & ls & Hj & Hl & Ha & Hm). unfold step_get in H. destruct (w_phase w) eqn:Ew; try discriminate. destruct (tasks s) as [|x q] eqn:Et; [discriminate|].
    injection H as <-. set (w' := with_phase w match x with Some j => Got j | None => Pill end).
    destruct (upd_split _ i w w' E) as (w1 & w2 & E1 & E2). rewrite E1 in Hl, Hm.
    destruct (same_length_split ls w1 w2 w Hl) as (l1 & l & l2 & -> & L1 & L2). rewrite combine_split in Hm by exact L1. rewrite map_app in Hm. cbn [map] in Hm.
    assert (S : stream (l, w') = stream (l, w) ++ map value (task_jobs [x])).
    { unfold stream, w', with_phase. cbn [fst snd w_buf w_phase]. rewrite Ew. cbn [phase_pool]. rewrite app_nil_r. destruct x; cbn; now rewrite ?app_nil_r, <- ?app_assoc. }
    exists (taken ++ task_jobs [x]), (l1 ++ l :: l2). unfold waiting_jobs, arrived in *. cbn [tasks parent_ queue workers] in *. rewrite Et in Hj. split; [|split; [|split]].
    + rewrite Hj. unfold task_jobs. cbn [flat_map]. rewrite app_nil_r, <- !app_assoc. reflexivity.
    + rewrite E2, !app_length. cbn. lia.
    + exact Ha.
    + rewrite E2, combine_split, map_app by exact L1. cbn [map]. rewrite S, map_app. destruct x as [j|]; cbn [task_jobs flat_map map app].
      * eapply mo_snoc; [exact Hm|reflexivity].
      * rewrite !app_nil_r. exact Hm.
  - unfold step_parse in H. destruct (w_phase w) eqn:Ew; try discriminate. assert (Hr := Hrun (w_g w) j). destruct (run (w_g w) j) as [[g' v]|e]; injection H as <-;
      (eapply (ordered_same _ s); [exact HO|exact E|reflexivity|reflexivity|reflexivity|]); cbn; rewrite Ew; cbn; now rewrite ?Hr.
  - unfold step_ack in H. destruct (w_phase w) eqn:Ew; try discriminate; injection H as <-;
      (eapply (ordered_same _ s); [exact HO|exact E|reflexivity|reflexivity|reflexivity|]); cbn; rewrite Ew; reflexivity.
  - unfold step_put in H. destruct (w_phase w) eqn:Ew; try discriminate; injection H as <-.
    eapply (ordered_same _ s); [exact HO|exact E|reflexivity|reflexivity|reflexivity|]. cbn. rewrite Ew. cbn [phase_pool]. now rewrite map_app, app_nil_r.
  - destruct HO as (taken & ls & Hj & Hl & Ha & Hm). unfold step_flush in H. destruct (w_buf w) as [|v b] eqn:Eb; [discriminate|]. injection H as <-.
    set (w' := {| w_g := w_g w; w_phase := w_phase w; w_buf := b |}).
    destruct (upd_split _ i w w' E) as (w1 & w2 & E1 & E2). rewrite E1 in Hl, Hm.
    destruct (same_length_split ls w1 w2 w Hl) as (l1 & l & l2 & -> & L1 & L2). rewrite combine_split in Hm by exact L1. rewrite map_app in Hm. cbn [map] in Hm.
    exists taken, (l1 ++ (l ++ [v]) :: l2). unfold waiting_jobs, arrived in *. cbn [tasks parent_ queue workers] in *. split; [exact Hj|]. split; [|split].
    + rewrite E2, !app_length. cbn. lia.
    + rewrite app_assoc. eapply mo_snoc; [exact Ha|reflexivity].
    + rewrite E2, combine_split, map_app by exact L1. cbn [map].
      assert (S : stream (l ++ [v], w') = stream (l, w)). { unfold stream, w'. cbn [fst snd w_buf w_phase]. rewrite Eb, map_app, <- !app_assoc. reflexivity. }
      now rewrite S.
Qed.
Lemma start_ordered n g js : ordered js (start n g js).
Proof.
  exists [], (repeat [] n). unfold waiting_jobs, arrived, start. cbn [parent_ tasks queue workers app map task_jobs flat_map]. split; [|split; [now rewrite !repeat_length|split]].
  - unfold task_jobs. rewrite flat_map_app. assert (E : forall n, flat_map (fun x : option job => match x with Some j => [j] | None => [] end) (repeat None n) = []) by (clear; induction n; cbn; auto).
    rewrite E, app_nil_r. clear. induction js; cbn; congruence.
  - apply mo_done. apply Forall_forall. intros x Hx. now apply repeat_spec in Hx.
  - apply mo_done. clear. induction n; cbn; constructor; auto.
Qed.

Theorem orders_sound n g js s acc : steps run (start n g js) s -> finished s acc ->
  exists vs, map value js = map Some vs /\ delivered n vs acc.
Proof using Hrun.
  intros H Hf. assert (HP := collected run value Hrun n g js s acc H Hf).
  assert (HO : ordered js s) by (apply (steps_inv run (ordered js) (start n g js) s); [intros; eapply step_ordered; eassumption|apply start_ordered|exact H]).
  assert (HQ := reach_pool run value Hrun n g js s H).
  assert (Hw : length (workers s) = n).
  { apply (steps_inv run (fun s => length (workers s) = n) (start n g js) s); [|cbn; now rewrite repeat_length|exact H]. clear. intros a b Ha [l H].
    destruct l; cbn in H; unfold on_worker in H; try (destruct (nth_error (workers a) i) as [w|]; [|discriminate]).
    - unfold step_parent in H. destruct (parent_ a) as [[|x l]| |acc]; try (now injection H as <-).
      + destruct (unfinished a); [|discriminate]. now injection H as <-.
      + destruct (Nat.ltb _ _); [|discriminate]. destruct (queue a); [discriminate|]. now injection H as <-.
    - unfold step_get in H. destruct (w_phase w); try discriminate. destruct (tasks a); [discriminate|]. injection H as <-. cbn. now rewrite upd_length.
    - unfold step_parse in H. destruct (w_phase w); try discriminate. destruct (run _ _) as [[]|]; injection H as <-; cbn; now rewrite upd_length.
    - unfold step_ack in H. destruct (w_phase w); try discriminate; injection H as <-; cbn; now rewrite upd_length.
    - unfold step_put in H. destruct (w_phase w); try discriminate; injection H as <-; cbn; now rewrite upd_length.
    - unfold step_flush in H. destruct (w_buf w); try discriminate; injection H as <-; cbn; now rewrite upd_length. }
  destruct Hf as [Hp Hl]. unfold pool in HQ. rewrite Hp in HQ. cbn [parent_pool] in HQ.
  assert (Hlen := Permutation_length HQ). assert (Hlen2 := Permutation_length HP). rewrite !app_length, !map_length in Hlen. rewrite !map_length in Hlen2.
  assert (Eq : queue s = []) by (apply length_zero_iff_nil; lia).
  assert (Ew : flat_map (worker_pool value) (workers s) = []) by (apply length_zero_iff_nil; lia).
  assert (Et : task_jobs (tasks s) = []).
  { assert (Et : flat_map (task_pool value) (tasks s) = []) by (apply length_zero_iff_nil; lia). clear - Et. unfold task_jobs.
    induction (tasks s) as [|[j|] l IH]; cbn in *; [reflexivity|discriminate|auto]. }
  destruct HO as (taken & ls & Hj & Hll & Ha & Hm). unfold waiting_jobs, arrived in *. rewrite Hp, Et, Eq in *. cbn [app] in Hj. rewrite !app_nil_r in *. subst taken.
  assert (Es : map stream (combine ls (workers s)) = map (map Some) ls).
  { clear - Ew Hll. revert ls Hll. induction (workers s) as [|w ws IH]; intros [|l ls] Hll; try discriminate; [reflexivity|].
    cbn in Ew. apply app_eq_nil in Ew as [E1 E2]. cbn [combine map]. rewrite IH; [|exact E2|cbn in Hll; lia]. f_equal.
    unfold worker_pool in E1. apply app_eq_nil in E1 as [E1 E3]. unfold stream. cbn [fst snd]. now rewrite E1, E3, app_nil_r. }
  rewrite Es in Hm. apply mo_Some in Hm as (vs & Ev & Hm). exists vs. split; [exact Ev|]. exists ls. rewrite Hll. auto.
Qed.

(** ** and every such order happens *)
Lemma steps_trans a b c : steps run a b -> steps run b c -> steps run a c.
Proof. intros H. induction H; [auto|]. intros K. econstructor; eauto. Qed.
Lemma steps_one l a b c : step_l run l a = Some b -> steps run b c -> steps run a c.
Proof. intros H K. econstructor; [exists l; exact H|exact K]. Qed.

Definition ready (b : list val) (w : worker) : Prop := w_phase w = Waiting /\ w_buf w = b.
Definition idle (b : list val) (w : worker) : Prop := w_phase w = Stopped /\ w_buf w = b.
Lemma Forall2_split {A B} (R : A -> B -> Prop) l1 x l2 ws : Forall2 R (l1 ++ x :: l2) ws ->
  exists w1 w w2, ws = w1 ++ w :: w2 /\ Forall2 R l1 w1 /\ R x w /\ Forall2 R l2 w2.
Proof.
  intros H. apply Forall2_app_inv_l in H as (w1 & r & H1 & H2 & ->). inversion H2; subst. eauto 10.
Qed.
Lemma nth_mid {A} (w1 : list A) w w2 : nth_error (w1 ++ w :: w2) (length w1) = Some w.
Proof. rewrite nth_error_app2 by lia. now rewrite Nat.sub_diag. Qed.
Lemma upd_mid {A} (w1 : list A) w w2 x : upd (w1 ++ w :: w2) (length w1) x = w1 ++ x :: w2.
Proof. induction w1; cbn; congruence. Qed.

Lemma put_all l : forall s, parent_ s = Putting l -> exists s', steps run s s' /\ parent_ s' = Joining /\ todo s' = todo s /\
  tasks s' = tasks s ++ l /\ unfinished s' = unfinished s + length l /\ queue s' = queue s /\ workers s' = workers s.
Proof.
  clear Hrun. induction l as [|x l IH]; intros s Hp.
  - eexists. split; [eapply (steps_one LParent); [cbn; unfold step_parent; rewrite Hp; reflexivity|apply steps_refl]|]. cbn. rewrite app_nil_r. repeat split; lia.
  - edestruct IH as (s' & H1 & H2 & H3 & H4 & H5 & H6 & H7); [|exists s'; split; [eapply (steps_one LParent); [cbn; unfold step_parent; rewrite Hp; reflexivity|exact H1]|]]; [reflexivity|].
    cbn in *. rewrite H4, <- app_assoc. cbn. repeat split; auto; lia.
Qed.

Definition apps (bs ls : list (list val)) : list (list val) := map (fun p => fst p ++ snd p) (combine bs ls).
Lemma deal ls vs : merge_of ls vs -> forall js, map value js = map Some vs -> forall s bs rest u, parent_ s = Joining -> tasks s = map Some js ++ rest ->
  unfinished s = length js + u -> length bs = length ls -> Forall2 ready bs (workers s) ->
  exists s', steps run s s' /\ parent_ s' = Joining /\ todo s' = todo s /\ tasks s' = rest /\ unfinished s' = u /\ queue s' = queue s /\ Forall2 ready (apps bs ls) (workers s').
Proof using Hrun.
  induction 1 as [ls H|a x l b m H IH]; intros js Ej s bs rest u Hp Ht Hu Hl HF.
  - destruct js; [|discriminate]. exists s. split; [apply steps_refl|]. repeat split; auto.
    assert (E : apps bs ls = bs); [|now rewrite E]. clear - H Hl. unfold apps. revert bs Hl. induction H as [|l ls -> _ IH]; intros [|b bs] Hl; try discriminate; [reflexivity|].
    cbn. rewrite app_nil_r, IH; [reflexivity|]. cbn in Hl. lia.
  - destruct js as [|j js]; [discriminate|]. cbn in Ej. injection Ej as Ev Ej.
    rewrite app_length in Hl. cbn [length] in Hl. destruct (same_length_split bs a b l) as (b1 & b0 & b2 & -> & L1 & L2); [rewrite app_length; cbn; lia|].
    destruct (Forall2_split _ _ _ _ _ HF) as (w1 & w & w2 & Ew & F1 & [Fp Fb] & F2). assert (L3 := Forall2_len _ _ _ F1).
    assert (Hr := Hrun (w_g w) j). destruct (run (w_g w) j) as [[g' v]|e] eqn:Er; [|congruence]. assert (v = x) by congruence. subst v.
    set (i := length w1). cbn [map app] in Ht.
    set (s1 := {| parent_ := parent_ s; todo := todo s; tasks := map Some js ++ rest; unfinished := unfinished s; queue := queue s; workers := w1 ++ with_phase w (Got j) :: w2 |}).
    set (s2 := {| parent_ := parent_ s; todo := todo s; tasks := map Some js ++ rest; unfinished := unfinished s; queue := queue s; workers := w1 ++ {| w_g := g'; w_phase := Parsed x; w_buf := w_buf w |} :: w2 |}).
    set (s3 := {| parent_ := parent_ s; todo := todo s; tasks := map Some js ++ rest; unfinished := unfinished s - 1; queue := queue s; workers := w1 ++ {| w_g := g'; w_phase := Acked x; w_buf := w_buf w |} :: w2 |}).
    set (s4 := {| parent_ := parent_ s; todo := todo s; tasks := map Some js ++ rest; unfinished := unfinished s - 1; queue := queue s; workers := w1 ++ {| w_g := g'; w_phase := Waiting; w_buf := w_buf w ++ [x] |} :: w2 |}).
    destruct (IH js Ej s4 (b1 ++ (b0 ++ [x]) :: b2) rest u) as (s' & K1 & K2 & K3 & K4 & K5 & K6 & K7); try reflexivity.
    + exact Hp.
    + cbn. rewrite Hu. cbn. lia.
    + rewrite !app_length. cbn. lia.
    + cbn [workers s4]. apply Forall2_app; [exact F1|]. constructor; [|exact F2]. split; [reflexivity|]. cbn. now rewrite Fb.
    + exists s'. split.
      * eapply (steps_one (LGet i) s s1). { cbn [step_l]. unfold on_worker. rewrite Ew. unfold i. rewrite nth_mid. unfold step_get. rewrite Fp, Ht, Ew, upd_mid. reflexivity. }
        eapply (steps_one (LParse i) s1 s2). { cbn [step_l]. unfold on_worker, s1, i. cbn [workers]. rewrite nth_mid. unfold step_parse. cbn [w_phase with_phase w_g]. rewrite Er. unfold set_worker. cbn [workers parent_ todo tasks unfinished queue w_buf]. now rewrite upd_mid. }
        eapply (steps_one (LAck i) s2 s3). { cbn [step_l]. unfold on_worker, s2, i. cbn [workers]. rewrite nth_mid. unfold step_ack. cbn [w_phase]. unfold set_worker, acked, with_phase. cbn [workers parent_ todo tasks unfinished queue w_buf w_g]. now rewrite upd_mid. }
        eapply (steps_one (LPut i) s3 s4). { cbn [step_l]. unfold on_worker, s3, i. cbn [workers]. rewrite nth_mid. unfold step_put. cbn [w_phase]. unfold set_worker. cbn [workers parent_ todo tasks unfinished queue w_buf w_g]. now rewrite upd_mid. }
        exact K1.
      * assert (EA : apps (b1 ++ b0 :: b2) (a ++ (x :: l) :: b) = apps (b1 ++ (b0 ++ [x]) :: b2) (a ++ l :: b)).
        { unfold apps. rewrite !combine_split by exact L1. rewrite !map_app. cbn [map fst snd]. now rewrite <- app_assoc. }
        rewrite EA. repeat split; auto.
Qed.

Lemma pills ws : forall bs s st, parent_ s = Joining -> tasks s = repeat None (length ws) -> unfinished s = length ws ->
  workers s = st ++ ws -> Forall2 ready bs ws ->
  exists s' ws', steps run s s' /\ parent_ s' = Joining /\ todo s' = todo s /\ unfinished s' = 0 /\ queue s' = queue s /\ workers s' = st ++ ws' /\ Forall2 idle bs ws'.
Proof.
  clear Hrun. induction ws as [|w ws IH]; intros bs s st Hp Ht Hu Hw HF; inversion HF as [|b w0 bs' ws0 [Fp Fb] HF' Eb Ew]; subst.
  - exists s, []. split; [apply steps_refl|]. repeat split; auto.
  - set (s1 := {| parent_ := parent_ s; todo := todo s; tasks := repeat None (length ws); unfinished := unfinished s; queue := queue s; workers := st ++ with_phase w Pill :: ws |}).
    set (s2 := {| parent_ := parent_ s; todo := todo s; tasks := repeat None (length ws); unfinished := unfinished s - 1; queue := queue s; workers := st ++ with_phase w Stopped :: ws |}).
    destruct (IH bs' s2 (st ++ [with_phase w Stopped])) as (s' & ws' & K1 & K2 & K3 & K4 & K5 & K6 & K7); try reflexivity.
    + exact Hp.
    + cbn. rewrite Hu. cbn. lia.
    + cbn [workers s2]. now rewrite <- app_assoc.
    + exact HF'.
    + exists s', (with_phase w Stopped :: ws'). split.
      * eapply (steps_one (LGet (length st)) s s1). { cbn [step_l]. unfold on_worker. rewrite Hw, nth_mid. unfold step_get. rewrite Fp, Ht; cbn [length repeat]; cbv zeta; rewrite Hw, upd_mid. reflexivity. }
        eapply (steps_one (LAck (length st)) s1 s2). { cbn [step_l]. unfold on_worker, s1. cbn [workers]. rewrite nth_mid. unfold step_ack. cbn [w_phase with_phase]. unfold set_worker, acked, with_phase. cbn [workers parent_ todo tasks unfinished queue w_buf w_g]. now rewrite upd_mid. }
        exact K1.
      * repeat split; auto; [rewrite K6, <- app_assoc; reflexivity|]. constructor; [|exact K7]. now split.
Qed.

Lemma flush_all ls out : merge_of ls out -> forall s, Forall2 idle ls (workers s) ->
  exists s', steps run s s' /\ parent_ s' = parent_ s /\ todo s' = todo s /\ queue s' = queue s ++ out.
Proof.
  clear Hrun. induction 1 as [ls H|a x l b m H IH]; intros s HF.
  - exists s. split; [apply steps_refl|]. rewrite app_nil_r. auto.
  - destruct (Forall2_split _ _ _ _ _ HF) as (w1 & w & w2 & Ew & F1 & [Fp Fb] & F2).
    set (s1 := {| parent_ := parent_ s; todo := todo s; tasks := tasks s; unfinished := unfinished s; queue := queue s ++ [x]; workers := w1 ++ {| w_g := w_g w; w_phase := w_phase w; w_buf := l |} :: w2 |}).
    destruct (IH s1) as (s' & K1 & K2 & K3 & K4).
    { cbn [workers s1]. apply Forall2_app; [exact F1|]. constructor; [|exact F2]. split; [exact Fp|reflexivity]. }
    exists s'. split; [|split; [exact K2|split; [exact K3|rewrite K4; cbn; now rewrite <- app_assoc]]].
    eapply (steps_one (LFlush (length w1)) s s1); [|exact K1]. cbn [step_l]. unfold on_worker. rewrite Ew, nth_mid. unfold step_flush. rewrite Fb, Ew, upd_mid. reflexivity.
Qed.
Lemma take_all out : forall s acc, parent_ s = Collecting acc -> queue s = out -> length acc + length out = todo s ->
  exists s', steps run s s' /\ finished s' (acc ++ out).
Proof.
  clear Hrun. induction out as [|v out IH]; intros s acc Hp Hq Hl.
  - exists s. split; [apply steps_refl|]. rewrite app_nil_r. split; [exact Hp|]. cbn in Hl. lia.
  - cbn in Hl. edestruct (IH {| parent_ := Collecting (acc ++ [v]); todo := todo s; tasks := tasks s; unfinished := unfinished s; queue := out; workers := workers s |} (acc ++ [v])) as (s' & K1 & K2);
      [reflexivity|reflexivity|cbn; rewrite app_length; cbn; lia|]. rewrite <- app_assoc in K2. exists s'. split; [|exact K2].
    eapply (steps_one LParent); [|exact K1]. cbn. unfold step_parent. rewrite Hp, Hq. destruct (Nat.ltb_spec (length acc) (todo s)); [reflexivity|lia].
Qed.

Theorem orders_complete n g js vs acc : map value js = map Some vs -> delivered n vs acc ->
  exists s, steps run (start n g js) s /\ finished s acc.
Proof using Hrun.
  intros Ev (ls & Hn & H1 & H2).
  destruct (put_all (map Some js ++ repeat None n) (start n g js) eq_refl) as (s1 & A1 & A2 & A3 & A4 & A5 & A6 & A7). cbn [start todo tasks unfinished queue workers app] in A3, A4, A5, A6, A7.
  assert (R0 : Forall2 ready (repeat [] n) (workers s1)). { rewrite A7. clear. induction n; cbn; constructor; [split; reflexivity|auto]. }
  destruct (deal ls vs H1 js Ev s1 (repeat [] n) (repeat None n) n A2 A4) as (s2 & B1 & B2 & B3 & B4 & B5 & B6 & B7).
  { rewrite A5, app_length, map_length, repeat_length. lia. } { rewrite repeat_length. congruence. } { exact R0. }
  assert (E : apps (repeat [] n) ls = ls). { rewrite <- Hn. clear. unfold apps. induction ls as [|l ls IH]; cbn; [reflexivity|]. now rewrite IH. }
  rewrite E in B7. assert (Lw := Forall2_len _ _ _ B7).
  destruct (pills (workers s2) ls s2 [] B2) as (s3 & ws & C1 & C2 & C3 & C4 & C5 & C6 & C7); [rewrite B4; f_equal; congruence|congruence|reflexivity|exact B7|]. cbn [app] in C6. subst ws.
  set (s4 := {| parent_ := Collecting []; todo := todo s3; tasks := tasks s3; unfinished := 0; queue := queue s3; workers := workers s3 |}).
  destruct (flush_all ls acc H2 s4 C7) as (s5 & D1 & D2 & D3 & D4). cbn [s4 parent_ todo queue] in D2, D3, D4.
  assert (Eq : queue s5 = acc). { rewrite D4, C5, B6, A6. reflexivity. }
  destruct (take_all acc s5 [] D2 Eq) as (s6 & E1 & E2).
  { assert (P1 := Permutation_length (mo_perm _ _ H1)). assert (P2 := Permutation_length (mo_perm _ _ H2)). assert (P3 : length js = length vs) by (rewrite <- (map_length value), Ev, map_length; reflexivity).
    cbn [length]. rewrite D3, C3, B3, A3. lia. }
  exists s6. split; [|exact E2]. eapply steps_trans; [exact A1|]. eapply steps_trans; [exact B1|]. eapply steps_trans; [exact C1|].
  eapply (steps_one LParent s3 s4). { cbn. unfold step_parent. rewrite C2, C4. reflexivity. }
  eapply steps_trans; [exact D1|exact E1].
Qed.
End O.

(** ** merges along a relation *)
Section R.
Context {A B : Type} (R : A -> B -> Prop).
Lemma mo_rel_out ls m : merge_of ls m -> forall m', Forall2 R m m' -> exists ls', Forall2 (Forall2 R) ls ls' /\ merge_of ls' m'.
Proof.
  induction 1 as [ls H|a x l b m H IH]; intros m' HF; inversion HF as [|? y ? m2 Hxy HF' E1 E2]; subst.
  - exists (map (fun _ => []) ls). split.
    + induction H as [|l ls -> _ IH]; cbn; constructor; auto.
    + apply mo_done. clear. induction ls; cbn; constructor; auto.
  - destruct (IH m2 HF') as (ls' & F & Hm). apply Forall2_app_inv_l in F as (a' & r & Fa & Fr & ->). inversion Fr as [|? l' ? b' Fl Fb]; subst.
    exists (a' ++ (y :: l') :: b'). split; [apply Forall2_app; [exact Fa|constructor; [constructor; assumption|exact Fb]]|now apply mo_take].
Qed.
Lemma mo_rel_in ls m : merge_of ls m -> forall ls', Forall2 (Forall2 R) ls ls' -> exists m', Forall2 R m m' /\ merge_of ls' m'.
Proof.
  induction 1 as [ls H|a x l b m H IH]; intros ls' HF.
  - exists []. split; [constructor|]. apply mo_done. induction HF as [|l l' ls ls' F1 F2 IH]; [constructor|]. inversion H; subst. constructor; [now inversion F1|auto].
  - apply Forall2_app_inv_l in HF as (a' & r & Fa & Fr & ->). inversion Fr as [|? l' ? b' Fl Fb]; subst. inversion Fl as [|? y ? l2 Hxy Fl']; subst.
    destruct (IH (a' ++ l2 :: b')) as (m' & F & Hm); [apply Forall2_app; [exact Fa|constructor; assumption]|].
    exists (y :: m'). split; [now constructor|now apply mo_take].
Qed.
Lemma delivered_rel n l m : delivered n l m -> forall m', Forall2 R m m' -> exists l', Forall2 R l l' /\ delivered n l' m'.
Proof.
  intros (ls & Hn & H1 & H2) m' HF. destruct (mo_rel_out ls m H2 m' HF) as (ls' & F & Hm). destruct (mo_rel_in ls l H1 ls' F) as (l' & F' & Hl).
  exists l'. split; [exact F'|]. exists ls'. split; [rewrite <- Hn; symmetry; apply (Forall2_len _ _ _ F)|auto].
Qed.
End R.
Lemma delivered_sym {A} n (l m : list A) : delivered n l m -> delivered n m l.
Proof. intros (ls & H & H1 & H2). exists ls. auto. Qed.
Lemma delivered_perm {A} n (l m : list A) : delivered n l m -> Permutation l m.
Proof. intros (ls & _ & H1 & H2). rewrite <- (mo_perm _ _ H1). now apply mo_perm. Qed.
Lemma mo_first {A} (l l' : list A) ls m : merge_of (l' :: ls) m -> merge_of ((l ++ l') :: ls) (l ++ m).
Proof. intros H. induction l as [|x l IH]; [exact H|]. cbn [app]. exact (mo_take [] x (l ++ l') ls (l ++ m) IH). Qed.
Lemma mo_single {A} (l m : list A) : merge_of [l] m -> m = l.
Proof.
  intros H. remember [l] as ls eqn:E. revert l E. induction H as [ls H|a x k b m H IH]; intros l E; subst.
  - inversion H; subst. reflexivity.
  - destruct a as [|? [|? ?]]; cbn in E; try discriminate. injection E as <- ->. f_equal. now apply IH.
Qed.
Lemma delivered_one {A} (l m : list A) : delivered 1 l m <-> l = m.
Proof.
  split.
  - intros ([|s [|? ?]] & Hn & H1 & H2); try discriminate. rewrite (mo_single _ _ H1), (mo_single _ _ H2). reflexivity.
  - intros ->. exists [m]. split; [reflexivity|]. assert (K : merge_of [m] m); [|auto]. rewrite <- (app_nil_r m) at 1 2. apply mo_first. apply mo_done. repeat constructor.
Qed.
(** with two workers any of the results can be the last *)
Lemma delivered_last {A} n (a b : list A) x : 2 <= n -> delivered n (a ++ x :: b) (a ++ b ++ [x]).
Proof.
  intros Hn. exists ((a ++ b) :: [x] :: repeat [] (n - 2)). assert (Z : merge_of ([] :: [] :: repeat [] (n - 2)) (@nil A)) by (apply mo_done; repeat constructor; apply Forall_forall; intros y Hy; now apply repeat_spec in Hy).
  split; [cbn; rewrite repeat_length; lia|]. split.
  - apply mo_first. apply (mo_take [b] x [] (repeat [] (n - 2)) b). rewrite <- (app_nil_r b) at 1 2. cbn [app]. now apply mo_first.
  - rewrite app_assoc. rewrite <- (app_nil_r (a ++ b)) at 1. apply mo_first. exact (mo_take [[]] x [] (repeat [] (n - 2)) [] Z).
Qed.

Section P.
Context {Fn G : Type}.
Local Notation job := (@job Fn).
Local Notation template := (template Fn).
Variable prs : nat -> G -> list nat -> Fn -> datum -> val -> res (G * val).

(** ** per_input: the results in every order the workers can deliver *)
Theorem orders_per_input n t g g0 old : memoryless prs -> t_method t = $"per_input" -> t_results t = VList old ->
  forall t2, multi_outcome prs n t g t2 <->
    exists g1 ds out, parse_one prs t g0 = Ok (g1, set_results t (VList (old ++ ds))) /\ delivered n ds out /\ t2 = set_results t (VList (old ++ out)).
Proof.
  intros Hm Hme Hr t2. split.
  - intros (s & acc & Hs & Hf & Hc). destruct (orders_sound (worker_run prs t) (value_at prs g0 t) (value_any prs t g0 Hm) n g (jobs t) s acc Hs Hf) as (vs & Ev & Hd).
    apply (collect_per_input acc t old t2 Hme Hr) in Hc as (out & Ho & ->). destruct (delivered_rel shaped n vs acc Hd out Ho) as (ds & Hds & Hdo).
    destruct (values_separately prs t g0 Hm (jobs t) vs (eq_sym Ev) g0) as [g1 Hsep]. exists g1, ds, out. split; [|auto].
    apply parse_one_spec; [left; eauto|]. eapply tp_per_input; eauto using set_results_same.
  - intros (g1 & ds & out & Hp & Hd & ->). apply parse_one_spec in Hp; [|left; eauto]. inversion Hp as [? ? ? ? old0 vs ds' Hme' Hr' Hsep Hsh Hsame Hr2|]; subst; [|rewrite Hme in *; discriminate].
    cbn in Hr2. assert (ds' = ds) as ->. { assert (old0 = old) by congruence. subst old0. injection Hr2 as Hr2. now apply app_inv_head in Hr2. }
    destruct (delivered_rel (fun d v => shaped v d) n out ds (delivered_sym _ _ _ Hd)  vs) as (acc & Hacc & Hda).
    { clear - Hsh. induction Hsh; constructor; auto. }
    destruct (orders_complete (worker_run prs t) (value_at prs g0 t) (value_any prs t g0 Hm) n g (jobs t) vs acc) as (s & Hs & Hf).
    { symmetry. eapply (separately_values prs t g0 Hm); eassumption. } { now apply delivered_sym. }
    exists s, acc. split; [exact Hs|]. split; [exact Hf|]. apply (collect_per_input acc t old _ Hme Hr). exists out. split; [|reflexivity].
    clear - Hacc. induction Hacc; constructor; auto.
Qed.

(** ** per_template *)
Lemma collect_per_template_all vs : forall (t : template), t_method t = $"per_template" ->
  Forall (fun v => exists d, shaped v d) vs -> forall v d, opt_last vs = Some v -> shaped v d -> collect t vs = Ok (set_results t d).
Proof.
  unfold collect. induction vs as [|x vs IH]; intros t Hm HF v d Hl Hd; [discriminate|]. inversion HF as [|? ? [dx Hx] HF']; subst.
  cbn [rfold]. rewrite (form_per_template t x Hm). apply form_datum_spec in Hx as Hx'. rewrite Hx'. cbn [rbind]. destruct vs as [|y vs].
  - cbn in Hl. injection Hl as <-. cbn [rfold]. now rewrite (shaped_fun _ _ _ Hx Hd).
  - rewrite (IH (set_results t dx) Hm HF' v d); [reflexivity| |exact Hd]. now rewrite opt_last_cons in Hl.
Qed.
Lemma alone_values t g0 js vs : map (value_at prs g0 t) js = map Some vs ->
  forall j d, In j js -> alone prs t g0 j d -> exists a v b, vs = a ++ v :: b /\ shaped v d.
Proof.
  revert vs. induction js as [|i js IH]; intros [|v vs] E j d Hj Ha; try discriminate; [destruct Hj|]. cbn in E. injection E as E1 E2. destruct Hj as [<-|Hj].
  - destruct Ha as (g' & v' & Hr & Hs). unfold value_at, worker_run in E1. rewrite Hr in E1. injection E1 as ->. exists [], v, vs. auto.
  - destruct (IH vs E2 j d Hj Ha) as (a & w & b & -> & Hs). exists (v :: a), w, b. auto.
Qed.
Theorem outcomes_per_template n t g g0 : 2 <= n -> memoryless prs -> t_method t = $"per_template" -> jobs t <> [] ->
  forall t2, multi_outcome prs n t g t2 <->
    Forall (fun j => exists d, alone prs t g0 j d) (jobs t) /\ exists j d, In j (jobs t) /\ alone prs t g0 j d /\ t2 = set_results t d.
Proof.
  intros Hn Hm Hme Hj t2. split.
  - intros (s & acc & Hs & Hf & Hc). destruct (orders_sound (worker_run prs t) (value_at prs g0 t) (value_any prs t g0 Hm) n g (jobs t) s acc Hs Hf) as (vs & Ev & Hd).
    destruct (collect_per_template acc t t2 Hme Hc) as (E & Hall & Hlast). assert (HP := delivered_perm _ _ _ Hd).
    assert (HA : forall j, In j (jobs t) -> exists v d, value_at prs g0 t j = Some v /\ In v acc /\ alone prs t g0 j d /\ shaped v d).
    { intros j Hi. assert (Hv : In (value_at prs g0 t j) (map Some vs)) by (rewrite <- Ev; now apply in_map). apply in_map_iff in Hv as (v & Hv & Hvi).
      assert (Hva : In v acc) by (eapply Permutation_in; eassumption). destruct (Hall v Hva) as [d Hdd]. apply form_datum_spec in Hdd. exists v, d. split; [congruence|]. split; [exact Hva|]. split; [|exact Hdd].
      symmetry in Hv. unfold value_at, worker_run in Hv. destruct (run_job _ _ _ _ _) as [[g' v']|] eqn:Er; [|discriminate]. injection Hv as ->. exists g', v. auto. }
    split; [apply Forall_forall; intros j Hi; destruct (HA j Hi) as (v & d & _ & _ & K & _); eauto|].
    destruct (opt_last acc) as [v|] eqn:El.
    + specialize (Hlast v eq_refl). apply form_datum_spec in Hlast. assert (Hv : In v vs). { eapply Permutation_in; [symmetry; exact HP|]. apply opt_last_Some in El as [l' ->]. apply in_or_app; right; now left. }
      assert (Hv2 : In (Some v) (map (value_at prs g0 t) (jobs t))) by (rewrite Ev; now apply in_map). apply in_map_iff in Hv2 as (j & Hjv & Hi).
      exists j, (t_results t2). split; [exact Hi|]. split; [|exact E]. unfold value_at, worker_run in Hjv. destruct (run_job _ _ _ _ _) as [[g' v']|] eqn:Er; [|discriminate]. injection Hjv as ->. exists g', v. auto.
    + apply opt_last_None in El. subst acc. apply Permutation_nil in HP || (symmetry in HP; apply Permutation_nil in HP). subst vs. destruct (jobs t); [congruence|discriminate].
  - intros (HF & j & d & Hi & Ha & ->).
    assert (K : exists vs, map (value_at prs g0 t) (jobs t) = map Some vs /\ Forall (fun v => exists d, shaped v d) vs).
    { clear - HF. induction HF as [|j js (d & g' & v & Hr & Hs) _ (vs & E & F)]; [exists []; split; [reflexivity|constructor]|].
      exists (v :: vs). split; [|constructor; eauto]. cbn. rewrite E. f_equal. unfold value_at, worker_run. now rewrite Hr. }
    destruct K as (vs & Ev & Hsh). destruct (alone_values t g0 (jobs t) vs Ev j d Hi Ha) as (a & v & b & -> & Hs).
    destruct (orders_complete (worker_run prs t) (value_at prs g0 t) (value_any prs t g0 Hm) n g (jobs t) _ _ Ev (delivered_last n a b v Hn)) as (s & H1 & H2).
    exists s, (a ++ b ++ [v]). split; [exact H1|]. split; [exact H2|]. apply (collect_per_template_all _ t Hme) with (v := v); [|rewrite app_assoc; apply opt_last_app|exact Hs].
    rewrite !Forall_app in *. destruct Hsh as [Ha' Hb']. inversion Hb'; subst. repeat split; auto.
Qed.
(** one worker: the last datum *)
Theorem outcomes_one_worker t g g0 js j : memoryless prs -> t_method t = $"per_template" -> jobs t = js ++ [j] ->
  forall t2, multi_outcome prs 1 t g t2 <->
    Forall (fun j => exists d, alone prs t g0 j d) (jobs t) /\ exists d, alone prs t g0 j d /\ t2 = set_results t d.
Proof.
  intros Hm Hme Hj t2. split.
  - intros (s & acc & Hs & Hf & Hc). destruct (orders_sound (worker_run prs t) (value_at prs g0 t) (value_any prs t g0 Hm) 1 g (jobs t) s acc Hs Hf) as (vs & Ev & Hd).
    apply (proj1 (delivered_one _ _)) in Hd. subst acc. destruct (collect_per_template vs t t2 Hme Hc) as (E & Hall & Hlast).
    assert (HA : forall j v, In v vs -> value_at prs g0 t j = Some v -> exists d, alone prs t g0 j d /\ shaped v d).
    { clear j Hj. intros j v Hv Hj. destruct (Hall v Hv) as [d Hdd]. apply form_datum_spec in Hdd. exists d. split; [|exact Hdd].
      unfold value_at, worker_run in Hj. destruct (run_job _ _ _ _ _) as [[g' v']|] eqn:Er; [|discriminate]. injection Hj as ->. exists g', v. auto. }
    split.
    + apply Forall_forall. intros i Hi. assert (Hv : In (value_at prs g0 t i) (map Some vs)) by (rewrite <- Ev; now apply in_map). apply in_map_iff in Hv as (v & Hv & Hvi).
      destruct (HA i v Hvi (eq_sym Hv)) as (d & K & _). eauto.
    + rewrite Hj, map_app in Ev. cbn [map] in Ev. symmetry in Ev. apply map_eq_app in Ev as (va & vb & -> & Ea & Eb). apply map_eq_cons in Eb as (v & tl & -> & Ev & Etl).
      apply map_eq_nil in Etl. subst tl. rewrite opt_last_app in E, Hlast. specialize (Hlast v eq_refl). apply form_datum_spec in Hlast.
      destruct (HA j v) as (d & K & Hd); [apply in_or_app; right; now left|congruence|]. exists d. split; [exact K|]. rewrite E. now rewrite (shaped_fun _ _ _ Hd Hlast).
  - intros (HF & d & Ha & ->).
    assert (K : exists vs, map (value_at prs g0 t) (jobs t) = map Some vs /\ Forall (fun v => exists d, shaped v d) vs).
    { clear - HF. induction HF as [|j js (d & g' & v & Hr & Hs) _ (vs & E & F)]; [exists []; split; [reflexivity|constructor]|].
      exists (v :: vs). split; [|constructor; eauto]. cbn. rewrite E. f_equal. unfold value_at, worker_run. now rewrite Hr. }
    destruct K as (vs & Ev & Hsh).
    destruct (orders_complete (worker_run prs t) (value_at prs g0 t) (value_any prs t g0 Hm) 1 g (jobs t) _ vs Ev) as (s & H1 & H2); [now apply delivered_one|].
    exists s, vs. split; [exact H1|]. split; [exact H2|]. destruct Ha as (g' & v & Hr & Hs).
    rewrite Hj, map_app in Ev. cbn [map] in Ev. symmetry in Ev. apply map_eq_app in Ev as (va & vb & -> & Ea & Eb). apply map_eq_cons in Eb as (v' & tl & -> & Ev & Etl). apply map_eq_nil in Etl. subst tl.
    assert (v' = v) as ->. { unfold value_at, worker_run in Ev. rewrite Hr in Ev. congruence. }
    apply (collect_per_template_all _ t Hme Hsh v d (opt_last_app _ _) Hs).
Qed.
End P.
