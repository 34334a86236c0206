(** * CallFacts3: proofs for C124, the calls. *)
From Coq Require Import Lia.
From Verif Require Import PyBase DictFacts StrFacts Regex Results Template Attributes FormRegex MatchFuncs GroupFuncs Parser FuncTable SessionFacts SpecVariable SpecCalls CallFacts CallFacts2.
Local Open Scope string_scope.
Local Open Scope list_scope.

Lemma entry_iff {A} n (l : list (str * A)) a : NoDup (map fst l) -> lookup_entry n l = Some a <-> In (n, a) l.
Proof.
  induction l as [|[m x] l IH]; cbn [lookup_entry map fst In]; intros H; [split; [discriminate|tauto]|]. apply NoDup_cons_iff in H as [H1 H2]. destruct (str_eqb n m) eqn:E.
  - apply str_eqb_eq in E. subst m. split; [intros K; left; congruence|intros [K|K]; [congruence|]]. elim H1. now apply (in_map fst) in K.
  - rewrite (IH H2). split; [tauto|]. intros [K|K]; [|exact K]. apply str_eqb_neq in E. congruence.
Qed.
Lemma entry_none {A} n (l : list (str * A)) : lookup_entry n l = None <-> ~ In n (map fst l).
Proof.
  induction l as [|[m x] l IH]; cbn [lookup_entry map fst In]; [tauto|]. destruct (str_eqb n m) eqn:E.
  - apply str_eqb_eq in E. subst m. split; [discriminate|]. intros H. elim H. now left.
  - rewrite IH. apply str_eqb_neq in E. split; [intros H [K|K]; [congruence|tauto]|tauto].
Qed.
Ltac nodup := repeat (apply NoDup_cons; [intros K; repeat (destruct K as [K|K]; [discriminate K|]); exact K|]); apply NoDup_nil.
Lemma nodup_b (l : list str) : (fix go l := match l with [] => true | x :: t => negb (in_strs x t) && go t end)%bool l = true -> NoDup l.
Proof.
  induction l as [|x l IH]; intros H; constructor; apply andb_true_iff in H as [H1 H2]; [|now apply IH]. intros K. apply in_strs_In in K. now rewrite K in H1.
Qed.
Lemma match_names_distinct : NoDup (map (fun l => fst (read_def l)) match_defs). Proof. apply nodup_b. vm_compute. reflexivity. Qed.
Lemma group_names_distinct : NoDup (map (fun l => fst (read_def l)) group_defs). Proof. apply nodup_b. vm_compute. reflexivity. Qed.
Lemma sig_iff {B} (l : list (str * (signature * B))) (defs : list string) : map (fun e => (fst e, fst (snd e))) l = map read_def defs -> map fst l = map (fun l => fst (read_def l)) defs.
Proof. intros H. apply (Logic.f_equal (map fst)) in H. rewrite !map_map in H. exact H. Qed.

Theorem call_match_iff macros lookups templates results a env d r :
  call_match macros lookups templates results a env d = Ok r <->
  exists line s b name, In line match_defs /\ read_def line = (at_name a, s) /\ binds s (at_args a) (at_kwargs a) b /\ t_ name = at_name a /\
    match_does macros lookups templates results (value_of s b) (b_star b) env d name r.
Proof.
  pose proof (match_signatures macros lookups templates results) as S. pose proof (table_ok macros lookups templates results) as T.
  assert (N : NoDup (map fst (match_table macros lookups templates results))) by (rewrite (sig_iff _ _ S); exact match_names_distinct).
  remember (match_table macros lookups templates results) as tb. unfold call_match. rewrite <- Heqtb. clear Heqtb. rewrite Forall_forall in T. split.
  - destruct (lookup_entry (at_name a) tb) as [[s f]|] eqn:E; [|destruct (in_strs _ _); discriminate]. apply (entry_iff _ _ _ N) in E.
    destruct (bind s (at_args a) (at_kwargs a)) as [b|] eqn:Eb; [|discriminate]. cbn [rbind]. intros H. apply bind_iff in Eb. destruct (bound_length _ _ _ _ Eb) as [L1 L2].
    apply (T _ E env d b r L1 L2) in H as (name & Hn & H). pose proof (in_map (fun e => (fst e, fst (snd e))) _ _ E) as I. rewrite S in I. apply in_map_iff in I as (line & Hl & I). exists line, s, b, name. auto.
  - intros (line & s & b & name & I & Hl & Hb & Hn & H). pose proof (in_map read_def _ _ I) as K. rewrite <- S in K. apply in_map_iff in K as ([n [s' f]] & K & Ke). cbn [fst snd] in K. rewrite Hl in K. assert (n = at_name a) by congruence. assert (s' = s) by congruence. subst n s'.
    rewrite (proj2 (entry_iff _ _ _ N) Ke). apply bind_iff in Hb as Hb'. rewrite Hb'. cbn [rbind]. destruct (bound_length _ _ _ _ Hb) as [L1 L2]. apply (T _ Ke env d b r L1 L2). exists name. auto.
Qed.
Theorem call_group_iff macros lookups templates main results k2i a st r :
  call_group macros lookups templates main results k2i a st = Ok r <->
  exists line s b name, In line group_defs /\ read_def line = (at_name a, s) /\ binds s (at_args a) (at_kwargs a) b /\ t_ name = at_name a /\
    group_does macros lookups templates main results k2i (value_of s b) (b_star b) st name r.
Proof.
  pose proof (group_signatures macros lookups templates main results k2i) as S. pose proof (gtable_ok macros lookups templates main results k2i) as T.
  assert (N : NoDup (map fst (group_table macros lookups templates main results k2i))) by (rewrite (sig_iff _ _ S); exact group_names_distinct).
  remember (group_table macros lookups templates main results k2i) as tb. unfold call_group. rewrite <- Heqtb. clear Heqtb. rewrite Forall_forall in T. split.
  - destruct (lookup_entry (at_name a) tb) as [[s f]|] eqn:E; [|destruct (in_strs _ _); discriminate]. apply (entry_iff _ _ _ N) in E.
    destruct (bind s (at_args a) (at_kwargs a)) as [b|] eqn:Eb; [|discriminate]. cbn [rbind]. intros H. apply bind_iff in Eb. destruct (bound_length _ _ _ _ Eb) as [L1 L2].
    apply (T _ E st b r L1 L2) in H as (name & Hn & H). pose proof (in_map (fun e => (fst e, fst (snd e))) _ _ E) as I. rewrite S in I. apply in_map_iff in I as (line & Hl & I). exists line, s, b, name. auto.
  - intros (line & s & b & name & I & Hl & Hb & Hn & H). pose proof (in_map read_def _ _ I) as K. rewrite <- S in K. apply in_map_iff in K as ([n [s' f]] & K & Ke). cbn [fst snd] in K. rewrite Hl in K. assert (n = at_name a) by congruence. assert (s' = s) by congruence. subst n s'.
    rewrite (proj2 (entry_iff _ _ _ N) Ke). apply bind_iff in Hb as Hb'. rewrite Hb'. cbn [rbind]. destruct (bound_length _ _ _ _ Hb) as [L1 L2]. apply (T _ Ke st b r L1 L2). exists name. auto.
Qed.
(** a name that is none of the functions' *)
Theorem match_unknown macros lookups templates results a env d :
  (forall line, In line match_defs -> fst (read_def line) <> at_name a) -> ~ In (at_name a) match_others -> call_match macros lookups templates results a env d = Raise KeyError.
Proof.
  intros H H2. unfold call_match. rewrite (proj2 (entry_none _ _)).
  - destruct (in_strs (at_name a) match_others) eqn:E; [|reflexivity]. now apply in_strs_In in E.
  - rewrite (sig_iff _ _ (match_signatures macros lookups templates results)). intros K. apply in_map_iff in K as (line & Hl & K). exact (H _ K Hl).
Qed.
Theorem group_unknown macros lookups templates main results k2i a st :
  (forall line, In line group_defs -> fst (read_def line) <> at_name a) -> ~ In (at_name a) group_others -> call_group macros lookups templates main results k2i a st = Raise KeyError.
Proof.
  intros H H2. unfold call_group. rewrite (proj2 (entry_none _ _)).
  - destruct (in_strs (at_name a) group_others) eqn:E; [|reflexivity]. now apply in_strs_In in E.
  - rewrite (sig_iff _ _ (group_signatures macros lookups templates main results k2i)). intros K. apply in_map_iff in K as (line & Hl & K). exact (H _ K Hl).
Qed.
(** arguments that do not fit *)
Theorem match_misfit macros lookups templates results a env d line s :
  In line match_defs -> read_def line = (at_name a, s) -> (forall b, ~ binds s (at_args a) (at_kwargs a) b) -> call_match macros lookups templates results a env d = Raise TypeError.
Proof.
  pose proof (match_signatures macros lookups templates results) as S.
  assert (N : NoDup (map fst (match_table macros lookups templates results))) by (rewrite (sig_iff _ _ S); exact match_names_distinct).
  intros I Hl Hb. pose proof (in_map read_def _ _ I) as K. rewrite <- S in K. apply in_map_iff in K as ([n [s' f]] & K & Ke). cbn [fst snd] in K. rewrite Hl in K. assert (n = at_name a) by congruence. assert (s' = s) by congruence. subst n s'.
  unfold call_match. rewrite (proj2 (entry_iff _ _ _ N) Ke). destruct (bind s (at_args a) (at_kwargs a)) as [b|e] eqn:Eb; [apply bind_iff in Eb; now elim (Hb b)|]. apply bind_error in Eb as ->. reflexivity.
Qed.
Theorem group_misfit macros lookups templates main results k2i a st line s :
  In line group_defs -> read_def line = (at_name a, s) -> (forall b, ~ binds s (at_args a) (at_kwargs a) b) -> call_group macros lookups templates main results k2i a st = Raise TypeError.
Proof.
  pose proof (group_signatures macros lookups templates main results k2i) as S.
  assert (N : NoDup (map fst (group_table macros lookups templates main results k2i))) by (rewrite (sig_iff _ _ S); exact group_names_distinct).
  intros I Hl Hb. pose proof (in_map read_def _ _ I) as K. rewrite <- S in K. apply in_map_iff in K as ([n [s' f]] & K & Ke). cbn [fst snd] in K. rewrite Hl in K. assert (n = at_name a) by congruence. assert (s' = s) by congruence. subst n s'.
  unfold call_group. rewrite (proj2 (entry_iff _ _ _ N) Ke). destruct (bind s (at_args a) (at_kwargs a)) as [b|e] eqn:Eb; [apply bind_iff in Eb; now elim (Hb b)|]. apply bind_error in Eb as ->. reflexivity.
Qed.
