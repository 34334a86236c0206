(** * GroupOutcomeFacts: every outcome of the group functions (C134). *)
From Verif Require Import PyBase DictFacts StrFacts Regex Tree Results ResultsFacts MatchFuncs SpecMatch MatchFacts GroupFuncs SpecGroup GroupFacts SpecVariable SpecText TextFacts SpecCalls SpecOutcome OutcomeFacts OutcomeFacts2 SpecGroupOutcome.
Local Open Scope string_scope.
Local Open Scope list_scope.

Lemma tests_iff st f (says : res bool -> Prop) : (forall r, f = r <-> says r) -> forall g, (do b <- f; Ok (st, b)) = g <-> tests st says g.
Proof.
  intros H g. split.
  - intros <-. destruct f as [b|e]; cbn [rbind]; [apply ts_ok|apply ts_bad]; now apply H.
  - intros K; destruct K as [b K|e K]; apply H in K; now rewrite K.
Qed.
Lemma changes_iff st f (to : res val -> Prop) : (forall r, f = r <-> to r) -> forall g, (do v <- f; Ok (holding st v, true)) = g <-> changes st to g.
Proof.
  intros H g. split.
  - intros <-. destruct f as [b|e]; cbn [rbind]; [apply ch_ok|apply ch_bad]; now apply H.
  - intros K; destruct K as [b K|e K]; apply H in K; now rewrite K.
Qed.
Lemma holding_self st : holding st (fs_data st) = st. Proof. now destruct st. Qed.
Lemma holding_data st v : fs_data st = v -> holding st v = st. Proof. intros <-. apply holding_self. Qed.
Lemma holding_with st v : with_data st v = holding st v. Proof. reflexivity. Qed.

(** ** tests for variables *)
Fixpoint decide (step : str -> res (option bool)) (otherwise : bool) (l : list str) : res bool :=
  match l with
  | [] => Ok otherwise
  | v :: t => do o <- step v; match o with Some b => Ok b | None => decide step otherwise t end
  end.
Lemma decided_iff step by_ otherwise : (forall v r, step v = r <-> by_ v r) -> forall l r, decide step otherwise l = r <-> decided by_ otherwise l r.
Proof.
  intros H l. induction l as [|v l IH]; intros r; cbn [decide].
  - split; [intros <-; constructor|]. intros K; now inversion K.
  - destruct (step v) as [[b|]|e] eqn:E; cbn [rbind]; apply H in E; split.
    + intros <-. now apply dc_here.
    + intros K; inversion K; subst; match goal with A : by_ v _ |- _ => apply H in A; apply H in E; congruence end.
    + intros K. apply dc_next; [exact E|]. now apply IH.
    + intros K; inversion K; subst; try (match goal with A : by_ v _ |- _ => apply H in A; apply H in E; congruence end). now apply IH.
    + intros <-. now apply dc_bad.
    + intros K; inversion K; subst; match goal with A : by_ v _ |- _ => apply H in A; apply H in E; congruence end.
Qed.
Definition look (st : fstate) (v : str) : res presence :=
  do b <- py_in v (fs_data st);
  if b then do d <- is_default st v; Ok (if d then OnlyDefault else Present) else Ok Absent.
Lemma in_dict v d : text_in v (VDict d) (Ok true) <-> exists x, dget d (KS v) = Some x.
Proof.
  rewrite <- text_in_iff. cbn [py_in]. unfold dmem. destruct (dget d (KS v)) as [x|].
  - split; eauto.
  - split; [discriminate|intros [x H]; discriminate].
Qed.
Lemma not_in_dict v d : text_in v (VDict d) (Ok false) <-> dget d (KS v) = None.
Proof.
  rewrite <- text_in_iff. cbn [py_in]. unfold dmem. destruct (dget d (KS v)) as [x|]; split; congruence.
Qed.
Lemma dict_dec (v : val) : (exists d, v = VDict d) \/ not_dict v.
Proof. destruct v; try (right; other). left. eauto. Qed.
Lemma sub_no_dict v k : not_dict v -> sub_data v k = Raise TypeError.
Proof. intros H. destruct v; try reflexivity. absurd. Qed.
Lemma look_is st v : found st v (look st v).
Proof.
  unfold look. destruct (py_in v (fs_data st)) as [b|e] eqn:E; cbn [rbind]; apply text_in_iff in E; [|now apply fo_bad].
  destruct b; [|now apply fo_absent]. unfold is_default. destruct (dget (fs_defaults st) (KS v)) as [y|] eqn:D; cbn [rbind]; [|now apply fo_plain].
  destruct (dict_dec (fs_data st)) as [[d Hd]|Hd].
  - rewrite Hd in *. cbn [sub_data rbind]. apply in_dict in E as [x E]. rewrite E. cbn [rbind].
    destruct (py_eq y x) eqn:Q; [eapply fo_default|eapply fo_other]; eassumption.
  - rewrite sub_no_dict by exact Hd. cbn [rbind]. eapply fo_no_dict; eassumption.
Qed.
Lemma found_one st v a b : found st v a -> found st v b -> a = b.
Proof.
  assert (K1 : forall d x, fs_data st = VDict d -> dget d (KS v) = Some x -> text_in v (fs_data st) (Ok true)) by (intros d x -> H; apply in_dict; eauto).
  intros H K. destruct H, K; try congruence; try reflexivity;
    repeat match goal with A : fs_data st = VDict ?d, B : dget ?d (KS v) = Some ?x |- _ => pose proof (K1 d x A B); revert A B end; intros;
    repeat match goal with A : text_in v (fs_data st) ?p, B : text_in v (fs_data st) ?q |- _ => tryif constr_eq p q then fail else (pose proof (text_in_one _ _ _ _ A B); try congruence; clear B) end; try congruence;
    repeat match goal with A : not_dict (fs_data st), B : fs_data st = VDict ?d |- _ => exfalso; exact (A _ B) end.
Qed.
Lemma look_iff st v r : look st v = r <-> found st v r.
Proof. apply gives; [apply look_is|apply found_one]. Qed.
Ltac by_found H K := apply look_iff in K; rewrite H in K; congruence.
Theorem g_contains_iff st args r : g_contains args st = r <-> tests st (decided (contains_by st) false args) r.
Proof.
  set (step := fun v => do p <- look st v; Ok (match p with Absent => None | OnlyDefault => Some false | Present => Some true end)).
  assert (E : g_contains args st = do b <- decide step false args; Ok (st, b)).
  { induction args as [|v args IH]; [reflexivity|]. cbn [g_contains decide]. unfold step at 1, look. destruct (py_in v (fs_data st)) as [[|]|]; cbn [rbind]; try reflexivity; [|exact IH].
    destruct (is_default st v) as [[|]|]; reflexivity. }
  rewrite E. apply tests_iff. apply decided_iff. intros v r'. unfold step. split.
  - intros <-. destruct (look st v) as [[| |]|e] eqn:L; cbn [rbind]; apply look_iff in L; [apply cb_absent|apply cb_default|apply cb_present|apply cb_bad]; exact L.
  - intros K; destruct K as [K|K|K|e K]; apply look_iff in K; rewrite K; reflexivity.
Qed.
Theorem g_containsall_iff st args r : g_containsall args st = r <-> tests st (decided (containsall_by st) true args) r.
Proof.
  set (step := fun v => do p <- look st v; Ok (match p with Absent => Some false | OnlyDefault => Some false | Present => None end)).
  assert (E : g_containsall args st = do b <- decide step true args; Ok (st, b)).
  { induction args as [|v args IH]; [reflexivity|]. cbn [g_containsall decide]. unfold step at 1, look. destruct (py_in v (fs_data st)) as [[|]|]; cbn [rbind]; try reflexivity.
    destruct (is_default st v) as [[|]|]; try reflexivity. exact IH. }
  rewrite E. apply tests_iff. apply decided_iff. intros v r'. unfold step. split.
  - intros <-. destruct (look st v) as [[| |]|e] eqn:L; cbn [rbind]; apply look_iff in L; [apply ca_absent|apply ca_default|apply ca_present|apply ca_bad]; exact L.
  - intros K; destruct K as [K|K|K|e K]; apply look_iff in K; rewrite K; reflexivity.
Qed.
Definition shut (st : fstate) (v : str) : res bool := do b <- py_in v (fs_data st); Ok (b && negb (dmem (fs_defaults st) (KS v)))%bool.
Lemma shut_iff st v r : shut st v = r <-> excluded st v r.
Proof.
  unfold shut, dmem. split.
  - intros <-. destruct (py_in v (fs_data st)) as [[|]|e] eqn:E; cbn [rbind andb]; apply text_in_iff in E; [|now apply ex_absent|now apply ex_bad].
    destruct (dget (fs_defaults st) (KS v)) as [y|] eqn:D; cbn [negb]; [eapply ex_default|eapply ex_plain]; eassumption.
  - intros K; destruct K as [K|y K D|K D|e K]; apply text_in_iff in K; rewrite K; cbn [rbind andb]; try rewrite D; reflexivity.
Qed.
Theorem g_exclude_iff st args r : g_exclude args st = r <-> tests st (decided (exclude_by st) true args) r.
Proof.
  set (step := fun v => do b <- shut st v; Ok (if b then Some false else None)).
  assert (E : g_exclude args st = do b <- decide step true args; Ok (st, b)).
  { induction args as [|v args IH]; [reflexivity|]. cbn [g_exclude decide]. unfold step at 1, shut. destruct (py_in v (fs_data st)) as [[|]|]; cbn [rbind andb]; try reflexivity; [|exact IH].
    destruct (dmem (fs_defaults st) (KS v)); cbn [negb]; [exact IH|reflexivity]. }
  rewrite E. apply tests_iff. apply decided_iff. intros v r'. unfold step. split.
  - intros <-. destruct (shut st v) as [[|]|e] eqn:L; cbn [rbind]; apply shut_iff in L; [apply eb_yes|apply eb_no|apply eb_bad]; exact L.
  - intros K; destruct K as [K|K|e K]; apply shut_iff in K; rewrite K; reflexivity.
Qed.
Lemma py_in_raises v w x e : py_in v x = Raise e -> py_in w x = Raise e.
Proof. destruct x; cbn [py_in]; congruence. Qed.
Lemma found_shorter st args f : found_vars args st = Ok f -> length f <= length args.
Proof.
  revert f. induction args as [|v args IH]; intros f; cbn [found_vars]; [intros [= <-]; apply le_n|].
  destruct (py_in v (fs_data st)) as [b|]; [|discriminate]. cbn [rbind]. destruct (found_vars args st) as [f'|]; [|discriminate]. cbn [rbind].
  specialize (IH f' eq_refl). intros [= <-]. cbn [length]. destruct b; [destruct (dmem _ _)|]; cbn [length]; lia.
Qed.
Lemma path_eqb_len p q : path_eqb p q = true -> p = q.
Proof. revert q. induction p as [|x p IH]; intros [|y q]; cbn [path_eqb]; try discriminate; [reflexivity|]. intros H. apply andb_prop in H as [H1 H2]. apply str_eqb_eq in H1 as ->. now rewrite (IH q). Qed.
Lemma found_ok st args x : py_in x (fs_data st) = Ok true \/ py_in x (fs_data st) = Ok false -> exists f, found_vars args st = Ok f.
Proof.
  intros H. assert (K : forall v, exists b, py_in v (fs_data st) = Ok b).
  { intros v. destruct (py_in v (fs_data st)) as [b|e] eqn:E; [eauto|]. apply (py_in_raises v x) in E. destruct H; congruence. }
  induction args as [|v args [f IH]]; cbn [found_vars]; [eauto|]. destruct (K v) as [b ->]. cbn [rbind]. rewrite IH. cbn [rbind]. eauto.
Qed.
Theorem g_excludeall_iff st args r : g_excludeall args st = r <-> tests st (decided (excludeall_by st) false args) r.
Proof.
  set (step := fun v => do b <- shut st v; Ok (if b then None else Some true)).
  assert (E : g_excludeall args st = do b <- decide step false args; Ok (st, b)).
  { unfold g_excludeall. induction args as [|v args IH]; [reflexivity|]. cbn [found_vars decide]. unfold step at 1, shut.
    destruct (py_in v (fs_data st)) as [b|] eqn:P; cbn [rbind andb]; try reflexivity.
    destruct (found_ok st args v) as [f Hf]; [destruct b; auto|]. rewrite Hf in *. cbn [rbind] in *. pose proof (found_shorter _ _ _ Hf) as HL.
    assert (S : path_eqb (v :: args) f = false).
    { destruct (path_eqb (v :: args) f) eqn:Q; [|reflexivity]. apply path_eqb_len in Q. subst f. cbn [length] in HL. lia. }
    destruct b; cbn [andb]; [|now rewrite S].
    destruct (dmem (fs_defaults st) (KS v)); cbn [negb]; [now rewrite S|]. rewrite <- IH. cbn [path_eqb]. now rewrite str_eqb_refl. }
  rewrite E. apply tests_iff. apply decided_iff. intros v r'. unfold step. split.
  - intros <-. destruct (shut st v) as [[|]|e] eqn:L; cbn [rbind]; apply shut_iff in L; [apply xb_yes|apply xb_no|apply xb_bad]; exact L.
  - intros K; destruct K as [K|K|e K]; apply shut_iff in K; rewrite K; reflexivity.
Qed.

(** ** tests for values *)
Lemma looked_iff v k : looked_up v k <-> key_of (bool_number v) = Ok k.
Proof.
  unfold looked_up. split.
  - intros (w & H & K). apply same_number_iff in H. subst w. now apply key_of_ok.
  - intros H. exists (bool_number v). split; [now apply same_number_iff|now apply key_of_ok].
Qed.
Lemma looked_bad v : (forall k, ~ looked_up v k) <-> key_of (bool_number v) = Raise TypeError.
Proof.
  rewrite <- key_of_bad. split; intros H k K; apply (H k).
  - exists (bool_number v). split; [now apply same_number_iff|exact K].
  - destruct K as (w & K1 & K2). apply same_number_iff in K1. now subst w.
Qed.
Lemma looked_dec v : (exists k, key_of (bool_number v) = Ok k) \/ key_of (bool_number v) = Raise TypeError.
Proof. destruct v; cbn [bool_number key_of]; eauto. Qed.
Lemma meant_iff vars v r : var_or_self vars v = r <-> meant vars v r.
Proof.
  apply gives.
  - destruct v as [|b|z|s|l|d|n]; cbn [var_or_self]; try (apply mt_bad; [now apply looked_bad|other]); [| | | |eapply mt_object; reflexivity];
      cbn [bool_number key_of rbind]; (destruct (dget vars _) as [x|] eqn:E; [eapply mt_var|eapply mt_self]; [apply looked_iff; reflexivity|exact E|apply looked_iff; reflexivity|exact E]).
  - intros a b H K; inversion H; subst; inversion K; subst; try reflexivity;
      repeat match goal with A : looked_up v _ |- _ => apply looked_iff in A | A : forall k, ~ looked_up v k |- _ => apply looked_bad in A | A : looked_up (VObj _) _ |- _ => apply looked_iff in A; discriminate end; try congruence.
Qed.
Lemma get_no_dict v k x : not_dict v -> get_data v k x = Raise AttributeError.
Proof. intros H. destruct v; try reflexivity. absurd. Qed.
Ltac meant_all := repeat match goal with A : meant _ _ _ |- _ => apply meant_iff in A end.
Theorem g_equal_iff k value st r : g_equal k value st = r <-> tests st (equal_says k value st) r.
Proof.
  set (f := do v <- var_or_self (e_vars (fs_env st)) value; do x <- get_data (fs_data st) k VNone; Ok (py_eq x v)).
  assert (E : g_equal k value st = do b <- f; Ok (st, b)).
  { unfold g_equal, f. destruct (var_or_self _ value); cbn [rbind]; [|reflexivity]. destruct (get_data _ _ _); cbn [rbind]; [|reflexivity]. now destruct (py_eq _ _). }
  rewrite E. apply tests_iff. intros r'. unfold f. split.
  - intros <-. destruct (var_or_self _ value) as [v|e] eqn:V; cbn [rbind]; apply meant_iff in V; [|now apply eq_bad].
    destruct (dict_dec (fs_data st)) as [[d Hd]|Hd]; [rewrite Hd; cbn [get_data rbind]|rewrite get_no_dict by exact Hd; cbn [rbind]; eapply eq_no_dict; eassumption].
    destruct (dget d (KS k)) as [x|] eqn:D; [eapply eq_there|eapply eq_missing]; eassumption.
  - intros K; destruct K as [e V|v V Hd|v d x V Hd D|v d V Hd D]; apply meant_iff in V; rewrite V; cbn [rbind]; try reflexivity;
      [now rewrite get_no_dict|rewrite Hd; cbn [get_data rbind]; now rewrite D|rewrite Hd; cbn [get_data rbind]; now rewrite D].
Qed.
Theorem g_exclude_val_iff k value st r : g_exclude_val k value st = r <-> tests st (exclude_val_says k value st) r.
Proof.
  set (f := do v <- var_or_self (e_vars (fs_env st)) value; do x <- sub_data (fs_data st) k; Ok (match x with Some y => negb (py_eq y v) | None => true end)).
  assert (E : g_exclude_val k value st = do b <- f; Ok (st, b)).
  { unfold g_exclude_val, f. destruct (var_or_self _ value); cbn [rbind]; [|reflexivity]. destruct (sub_data _ _) as [[y|]|]; cbn [rbind]; try reflexivity. now destruct (py_eq _ _). }
  rewrite E. apply tests_iff. intros r'. unfold f. split.
  - intros <-. destruct (var_or_self _ value) as [v|e] eqn:V; cbn [rbind]; apply meant_iff in V; [|now apply ev_bad].
    destruct (dict_dec (fs_data st)) as [[d Hd]|Hd]; [rewrite Hd; cbn [sub_data rbind]|rewrite sub_no_dict by exact Hd; cbn [rbind]; eapply ev_no_dict; eassumption].
    destruct (dget d (KS k)) as [x|] eqn:D; [eapply ev_there|eapply ev_missing]; eassumption.
  - intros K; destruct K as [e V|v V Hd|v d x V Hd D|v d V Hd D]; apply meant_iff in V; rewrite V; cbn [rbind]; try reflexivity;
      [now rewrite sub_no_dict|rewrite Hd; cbn [sub_data rbind]; now rewrite D|rewrite Hd; cbn [sub_data rbind]; now rewrite D].
Qed.
Lemma dmem_iff d k : dmem d k = true <-> exists x : val, In (k, x) d.
Proof.
  unfold dmem. destruct (dget d k) as [v|] eqn:E.
  - split; [|reflexivity]. intros _. exists v. now apply dget_In.
  - split; [discriminate|]. intros [v H]. exfalso. apply (proj1 (dget_None_notin d k) E). apply in_map_iff. exists (k, v). auto.
Qed.
Lemma value_in_iff v x r : val_in v x = r <-> value_in v x r.
Proof.
  revert r. apply gives.
  - destruct x as [|b|z|s|l|d|n]; cbn [val_in]; try (apply vi_other; other).
    + destruct v; try (apply vi_no_text; other). eapply vi_text; [reflexivity|apply containsb_spec].
    + apply vi_list. apply existsb_exists.
    + destruct (looked_dec v) as [[k K]|K]; rewrite K; cbn [rbind]; [eapply vi_dict; [exact (proj2 (looked_iff _ _) K)|apply dmem_iff]|apply vi_no_key; now apply looked_bad].
  - intros a b H K; inversion H; subst; inversion K; subst; try absurd; try reflexivity;
      repeat match goal with A : looked_up v _ |- _ => apply looked_iff in A | A : forall k, ~ looked_up v k |- _ => apply looked_bad in A end; try congruence;
      repeat match goal with A : VStr _ = VStr _ |- _ => injection A as A; subst end;
      try (assert (k0 = k) by congruence; subst k0); try (apply (Logic.f_equal Ok); eapply same_bool; eassumption).
Qed.
Theorem g_contains_val_iff k value st r : g_contains_val k value st = r <-> tests st (contains_val_says k value st) r.
Proof.
  set (f := do v <- var_or_self (e_vars (fs_env st)) value; do x <- get_data (fs_data st) k (VStr []); val_in v x).
  assert (E : g_contains_val k value st = do b <- f; Ok (st, b)).
  { unfold g_contains_val, f. destruct (var_or_self _ value); cbn [rbind]; [|reflexivity]. destruct (get_data _ _ _); cbn [rbind]; [|reflexivity]. now destruct (val_in _ _) as [[|]|]. }
  rewrite E. apply tests_iff. intros r'. unfold f. split.
  - intros <-. destruct (var_or_self _ value) as [v|e] eqn:V; cbn [rbind]; apply meant_iff in V; [|now apply cv_bad].
    destruct (dict_dec (fs_data st)) as [[d Hd]|Hd]; [rewrite Hd; cbn [get_data rbind]|rewrite get_no_dict by exact Hd; cbn [rbind]; eapply cv_no_dict; eassumption].
    destruct (dget d (KS k)) as [x|] eqn:D; [eapply cv_there|eapply cv_missing]; try eassumption; now apply value_in_iff.
  - intros K; destruct K as [e V|v V Hd|v d x q V Hd D I|v d q V Hd D I]; apply meant_iff in V; rewrite V; cbn [rbind]; try reflexivity;
      [now rewrite get_no_dict|rewrite Hd; cbn [get_data rbind]; rewrite D; now apply value_in_iff|rewrite Hd; cbn [get_data rbind]; rewrite D; now apply value_in_iff].
Qed.
