(** * MatchFacts2: record, set, count, append, prepend. *)
From Verif Require Import PyBase DictFacts StrFacts MatchFuncs SpecMatch MatchFacts.
Local Open Scope string_scope.
Local Open Scope list_scope.

(** exactly one variable is written *)
Definition writes_only (k : key) (v : val) (d d' : dict) : Prop :=
  dget d' k = Some v /\ forall j, j <> k -> dget d' j = dget d j.
Lemma dset_writes d k v : writes_only k v d (dset d k v).
Proof. split; [apply dget_dset_same|]. intros j Hj. apply dget_dset_other; congruence. Qed.

Theorem record_writes env data name :
  exists env', f_record env data name = (env', (data, FNone)) /\
    writes_only name data (m_vars env) (m_vars env') /\ writes_only name data (m_gvars env) (m_gvars env').
Proof. eexists. split; [reflexivity|]. split; apply dset_writes. Qed.

Theorem set_reads env line name v : rstrip line = line ->
  dget (m_vars env) (KS name) = Some v -> f_set env (VStr line) (VStr name) line = Ok (v, FNone).
Proof.
  intros Hr Hv. unfold f_set. rewrite Hr, str_eqb_refl. unfold dmem. now rewrite Hv.
Qed.
Theorem set_other_line env data value line : rstrip data <> line ->
  f_set env (VStr data) value line = Ok (VStr data, FBool false).
Proof. intros H. unfold f_set. destruct (str_eqb_spec (rstrip data) line); [congruence|reflexivity]. Qed.
Theorem set_literal env line value : rstrip line = line ->
  (forall n, value = VStr n -> dget (m_vars env) (KS n) = None /\ dget (m_gvars env) (KS n) = None) ->
  f_set env (VStr line) value line = Ok (value, FNone).
Proof.
  intros Hr H. unfold f_set. rewrite Hr, str_eqb_refl. destruct value; try reflexivity.
  destruct (H s eq_refl) as [H1 H2]. unfold dmem. now rewrite H1, H2.
Qed.
Theorem set_global env line name v : rstrip line = line ->
  dget (m_vars env) (KS name) = None -> dget (m_gvars env) (KS name) = Some v ->
  f_set env (VStr line) (VStr name) line = Ok (v, FNone).
Proof. intros Hr H1 H2. unfold f_set. rewrite Hr, str_eqb_refl. unfold dmem. now rewrite H1, H2. Qed.

(** n matches of a counted variable *)
Fixpoint count_times (n : nat) (env : menv) (data : val) (v g : option key) : res menv :=
  match n with
  | O => Ok env
  | S n => do r <- f_count env data v g; count_times n (fst r) data v g
  end.
(** the value of a counter: 0 when it does not exist *)
Definition counter (d : dict) (k : key) : option Z :=
  match dget d k with None => Some 0%Z | Some (VInt z) => Some z | _ => None end.
Lemma incr_counter d k z : counter d k = Some z -> incr d k = Ok (dset d k (VInt (z + 1))).
Proof.
  unfold counter, incr. destruct (dget d k) as [[| |y| | | |]|]; intros H; try discriminate; injection H as <-; reflexivity.
Qed.
Lemma counter_dset d k z : counter (dset d k (VInt z)) k = Some z.
Proof. unfold counter. now rewrite dget_dset_same. Qed.

Theorem count_both n : forall env data v g x y,
  counter (m_vars env) v = Some x -> counter (m_gvars env) g = Some y ->
  exists env', count_times n env data (Some v) (Some g) = Ok env' /\
    counter (m_vars env') v = Some (x + Z.of_nat n)%Z /\ counter (m_gvars env') g = Some (y + Z.of_nat n)%Z /\
    (forall j, j <> v -> dget (m_vars env') j = dget (m_vars env) j) /\
    (forall j, j <> g -> dget (m_gvars env') j = dget (m_gvars env) j).
Proof.
  induction n as [|n IH]; intros env data v g x y Hx Hy.
  - exists env. rewrite !Z.add_0_r. repeat split; auto.
  - cbn [count_times]. unfold f_count at 1.
    rewrite (incr_counter _ _ _ Hx), (incr_counter _ _ _ Hy). cbn [rbind fst].
    set (e1 := {| m_vars := dset (m_vars env) v (VInt (x + 1)); m_gvars := dset (m_gvars env) g (VInt (y + 1)) |}).
    destruct (IH e1 data v g (x + 1)%Z (y + 1)%Z (counter_dset _ _ _) (counter_dset _ _ _)) as (e' & H1 & H2 & H3 & H4 & H5).
    exists e'. split; [exact H1|]. rewrite H2, H3. split; [f_equal; lia|]. split; [f_equal; lia|].
    split; intros j Hj; [rewrite H4 by exact Hj | rewrite H5 by exact Hj]; apply dget_dset_other; congruence.
Qed.
Theorem count_data env data v g r : f_count env data v g = Ok r -> snd r = (data, FNone).
Proof.
  unfold f_count. destruct v as [v|], g as [g|]; cbn [rbind];
    repeat (match goal with |- context [incr ?a ?b] => destruct (incr a b); cbn [rbind] end); intros H; injection H as <- || discriminate; reflexivity.
Qed.
Theorem count_var_only env data v x : counter (m_vars env) v = Some x ->
  exists env', f_count env data (Some v) None = Ok (env', (data, FNone)) /\ m_gvars env' = m_gvars env /\
  writes_only v (VInt (x + 1)) (m_vars env) (m_vars env').
Proof.
  intros H. unfold f_count. rewrite (incr_counter _ _ _ H). cbn [rbind]. eexists. split; [reflexivity|].
  split; [reflexivity|apply dset_writes].
Qed.

(** append / prepend: the text a name stands for *)
Definition text_of (vars : dict) (name t : str) : Prop :=
  dget vars (KS name) = Some (VStr t) \/ (dget vars (KS name) = None /\ t = name).
Lemma text_get vars name t : text_of vars name t -> get_or_self vars name = VStr t.
Proof. unfold get_or_self. intros [-> | [-> ->]]; reflexivity. Qed.
Theorem append_spec env name t : text_of (m_vars env) name t ->
  (forall s, f_append env (VStr s) name = Ok (VStr (s ++ t), FNone)) /\
  (forall l, f_append env (VList l) name = Ok (VList (l ++ [VStr t]), FNone)).
Proof. intros H. unfold f_append. rewrite (text_get _ _ _ H). split; reflexivity. Qed.
Theorem prepend_spec env name t : text_of (m_vars env) name t ->
  (forall s, f_prepend env (VStr s) name = Ok (VStr (t ++ s), FNone)) /\
  (forall l, f_prepend env (VList l) name = Ok (VList (VStr t :: l), FNone)).
Proof. intros H. unfold f_prepend. rewrite (text_get _ _ _ H). split; reflexivity. Qed.

(** joining a list undoes splitting it *)
Theorem join_spec l char : f_join (VList (map VStr l)) char = Ok (VStr (join char l), FNone).
Proof.
  unfold f_join. assert (rmap as_str (map VStr l) = Ok l) as ->; [|reflexivity].
  induction l as [|x l IH]; [reflexivity|]. simpl. now rewrite IH.
Qed.

Section R.
Variable search : str -> str -> res bool.
(** the negated test is the negation of the test, for every pattern *)
Definition flips (a b : mres) : Prop :=
  match a, b with
  | Ok (v, FBool x), Ok (w, FBool y) => v = w /\ x = negb y
  | Raise e, Raise e' => e = e'
  | _, _ => False
  end.
Lemma yes_no (r : res bool) data : flips (no r data) (yes r data).
Proof. destruct r as [[]|]; simpl; auto. Qed.
Theorem re_complements data p :
  flips (f_notstartswith_re search data p) (f_startswith_re search data p) /\
  flips (f_notendswith_re search data p) (f_endswith_re search data p) /\
  flips (f_exclude_re search data p) (f_contains_re search data p).
Proof. repeat split; apply yes_no. Qed.
End R.

(** macro: what the user's function returns decides *)
Theorem macro_unknown macros data name : (forall m, In m macros -> fst m <> name) ->
  f_macro macros data name = Ok (data, FNone).
Proof.
  intros H. unfold f_macro. assert (find (fun m => str_eqb (fst m) name) macros = None) as ->; [|reflexivity].
  induction macros as [|m ms IH]; [reflexivity|]. simpl.
  destruct (str_eqb_spec (fst m) name) as [E|E]; [exfalso; apply (H m); [now left|exact E]|].
  apply IH. intros; apply H; now right.
Qed.
Theorem macro_bool macros f data name b : NoDup (map fst macros) -> In (name, f) macros ->
  f data = Ok (MVal (VBool b)) -> f_macro macros data name = Ok (data, FBool b).
Proof.
  intros Hn Hi Hf. unfold f_macro. assert (find (fun m => str_eqb (fst m) name) macros = Some (name, f)) as ->.
  - induction macros as [|m ms IH]; [easy|]. simpl. inversion Hn as [|? ? Hm Hms]; subst.
    destruct Hi as [->|Hi]; [simpl; now rewrite str_eqb_refl|].
    destruct (str_eqb_spec (fst m) name) as [E|E]; [|now apply IH].
    exfalso. apply Hm. rewrite E. change name with (fst (name, f)). now apply in_map.
  - rewrite Hf. destruct b; reflexivity.
Qed.
