(** * MacroFacts: macro, let, copy, void, to_*, resub, resuball, stated as functions of one value. *)
From Verif Require Import PyBase DictFacts StrFacts Results MatchFuncs SpecConvert ConvertFacts Parser SpecParser ParserFacts MatchFacts2 ChainFacts.
Local Open Scope string_scope.
Local Open Scope list_scope.

(** a match function of the value alone, as it stands in the table of match functions; its attribute is never looked up
    unless it raises KeyError *)
Definition of_value (f : val -> mres) (attr : val -> res val) : mfunc :=
  {| mf_call := fun env d => do r <- f d; Ok (env, r); mf_attr := attr |}.

Lemma of_value_run f attr env d : f d <> Raise KeyError -> run_func (of_value f attr) env d = do r <- f d; Ok (env, r).
Proof. intros H. apply no_fallback. cbn [mf_call of_value]. destruct (f d) as [r|e]; cbn [rbind]; congruence. Qed.
Lemma of_value_pure f attr g : (forall d, f d = Ok (g d)) -> pure_func (of_value f attr) g.
Proof. intros H env d. rewrite of_value_run by (rewrite H; discriminate). now rewrite H. Qed.

(** what a macro's answer does to the value *)
Inductive answers (data : val) : mret -> val * mflag -> Prop :=
| a_true : answers data (MVal (VBool true)) (data, FBool true)
| a_false : answers data (MVal (VBool false)) (data, FBool false)
| a_none : answers data (MVal VNone) (data, FNone)
| a_pair v d : answers data (MTuple [v; VDict d]) (v, FNew d)
| a_other v : v <> VNone -> (forall b, v <> VBool b) -> answers data (MVal v) (v, FNone).
Theorem macro_answers macros f data name r a : NoDup (map fst macros) -> In (name, f) macros -> f data = Ok r ->
  answers data r a -> f_macro macros data name = Ok a.
Proof.
  intros Hn Hi Hf Ha. unfold f_macro. assert (find (fun m => str_eqb (fst m) name) macros = Some (name, f)) as ->.
  - induction macros as [|m ms IH]; [easy|]. simpl. inversion Hn as [|? ? Hm Hms]; subst.
    destruct Hi as [->|Hi]; [simpl; now rewrite str_eqb_refl|].
    destruct (str_eqb_spec (fst m) name) as [E|E]; [|now apply IH].
    exfalso. apply Hm. rewrite E. change name with (fst (name, f)). now apply in_map.
  - rewrite Hf. inversion Ha as [| | | |v H1 H2]; subst; try reflexivity.
    destruct v as [|b| | | | |]; try reflexivity; [congruence|]. exfalso. now apply (H2 b).
Qed.
Theorem macro_raises macros f data name e : NoDup (map fst macros) -> In (name, f) macros -> f data = Raise e ->
  f_macro macros data name = Raise e.
Proof.
  intros Hn Hi Hf. unfold f_macro. assert (find (fun m => str_eqb (fst m) name) macros = Some (name, f)) as ->; [|now rewrite Hf].
  induction macros as [|m ms IH]; [easy|]. simpl. inversion Hn as [|? ? Hm Hms]; subst.
  destruct Hi as [->|Hi]; [simpl; now rewrite str_eqb_refl|].
  destruct (str_eqb_spec (fst m) name) as [E|E]; [|now apply IH].
  exfalso. apply Hm. rewrite E. change name with (fst (name, f)). now apply in_map.
Qed.

Theorem to_int_text s : (forall z, int_text s z -> f_to_int (VStr s) = Ok (VInt z, FNone)) /\
  ((forall z, ~ int_text s z) -> f_to_int (VStr s) = Ok (VStr s, FNone)).
Proof.
  unfold f_to_int. split.
  - intros z H. apply int_spec in H. now rewrite H.
  - intros H. destruct (py_int s) as [z|] eqn:E; [|reflexivity]. apply int_spec in E. now apply H in E.
Qed.

Section Re.
Variable sub : str -> str -> str -> nat -> res str.
Variable escape : str -> str.
(** the substitutions (pattern, replacement) an argument of resuball stands for *)
Definition patterns_of (vars : dict) (new : str) (arg : str) : list (str * str) :=
  match dget vars (KS arg) with
  | None => [(arg, new)]
  | Some (VStr o) => [(escape o, new)]
  | Some (VList l) => flat_map (fun x => match x with VStr o => [(o, new)] | _ => [] end) l
  | Some (VDict d) => flat_map (fun kv => match fst kv, snd kv with
                                          | KS n, VStr o => [(o, n)]
                                          | KS n, VList l => flat_map (fun x => match x with VStr o => [(o, n)] | _ => [] end) l
                                          | _, _ => [] end) d
  | Some _ => []
  end.
Definition text_keys (vars : dict) : Prop := forall k d, dget vars k = Some (VDict d) -> Forall (fun kv => exists n, fst kv = KS n) d.
Definition sub_all (l : list (str * str)) (s : str) : res str := rfold (fun s p => sub (fst p) (snd p) s 0) l s.

Lemma rfold_app_ {A B} (f : A -> B -> res A) l1 : forall l2 a, rfold f (l1 ++ l2) a = do x <- rfold f l1 a; rfold f l2 x.
Proof. induction l1 as [|x l1 IH]; intros l2 a; [reflexivity|]. cbn [app rfold]. destruct (f a x); [apply IH|reflexivity]. Qed.
Lemma resub_list_all n l : forall s, resub_list sub (KS n) l s = sub_all (flat_map (fun x => match x with VStr o => [(o, n)] | _ => [] end) l) s.
Proof.
  unfold resub_list, sub_all. induction l as [|x l IH]; intros s; [reflexivity|]. cbn [rfold flat_map]. rewrite rfold_app_.
  destruct x; cbn [rfold rbind fst snd]; try apply IH. cbn [key_str rbind]. destruct (sub s0 n s 0); [apply IH|reflexivity].
Qed.
Lemma resub_dict_all d : Forall (fun kv => exists n, fst kv = KS n) d -> forall s, resub_dict sub d s =
  sub_all (flat_map (fun kv => match fst kv, snd kv with
                               | KS n, VStr o => [(o, n)]
                               | KS n, VList l => flat_map (fun x => match x with VStr o => [(o, n)] | _ => [] end) l
                               | _, _ => [] end) d) s.
Proof.
  unfold resub_dict. induction 1 as [|[k v] d [n Hk] HF IH]; intros s; [reflexivity|]. cbn [fst] in Hk. subst k.
  cbn [rfold flat_map fst snd]. unfold sub_all. rewrite rfold_app_. fold (sub_all).
  destruct v; cbn [rbind rfold]; try apply IH.
  - cbn [key_str rbind fst snd]. destruct (sub s0 n s 0); [apply IH|reflexivity].
  - rewrite resub_list_all. unfold sub_all. destruct (rfold _ _ s); [apply IH|reflexivity].
Qed.
Lemma resub_arg_all vars new s old : text_keys vars -> resub_arg sub escape vars new s old = sub_all (patterns_of vars new old) s.
Proof.
  intros HT. unfold resub_arg, patterns_of. destruct (dget vars (KS old)) as [[| | | | l|d|]|] eqn:E;
    try reflexivity; try (cbn; now destruct (sub _ _ _ _)).
  - apply resub_list_all.
  - apply resub_dict_all. exact (HT _ _ E).
Qed.
Theorem resuball_spec vars data new olds : text_keys vars -> olds <> [] ->
  f_resuball sub escape vars data (new :: olds) = do s <- sub_all (flat_map (patterns_of vars new) olds) data; Ok (VStr s, FNone).
Proof.
  intros HT Hne. unfold f_resuball. destruct olds as [|o olds]; [congruence|]. clear Hne. generalize (o :: olds) as l. clear o olds. intros l.
  assert (H : forall s, rfold (resub_arg sub escape vars new) l s = sub_all (flat_map (patterns_of vars new) l) s); [|now rewrite H].
  induction l as [|o l IH]; intros s; [reflexivity|]. cbn [rfold flat_map]. rewrite resub_arg_all by exact HT. unfold sub_all. rewrite rfold_app_.
  destruct (rfold _ (patterns_of vars new o) s); [apply IH|reflexivity].
Qed.
Theorem resuball_one vars data old : text_keys vars ->
  f_resuball sub escape vars data [old] = do s <- sub_all (patterns_of vars [] old) data; Ok (VStr s, FNone).
Proof.
  intros HT. unfold f_resuball. cbn [rfold]. rewrite resub_arg_all by exact HT. destruct (sub_all _ data); reflexivity.
Qed.
Theorem resub_spec vars data old new n :
  (dget vars (KS old) = None -> f_resub sub escape vars data old new n = do r <- sub old new data n; Ok (VStr r, FNone)) /\
  (forall o, dget vars (KS old) = Some (VStr o) -> f_resub sub escape vars data old new n = do r <- sub (escape o) new data n; Ok (VStr r, FNone)) /\
  (forall v, dget vars (KS old) = Some v -> (forall o, v <> VStr o) -> f_resub sub escape vars data old new n = Raise TypeError).
Proof.
  unfold f_resub. repeat split.
  - now intros ->.
  - now intros o ->.
  - intros v -> H. destruct v; try reflexivity. exfalso. now apply (H s).
Qed.
End Re.
