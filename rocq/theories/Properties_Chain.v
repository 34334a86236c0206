(** * Properties_Chain: C103-C107 - the functions of a match variable and what they do to the record of the line.

    [check_one], [run_func], [run_chain] model /repo/ttp/ttp.py 2436-2515 (Parser.v); [f_let], [f_copy], [f_void], [f_macro],
    [f_to_int], [f_to_str], [f_to_list], [f_resub], [f_resuball] model /repo/ttp/match/{let,copy_,void,macro,to,re_}.py (MatchFuncs.v).
    The vocabulary is SpecParser.v ([line_writes]) and SpecConvert.v ([int_text]). *)
From Verif Require Import PyBase DictFacts Tree Results MatchFuncs SpecConvert ConvertFacts Parser SpecParser ParserFacts MatchFacts2 ChainFacts MacroFacts
  Properties_Save Properties_Machine Properties_Parser.
Local Open Scope string_scope.
Local Open Scope list_scope.

(** ** C103 the record of a line: each variable's value under its name, and the fields its functions add *)
Theorem C103_record : forall (F : Type) (R : pregex F) start env rs m spec,
  vars_pure (p_vars F R) spec (temp_of F R m) ->
  let pos := (start + Z.of_nat (pm_start m))%Z in
  match line_writes spec (temp_of F R m) with
  | Some l => exists d, check_one F R start (env, rs) m = Ok (env, add_at F pos (p_re F R, Some d) rs) /\ forall k, dget d k = last_written l k
  | None => check_one F R start (env, rs) m =
      Ok (env, if is_start (r_action F (p_re F R)) then add_at F pos (p_re F R, None) rs else rs)
  end.
Proof. exact line_fields. Qed.
Definition xnoattr (v : val) : res val := Raise AttributeError.
Definition xvars : list (str * pvar) :=
  [var_ "a" [of_value (fun d => f_let d (s_ "kind") (Some (s_ "static"))) xnoattr; of_value (fun d => f_copy d (KS ($"a2"))) xnoattr]; var_ "b" []].
Definition xspec : list (str * var_spec) :=
  [($"a", (KS ($"a"), [fun d => (d, FNew [(KS ($"kind"), s_ "static")]); fun d => (d, FNew [(KS ($"a2"), d)])])); ($"b", (KS ($"b"), []))].
Example C103_example : vars_pure xvars xspec [($"a", s_ "1"); ($"b", s_ "2")] /\
  line_writes xspec [($"a", s_ "1"); ($"b", s_ "2")] =
    Some [(KS ($"a"), s_ "1"); (KS ($"kind"), s_ "static"); (KS ($"a2"), s_ "1"); (KS ($"b"), s_ "2")].
Proof.
  split; [|reflexivity]. intros n d [H|[H|[]]]; injection H as <- <-; eexists; eexists; eexists.
  - split; [reflexivity|]. split; [reflexivity|]. split; [reflexivity|].
    constructor; [apply of_value_pure; reflexivity|]. constructor; [apply of_value_pure; reflexivity|]. constructor.
  - split; [reflexivity|]. split; [reflexivity|]. split; [reflexivity|]. constructor.
Qed.

(** ** C104 let, copy, void *)
Theorem C104_let_value : forall v attr rest env data flags,
  run_chain (of_value (fun d => f_let d v None) attr :: rest) env data flags = run_chain rest env v flags.
Proof. reflexivity. Qed.
Theorem C104_let_field : forall name v attr rest env data flags,
  run_chain (of_value (fun d => f_let d (VStr name) (Some v)) attr :: rest) env data flags = run_chain rest env data (dset flags (KS name) v).
Proof. reflexivity. Qed.
Theorem C104_copy : forall name attr rest env data flags,
  run_chain (of_value (fun d => f_copy d (KS name)) attr :: rest) env data flags = run_chain rest env data (dset flags (KS name) data).
Proof. reflexivity. Qed.
Theorem C104_void : forall attr rest env data flags,
  run_chain (of_value f_void attr :: rest) env data flags = Ok (env, None).
Proof. reflexivity. Qed.
(** a line with one variable whose functions are let with a name, copy, let with a value: the record *)
Theorem C104_line : forall (F : Type) (R : pregex F) start env rs m x v data name1 w name2 attr,
  x <> name1 -> x <> name2 -> name1 <> name2 ->
  p_vars F R = [(x, {| pv_orig := KS x; pv_funcs := [of_value (fun d => f_let d (VStr name1) (Some w)) attr;
                                                      of_value (fun d => f_copy d (KS name2)) attr;
                                                      of_value (fun d => f_let d v None) attr] |})] ->
  temp_of F R m = [(x, data)] ->
  exists d, check_one F R start (env, rs) m = Ok (env, add_at F (start + Z.of_nat (pm_start m))%Z (p_re F R, Some d) rs) /\
    dget d (KS x) = Some v /\ dget d (KS name1) = Some w /\ dget d (KS name2) = Some data /\
    forall k, k <> KS x -> k <> KS name1 -> k <> KS name2 -> dget d k = None.
Proof.
  intros F R start env rs m x v data name1 w name2 attr H1 H2 H3 HR HT.
  assert (HP : vars_pure (p_vars F R) [(x, (KS x, [fun d => (d, FNew [(KS name1, w)]); fun d => (d, FNew [(KS name2, d)]); fun _ => (v, FNone)]))] (temp_of F R m)).
  { rewrite HR, HT. intros n d [H|[]]. injection H as <- <-. cbn [assoc]. rewrite str_eqb_refl. do 3 eexists. repeat split.
    repeat (constructor; [apply of_value_pure; reflexivity|]). constructor. }
  pose proof (C103_record F R start env rs m _ HP) as H. cbv zeta in H. rewrite HT in H. cbn [line_writes assoc] in H. rewrite str_eqb_refl in H.
  cbn in H. destruct H as (d & Hd & HG). exists d. split; [exact Hd|]. unfold last_written in HG. cbn [rev app] in HG.
  assert (N1 : key_eqb (KS x) (KS name2) = false) by (destruct (key_eqb_spec (KS x) (KS name2)); congruence).
  assert (N2 : key_eqb (KS x) (KS name1) = false) by (destruct (key_eqb_spec (KS x) (KS name1)); congruence).
  assert (N3 : key_eqb (KS name1) (KS name2) = false) by (destruct (key_eqb_spec (KS name1) (KS name2)); congruence).
  assert (R0 : forall k, key_eqb k k = true) by (intros k; destruct (key_eqb_spec k k); congruence).
  split; [rewrite HG; cbn [dget]; now rewrite N1, N2, R0|].
  split; [rewrite HG; cbn [dget]; now rewrite N3, R0|].
  split; [rewrite HG; cbn [dget]; now rewrite R0|].
  intros k K1 K2 K3. rewrite HG. cbn [dget].
  destruct (key_eqb_spec k (KS name2)); [congruence|]. destruct (key_eqb_spec k (KS name1)); [congruence|].
  destruct (key_eqb_spec k (KS x)); [congruence|]. reflexivity.
Qed.
Example C104_example :
  let R := mkre (xre AStart gi) "s" (Some "v")
    [var_ "v" [of_value (fun d => f_let d (s_ "kind") (Some (s_ "static"))) xnoattr; of_value (fun d => f_copy d (KS ($"was"))) xnoattr;
               of_value (fun d => f_let d (VInt 1) None) xnoattr]] in
  check_matches nat R (p_find nat R (text_ ["sa"])) 0 (menv0, []) =
  Ok (menv0, [(0%Z, [(xre AStart gi, Some [(KS ($"v"), VInt 1); (KS ($"kind"), s_ "static"); (KS ($"was"), s_ "a")])])]).
Proof. reflexivity. Qed.

(** ** C105 macro *)
Theorem C105_answers : forall macros f data name r a, NoDup (map fst macros) -> In (name, f) macros -> f data = Ok r ->
  answers data r a -> f_macro macros data name = Ok a.
Proof. exact macro_answers. Qed.
Theorem C105_unknown : forall macros data name, (forall m, In m macros -> fst m <> name) -> f_macro macros data name = Ok (data, FNone).
Proof. exact macro_unknown. Qed.
Theorem C105_raises : forall macros f data name e, NoDup (map fst macros) -> In (name, f) macros -> f data = Raise e -> f_macro macros data name = Raise e.
Proof. exact macro_raises. Qed.
(** a pair of a value and a dictionary: the value is kept and the fields of the dictionary are added to the record *)
Theorem C105_fields : forall macros f data name v d attr rest env flags, NoDup (map fst macros) -> In (name, f) macros ->
  f data = Ok (MTuple [v; VDict d]) ->
  run_chain (of_value (fun x => f_macro macros x name) attr :: rest) env data flags = run_chain rest env v (dupdate flags d).
Proof.
  intros macros f data name v d attr rest env flags Hn Hi Hf. cbn [run_chain].
  assert (E := macro_answers macros f data name _ _ Hn Hi Hf (a_pair data v d)).
  rewrite of_value_run by (rewrite E; discriminate). rewrite E. reflexivity.
Qed.
Definition xmacros : list (str * (val -> res mret)) :=
  [($"up", fun v => Ok (MTuple [s_ "A"; VDict [(KS ($"was"), v)]])); ($"no", fun _ => Ok (MVal (VBool false)))].
Example C105_example : NoDup (map fst xmacros) /\ f_macro xmacros (s_ "a") ($"up") = Ok (s_ "A", FNew [(KS ($"was"), s_ "a")]) /\
  f_macro xmacros (s_ "a") ($"no") = Ok (s_ "a", FBool false) /\ f_macro xmacros (s_ "a") ($"zz") = Ok (s_ "a", FNone).
Proof. split; [|repeat split]. repeat constructor; cbn; intuition discriminate. Qed.
Print Assumptions C105_fields.

(** ** C106 a name that is not a match function is an attribute of the value *)
Theorem C106_attribute : forall f env d, mf_call f env d = Raise KeyError -> run_func f env d =
  match mf_attr f d with
  | Ok v => Ok (env, match v with VBool b => (d, FBool b) | _ => (v, FNone) end)
  | Raise AttributeError => Ok (env, (d, FNone))
  | Raise e => Raise e
  end.
Proof. exact fallback. Qed.
Theorem C106_match_function : forall f env d, mf_call f env d <> Raise KeyError -> run_func f env d = mf_call f env d.
Proof. exact no_fallback. Qed.
Definition xlower : mfunc := {| mf_call := fun _ _ => Raise KeyError; mf_attr := fun d => match d with VStr s => Ok (VStr (lower s)) | _ => Raise AttributeError end |}.
Example C106_example : forall env, run_func xlower env (s_ "AB") = Ok (env, (s_ "ab", FNone)) /\ run_func xlower env (VInt 3) = Ok (env, (VInt 3, FNone)).
Proof. split; reflexivity. Qed.

(** ** C107 to_int, to_str, to_list, resub, resuball *)
Theorem C107_to_int : forall s, (forall z, int_text s z -> f_to_int (VStr s) = Ok (VInt z, FNone)) /\
  ((forall z, ~ int_text s z) -> f_to_int (VStr s) = Ok (VStr s, FNone)).
Proof. exact to_int_text. Qed.
Theorem C107_to_int_other : (forall z, f_to_int (VInt z) = Ok (VInt z, FNone)) /\
  (forall b : bool, f_to_int (VBool b) = Ok (VInt (if b then 1 else 0), FNone)) /\
  (f_to_int VNone = Raise TypeError /\ (forall l, f_to_int (VList l) = Raise TypeError) /\ (forall d, f_to_int (VDict d) = Raise TypeError)).
Proof. repeat split. Qed.
Theorem C107_to_int_inverse : forall z, f_to_int (VStr (str_of_Z z)) = Ok (VInt z, FNone).
Proof. intros z. apply to_int_text. apply int_spec. apply StrFacts.py_int_str. Qed.
Theorem C107_to_str : forall z s l, f_to_str (VInt z) = Ok (VStr (str_of_Z z), FNone) /\ f_to_str (VStr s) = Ok (VStr s, FNone) /\
  f_to_str VNone = Ok (s_ "None", FNone) /\ f_to_list l = Ok (VList [l], FNone).
Proof. repeat split. Qed.
Theorem C107_resub : forall sub escape vars data old new n,
  (dget vars (KS old) = None -> f_resub sub escape vars data old new n = do r <- sub old new data n; Ok (VStr r, FNone)) /\
  (forall o, dget vars (KS old) = Some (VStr o) -> f_resub sub escape vars data old new n = do r <- sub (escape o) new data n; Ok (VStr r, FNone)) /\
  (forall v, dget vars (KS old) = Some v -> (forall o, v <> VStr o) -> f_resub sub escape vars data old new n = Raise TypeError).
Proof. exact resub_spec. Qed.
Theorem C107_resuball : forall sub escape vars data new olds, text_keys vars -> olds <> [] ->
  f_resuball sub escape vars data (new :: olds) = do s <- sub_all sub (flat_map (patterns_of escape vars new) olds) data; Ok (VStr s, FNone).
Proof. exact resuball_spec. Qed.
Theorem C107_resuball_one : forall sub escape vars data old, text_keys vars ->
  f_resuball sub escape vars data [old] = do s <- sub_all sub (patterns_of escape vars [] old) data; Ok (VStr s, FNone).
Proof. exact resuball_one. Qed.
Example C107_example : int_text ($" +1_000 ") 1000 /\ (forall z, ~ int_text ($"Gi1") z) /\
  text_keys [(KS ($"v"), VDict [(KS ($"Gi"), VList [s_ "GigabitEthernet"; s_ "Gig"])])] /\
  f_to_int (s_ "Gi1") = Ok (s_ "Gi1", FNone).
Proof.
  split; [apply int_spec; reflexivity|]. split; [intros z H; apply int_spec in H; discriminate|].
  split; [|reflexivity]. intros k d. cbn [dget]. destruct (key_eqb k (KS ($"v"))); [|discriminate]. intros H. injection H as <-.
  constructor; [eexists; reflexivity|constructor].
Qed.
Print Assumptions C103_record. Print Assumptions C104_line. Print Assumptions C105_answers. Print Assumptions C106_attribute. Print Assumptions C107_to_int.
Print Assumptions C107_resuball.
