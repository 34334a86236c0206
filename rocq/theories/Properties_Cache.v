(** * Properties_Cache: C63, C98-C102 - which functions run.

    [startup major ver files cache] models lazy_import_functions: the table of functions and what is then
    written to the cache file; [cstep] are the steps of processes sharing that file; [call] is a call of
    a function by a parser and [rt_run] a history of creating parsers, calling and adding functions
    (Cache.v).  [offers], [no_clash], [last_first] are in SpecCache.v. *)
From Verif Require Import PyBase DictFacts Cache SpecCache CacheFacts CacheExact EnvFacts.
Local Open Scope string_scope.
Local Open Scope list_scope.

(** a small package *)
Definition xstring : pyfile := mkF $"match" $"string.py" [$"append"; $"join"; $"sprint"; $"_private"] [(KS $"sprint", $"print")].
Definition xlet : pyfile := mkF $"match" $"let.py" [$"let"] [].
Definition xexec2 : pyfile := mkF $"utils" $"load_python_exec_py2.py" [$"load_python_exec"] [].
Definition xexec3 : pyfile := mkF $"utils" $"load_python_exec_py3.py" [$"load_python_exec"] [].
Definition xpkg : list pyfile := [mkF $"ttp" $"ttp.py" [$"lazy"] []; xstring; mkF $"match" $"__init__.py" [$"nothing"] []; xlet; xexec2; xexec3].
Definition xoffers := offers 3 xpkg.
Ltac in_cases H := repeat (destruct H as [H|H]; [|]); try contradiction.
Lemma xoffers_iff dir name f def : xoffers dir name f def <->
  In (dir, name, f, def) [($"match", $"append", xstring, $"append"); ($"match", $"join", xstring, $"join"); ($"match", $"print", xstring, $"sprint");
    ($"match", $"let", xlet, $"let"); ($"utils", $"load_python_exec", xexec3, $"load_python_exec")].
Proof.
  unfold xoffers. rewrite offers_iff.
  assert (E : filter (used_file 3) xpkg = [xstring; xlet; xexec3]) by (vm_compute; reflexivity). rewrite E. split.
  - intros ([<-|[<-|[<-|[]]]] & <- & H & <-).
    + assert (P : public xstring = [$"append"; $"join"; $"sprint"]) by (vm_compute; reflexivity). rewrite P in H. destruct H as [<-|[<-|[<-|[]]]]; [left|right; left|do 2 right; left]; reflexivity.
    + assert (P : public xlet = [$"let"]) by (vm_compute; reflexivity). rewrite P in H. destruct H as [<-|[]]. do 3 right. left. reflexivity.
    + assert (P : public xexec3 = [$"load_python_exec"]) by (vm_compute; reflexivity). rewrite P in H. destruct H as [<-|[]]. do 4 right. left. reflexivity.
  - intros [H|[H|[H|[H|[H|[]]]]]]; injection H as <- <- <- <-; (split; [first [left; reflexivity|right; left; reflexivity|right; right; left; reflexivity]|]); repeat split; vm_compute; auto.
Qed.
Lemma xno_clash : no_clash 3 xpkg.
Proof.
  intros dir name f def f' def' H H'. fold xoffers in *. apply xoffers_iff in H, H'.
  destruct H as [H|[H|[H|[H|[H|[]]]]]]; injection H as <- <- <- <-; destruct H' as [H'|[H'|[H'|[H'|[H'|[]]]]]]; try discriminate H'; injection H' as <- <-; now split.
Qed.
Lemma xdistinct : distinct_modules 3 xpkg.
Proof.
  intros f g Hf Hg Mf Mg E. apply used_iff in Mf, Mg. assert (In f (filter (used_file 3) xpkg)) as H by now apply filter_In. assert (In g (filter (used_file 3) xpkg)) as H' by now apply filter_In.
  assert (K : filter (used_file 3) xpkg = [xstring; xlet; xexec3]) by (vm_compute; reflexivity). rewrite K in H, H'.
  destruct H as [<-|[<-|[<-|[]]]], H' as [<-|[<-|[<-|[]]]]; try reflexivity; exfalso; vm_compute in E; discriminate.
Qed.

(** ** C63 *)
(** processes of any versions start, write the cache, are killed, in any interleaving; as long as a
    version of ttp has the same files throughout, every process gets the functions of its own files *)
Theorem C63_history : forall major version contents c w,
  c = CAbsent \/ c = CBroken -> csteps major version contents (mkW c (fun _ => PStart)) w ->
  forall p, match w_procs w p with
            | PReady t _ | PWriting t _ | PDone t => t = scan (major p) (contents (version p))
            | PFailed => False
            | PStart | PDead => True
            end.
Proof. exact cache_history. Qed.
Print Assumptions C63_history.
(** the functions of the files: exactly those offered *)
Theorem C63_scan : forall major files dir name, no_clash major files ->
  forall c, fget (scan major files) dir name = Some c <-> exists f def, offers major files dir name f def /\ c = mkC f name.
Proof. exact scan_offers. Qed.
Print Assumptions C63_scan.
Example C63_scan_ex : fget (scan 3 xpkg) $"match" $"print" = Some (mkC xstring $"print") /\ fget (scan 3 xpkg) $"match" $"_private" = None /\
  fget (scan 2 xpkg) $"utils" $"load_python_exec" = Some (mkC xexec2 $"load_python_exec") /\ no_clash 3 xpkg.
Proof. repeat split; try (vm_compute; reflexivity); apply (xno_clash dir name f def f' def'); assumption. Qed.
(** process 0 is killed while writing, then process 1 starts and completes, then process 2 *)
Example C63_history_ex : exists w, csteps (fun _ => 3) (fun _ => $"1.0") (fun _ => xpkg) (mkW CAbsent (fun _ => PStart)) w /\
  w_procs w 0 = PDead /\ w_procs w 1 = PDone (scan 3 xpkg) /\ w_procs w 2 = PDone (scan 3 xpkg) /\ w_cache w = CHolds (PDict (mkT 3 (Some $"1.0") (scan 3 xpkg))).
Proof.
  pose proof (css_refl (fun _ => 3) (fun _ => $"1.0") (fun _ => xpkg) (mkW CAbsent (fun _ => PStart))) as H.
  eapply css_step in H; [|eapply (cs_start _ _ _ _ 0); reflexivity].
  eapply css_step in H; [|eapply (cs_open _ _ _ _ 0); reflexivity].
  eapply css_step in H; [|eapply (cs_kill _ _ _ _ 0)].
  eapply css_step in H; [|eapply (cs_start _ _ _ _ 1); reflexivity].
  eapply css_step in H; [|eapply (cs_open _ _ _ _ 1); reflexivity].
  eapply css_step in H; [|eapply (cs_write _ _ _ _ 1); reflexivity].
  eapply css_step in H; [|eapply (cs_start _ _ _ _ 2); reflexivity].
  eapply css_step in H; [|eapply (cs_open _ _ _ _ 2); reflexivity].
  eapply css_step in H; [|eapply (cs_write _ _ _ _ 2); reflexivity].
  eexists. split; [exact H|]. clear H. vm_compute. repeat split.
Qed.

(** ** C98: whatever the cache file holds, the functions are those of the files *)
Theorem C98_raises_limits : ~ (forall major ver files c, exists t o, startup major ver files c = Ok (t, o)).
Proof. intros H. destruct (H 3 [] [] (CHolds POther)) as (t & o & E). discriminate. Qed.
Print Assumptions C98_raises_limits.
(** the files of the same version were changed (or the cache written by someone else) *)
Theorem C98_stale_limits : ~ (forall major ver files c t o, startup major ver files c = Ok (t, o) -> t = scan major files).
Proof.
  intros H. specialize (H 3 $"1.0" xpkg (CHolds (PDict (mkT 3 (Some $"1.0") []))) [] None eq_refl). vm_compute in H. discriminate.
Qed.
Print Assumptions C98_stale_limits.
(** exactly when it is so *)
Theorem C98_exactly : forall major ver files c,
  (exists o, startup major ver files c = Ok (scan major files, o)) <->
  c <> CHolds POther /\ forall d, c = CHolds (PDict d) -> t_major d = major -> t_version d = Some ver -> t_funs d = scan major files.
Proof.
  intros major ver files c. split.
  - intros [o E]. split; [intros ->; discriminate|]. intros d -> Hm Hv. cbn [startup] in E. rewrite Hm, Hv in E. cbn [same_version] in E. rewrite Nat.eqb_refl, str_eqb_refl in E. cbn in E. congruence.
  - intros [H1 H2]. destruct c as [| |[d|]]; [now eexists|now eexists| |congruence]. cbn [startup].
    destruct (Nat.eqb (t_major d) major && same_version (t_version d) ver)%bool eqn:E; [|now eexists].
    apply andb_true_iff in E as [E1 E2]. apply Nat.eqb_eq in E1. destruct (t_version d) as [v|] eqn:Ev; [|discriminate]. apply str_eqb_eq in E2 as ->.
    exists None. now rewrite (H2 d eq_refl E1 Ev).
Qed.
Print Assumptions C98_exactly.
Example C98_ex : startup 3 $"1.0" xpkg (CHolds (PDict (mkT 2 (Some $"1.0") []))) = Ok (scan 3 xpkg, Some (mkT 3 (Some $"1.0") (scan 3 xpkg))).
Proof. vm_compute. reflexivity. Qed.

(** ** C99: the cache a run wrote is used by the next run of the same version *)
Theorem C99_limits : ~ (forall major ver files c t d t' o, startup major ver files c = Ok (t, Some d) ->
  startup major ver files (CHolds (PDict d)) = Ok (t', o) -> o = None).
Proof. intros H. specialize (H 3 $"1.0" [] CAbsent [] (mkT 3 None []) [] (Some (mkT 3 (Some $"1.0") [])) eq_refl eq_refl). discriminate. Qed.
Print Assumptions C99_limits.
(** it is, when the run had found a readable cache *)
Theorem C99_second : forall major ver files c t d,
  startup major ver files (CHolds (PDict c)) = Ok (t, Some d) -> startup major ver files (CHolds (PDict d)) = Ok (t, None).
Proof.
  intros major ver files c t d. cbn [startup]. destruct (Nat.eqb (t_major c) major && same_version (t_version c) ver)%bool; [discriminate|]. intros [= <- <-].
  cbn [t_major t_version same_version t_funs]. now rewrite Nat.eqb_refl, str_eqb_refl.
Qed.
Print Assumptions C99_second.
(** so the third of three runs does not scan the files *)
Theorem C99_third : forall major ver files c t1 d1, c = CAbsent \/ c = CBroken ->
  startup major ver files c = Ok (t1, Some d1) ->
  exists d2, startup major ver files (CHolds (PDict d1)) = Ok (t1, Some d2) /\ startup major ver files (CHolds (PDict d2)) = Ok (t1, None).
Proof.
  intros major ver files c t1 d1 Hc H. assert (d1 = mkT major None (scan major files) /\ t1 = scan major files) as [-> ->] by (destruct Hc as [-> | ->]; cbn in H; split; congruence).
  cbn [startup t_major t_version same_version]. rewrite andb_false_r. eexists. split; [reflexivity|]. cbn [t_major t_version same_version t_funs]. now rewrite Nat.eqb_refl, str_eqb_refl.
Qed.
Print Assumptions C99_third.
(** exactly when it is *)
Theorem C99_exactly : forall major ver files c t d, startup major ver files c = Ok (t, Some d) ->
  (startup major ver files (CHolds (PDict d)) = Ok (t, None) <-> exists c0, c = CHolds (PDict c0)).
Proof.
  intros major ver files c t d H. split.
  - destruct c as [| |[c0|]]; [| |now exists c0|discriminate H]; cbn [startup] in H; injection H as <- <-; cbn [startup t_major t_version same_version]; rewrite andb_false_r; discriminate.
  - intros [c0 ->]. exact (C99_second major ver files c0 t d H).
Qed.
Print Assumptions C99_exactly.
Example C99_ex : exists t d, startup 3 $"1.0" xpkg CAbsent = Ok (t, Some d) /\ t <> [].
Proof. eexists _, _. split; [reflexivity|]. intros K. vm_compute in K. discriminate. Qed.

(** ** C100 *)
(** whatever was created, called or added before: a call of a function that this parser did not replace
    runs the function the package offers under that name, and an unknown name is an error *)
Theorem C100_call : forall major files es s dir name f def, no_clash major files ->
  In (ENew s) es -> offers major files dir name f def -> (forall n, ~ In (EAdd s dir name n) es) ->
  exists env r', call (fst (rt_run (scan major files) rt_init es)) s dir name = Ok (CallReal f def env, r').
Proof. intros major files es s dir name f def Hn. now apply call_offered. Qed.
Print Assumptions C100_call.
Theorem C100_unknown : forall major files es s dir name, no_clash major files ->
  (forall f def, ~ offers major files dir name f def) -> (forall n, ~ In (EAdd s dir name n) es) ->
  call (fst (rt_run (scan major files) rt_init es)) s dir name = Raise KeyError.
Proof. intros major files es s dir name Hn. now apply call_unknown. Qed.
Print Assumptions C100_unknown.
Definition xes : list rt_event := [ENew 0; ECall 0 $"match" $"let"; ENew 1; EAdd 1 $"match" $"mine" 7; ECall 1 $"match" $"print"; ECall 0 $"match" $"print"; ECall 1 $"match" $"append"; ECall 1 $"match" $"mine"].
Example C100_ex : snd (rt_run (scan 3 xpkg) rt_init xes) =
  [Ok (CallReal xlet $"let" (Some 0)); Ok (CallReal xstring $"sprint" (Some 1)); Ok (CallReal xstring $"sprint" (Some 0)); Ok (CallReal xstring $"append" (Some 0)); Ok (CallCustom 7)].
Proof. vm_compute. reflexivity. Qed.

(** ** C101: a function added by the user stays in place *)
Theorem C101_limits : ~ (forall major files es es' s dir name n, no_clash major files -> In (ENew s) es -> ~ In (ENew s) es' -> (forall m, ~ In (EAdd s dir name m) es') ->
  exists r', call (fst (rt_run (scan major files) rt_init (es ++ [EAdd s dir name n] ++ es'))) s dir name = Ok (CallCustom n, r')).
Proof.
  intros H. destruct (H 3 xpkg [ENew 0] [ECall 0 $"match" $"join"] 0 $"match" $"append" 7 xno_clash) as [r' E].
  - now left.
  - intros [K|[]]. discriminate.
  - intros m [K|[]]. discriminate.
  - assert (exists r'', call (fst (rt_run (scan 3 xpkg) rt_init ([ENew 0] ++ [EAdd 0 $"match" $"append" 7] ++ [ECall 0 $"match" $"join"]))) 0 $"match" $"append" = Ok (CallReal xstring $"append" (Some 0), r'')) as [r'' E'].
    { eexists. vm_compute. reflexivity. }
    congruence.
Qed.
Print Assumptions C101_limits.
(** a new name stays *)
Theorem C101_new_name : forall major files es es' s dir name n, no_clash major files ->
  (exists f def name', offers major files dir name' f def) -> In (ENew s) es -> (forall f def, ~ offers major files dir name f def) ->
  Forall (fun e => e <> ENew s /\ forall m, e <> EAdd s dir name m) es' ->
  exists r', call (fst (rt_run (scan major files) rt_init (es ++ [EAdd s dir name n] ++ es'))) s dir name = Ok (CallCustom n, r').
Proof. intros major files es es' s dir name n Hn. now apply custom_kept_new. Qed.
Print Assumptions C101_new_name.
(** a replaced function stays if the parser had called a function of its module before *)
Theorem C101_after_call : forall major files es0 es1 es2 s dir name n f def dir0 name0 def0, no_clash major files ->
  In (ENew s) es0 -> offers major files dir0 name0 f def0 -> (forall n, ~ In (EAdd s dir0 name0 n) es0) -> offers major files dir name f def ->
  ~ In (ENew s) es1 -> Forall (fun e => e <> ENew s /\ forall m, e <> EAdd s dir name m) es2 ->
  exists r', call (fst (rt_run (scan major files) rt_init (es0 ++ [ECall s dir0 name0] ++ es1 ++ [EAdd s dir name n] ++ es2))) s dir name = Ok (CallCustom n, r').
Proof. intros major files es0 es1 es2 s dir name n f def dir0 name0 def0 Hn. now apply custom_kept_loaded. Qed.
Print Assumptions C101_after_call.
(** exactly when a replaced function stays: [b] is what happened since the parser was created, [es'] what
    happened after the addition.  It stays if the parser had used the module before the addition, or has
    not used it at all; if it first used the module after the addition, the package's function is back *)
Theorem C101_exactly : forall major files a b es' s dir name n f def, no_clash major files -> ~ In (ENew s) b ->
  Forall (fun e => e <> ENew s /\ forall m, e <> EAdd s dir name m) es' -> offers major files dir name f def ->
  let now := b ++ [EAdd s dir name n] ++ es' in
  let r := fst (rt_run (scan major files) rt_init (a ++ ENew s :: now)) in
  (has_used major files b s f \/ ~ has_used major files now s f -> exists r', call r s dir name = Ok (CallCustom n, r')) /\
  (~ has_used major files b s f -> has_used major files now s f -> exists env r', call r s dir name = Ok (CallReal f def env, r')).
Proof. intros major files a b es' s dir name n f def Hn. now apply custom_exact. Qed.
Print Assumptions C101_exactly.
Example C101_exactly_ex : let b := [] in let es' := [ECall 0 $"match" $"join"] in
  ~ has_used 3 xpkg b 0 xstring /\ has_used 3 xpkg (b ++ [EAdd 0 $"match" $"append" 7] ++ es') 0 xstring /\
  snd (rt_run (scan 3 xpkg) rt_init ([ENew 0] ++ b ++ [EAdd 0 $"match" $"append" 7] ++ es' ++ [ECall 0 $"match" $"append"])) =
    [Ok (CallReal xstring $"join" (Some 0)); Ok (CallReal xstring $"append" (Some 0))].
Proof.
  cbv zeta. split; [|split].
  - intros (b1 & d & n & x & b2 & E & _). destruct b1; discriminate.
  - exists [EAdd 0 $"match" $"append" 7], $"match", $"join", $"join", []. split; [reflexivity|]. split; [apply xoffers_iff; right; now left|]. intros n [K|[]]. discriminate.
  - vm_compute. reflexivity.
Qed.
Example C101_ex : snd (rt_run (scan 3 xpkg) rt_init
    [ENew 0; ECall 0 $"match" $"join"; EAdd 0 $"match" $"append" 7; EAdd 0 $"match" $"new" 8; ECall 0 $"match" $"let"; ECall 0 $"match" $"join"; ECall 0 $"match" $"append"; ECall 0 $"match" $"new"]) =
  [Ok (CallReal xstring $"join" (Some 0)); Ok (CallReal xlet $"let" (Some 0)); Ok (CallReal xstring $"join" (Some 0)); Ok (CallCustom 7); Ok (CallCustom 8)].
Proof. vm_compute. reflexivity. Qed.

(** ** C102: a function called by a parser works on that parser's variables, lookups and results *)
(** after another parser used the same module for the first time, the function sees that parser *)
Theorem C102_limits : ~ (forall major files es s dir name f def env r', no_clash major files -> distinct_modules major files -> In (ENew s) es ->
  call (fst (rt_run (scan major files) rt_init es)) s dir name = Ok (CallReal f def env, r') -> env = Some s).
Proof.
  intros H. set (es := [ENew 0; ENew 1; ECall 0 $"match" $"join"; ECall 1 $"match" $"append"]).
  assert (exists r'', call (fst (rt_run (scan 3 xpkg) rt_init es)) 0 $"match" $"join" = Ok (CallReal xstring $"join" (Some 1), r'')) as [r'' E] by (eexists; vm_compute; reflexivity).
  specialize (H 3 xpkg es 0 $"match" $"join" xstring $"join" (Some 1) r'' xno_clash xdistinct (or_introl eq_refl) E). discriminate.
Qed.
Print Assumptions C102_limits.
(** whose dictionary a function sees: that of the parser whose first call of the module came last *)
Theorem C102_sees : forall major files es s dir name f def, no_clash major files -> distinct_modules major files ->
  (forall s sc n k, ~ In (EAdd s sc n k) es) -> calls_after_new es -> In (ENew s) es -> offers major files dir name f def ->
  exists env r', call (fst (rt_run (scan major files) rt_init es)) s dir name = Ok (CallReal f def (Some env), r') /\
    last_first major files f (es ++ [ECall s dir name]) env.
Proof. intros major files es s dir name f def Hn Hd. now apply call_sees. Qed.
Print Assumptions C102_sees.
(** a process with one parser *)
Theorem C102_one_parser : forall major files es s dir name f def, no_clash major files -> distinct_modules major files ->
  (forall e, In e es -> exists d n, e = ENew s \/ e = ECall s d n) -> calls_after_new es -> In (ENew s) es -> offers major files dir name f def ->
  exists r', call (fst (rt_run (scan major files) rt_init es)) s dir name = Ok (CallReal f def (Some s), r').
Proof. intros major files es s dir name f def Hn Hd. now apply call_sees_own. Qed.
Print Assumptions C102_one_parser.
Example C102_ex : calls_after_new [ENew 0; ECall 0 $"match" $"join"] /\ xoffers $"match" $"append" xstring $"append" /\
  last_first 3 xpkg xstring [ENew 0; ECall 0 $"match" $"join"] 0.
Proof.
  split; [|split].
  - intros a s dir name b E. destruct a as [|x [|y a]]; try discriminate; [injection E as <- <- <- <- <-; now left|]. injection E as <- <- E. destruct a; discriminate.
  - apply xoffers_iff. now left.
  - apply (lf_here 3 xpkg xstring [ENew 0]).
    + exists $"match", $"join", $"join". split; [reflexivity|]. apply xoffers_iff. right. now left.
    + intros (a & e & b & E & (d & n & x & -> & _) & _). destruct a as [|y a]; [discriminate|]. injection E as _ E. destruct a; discriminate.
Qed.
