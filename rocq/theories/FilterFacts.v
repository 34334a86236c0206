(** * FilterFacts: filters and transformers. *)
From Coq Require Import Lia.
From Verif Require Import PyBase DictFacts Attributes MatchFuncs Parser FuncTable Load Run IsolationFuncs SpecFilters.
Local Open Scope string_scope.
Local Open Scope list_scope.

(** what a call that does not fail gives *)
Definition always (P : menv -> val -> menv * (val * mflag) -> Prop) (f : menv -> val -> bound -> res (menv * (val * mflag))) : Prop := forall env d b x, f env d b = Ok x -> P env d x.
Definition tests (env : menv) (d : val) (x : menv * (val * mflag)) : Prop := exists b, x = (env, (d, FBool b)).
Definition drops_not (env : menv) (d : val) (x : menv * (val * mflag)) : Prop := snd (snd x) <> FBool false.
Ltac unwind E := repeat match type of E with
  | keep_env _ ?m = Ok _ => unfold keep_env in E
  | rbind ?m _ = Ok _ => let H := fresh "R" in destruct m as [?|?] eqn:H; cbn [rbind] in E; [|discriminate E]
  | match rbind ?m _ with _ => _ end = Ok _ => let H := fresh "R" in destruct m as [?|?] eqn:H; cbn [rbind] in E; [|discriminate E]
  | (let '(_, _) := ?p in _) = Ok _ => destruct p
  | (if ?b then _ else _) = Ok _ => destruct b eqn:?
  | match ?x with _ => _ end = Ok _ => destruct x eqn:?
  | Raise _ = Ok _ => discriminate E
  | out_of_model = Ok _ => discriminate E
  end.
Lemma data_str_eq d x : data_str d = Ok x -> d = VStr x.
Proof. destruct d; cbn; congruence || discriminate. Qed.
Lemma contains_tests d ps x : f_contains d ps = Ok x -> exists b, x = (d, FBool b).
Proof.
  induction ps as [|p ps IH]; cbn [f_contains]; intros E; [injection E as <-; now exists false|]. unwind E; [injection E as <-; now exists true|now apply IH].
Qed.
Lemma pure_tests f : (forall d b x, f d b = Ok x -> exists r, x = (d, FBool r)) -> always tests (pure f).
Proof. intros H env d b x E. unfold pure, keep_env in E. destruct (f d b) as [y|] eqn:Ef; [|discriminate]. cbn [rbind] in E. injection E as <-. apply H in Ef as [r ->]. now exists r. Qed.
Lemma pure_keeps_it f : (forall d b v fl, f d b = Ok (v, fl) -> fl <> FBool false) -> always drops_not (pure f).
Proof. intros H env d b x E. unfold pure, keep_env in E. destruct (f d b) as [[v fl]|] eqn:Ef; [|discriminate]. cbn [rbind] in E. injection E as <-. now apply H in Ef. Qed.
Lemma keep_keeps_it g : (forall env d b v fl, g env d b = Ok (v, fl) -> fl <> FBool false) -> always drops_not (fun env d b => keep_env env (g env d b)).
Proof. intros H env d b x E. unfold keep_env in E. destruct (g env d b) as [[v fl]|] eqn:Ef; [|discriminate]. cbn [rbind] in E. injection E as <-. now apply H in Ef. Qed.
Lemma yes_no_tests f d p x : (forall s q y, f s q = Ok y -> exists b, y = (VStr s, FBool b)) -> yes_no f d p = Ok x -> exists b, x = (d, FBool b).
Proof. intros H E. unfold yes_no in E. unwind E. apply data_str_eq in R. subst d. now apply H in E. Qed.
Lemma yes_tests b s x : yes b s = Ok x -> exists r, x = (VStr s, FBool r).
Proof. intros E. unfold yes in E. unwind E; injection E as <-; eexists; reflexivity. Qed.
Lemma no_tests b s x : no b s = Ok x -> exists r, x = (VStr s, FBool r).
Proof. intros E. unfold no in E. unwind E; injection E as <-; eexists; reflexivity. Qed.
Lemma answer_kept a d v : snd (answer a d v) <> FBool false.
Proof. unfold answer. destruct a; discriminate. Qed.

Section T.
Variables (macros : list (str * (val -> res mret))) (lookups : val) (templates : list (str * val)) (results : val).
Notation table := (match_table macros lookups templates results).
Definition classified (e : mentry) : Prop :=
  (In (fst e) filters -> always tests (snd (snd e))) /\ (In (fst e) transformers -> always drops_not (snd (snd e))).
Lemma table_classified : Forall classified table.
Proof.
  Ltac no_f := intros K; cbn in K; repeat (destruct K as [K|K]; [discriminate K|]); destruct K.
  Ltac filt tac := apply Forall_cons; [split; cbn [fst snd]; [intros _; apply pure_tests; let E := fresh "E" in intros d b x E; tac E|no_f]|].
  Ltac trans tac := apply Forall_cons; [split; cbn [fst snd]; [no_f|intros _; apply pure_keeps_it; let E := fresh "E" in intros d b v fl E; tac E]|].
  Ltac transe tac := apply Forall_cons; [split; cbn [fst snd]; [no_f|intros _; let E := fresh "E" in intros env d b x E; tac E]|].
  Ltac transk tac := apply Forall_cons; [split; cbn [fst snd]; [no_f|intros _; apply keep_keeps_it; let E := fresh "E" in intros env d b v fl E; tac E]|].
  Ltac other := apply Forall_cons; [split; cbn [fst snd]; no_f|].
  Ltac fin E := unwind E; try congruence.
  unfold match_table.
  trans ltac:(fun E => unfold f_copy in E; fin E).
  transe ltac:(fun E => unfold f_count in E; unwind E; injection E as <-; discriminate).
  trans ltac:(fun E => unfold f_item in E; fin E).
  trans ltac:(fun E => unfold f_joinmatches in E; fin E).
  trans ltac:(fun E => unfold f_let in E; fin E).
  trans ltac:(fun E => unfold f_lookup in E; unwind E; try congruence; match type of E with Ok (answer ?a ?d ?w) = _ => pose proof (answer_kept a d w) as K; assert (Ey : answer a d w = (v, fl)) by congruence; rewrite Ey in K; exact K end).
  trans ltac:(fun E => unfold f_rlookup in E; unwind E; try congruence; match type of E with Ok (answer ?a ?d ?w) = _ => pose proof (answer_kept a d w) as K; assert (Ey : answer a d w = (v, fl)) by congruence; rewrite Ey in K; exact K end).
  transe ltac:(fun E => unfold f_gpvlookup in E; cbv zeta in E; unwind E; injection E as <-; first [discriminate|apply answer_kept]).
  trans ltac:(fun E => unfold f_mac_eui in E; fin E).
  other. other.
  do 6 (filt ltac:(fun E => eapply yes_no_tests; [|exact E]; intros s q y; first [apply yes_tests|apply no_tests])).
  transk ltac:(fun E => unfold f_resub in E; fin E).
  transk ltac:(fun E => unfold f_resuball in E; fin E).
  transe ltac:(fun E => unfold f_record in E; unwind E; injection E as <-; discriminate).
  other.
  filt ltac:(fun E => unfold f_exclude in E; unwind E; injection E as <-; eexists; reflexivity).
  filt ltac:(fun E => injection E as <-; eexists; reflexivity).
  filt ltac:(fun E => injection E as <-; eexists; reflexivity).
  filt ltac:(fun E => unwind E; exact (contains_tests _ _ _ E)).
  trans ltac:(fun E => fin E).
  filt ltac:(fun E => unfold f_isdigit in E; unwind E; injection E as <-; eexists; reflexivity).
  filt ltac:(fun E => unfold f_notdigit in E; unwind E; injection E as <-; eexists; reflexivity).
  filt ltac:(fun E => unfold f_greaterthan in E; unwind E; injection E as <-; eexists; reflexivity).
  filt ltac:(fun E => unfold f_lessthan in E; unwind E; injection E as <-; eexists; reflexivity).
  trans ltac:(fun E => unfold f_join in E; fin E).
  transk ltac:(fun E => unfold f_append in E; cbv zeta in E; fin E).
  transk ltac:(fun E => unfold f_prepend in E; cbv zeta in E; fin E).
  trans ltac:(fun E => fin E).
  transk ltac:(fun E => unfold f_replaceall in E; fin E).
  trans ltac:(fun E => unfold f_truncate in E; cbv zeta in E; fin E).
  trans ltac:(fun E => unfold f_to_str in E; fin E).
  trans ltac:(fun E => unfold f_to_list in E; fin E).
  trans ltac:(fun E => unfold f_to_int in E; fin E).
  trans ltac:(fun E => fin E).
  trans ltac:(fun E => unfold f_to_cidr in E; fin E).
  trans ltac:(fun E => unfold f_unrange in E; fin E).
  filt ltac:(fun E => injection E as <-; eexists; reflexivity).
  filt ltac:(fun E => unfold Ip.f_is_ip in E; unwind E; injection E as <-; eexists; reflexivity).
  other.
  trans ltac:(fun E => unfold Uptime.f_uptimeparse in E; fin E).
  constructor.
Qed.
(** calls *)
Lemma entry_classified n s f : lookup_entry n table = Some (s, f) -> (In n filters -> always tests f) /\ (In n transformers -> always drops_not f).
Proof. intros E. apply lookup_entry_in in E. pose proof table_classified as H. rewrite Forall_forall in H. exact (H _ E). Qed.
Lemma known_filter n : In n filters -> exists s f, lookup_entry n table = Some (s, f).
Proof. intros H. cbn in H. repeat (destruct H as [<-|H]; [eexists; eexists; reflexivity|]). destruct H. Qed.
Lemma known_transformer n : In n transformers -> exists s f, lookup_entry n table = Some (s, f).
Proof. intros H. cbn in H. repeat (destruct H as [<-|H]; [eexists; eexists; reflexivity|]). destruct H. Qed.
(** the value's methods are tried when a function raises KeyError: no filter does *)
Definition no_key {A} (r : res A) : Prop := r <> Raise KeyError.
Lemma no_key_bind {A B} (m : res A) (k : A -> res B) : no_key m -> (forall a, no_key (k a)) -> no_key (rbind m k).
Proof. intros Hm Hk. destruct m; cbn [rbind]; [apply Hk|]. intros E. apply Hm. congruence. Qed.
Lemma no_key_ok {A} (a : A) : no_key (Ok a).
Proof. discriminate. Qed.
Ltac nk := repeat first [apply no_key_ok | discriminate | apply no_key_bind; [|intros ?] | match goal with |- no_key (if ?b then _ else _) => destruct b end | match goal with |- no_key match ?x with _ => _ end => destruct x end].
Lemma no_key_search p s : no_key (re_search p s).
Proof. unfold re_search. apply no_key_bind; [unfold anchored_re; destruct (anchors p) as [[b e] q]; nk|intros [b r]; nk]. Qed.
Lemma no_key_sarg v : no_key (s_arg v).
Proof. destruct v; discriminate. Qed.
Lemma no_key_sargs l : no_key (rmap s_arg l).
Proof. induction l as [|v l IH]; cbn [rmap]; [apply no_key_ok|]. apply no_key_bind; [apply no_key_sarg|]. intros a. apply no_key_bind; [exact IH|]. intros; apply no_key_ok. Qed.
Lemma no_key_in p v : no_key (py_in p v).
Proof. destruct v; cbn [py_in]; nk. Qed.
Lemma no_key_int s : no_key (int_of s).
Proof. unfold int_of. nk. Qed.
Lemma no_key_strip v : no_key (py_strip v).
Proof. destruct v; discriminate. Qed.
Lemma no_key_datastr v : no_key (data_str v).
Proof. destruct v; discriminate. Qed.
Lemma no_key_contains d ps : no_key (f_contains d ps).
Proof. induction ps as [|p ps IH]; cbn [f_contains]; [apply no_key_ok|]. apply no_key_bind; [apply no_key_in|]. intros []; [apply no_key_ok|exact IH]. Qed.
Lemma no_key_params ps : forall args kws, no_key (bind_params ps args kws).
Proof.
  induction ps as [|[n o] ps IH]; intros args kws; cbn [bind_params]; [apply no_key_ok|].
  assert (H : forall a r, no_key (do (l, q) <- bind_params ps r kws; Ok (a :: l, q))) by (intros a r; apply no_key_bind; [apply IH|intros []; apply no_key_ok]).
  destruct args as [|a args], (kw kws n) as [v|]; [apply H|destruct o; [apply H|intros E; discriminate E]|intros E; discriminate E|apply H].
Qed.
Lemma no_key_args s args kws : no_key (bind s args kws).
Proof. unfold bind. destruct (negb _); [discriminate|]. apply no_key_bind; [apply no_key_params|]. intros [l r]. nk. Qed.
Lemma filters_no_key : Forall (fun e : mentry => In (fst e) filters -> forall env d b, no_key (snd (snd e) env d b)) table.
Proof.
  Ltac skip := apply Forall_cons; [cbn [fst snd]; let K := fresh in intros K; cbn in K; solve [repeat (destruct K as [K|K]; [discriminate K|]); destruct K]|].
  Ltac nkf := apply Forall_cons; [cbn [fst snd]; intros _ env d b; unfold Ip.f_is_ip, pure, keep_env, yes_no, yes, no, f_startswith_re, f_endswith_re, f_contains_re, f_notstartswith_re, f_notendswith_re, f_exclude_re, f_exclude, f_equal, f_notequal, f_isdigit, f_notdigit, f_greaterthan, f_lessthan, f_void;
    repeat first [apply no_key_search | apply no_key_sarg | apply no_key_sargs | apply no_key_in | apply no_key_int | apply no_key_strip | apply no_key_datastr | apply no_key_contains | apply no_key_ok | apply no_key_bind; [|intros ?] | match goal with |- no_key (if ?b then _ else _) => destruct b end]|].
  unfold match_table. repeat first [skip|nkf]; [|constructor]. destruct d; intros E; discriminate E.
Qed.
Lemma filter_call a env d : In (at_name a) filters -> no_key (call_match macros lookups templates results a env d) /\ (forall x, call_match macros lookups templates results a env d = Ok x -> tests env d x).
Proof.
  intros H. destruct (known_filter _ H) as (s & f & E). unfold call_match. rewrite E. destruct (entry_classified _ _ _ E) as [K _]. split.
  - apply no_key_bind; [apply no_key_args|]. intros b. apply lookup_entry_in in E. pose proof filters_no_key as N. rewrite Forall_forall in N. exact (N _ E H env d b).
  - intros x Ex. destruct (bind s _ _) as [b|]; [|discriminate]. exact (K H _ _ _ _ Ex).
Qed.
Lemma transformer_call a env d x : In (at_name a) transformers -> call_match macros lookups templates results a env d = Ok x -> drops_not env d x.
Proof.
  intros H E. destruct (known_transformer _ H) as (s & f & El). unfold call_match in E. rewrite El in E. destruct (entry_classified _ _ _ El) as [_ K]. destruct (bind s _ _) as [b|]; [|discriminate]. exact (K H _ _ _ _ E).
Qed.
End T.
Lemma method_bool a d v : In (at_name a) transformers -> data_method a d = Ok v -> forall b, v <> VBool b.
Proof.
  intros H E b ->. unfold data_method in E. assert (G : forall args s, str_method (at_name a) args s <> Ok (VBool b)).
  { intros args s K. cbn in H. repeat (destruct H as [H|H]; [rewrite <- H in K; discriminate K|]). destruct H. }
  destruct d; repeat match type of E with (if ?x then _ else _) = _ => destruct x | match ?x with _ => _ end = _ => destruct x end; try discriminate. exact (G _ _ E).
Qed.
(** ** the functions of a template *)
Section P.
Variable t : tpl.
Theorem filter_tests a env d env' d' fl : In (at_name a) filters -> run_func (m_fun t a) env d = Ok (env', (d', fl)) -> env' = env /\ d' = d /\ exists b, fl = FBool b.
Proof.
  intros H E. unfold m_fun in E. assert (Hl : is_lookup 1 a = false). { unfold is_lookup. destruct (str_eqb (at_name a) $"lookup") eqn:El; [|reflexivity]. exfalso. apply str_eqb_eq in El. rewrite El in H. cbn in H. repeat (destruct H as [H|H]; [discriminate H|]). destruct H. }
  rewrite Hl in E. destruct (filter_call (tp_macros t) (VDict (tp_lookups t)) [] (VDict []) a env d H) as [N K]. unfold run_func in E. cbn [match_func mf_call mf_attr] in E. destruct (call_match _ _ _ _ a env d) as [x|e].
  - destruct (K x eq_refl) as [b ->]. injection E as <- <- <-. repeat split. now exists b.
  - destruct e; try discriminate. exfalso. now apply N.
Qed.
Theorem transformer_keeps a env d env' d' fl : In (at_name a) transformers -> run_func (m_fun t a) env d = Ok (env', (d', fl)) -> fl <> FBool false.
Proof.
  intros H E. unfold m_fun in E. destruct (is_lookup 1 a); [discriminate E|]. unfold run_func in E. cbn [match_func mf_call mf_attr] in E. destruct (call_match _ _ _ _ a env d) as [x|e] eqn:Ec.
  - injection E as ->. exact (transformer_call _ _ _ _ _ _ _ _ H Ec).
  - destruct e; try discriminate. destruct (data_method a d) as [v|e] eqn:Em.
    + pose proof (method_bool _ _ _ H Em) as Hb. destruct v as [|b| | | | |]; try (injection E as <- <- <-; discriminate). exfalso. now apply (Hb b).
    + destruct e; try discriminate. injection E as <- <- <-. discriminate.
Qed.
Theorem transformers_never_drop fs : Forall (fun a => In (at_name a) transformers) fs -> forall env d flags env' o, run_chain (map (m_fun t) fs) env d flags = Ok (env', o) -> o <> None.
Proof.
  induction 1 as [|a fs Ha _ IH]; intros env d flags env' o E; cbn [map run_chain] in E; [injection E as <- <-; discriminate|]. destruct (run_func (m_fun t a) env d) as [[e1 [d1 fl]]|] eqn:E1; [|discriminate]. cbn [rbind] in E. apply transformer_keeps in E1; [|exact Ha]. destruct fl as [|[]|]; try (now apply IH in E). now destruct E1.
Qed.
Theorem filters_only fs : Forall (fun a => In (at_name a) filters) fs -> forall env d flags env' o, run_chain (map (m_fun t) fs) env d flags = Ok (env', o) <->
  env' = env /\ ((o = Some (d, flags) /\ Forall (fun a => passes (m_fun t a) env d) fs) \/
                (o = None /\ exists before a after, fs = before ++ a :: after /\ Forall (fun a => passes (m_fun t a) env d) before /\ rejects (m_fun t a) env d)).
Proof.
  induction 1 as [|a fs Ha _ IH]; intros env d flags env' o; cbn [map run_chain].
  - split; [intros [= <- <-]; split; [reflexivity|]; left; now split|]. intros [-> [[-> _]|(_ & b & x & c & E & _)]]; [reflexivity|]. now destruct b.
  - split.
    + intros E. destruct (run_func (m_fun t a) env d) as [[e1 [d1 fl]]|] eqn:E1; [|discriminate]. cbn [rbind] in E. pose proof E1 as E2. apply filter_tests in E1 as (-> & -> & b & ->); [|exact Ha]. destruct b.
      * apply (proj1 (IH _ _ _ _ _)) in E as [-> [[-> Hf]|(-> & be & x & af & -> & Hb & Hr)]]; (split; [reflexivity|]).
        -- left. split; [reflexivity|]. now constructor.
        -- right. split; [reflexivity|]. exists (a :: be), x, af. split; [reflexivity|]. split; [now constructor|exact Hr].
      * injection E as <- <-. split; [reflexivity|]. right. split; [reflexivity|]. exists [], a, fs. split; [reflexivity|]. split; [constructor|exact E2].
    + intros [-> [[-> Hf]|(-> & be & x & af & E & Hb & Hr)]].
      * inversion Hf as [|? ? Hp Hr]; subst. rewrite Hp. cbn [rbind]. apply (proj2 (IH _ _ _ _ _)). split; [reflexivity|]. left. now split.
      * destruct be as [|y be]; cbn [app] in E.
        -- injection E as -> ->. rewrite Hr. reflexivity.
        -- injection E as -> ->. inversion Hb as [|? ? Hp Hb']; subst. rewrite Hp. cbn [rbind]. apply (proj2 (IH _ _ _ _ _)). split; [reflexivity|]. right. split; [reflexivity|]. exists be, x, af. now repeat split.
Qed.
End P.
