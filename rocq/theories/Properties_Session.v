(** * Properties C23-C28, C37, C81-C85: the ttp object *)
From Verif Require Import PyBase DictFacts PyEqFacts Session SpecSession SessionFacts SessionHist SessionInputs SessionHeap SessionExact Properties_Save.
From Coq Require Import Sorting.Sorted Sorting.Permutation.
Local Open Scope string_scope.
Local Open Scope list_scope.

(** a concrete parser for the examples: a datum's text becomes {"t": text} *)
Definition xprs (id : nat) (g : unit) (gs : list nat) (f : unit) (d : datum) (main : val) : res (unit * val) :=
  match d, main with
  | TextData x, VDict m => Ok (tt, VDict (dset m (KS x) (VInt (Z.of_nat id))))
  | _, _ => Raise TypeError
  end.
Definition xfsize (p : str) : res Z := Raise FileNotFoundError.
Definition xtsize (x : str) : Z := Z.of_nat (length x).
Definition xinp (l : list string) : input unit := {| in_groups := [0]; in_data := map (fun x => TextData (list_ascii_of_string x)) l; in_funcs := tt |}.
Definition xt (id : nat) (name method : string) (inputs : list (str * input unit)) (results : val) : template unit :=
  {| t_id := id; t_name := list_ascii_of_string name; t_method := list_ascii_of_string method; t_groups := [];
     t_inputs := inputs; t_results := results; t_outputs := [] |}.
Definition xs (l : list (template unit)) : session unit unit := {| ss_templates := l; ss_global := tt; ss_threshold := 5242880 |}.
Definition xmulti (t : template unit) (g : unit) : res (unit * template unit) := Ok (g, t).
Definition xload (v : val) : list datum := match v with VStr x => [TextData x] | v => [StructData v] end.
Definition xparse (s : session unit unit) := parse xfsize xtsize xprs xmulti s (VBool true) (VBool false).

(** ** C23, C24: parsing in one process, every template with a documented method *)

(** exactly: the session after parse is the one the specification describes *)
Theorem C23_parse_in_one_process : forall Fn G fsize tsize prs multi (s s' : session Fn G) one mult,
  files_exist fsize s -> ~ (one = VBool true /\ mult = VBool true) -> ~ uses_multi fsize tsize s one mult ->
  Forall documented_method (ss_templates s) ->
  (parse fsize tsize prs multi s one mult = Ok s' <-> session_parsed prs s s').
Proof. intros. now apply parse_session. Qed.
Print Assumptions C23_parse_in_one_process.

(** spelled out for one template *)
Theorem C23_per_input : forall Fn G prs (t t' : template Fn) (g g' : G) old,
  t_method t = $"per_input" -> t_results t = VList old ->
  (parse_one prs t g = Ok (g', t') <->
   exists vs ds, separately (run_job prs (t_id t)) g (jobs t) g' vs /\ Forall2 shaped vs ds /\
     length ds = length (data_of t) /\ same_but_results t t' /\ t_results t' = VList (old ++ ds)).
Proof.
  intros Fn G prs t t' g g' old Hm Hr. rewrite parse_one_spec by (left; eauto). split.
  - intros H. inversion H; subst; [|rewrite Hm in *; discriminate]. exists vs, ds. assert (old0 = old) as -> by congruence.
    split; [assumption|]. split; [assumption|]. split; [|now split].
    match goal with Hf : Forall2 shaped vs ds |- _ => assert (Ef : length vs = length ds) by (clear - Hf; induction Hf; cbn; congruence); rewrite <- Ef end.
    match goal with Hs : separately _ _ _ _ vs |- _ => assert (El : length vs = length (jobs t)) by (clear - Hs; induction Hs; cbn; congruence); rewrite El end.
    unfold jobs, data_of. clear. induction (t_inputs t) as [|i l IH]; [reflexivity|]. cbn [map concat]. rewrite !app_length, map_length. f_equal. exact IH.
  - intros (vs & ds & Hs & Hf & _ & Hb & Hr'). eapply tp_per_input; eassumption.
Qed.
Print Assumptions C23_per_input.
Example C23_ex : exists s',
  xparse (xs [xt 1 "a" "per_input" [($"i", xinp ["x"; "y"]); ($"j", xinp ["z"])] (VList [VInt 9])]) = Ok s' /\
  results s' = [VList [VInt 9; VDict [(KS ($"x"), VInt 1)]; VDict [(KS ($"y"), VInt 1)]; VDict [(KS ($"z"), VInt 1)]]].
Proof. eexists. split; vm_compute; reflexivity. Qed.

Theorem C24_per_template : forall Fn G prs (t t' : template Fn) (g g' : G),
  t_method t = $"per_template" ->
  (parse_one prs t g = Ok (g', t') <->
   exists v, together (run_job prs (t_id t)) g (VDict []) (jobs t) g' v /\ shaped v (t_results t') /\ same_but_results t t').
Proof.
  intros Fn G prs t t' g g' Hm. rewrite parse_one_spec by (right; exact Hm). split.
  - intros H. inversion H; subst; [rewrite Hm in *; discriminate|]. exists v. auto.
  - intros (v & Ht & Hs & Hb). eapply tp_per_template; eauto.
Qed.
Print Assumptions C24_per_template.
Example C24_ex : exists s',
  xparse (xs [xt 1 "a" "per_template" [($"i", xinp ["x"; "y"]); ($"j", xinp ["z"])] (VList [])]) = Ok s' /\
  results s' = [VDict [(KS ($"x"), VInt 1); (KS ($"y"), VInt 1); (KS ($"z"), VInt 1)]].
Proof. eexists. split; vm_compute; reflexivity. Qed.

(** how one datum's structure appears in the results *)
Theorem C23_shape : forall v d, form_datum v = Ok d <-> shaped v d.
Proof. exact form_datum_spec. Qed.
Print Assumptions C23_shape.

(** ** C84: with a results method spelled in any other way than the two documented ones the results stay
    what they were *)
Theorem C84_other_spellings : forall Fn G prs (t t' : template Fn) (g g' : G),
  t_method t <> $"per_input" -> t_method t <> $"per_template" -> parse_one prs t g = Ok (g', t') -> t' = t.
Proof. intros. eapply other_method; eassumption. Qed.
Print Assumptions C84_other_spellings.
Example C84_ex : let t := xt 1 "a" "Per_Input" [($"i", xinp ["x"])] (VList []) in
  t_method t <> $"per_input" /\ t_method t <> $"per_template" /\ parse_one xprs t tt = Ok (tt, t).
Proof. split; [discriminate|]. split; [discriminate|]. vm_compute. reflexivity. Qed.
(** so also if only the case differs *)
Theorem C84_limits :
  ~ (forall Fn G prs (t t' u u' : template Fn) (g g' h' : G),
       lower (t_method t) = lower (t_method u) -> t_method u = $"per_input" ->
       t_id t = t_id u -> t_inputs t = t_inputs u -> t_results t = t_results u ->
       parse_one prs t g = Ok (g', t') -> parse_one prs u g = Ok (h', u') -> t_results t' = t_results u').
Proof.
  intros H. pose (i := [($"i", xinp ["x"])]).
  specialize (H unit unit xprs (xt 1 "a" "Per_Input" i (VList [])) (xt 1 "a" "Per_Input" i (VList []))
    (xt 1 "a" "per_input" i (VList [])) (xt 1 "a" "per_input" i (VList [VDict [(KS ($"x"), VInt 1)]])) tt tt tt).
  vm_compute in H. discriminate H; reflexivity.
Qed.
Print Assumptions C84_limits.

(** ** C25: histories *)
Theorem C25_parse_again : forall Fn G fsize tsize load nofuncs order prs multi (s s1 s2 : session Fn G) h one mult g0,
  memoryless prs -> multi_keeps multi -> Forall plain (ss_templates s) ->
  execs fsize tsize load nofuncs order prs multi s h = Ok s1 ->
  files_exist fsize s1 -> ~ (one = VBool true /\ mult = VBool true) -> ~ uses_multi fsize tsize s1 one mult ->
  parse fsize tsize prs multi s1 one mult = Ok s2 ->
  exists s0, parse fsize tsize prs multi (fresh g0 s1) one mult = Ok s0 /\
             appended (ss_templates s1) (ss_templates s2) (ss_templates s0).
Proof. intros. eapply parse_again; eassumption. Qed.
Print Assumptions C25_parse_again.

Theorem C25_clear_then_parse : forall Fn G fsize tsize load nofuncs order prs multi (s s1 s2 : session Fn G) h one mult g0,
  memoryless prs -> multi_keeps multi -> Forall plain (ss_templates s) ->
  execs fsize tsize load nofuncs order prs multi s h = Ok s1 -> clear_result s1 [] = Ok s2 ->
  files_exist fsize s1 -> ~ (one = VBool true /\ mult = VBool true) -> ~ uses_multi fsize tsize s1 one mult ->
  forall rs, (exists s', parse fsize tsize prs multi s2 one mult = Ok s' /\ results s' = rs) <->
             (exists s', parse fsize tsize prs multi (fresh g0 s1) one mult = Ok s' /\ results s' = rs).
Proof. intros. eapply clear_then_parse; eassumption. Qed.
Print Assumptions C25_clear_then_parse.

(** clear_result with names touches exactly the named templates *)
Theorem C25_clear_selected : forall Fn G (s s' : session Fn G) names, clear_result s names = Ok s' ->
  Forall2 (fun t t' => same_but_results t t' /\
     ((names = [] \/ In (t_name t) names) -> t_results t' = VList [] \/ t_results t' = VDict []) /\
     (~ (names = [] \/ In (t_name t) names) -> t' = t)) (ss_templates s) (ss_templates s').
Proof.
  intros Fn G s s' names H. unfold clear_result in H. destruct (rmap _ _) as [ts|e] eqn:E; [|discriminate]. cbn [rbind] in H. injection H as <-.
  apply rmap_Forall2 in E. cbn. eapply Forall2_imp; [|exact E]. intros t t' Ht. cbn in Ht.
  assert (Hsel : (match names with [] => true | _ => in_strs (t_name t) names end) = true <-> (names = [] \/ In (t_name t) names)).
  { destruct names as [|n names]; [tauto|]. rewrite in_strs_In. split; [tauto|]. intros [Hx|Hx]; [discriminate|exact Hx]. }
  destruct (match names with [] => true | _ => in_strs (t_name t) names end).
  - destruct (t_results t); cbn in Ht; try discriminate; injection Ht as <-;
      (split; [apply set_results_same|]); (split; [cbn; auto|]); intros Hn; exfalso; apply Hn, Hsel; reflexivity.
  - injection Ht as <-. split; [repeat split|]. split; [|reflexivity]. intros Hx. apply Hsel in Hx. discriminate.
Qed.
Print Assumptions C25_clear_selected.

Lemma xprs_memoryless : memoryless xprs.
Proof. intros id [] [] gs [] d m. destruct (xprs id tt gs tt d m) as [[g v]|e]; reflexivity. Qed.
Lemma xmulti_keeps : multi_keeps xmulti.
Proof. intros t g g' t' H. injection H as <- <-. split; [repeat split|]. eauto. Qed.
Example C25_ex :
  let s := xs [xt 1 "a" "per_input" [] (VList [])] in
  let h := [OAdd (s_ "x") ($"i") ($"a") []; OParse (VBool true) VNone; OAdd (s_ "y") ($"i") ($"a") []; OParse (VBool true) VNone] in
  Forall plain (ss_templates s) /\ memoryless xprs /\ multi_keeps xmulti /\
  exists s1 s2 s3, execs xfsize xtsize xload tt (fun l => l) xprs xmulti s h = Ok s1 /\
    results s1 = [VList [VDict [(KS ($"x"), VInt 1)]; VDict [(KS ($"x"), VInt 1)]; VDict [(KS ($"y"), VInt 1)]]] /\
    files_exist xfsize s1 /\ clear_result s1 [] = Ok s2 /\ xparse s2 = Ok s3 /\
    results s3 = [VList [VDict [(KS ($"x"), VInt 1)]; VDict [(KS ($"y"), VInt 1)]]].
Proof.
  cbn zeta. split; [constructor; [split; [left; split; [reflexivity|now exists []]|reflexivity]|constructor]|]. split; [apply xprs_memoryless|]. split; [apply xmulti_keeps|].
  do 3 eexists. split; [vm_compute; reflexivity|]. split; [vm_compute; reflexivity|]. split.
  { intros p Hp. vm_compute in Hp. destruct Hp as [Hp|[Hp|[]]]; discriminate. }
  split; [vm_compute; reflexivity|]. split; vm_compute; reflexivity.
Qed.

(** ** C81: with an output that changes the kind of the results, parse() cannot be
    repeated: neither directly nor after clear_result() *)
Definition reusable (between : forall Fn G, session Fn G -> res (session Fn G)) : Prop :=
  forall Fn G fsize tsize prs multi (s s1 s2 : session Fn G),
    memoryless prs -> Forall documented_method (ss_templates s) -> files_exist fsize s ->
    parse fsize tsize prs multi s (VBool true) (VBool false) = Ok s1 -> between Fn G s1 = Ok s2 ->
    exists s3, parse fsize tsize prs multi s2 (VBool true) (VBool false) = Ok s3.
Definition with_output (f : val -> res val) (t : template unit) : template unit :=
  {| t_id := t_id t; t_name := t_name t; t_method := t_method t; t_groups := t_groups t; t_inputs := t_inputs t;
     t_results := t_results t; t_outputs := [f] |}.
Theorem C81_parse_again_limits : ~ reusable (fun _ _ s => Ok s).
Proof.
  intros H. pose (t := with_output (fun v => Ok (VStr ($"text"))) (xt 1 "a" "per_input" [($"i", xinp ["x"])] (VList []))).
  specialize (H unit unit xfsize xtsize xprs xmulti (xs [t])).
  destruct (xparse (xs [t])) as [s1|e] eqn:E; [|vm_compute in E; discriminate].
  specialize (H s1 s1 xprs_memoryless). destruct H as [s3 H].
  - constructor; [left; split; [reflexivity|now exists []]|constructor].
  - intros p [Hp|[]]. discriminate.
  - exact E.
  - reflexivity.
  - vm_compute in E. injection E as <-. vm_compute in H. discriminate.
Qed.
Print Assumptions C81_parse_again_limits.
Theorem C81_clear_limits : ~ reusable (fun _ _ s => clear_result s []).
Proof.
  intros H. pose (t := with_output (fun v => Ok (VDict [])) (xt 1 "a" "per_input" [($"i", xinp ["x"])] (VList []))).
  specialize (H unit unit xfsize xtsize xprs xmulti (xs [t])).
  destruct (xparse (xs [t])) as [s1|e] eqn:E; [|vm_compute in E; discriminate].
  destruct (clear_result s1 []) as [s2|e] eqn:E2; [|vm_compute in E; injection E as <-; vm_compute in E2; discriminate].
  specialize (H s1 s2 xprs_memoryless). destruct H as [s3 H].
  - constructor; [left; split; [reflexivity|now exists []]|constructor].
  - intros p [Hp|[]]. discriminate.
  - exact E.
  - exact E2.
  - vm_compute in E. injection E as <-. vm_compute in E2. injection E2 as <-. vm_compute in H. discriminate.
Qed.
Print Assumptions C81_clear_limits.

(** outputs that answer any value, and give a list for a list where the results are collected in one,
    leave the session usable - and so on for every further call *)
Theorem C81_tame_outputs : forall Fn G fsize tsize prs multi (s s1 s2 : session Fn G),
  memoryless prs -> Forall documented_method (ss_templates s) -> Forall tame (ss_templates s) -> files_exist fsize s ->
  parse fsize tsize prs multi s (VBool true) (VBool false) = Ok s1 -> s2 = s1 \/ clear_result s1 [] = Ok s2 ->
  (Forall documented_method (ss_templates s2) /\ Forall tame (ss_templates s2) /\ files_exist fsize s2) /\
  exists s3, parse fsize tsize prs multi s2 (VBool true) (VBool false) = Ok s3.
Proof. intros. eapply tame_again; eassumption. Qed.
Print Assumptions C81_tame_outputs.
Definition xout (v : val) : res val := match v with VList l => Ok (VList (l ++ [VInt 0])) | _ => Ok VNone end.
Example C81_ex : let t := with_output xout (xt 1 "a" "per_input" [($"i", xinp ["x"])] (VList [])) in
  tame t /\ documented_method t /\ exists s1 s3, xparse (xs [t]) = Ok s1 /\ xparse s1 = Ok s3 /\
  result s3 [] $"list" = VList [VList [d_ [("x", VInt 1)]; VInt 0; d_ [("x", VInt 1)]; VInt 0]].
Proof.
  cbn zeta. split; [|split; [left; split; [reflexivity|now exists []]|]].
  - intros f [<-|[]]. split; [intros []; eexists; reflexivity|]. intros _ l. eexists. reflexivity.
  - eexists. eexists. split; [vm_compute; reflexivity|]. split; vm_compute; reflexivity.
Qed.

(** ** C82: what result() returned follows later calls: it is the template's own list *)
(** after parse() it shows the new items appended *)
Theorem C82_after_parse : forall news s s', own_lists s -> h_exec s (HParse news) = Ok s' ->
  own_lists s' /\ h_result s' = h_result s /\
  forall i l, nth_error (h_result s) i = Some l ->
    exists x, deref (hs_heap s) l = VList x /\ deref (hs_heap s') l = VList (x ++ items_of news i).
Proof. exact see_after_parse. Qed.
Print Assumptions C82_after_parse.
(** after clear_result() it is empty *)
Theorem C82_after_clear : forall s s', own_lists s -> h_exec s HClear = Ok s' ->
  own_lists s' /\ h_result s' = h_result s /\ h_see s' (h_result s) = map (fun _ => VList []) (h_result s).
Proof.
  intros s s' Ho H. destruct (see_after_clear s s' Ho H) as (H1 & H2 & H3). split; [exact H1|]. split; [exact H2|].
  unfold h_see, h_result. apply map_ext_in. exact H3.
Qed.
Print Assumptions C82_after_clear.
(** with results="per_template" parse() leaves it alone *)
Theorem C82_per_template : forall s i d, Forall (fun l => l < length (hs_heap s)) (h_result s) ->
  h_see (h_bind s i d) (h_result s) = h_see s (h_result s).
Proof.
  intros s i d H. unfold h_see. apply map_ext_in. intros l Hl. apply see_after_bind. rewrite Forall_forall in H. now apply H.
Qed.
Print Assumptions C82_per_template.
Example C82_ex : let s := {| hs_heap := [VList [VInt 1]; VList []]; hs_templates := [1; 0] |} in own_lists s /\
  exists s', h_exec s (HParse [(0, VInt 5); (1, VInt 6); (0, VInt 7)]) = Ok s' /\
  h_see s (h_result s) = [VList []; VList [VInt 1]] /\ h_see s' (h_result s) = [VList [VInt 5; VInt 7]; VList [VInt 1; VInt 6]].
Proof.
  cbn zeta. split.
  - split; [repeat constructor; cbn; intuition discriminate|]. repeat constructor; cbn; try lia; eexists; reflexivity.
  - eexists. split; [vm_compute; reflexivity|]. split; reflexivity.
Qed.
(** so it is no snapshot *)
Theorem C82_limits :
  ~ (forall s o s', h_exec s o = Ok s' -> h_see s' (h_result s) = h_see s (h_result s)).
Proof.
  intros H. specialize (H {| hs_heap := [VList [VInt 1]]; hs_templates := [0] |} HClear _ eq_refl). vm_compute in H. discriminate.
Qed.
Print Assumptions C82_limits.

(** ** C26: result structures *)
Theorem C26_structures_agree : forall Fn G (s : session Fn G) names,
  let ts := pick names (ss_templates s) in
  Forall (fun t => t_name t <> []) ts -> NoDup (map t_name ts) ->
  exists rs, Forall2 (fun t r => r = t_results t) ts rs /\
    result s names ($"list") = VList rs /\
    result s names ($"flat_list") = VList (flattened rs) /\
    exists d, result s names ($"dictionary") = VDict d /\ map fst d = map (fun t => KS (t_name t)) ts /\
              Forall2 (fun t r => dget d (KS (t_name t)) = Some r) ts rs.
Proof.
  intros Fn G s names ts Hn Hd. exists (map t_results ts). split; [clear; induction ts; constructor; auto|].
  split; [reflexivity|]. split; [change (VList (flat_list ts) = VList (flattened (map t_results ts))); now rewrite flat_list_spec|].
  exists (map (fun t => (KS (t_name t), t_results t)) ts). split.
  { change (VDict (as_dictionary ts) = VDict (map (fun t => (KS (t_name t), t_results t)) ts)). now rewrite as_dictionary_spec. }
  split; [now rewrite map_map|].
  assert (K : forall t, In t ts -> dget (map (fun t => (KS (t_name t), t_results t)) ts) (KS (t_name t)) = Some (t_results t)).
  { intros t Ht. apply In_dget.
    - unfold dwf, dkeys. rewrite map_map. cbn. clear - Hd. induction ts as [|a l IH]; cbn; [constructor|]. inversion Hd; subst.
      constructor; [|auto]. intros Hi. apply in_map_iff in Hi as (b & Hb & Hin). injection Hb as Hb. apply H1. rewrite <- Hb. now apply in_map.
    - apply in_map_iff. exists t. now split. }
  revert K. generalize (map (fun t : template Fn => (KS (t_name t), t_results t)) ts). clear. induction ts as [|t l IH]; intros d K; cbn; constructor.
  - apply K. now left.
  - apply IH. intros t' Ht'. apply K. now right.
Qed.
Print Assumptions C26_structures_agree.

(** which templates are returned *)
Theorem C26_selection : forall Fn G (s : session Fn G) names t,
  In t (pick names (ss_templates s)) <-> In t (ss_templates s) /\ (names = [] \/ In (t_name t) names).
Proof. intros. apply pick_in. Qed.
Print Assumptions C26_selection.
Example C26_ex :
  let s := xs [xt 1 "a" "per_input" [] (VList [VList [VInt 1; VInt 2]; VInt 3]); xt 2 "b" "per_template" [] (VDict [])] in
  (forall t, In t (pick [] (ss_templates s)) -> t_name t <> []) /\ NoDup (map t_name (pick [] (ss_templates s))) /\
  result s [] ($"flat_list") = VList [VInt 1; VInt 2; VInt 3; VDict []] /\
  result s [] ($"dictionary") = d_ [("a", VList [VList [VInt 1; VInt 2]; VInt 3]); ("b", VDict [])] /\
  result s [$"b"] ($"list") = VList [VDict []].
Proof.
  cbn zeta. split; [intros t [<-|[<-|[]]]; discriminate|]. split; [repeat constructor; cbn; intuition discriminate|].
  repeat split; vm_compute; reflexivity.
Qed.

(** ** C83: the dictionary holds, for every name, the results of the last template with that name *)
Theorem C83_last_of_name : forall Fn G (s : session Fn G) names, exists d, result s names ($"dictionary") = VDict d /\
  (forall n r, dget d (KS n) = Some r <->
     n <> [] /\ exists before t after, pick names (ss_templates s) = before ++ t :: after /\ t_name t = n /\ t_results t = r /\
                                       Forall (fun u => t_name u <> n) after) /\
  (forall k, dget d k <> None -> exists n, k = KS n).
Proof.
  intros Fn G s names. exists (as_dictionary (pick names (ss_templates s))). split; [reflexivity|].
  generalize (pick names (ss_templates s)). clear s names. intros ts. split.
  - intros n r. rewrite as_dictionary_get. split.
    + destruct n as [|c n]; [discriminate|]. intros H. split; [discriminate|].
      destruct (opt_last _) as [t|] eqn:E; [|discriminate]. injection H as <-. generalize dependent t. generalize (c :: n). clear. intros n t E.
      induction ts as [|u ts IH] using rev_ind; [discriminate|]. rewrite filter_app in E. cbn [filter] in E.
      destruct (str_eqb (t_name u) n) eqn:En.
      * rewrite opt_last_app in E. injection E as <-. exists ts, u, []. split; [reflexivity|]. split; [now apply str_eqb_eq|]. split; [reflexivity|constructor].
      * rewrite app_nil_r in E. destruct (IH E) as (b & t' & a & -> & H1 & H2 & H3). exists b, t', (a ++ [u]).
        split; [now rewrite <- app_assoc|]. split; [exact H1|]. split; [exact H2|]. apply Forall_app. split; [exact H3|].
        constructor; [|constructor]. intros K. rewrite K, str_eqb_refl in En. discriminate.
    + intros (Hn & b & t & a & -> & Ht & <- & Ha). destruct n as [|c n]; [congruence|]. rewrite filter_app. cbn [filter].
      rewrite Ht, str_eqb_refl. assert (E : filter (fun u => str_eqb (t_name u) (c :: n)) a = []).
      { clear - Ha. induction Ha as [|u a Hu _ IH]; [reflexivity|]. cbn [filter]. destruct (str_eqb (t_name u) (c :: n)) eqn:E; [apply str_eqb_eq in E; congruence|exact IH]. }
      rewrite E, opt_last_app. reflexivity.
  - intros k Hk. apply (as_dictionary_keys ts). destruct (dget (as_dictionary ts) k) as [v|] eqn:E; [|congruence].
    destruct (in_dec key_dec k (dkeys (as_dictionary ts))) as [Hi|Hi]; [exact Hi|]. apply dget_None_notin in Hi. congruence.
Qed.
Print Assumptions C83_last_of_name.
Example C83_ex : result (xs [xt 1 "a" "per_input" [] (VList [VInt 1]); xt 2 "b" "per_input" [] (VList []); xt 3 "a" "per_input" [] (VList [VInt 2])]) [] $"dictionary" =
  d_ [("a", VList [VInt 2]); ("b", VList [])].
Proof. vm_compute. reflexivity. Qed.
(** so of two templates without a name of their own only one is there *)
Theorem C83_limits :
  ~ (forall Fn G (s : session Fn G) t, In t (ss_templates s) ->
       exists d, result s [] ($"dictionary") = VDict d /\ In (t_results t) (map snd d)).
Proof.
  intros H. destruct (H unit unit (xs [xt 1 "_root_template_" "per_input" [] (VList [VInt 1]); xt 2 "_root_template_" "per_input" [] (VList [VInt 2])])
    (xt 1 "_root_template_" "per_input" [] (VList [VInt 1])) (or_introl eq_refl)) as (d & E & Hd).
  vm_compute in E. injection E as <-. destruct Hd as [Hd|[]]. discriminate.
Qed.
Print Assumptions C83_limits.

(** ** C27: add_input *)
Theorem C27_data_of_inputs : forall Fn G load nofuncs order (s : session Fn G) calls, load_ok load ->
  Forall2 (fun t t' => forall name, exists l,
      input_data t' name = input_data t name ++ l /\ kept (input_data t name) (items_for load t name calls) l)
    (ss_templates s) (ss_templates (do_calls load nofuncs order s calls)).
Proof. intros. now apply adds_data. Qed.
Print Assumptions C27_data_of_inputs.

Theorem C27_add_again : forall Fn G load nofuncs order (s : session Fn G) calls c, load_ok load -> In c calls ->
  Forall2 (fun t t' => forall name, input_data t' name = input_data t name)
    (ss_templates (do_calls load nofuncs order s calls))
    (ss_templates (do_call load nofuncs order (do_calls load nofuncs order s calls) c)).
Proof. intros. now apply add_again. Qed.
Print Assumptions C27_add_again.
Example C27_ex :
  load_ok xload -> 
  let c x i := {| c_data := s_ x; c_input := list_ascii_of_string i; c_template := $"a"; c_groups := [] |} in
  exists t, ss_templates (do_calls xload tt (fun l => l) (xs [xt 1 "a" "per_input" [] (VList [])]) [c "x" "i"; c "y" "i"; c "x" "i"; c "x" "j"]) = [t] /\
  input_data t ($"i") = [TextData ($"x"); TextData ($"y")] /\ input_data t ($"j") = [TextData ($"x")].
Proof. intros _. eexists. split; [vm_compute; reflexivity|]. split; vm_compute; reflexivity. Qed.
Definition yload (v : val) : list datum := match v with VStr x => [TextData x] | _ => [] end.
Example C27_load_ok : load_ok yload.
Proof. intros v. destruct v; repeat constructor. Qed.

(** ** C28: process mode *)
Theorem C28_process_mode : forall Fn G fsize tsize prs multi (s : session Fn G) one mult, files_exist fsize s ->
  (one = VBool true -> mult = VBool true -> parse fsize tsize prs multi s one mult = Raise SystemExit) /\
  (~ (one = VBool true /\ mult = VBool true) ->
   (uses_multi fsize tsize s one mult ->
    parse fsize tsize prs multi s one mult =
      (do (g, ts) <- each multi (ss_templates s) (ss_global s); do ts' <- rmap run_outputs ts; Ok (set_templates (set_global s g) ts'))) /\
   (~ uses_multi fsize tsize s one mult ->
    parse fsize tsize prs multi s one mult =
      (do (g, ts) <- each (parse_one prs) (ss_templates s) (ss_global s); do ts' <- rmap run_outputs ts; Ok (set_templates (set_global s g) ts')))).
Proof. intros. now apply parse_mode. Qed.
Print Assumptions C28_process_mode.
Example C28_ex :
  let s n := {| ss_templates := [xt 1 "a" "per_input" [($"i", xinp ["xx"; "y"])] (VList [])]; ss_global := tt; ss_threshold := n |} in
  files_exist xfsize (s 2%Z) /\ uses_multi xfsize xtsize (s 2%Z) VNone VNone /\ ~ uses_multi xfsize xtsize (s 3%Z) VNone VNone.
Proof.
  cbn zeta. split; [intros p [H|[H|[]]]; discriminate|]. split.
  - split; [discriminate|]. right. vm_compute. split; [reflexivity|lia].
  - intros [_ [H|[H _]]]; [discriminate|]. vm_compute in H. discriminate.
Qed.

(** ** C37: groups of an input *)
Theorem C37_first_add : forall Fn G load nofuncs order (s : session Fn G) c, load (c_data c) <> [] ->
  Forall2 (fun t t' => addressed (c_template c) t -> aget (t_inputs t) (c_input c) = None ->
      StronglySorted lt (input_groups t' (c_input c)) /\
      forall n, In n (input_groups t' (c_input c)) <-> belongs (t_groups t) (c_input c) (groups_or_all (c_groups c)) n)
    (ss_templates s) (ss_templates (do_call load nofuncs order s c)).
Proof. intros. now apply first_add_groups. Qed.
Print Assumptions C37_first_add.
Theorem C37_next_add : forall Fn G load nofuncs order (s : session Fn G) c, python_set order -> load (c_data c) <> [] ->
  Forall2 (fun t t' => forall i, addressed (c_template c) t -> aget (t_inputs t) (c_input c) = Some i ->
      NoDup (input_groups t' (c_input c)) /\
      forall n, In n (input_groups t' (c_input c)) <->
                In n (in_groups i) \/ belongs (t_groups t) (c_input c) (groups_or_all (c_groups c)) n)
    (ss_templates s) (ss_templates (do_call load nofuncs order s c)).
Proof. intros. now apply next_add_groups. Qed.
Print Assumptions C37_next_add.
Definition xtg (n : nat) (name : string) (inputs : list string) : tgroup :=
  {| tg_index := n; tg_name := list_ascii_of_string name; tg_inputs := map list_ascii_of_string inputs |}.
Example C37_ex :
  let tgs := [xtg 0 "a" []; xtg 1 "b" ["i"]; xtg 2 "a" []; xtg 3 "c" []] in
  extract_groups tgs ($"i") [$"all"] = [1] /\ extract_groups tgs ($"j") [$"a"] = [0; 2] /\ extract_groups tgs ($"j") [$"all"] = [0; 2; 3].
Proof. repeat split; vm_compute; reflexivity. Qed.
Example C37_python_set : python_set (fun l => rev (sort_set l)).
Proof.
  intros l. split.
  - apply NoDup_rev. assert (H := sort_set_sorted l). induction H as [|a x Hx IH Ha]; constructor; [|exact IH].
    intros Hin. rewrite Forall_forall in Ha. specialize (Ha _ Hin). lia.
  - intros n. rewrite <- in_rev. apply sort_set_in.
Qed.

(** ** C108: which templates and inputs add_input, clear_input and set_input touch *)
Theorem C108_add_input : forall Fn G load nofuncs order (s : session Fn G) c, let s' := do_call load nofuncs order s c in
  ss_global s' = ss_global s /\ ss_threshold s' = ss_threshold s /\ (load (c_data c) = [] -> s' = s) /\
  Forall2 (fun t t' => (~ addressed (c_template c) t -> t' = t) /\ same_but_inputs t t' /\
      (forall n, n <> c_input c -> aget (t_inputs t') n = aget (t_inputs t) n) /\
      (addressed (c_template c) t -> load (c_data c) <> [] ->
       map fst (t_inputs t') = match aget (t_inputs t) (c_input c) with Some _ => map fst (t_inputs t) | None => map fst (t_inputs t) ++ [c_input c] end))
    (ss_templates s) (ss_templates s').
Proof. exact (@add_touches). Qed.
Print Assumptions C108_add_input.
Theorem C108_clear_input : forall Fn G (s : session Fn G) name, let s' := clear_input s name in
  ss_global s' = ss_global s /\ ss_threshold s' = ss_threshold s /\
  Forall2 (fun t t' => (~ addressed name t -> t' = t) /\ (addressed name t -> same_but_inputs t t' /\ t_inputs t' = []))
    (ss_templates s) (ss_templates s').
Proof. exact (@clear_touches). Qed.
Print Assumptions C108_clear_input.
Theorem C108_set_input : forall Fn G load nofuncs order (s : session Fn G) c, load_ok load ->
  let s' := set_input load nofuncs order s (c_data c) (c_input c) (c_template c) (c_groups c) in
  ss_global s' = ss_global s /\ ss_threshold s' = ss_threshold s /\
  Forall2 (fun t t' => (~ addressed (c_template c) t -> t' = t) /\
      (addressed (c_template c) t -> same_but_inputs t t' /\
        match load (c_data c) with
        | [] => t_inputs t' = []
        | items => exists i, t_inputs t' = [(c_input c, i)] /\ kept [] items (in_data i) /\ in_funcs i = nofuncs /\
            StronglySorted lt (in_groups i) /\ forall n, In n (in_groups i) <-> belongs (t_groups t) (c_input c) (groups_or_all (c_groups c)) n
        end))
    (ss_templates s) (ss_templates s').
Proof. exact (@set_touches). Qed.
Print Assumptions C108_set_input.
Example C108_ex : let s := xs [xt 1 "a" "per_input" [($"i", xinp ["x"])] (VList []); xt 2 "b" "per_input" [($"i", xinp ["x"])] (VList [])] in
  map t_inputs (ss_templates (clear_input s ($"a"))) = [[]; [($"i", xinp ["x"])]] /\ map t_inputs (ss_templates (clear_input s ($"_all_"))) = [[]; []] /\
  addressed ($"_all_") (xt 1 "a" "per_input" [] (VList [])) /\ ~ addressed ($"a") (xt 2 "b" "per_input" [] (VList [])).
Proof. cbv zeta. split; [reflexivity|]. split; [reflexivity|]. split; [now left|]. intros [H|H]; discriminate H. Qed.

(** ** C85: the groups keep template order when data is added to an input, as long as the template has
    so few groups that Python lists the set of their numbers in order (CPython: eight) *)
Theorem C85_small_templates : forall Fn G load nofuncs order bound (s : session Fn G) calls,
  (forall l, Forall (fun n => n < bound) l -> order l = sort_set l) ->
  Forall (fun t => t_inputs t = [] /\ Forall (fun g => tg_index g < bound) (t_groups t)) (ss_templates s) ->
  Forall (fun t => forall name, StronglySorted lt (input_groups t name)) (ss_templates (do_calls load nofuncs order s calls)).
Proof. intros. eapply small_sets_sorted; eassumption. Qed.
Print Assumptions C85_small_templates.
Definition xorder (l : list nat) : list nat := if forallb (fun n => Nat.ltb n 8) l then sort_set l else rev (sort_set l).
Example C85_ex : (forall l, Forall (fun n => n < 8) l -> xorder l = sort_set l) /\
  let t := {| t_id := 0; t_name := $"a"; t_method := $"per_input"; t_groups := [xtg 1 "g" []; xtg 0 "h" []];
              t_inputs := []; t_results := VList []; t_outputs := [] |} : template unit in
  let c g := {| c_data := s_ "x"; c_input := $"i"; c_template := $"a"; c_groups := [g] |} in
  map (fun t => input_groups t $"i") (ss_templates (do_calls xload tt xorder (xs [t]) [c $"g"; c $"h"])) = [[0; 1]].
Proof.
  split; [|vm_compute; reflexivity]. intros l H. unfold xorder. assert (E : forallb (fun n => Nat.ltb n 8) l = true).
  { apply forallb_forall. intros n Hn. rewrite Forall_forall in H. apply Nat.ltb_lt. now apply H. }
  now rewrite E.
Qed.
(** with more groups the order may be another one *)
Theorem C85_limits :
  ~ (forall Fn G load nofuncs order (s : session Fn G) calls, python_set order ->
       Forall (fun t => t_inputs t = []) (ss_templates s) ->
       Forall (fun t => forall name, StronglySorted lt (input_groups t name)) (ss_templates (do_calls load nofuncs order s calls))).
Proof.
  intros H.
  pose (t := {| t_id := 0; t_name := $"a"; t_method := $"per_input"; t_groups := map (fun n => xtg n "g" []) [1; 8];
                t_inputs := []; t_results := VList []; t_outputs := [] |} : template unit).
  pose (c := {| c_data := s_ "x"; c_input := $"i"; c_template := $"a"; c_groups := [] |}).
  specialize (H unit unit xload tt (fun l => rev (sort_set l)) (xs [t]) [c; c] C37_python_set).
  assert (E : Forall (fun t => t_inputs t = []) (ss_templates (xs [t]))) by (repeat constructor).
  specialize (H E). vm_compute in H. inversion H as [|? ? H1 _]. specialize (H1 ($"i")). vm_compute in H1.
  inversion H1 as [|? ? _ K2]. inversion K2 as [|? ? K3 _]. lia.
Qed.
Print Assumptions C85_limits.
