(** * Isolation: texts that are parsed together, and each by itself. *)
From Coq Require Import Lia.
From Verif Require Import PyBase DictFacts StrFacts SessionFacts SessionInputs Results Template Attributes MatchVar MatchFuncs GroupFuncs Parser QuietFacts Compile FuncTable Session Files Inputs Load Run SpecProgram PlainTop SpecIsolation IsolationFuncs.
Local Open Scope string_scope.
Local Open Scope list_scope.

(** ** lists of results *)
Lemma rmap_ext {A B} (f g : A -> res B) l : (forall a, In a l -> f a = g a) -> rmap f l = rmap g l.
Proof. induction l as [|a l IH]; intros H; cbn [rmap]; [reflexivity|]. rewrite (H a (or_introl eq_refl)), IH; [reflexivity|]. intros b Hb. apply H. now right. Qed.
Lemma rmap_cons_both {A B} (g : A -> res B) (h : A -> res (list B)) l cols : rmap (fun a => do v <- g a; do vs <- h a; Ok (v :: vs)) l = Ok cols <->
  exists row cols', rmap g l = Ok row /\ rmap h l = Ok cols' /\ cols = map (fun vv => fst vv :: snd vv) (combine row cols').
Proof.
  revert cols. induction l as [|a l IH]; intros cols; cbn [rmap].
  - split; [intros [= <-]; exists [], []; repeat split; reflexivity|]. intros (row & cols' & [= <-] & [= <-] & ->). reflexivity.
  - split.
    + intros E. destruct (g a) as [v|]; [|discriminate]. cbn [rbind] in *. destruct (h a) as [vs|]; [|discriminate]. cbn [rbind] in *.
      destruct (rmap _ l) as [cs|] eqn:Er; [|discriminate]. cbn [rbind] in E. injection E as <-. destruct (proj1 (IH cs) eq_refl) as (row & cols' & E1 & E2 & ->). rewrite E1, E2. exists (v :: row), (vs :: cols'). repeat split; reflexivity.
    + intros (row & cols' & E1 & E2 & ->). destruct (g a) as [v|]; [|discriminate]. cbn [rbind] in *. destruct (rmap g l) as [row'|]; [|discriminate]. cbn [rbind] in *. injection E1 as <-.
      destruct (h a) as [vs|]; [|discriminate]. cbn [rbind] in *. destruct (rmap h l) as [cs|]; [|discriminate]. cbn [rbind] in *. injection E2 as <-.
      rewrite (proj2 (IH _) (ex_intro _ row' (ex_intro _ cs (conj eq_refl (conj eq_refl eq_refl))))). reflexivity.
Qed.
Lemma rmap_len {A B} (f : A -> res B) l l' : rmap f l = Ok l' -> length l' = length l.
Proof. revert l'. induction l as [|a l IH]; intros l' E; cbn [rmap] in E; [injection E as <-; reflexivity|]. destruct (f a); [|discriminate]. cbn [rbind] in E. destruct (rmap f l); [|discriminate]. cbn [rbind] in E. injection E as <-. cbn [length]. now rewrite IH. Qed.
Lemma columns_cons row rows : forall n, length row = n -> map (column (row :: rows)) (seq 0 n) = map (fun vv => fst vv :: snd vv) (combine row (map (column rows) (seq 0 n))).
Proof.
  intros n Hn. cbn [column map]. assert (G : forall row k (c : nat -> list val), map (fun i => nth (i - k) row VNone :: c i) (seq k (length row)) = map (fun vv => fst vv :: snd vv) (combine row (map c (seq k (length row))))).
  { clear. intros row. induction row as [|v row IH]; intros k c; [reflexivity|]. cbn [length seq map combine]. rewrite Nat.sub_diag. cbn [fst snd nth]. f_equal.
    rewrite <- (IH (S k)). apply map_ext_in. intros i Hi. apply in_seq in Hi. destruct (i - k) as [|j] eqn:Ej; [lia|]. replace (i - S k) with j by lia. reflexivity. }
  specialize (G row 0 (column rows)). rewrite Hn in G. rewrite <- G. apply map_ext. intros i. now rewrite Nat.sub_0_r.
Qed.
Lemma transposed {A D} (f : A -> D -> res val) (ts : list A) (ds : list D) cols : rmap (fun t => rmap (f t) ds) ts = Ok cols <->
  exists rows, Forall2 (fun d row => rmap (fun t => f t d) ts = Ok row) ds rows /\ cols = map (column rows) (seq 0 (length ts)).
Proof.
  revert cols. induction ds as [|d ds IH]; intros cols.
  - cbn [rmap]. assert (E : forall ts : list A, rmap (fun _ => Ok (@nil val)) ts = Ok (map (fun _ => []) ts)). { clear. induction ts as [|t ts IH]; [reflexivity|]. cbn [rmap map rbind]. now rewrite IH. }
    rewrite E. assert (E2 : map (column []) (seq 0 (length ts)) = map (fun _ => []) ts). { clear. generalize 0. induction ts as [|t ts IH]; intros k; [reflexivity|]. cbn [length seq map]. rewrite (IH (S k)). reflexivity. }
    split; [intros [= <-]; exists []; split; [constructor|now rewrite E2]|]. intros (rows & H & ->). inversion H. now rewrite E2.
  - cbn [rmap]. rewrite (rmap_cons_both (fun t => f t d) (fun t => rmap (f t) ds)). split.
    + intros (row & cols' & E1 & E2 & ->). apply (proj1 (IH _)) in E2 as (rows & Hr & ->). exists (row :: rows). split; [now constructor|]. symmetry. apply columns_cons. now apply rmap_len in E1.
    + intros (rows & H & ->). inversion H as [|? row ? rows' E1 Hr]; subst. exists row, (map (column rows') (seq 0 (length ts))). split; [exact E1|]. split; [apply (proj2 (IH _)); now exists rows'|]. apply columns_cons. now apply rmap_len in E1.
Qed.

(** ** adding the texts *)
Lemma number_fst {A} (l : list A) : forall i, map fst (number i l) = seq i (length l).
Proof. induction l as [|x l IH]; intros i; [reflexivity|]. cbn [number map length seq fst]. now rewrite IH. Qed.
Lemma number_length {A} (l : list A) : forall i, length (number i l) = length l.
Proof. induction l as [|x l IH]; intros i; [reflexivity|]. cbn [number length]. now rewrite IH. Qed.
Lemma sort_seq n : forall i, sort_set (seq i n) = seq i n.
Proof.
  induction n as [|n IH]; intros i; [reflexivity|]. cbn [seq]. change (sort_set (i :: seq (S i) n)) with (insert_nat i (sort_set (seq (S i) n))). rewrite IH. destruct n as [|n]; [reflexivity|]. cbn [seq insert_nat]. now rewrite (proj2 (Nat.ltb_lt i (S i)) (Nat.lt_succ_diag_r i)).
Qed.
Section A.
Variables (order : list nat -> list nat) (w : world).
Hypothesis Horder : lists_ranges order.
Definition plain_groups (t : @template (list attribute)) : Prop := map tg_index (t_groups t) = seq 0 (length (t_groups t)) /\ Forall (fun g => tg_inputs g = []) (t_groups t).
Definition the_input (t : @template (list attribute)) (acc : list str) : list (str * inp) :=
  match acc with [] => [] | _ => [($"Default_Input", {| in_groups := seq 0 (length (t_groups t)); in_data := map TextData (firsts acc); in_funcs := [] |})] end.
Definition having (t : @template (list attribute)) (acc : list str) : @template (list attribute) := set_inputs t (the_input t acc).
Lemma extract_all t : plain_groups t -> extract_groups (t_groups t) $"Default_Input" [$"all"] = seq 0 (length (t_groups t)).
Proof.
  intros [H1 H2]. unfold extract_groups. change (in_strs $"all" [$"all"]) with true. cbv iota zeta.
  assert (E : forall l, Forall (fun g => tg_inputs g = []) l -> filter (fun g => match tg_inputs g with [] => true | _ => false end) l = l /\ filter (fun g => in_strs $"Default_Input" (tg_inputs g)) l = []).
  { induction 1 as [|g l Hg _ [IH1 IH2]]; [split; reflexivity|]. cbn [filter]. rewrite Hg. rewrite IH1. cbn [in_strs existsb]. now split. }
  destruct (E _ H2) as [-> ->]. cbn [map]. rewrite H1. apply sort_seq.
Qed.
Lemma update_having t acc d : plain_groups t -> update_input [] order (having t acc) $"Default_Input" [$"all"] [TextData d] = having t (acc ++ [d]).
Proof using Horder.
  intros Hg. unfold update_input, having. cbn [set_inputs t_groups t_inputs]. rewrite (extract_all t Hg).
  destruct acc as [|a acc]; [reflexivity|]. cbn [the_input aget]. change (str_eqb $"Default_Input" $"Default_Input") with true. cbv iota. cbn [in_groups in_data in_funcs aset]. change (str_eqb $"Default_Input" $"Default_Input") with true. cbv iota.
  unfold set_inputs. cbn [t_id t_name t_method t_groups t_results t_outputs]. f_equal. cbn [app]. unfold the_input. do 3 f_equal.
  - apply Horder. intros x. rewrite in_app_iff, !in_seq. lia.
  - change (load_data [] [TextData d]) with [TextData d]. unfold load_data. cbn [fold_left]. fold (take (map TextData (firsts (a :: acc))) (TextData d)). rewrite take_text. unfold firsts. now rewrite take_rev.
Qed.
Theorem texts_having gl th ts (ds : list str) : Forall plain_groups ts -> Forall (data_text w) ds ->
  forall acc, add_texts order w (map (fun d => (VStr d, $"_all_")) ds) {| ss_templates := map (fun t => having t acc) ts; ss_global := gl; ss_threshold := th |} =
  {| ss_templates := map (fun t => having t (acc ++ ds)) ts; ss_global := gl; ss_threshold := th |}.
Proof using Horder.
  intros Hg. induction 1 as [|d ds H1 _ IH]; intros acc; [cbn [map]; now rewrite app_nil_r|]. cbn [map fst snd] in *. unfold add_texts in *. cbn [fold_left fst snd]. unfold add_input at 2. cbv zeta. rewrite (load_text w d H1). unfold set_templates. cbn [ss_templates map ss_global ss_threshold].
  rewrite map_map. rewrite (map_ext_in _ (fun t => having t (acc ++ [d]))).
  2:{ intros t Ht. replace (selected $"_all_" (having t acc)) with true by (unfold selected; change (str_eqb $"_all_" all_name) with true; now destruct (str_eqb _ _)). apply update_having. rewrite Forall_forall in Hg. now apply Hg. }
  rewrite IH. now rewrite <- app_assoc.
Qed.
End A.
(** ** parsing the texts *)
Section B.
Variables (fsize : str -> res Z) (tsize : str -> Z) (prs : nat -> dict -> list nat -> list attribute -> datum -> val -> res (dict * val)).
Variable multi : @template (list attribute) -> dict -> res (dict * @template (list attribute)).
Variable gl : dict.
(** the result of a text by itself *)
Definition single (t : @template (list attribute)) (d : str) : res val := do (_, v) <- prs (t_id t) gl (seq 0 (length (t_groups t))) [] (TextData d) (VDict []); form_datum v.
Hypothesis Hquiet : forall i idxs fs d g v, prs i gl idxs fs d (VDict []) = Ok (g, v) -> g = gl.
Lemma texts_sized (ts : list (@template (list attribute))) ds : forall acc, exists z, rfold (fun acc t =>
    rfold (fun acc i => rfold (add_size fsize tsize) (in_data (snd i)) (fst acc, snd acc + length (in_data (snd i)))%nat) (t_inputs t) acc) (map (fun t => having t ds) ts) acc = Ok z.
Proof.
  assert (G : forall l acc, exists z, rfold (add_size fsize tsize) (map TextData l) acc = Ok z). { clear. induction l as [|x l IH]; intros acc; [now exists acc|]. cbn [map rfold add_size rbind]. apply IH. }
  induction ts as [|t ts IH]; intros acc; [now exists acc|]. cbn [map rfold having set_inputs t_inputs]. unfold the_input at 1. destruct ds as [|d ds].
  - cbn [rfold rbind]. apply IH.
  - cbn [rfold snd in_data]. destruct (G (firsts (d :: ds)) (fst acc, (snd acc + length (map TextData (firsts (d :: ds))))%nat)) as [z E]. rewrite E. cbn [rbind]. apply IH.
Qed.
Lemma steps_single (t : @template (list attribute)) ds0 l : t_method t = $"per_input" -> forall old,
  rfold (fun st d => do (g', v) <- prs (t_id (having t ds0)) (fst st) (seq 0 (length (t_groups t))) [] d (VDict []); do t' <- form_results (snd st) v; Ok (g', t')) (map TextData l) (gl, set_results (having t ds0) (VList old)) =
  do vs <- rmap (single t) l; Ok (gl, set_results (having t ds0) (VList (old ++ vs))).
Proof using Hquiet.
  intros Hm. induction l as [|d l IH]; intros old; cbn [map rfold rmap rbind]; [now rewrite app_nil_r|]. cbn [fst snd]. change (t_id (having t ds0)) with (t_id t) in *. unfold single at 1.
  destruct (prs (t_id t) gl _ [] (TextData d) (VDict [])) as [[g v]|] eqn:E; [|reflexivity]. apply Hquiet in E. subst g. cbn [rbind]. unfold form_results. destruct (form_datum v) as [v'|]; [|reflexivity]. cbn [rbind].
  change (t_method (set_results (having t ds0) (VList old))) with (t_method t). rewrite Hm. change (str_eqb $"per_input" $"per_template") with false. change (str_eqb $"per_input" $"per_input") with true. cbv iota. cbn [set_results t_results t_id t_name t_method t_groups t_inputs t_outputs]. cbn [rbind].
  change (set_results (set_results (having t ds0) (VList old)) (VList (old ++ [v']))) with (set_results (having t ds0) (VList (old ++ [v']))). rewrite IH. destruct (rmap (single t) l) as [vs|]; cbn [rbind]; [|reflexivity]. now rewrite <- app_assoc.
Qed.
Definition fresh (t : @template (list attribute)) : Prop := t_method t = $"per_input" /\ t_results t = VList [] /\ t_outputs t = [].
Lemma parse_single (t : @template (list attribute)) ds : fresh t -> parse_one prs (having t ds) gl = do vs <- rmap (single t) (firsts ds); Ok (gl, set_results (having t ds) (VList vs)).
Proof using Hquiet.
  intros (Hm & Hr & Ho). unfold parse_one. change (t_method (having t ds)) with (t_method t). rewrite Hm. change (lower $"per_input") with $"per_input". change (str_eqb $"per_input" $"per_input") with true. cbv iota.
  assert (E0 : having t ds = set_results (having t ds) (VList [])) by (destruct t; cbn in *; now subst).
  change (t_inputs (having t ds)) with (the_input t ds). unfold the_input. destruct ds as [|d ds'] eqn:Ed.
  - cbn [rfold]. change (firsts []) with (@nil str). cbn [rmap rbind]. now rewrite <- E0.
  - cbn [rfold snd in_groups in_data in_funcs]. replace (gl, having t (d :: ds')) with (gl, set_results (having t (d :: ds')) (VList [])) by (now rewrite <- E0). rewrite (steps_single t (d :: ds') (firsts (d :: ds')) Hm []). cbn [app]. now destruct (rmap (single t) _).
Qed.
Lemma each_single (ts : list (@template (list attribute))) ds : Forall fresh ts ->
  each (parse_one prs) (map (fun t => having t ds) ts) gl = do cols <- rmap (fun t => rmap (single t) (firsts ds)) ts; Ok (gl, map (fun tc => set_results (having (fst tc) ds) (VList (snd tc))) (combine ts cols)).
Proof using Hquiet.
  induction 1 as [|t ts Ht _ IH]; [reflexivity|]. cbn [map each rmap]. rewrite (parse_single t ds Ht). destruct (rmap (single t) (firsts ds)) as [vs|]; [|reflexivity]. cbn [rbind]. rewrite IH. destruct (rmap _ ts) as [cols|]; [|reflexivity]. reflexivity.
Qed.
Lemma texts_single (ts : list (@template (list attribute))) th ds : Forall fresh ts ->
  (do s <- Session.parse fsize tsize prs multi {| ss_templates := map (fun t => having t ds) ts; ss_global := gl; ss_threshold := th |} (VBool true) (VBool false); Ok (result s [] $"list")) =
  do cols <- rmap (fun t => rmap (single t) (firsts ds)) ts; Ok (VList (map VList cols)).
Proof using Hquiet.
  intros Hf. unfold Session.parse, data_size. cbn [ss_templates ss_global]. destruct (texts_sized ts ds (0%Z, 0)) as [[z n] Ez]. rewrite Ez. cbn [rbind]. change (is_true (VBool true)) with true. change (is_true (VBool false)) with false. cbn [andb].
  rewrite (each_single ts ds Hf). destruct (rmap _ ts) as [cols|] eqn:Er; [|reflexivity]. cbn [rbind]. apply rmap_len in Er.
  assert (G : rmap run_outputs (map (fun tc => set_results (having (fst tc) ds) (VList (snd tc))) (combine ts cols)) = Ok (map (fun tc => set_results (having (fst tc) ds) (VList (snd tc))) (combine ts cols))).
  { clear Er Ez. revert cols. induction Hf as [|t ts (Hm & Hr & Ho) _ IH]; intros [|c cols]; try reflexivity. cbn [combine map rmap]. unfold run_outputs at 1. change (t_outputs (set_results (having (fst (t, c)) ds) (VList (snd (t, c))))) with (t_outputs t). rewrite Ho. cbn [rfold rbind]. rewrite (IH cols). reflexivity. }
  rewrite G. cbn [rbind]. unfold result. cbn [pick ss_templates set_templates set_global]. change (lower $"list") with $"list". change (str_eqb $"list" $"list") with true. cbv iota. do 2 f_equal. rewrite map_map. cbn [set_results t_results].
  clear - Er. revert cols Er. induction ts as [|t ts IH]; intros [|c cols] Er; try discriminate; [reflexivity|]. cbn [combine map snd]. f_equal. apply IH. now injection Er.
Qed.
End B.
(** ** the program *)
Section R.
Variables (clock : str -> option val) (k2i : bool) (order : list nat -> list nat) (w : world).
Hypothesis Horder : lists_ranges order.
Section L.
Variables (base : str) (vars : dict) (text : str) (ts : list tpl).
Hypothesis Hload : load_template w order base vars text = Ok ts.
Hypothesis Hmethod : Forall (fun t => tp_method t = $"per_input") ts.
Hypothesis Hinputs : Forall no_inputs ts.
Hypothesis Houtputs : Forall no_outputs ts.
Hypothesis Hrecords : Forall records_nothing ts.
Definition objects : list (@template (list attribute)) := ss_templates (session_of ts).
Definition one_text : @template (list attribute) -> str -> res val := single (parser_of clock k2i w ts) [].
Lemma tgroups_plain gs : Forall (fun g => group_inputs g = []) gs -> forall i, map tg_index (map tgroup_of (number i gs)) = seq i (length gs) /\ Forall (fun g => tg_inputs g = []) (map tgroup_of (number i gs)).
Proof.
  induction 1 as [|g gs Hg _ IH]; intros i; [split; [reflexivity|constructor]|]. destruct (IH (S i)) as [E1 E2]. cbn [number map length seq]. split.
  - rewrite E1. f_equal. unfold tgroup_of. cbn [snd fst]. now destruct g.
  - constructor; [|exact E2]. unfold tgroup_of. cbn [snd fst]. destruct g. exact Hg.
Qed.
Lemma number_In {A} (l : list A) x : forall i, In x (number i l) -> In (snd x) l.
Proof. induction l as [|y l IH]; intros i H; cbn [number] in H; [destruct H|]. destruct H as [<-|H]; [now left|right; now apply IH in H]. Qed.
Lemma objects_from (t : @template (list attribute)) : In t objects -> exists i T ms, In T ts /\ t = template_of ms (i, T).
Proof. unfold objects. intros H. apply in_map_iff in H as ([[i T] ms] & <- & Hi). apply in_combine_l in Hi. exists i, T, ms. split; [now apply number_In in Hi|reflexivity]. Qed.
Lemma objects_plain : Forall plain_groups objects.
Proof using Hinputs.
  apply Forall_forall. intros t Ht. apply objects_from in Ht as (i & T & ms & HT & ->). rewrite Forall_forall in Hinputs. apply Hinputs in HT as [_ HT]. destruct (tgroups_plain _ HT 0) as [E1 E2]. split; [|exact E2].
  cbn [template_of t_groups snd]. rewrite E1. rewrite map_length. f_equal. clear. generalize 0. induction (tp_groups T) as [|g gs IH]; intros i; [reflexivity|]. cbn [number length]. now rewrite <- IH.
Qed.
Lemma objects_fresh : Forall fresh objects.
Proof using Hmethod Houtputs. apply Forall_forall. intros t Ht. apply objects_from in Ht as (i & T & ms & HT & ->). rewrite Forall_forall in Hmethod, Houtputs. split; [exact (Hmethod T HT)|]. split; [reflexivity|]. cbn [template_of t_outputs snd]. now rewrite (Houtputs T HT). Qed.
Lemma objects_empty : objects = map (fun t => having t []) objects.
Proof using Hinputs.
  symmetry. rewrite <- (map_id objects) at 2. apply map_ext_in. intros t Ht. apply objects_from in Ht as (i & T & ms & HT & ->). rewrite Forall_forall in Hinputs. apply Hinputs in HT as [HT _]. unfold having, set_inputs, template_of. cbn [the_input]. cbn [t_id t_name t_method t_groups t_results t_outputs snd fst]. now rewrite HT.
Qed.
Theorem together ds : Forall (data_text w) ds ->
  ttp_result clock k2i order w base vars text (map (fun d => (VStr d, $"_all_")) ds) $"list" = do cols <- rmap (fun t => rmap (one_text t) (firsts ds)) objects; Ok (VList (map VList cols)).
Proof using Hload Hmethod Hinputs Houtputs Hrecords Horder.
  intros Hd. unfold ttp_result, ttp_session, parsed. rewrite Hload. cbn [rbind]. change (session_of ts) with {| ss_templates := objects; ss_global := @nil (key * val); ss_threshold := 5242880 |}. rewrite objects_empty at 1. rewrite (texts_having order w Horder _ _ objects ds objects_plain Hd []). cbn [app].
  unfold one_text. apply texts_single; [|exact objects_fresh].
  intros i idxs fs d g v E. unfold parser_of in E. destruct (nth_error ts i) as [T|] eqn:En; [|discriminate]. destruct (text_of w d) as [[x n]|]; [|discriminate]. cbn [rbind] in E. apply parse_text_quiet in E; [exact E|].
  rewrite Forall_forall in Hrecords. apply Hrecords. eapply nth_error_In, En.
Qed.
Lemma firsts_one d : firsts [d] = [d].
Proof. reflexivity. Qed.
Theorem alone d : data_text w d -> forall row, ttp_result clock k2i order w base vars text [(VStr d, $"_all_")] $"list" = Ok (VList (map (fun v => VList [v]) row)) <-> rmap (fun t => one_text t d) objects = Ok row.
Proof using Hload Hmethod Hinputs Houtputs Hrecords Horder.
  intros Hd row. change [(VStr d, $"_all_")] with (map (fun d => (VStr d, $"_all_")) [d]). rewrite (together [d] (Forall_cons _ Hd (Forall_nil _))). rewrite firsts_one. cbn [rmap]. generalize objects as l. clear. intros l.
  assert (E : rmap (fun t => do b <- one_text t d; Ok [b]) l = do row <- rmap (fun t => one_text t d) l; Ok (map (fun v => [v]) row)).
  { induction l as [|t l IH]; [reflexivity|]. cbn [rmap]. rewrite IH. destruct (one_text t d); [|reflexivity]. cbn [rbind]. destruct (rmap (fun t0 => one_text t0 d) l); reflexivity. }
  rewrite (rmap_ext _ (fun t => do b <- one_text t d; Ok [b])) by (intros t _; now destruct (one_text t d)). rewrite E. destruct (rmap (fun t => one_text t d) l) as [r|]; cbn [rbind]; [|split; intros K; discriminate K]. rewrite map_map. split; [|intros [= ->]; reflexivity].
  intros K. f_equal. assert (K' : map (fun v => VList [v]) r = map (fun v => VList [v]) row) by congruence. clear - K'. revert row K'. induction r as [|v r IH]; intros [|v' row] K; try discriminate; [reflexivity|]. cbn [map] in K. f_equal; [congruence|]. apply IH. congruence.
Qed.
Lemma objects_length : length objects = length ts.
Proof.
  unfold objects, session_of. cbn [ss_templates]. rewrite map_length, combine_length, number_length.
  assert (L : forall l cur, length (output_macros cur l) = length l) by (induction l as [|t l IH]; intros cur; cbn [output_macros length]; [reflexivity|now rewrite IH]). rewrite L. apply Nat.min_id.
Qed.
Theorem isolated ds R : Forall (data_text w) ds ->
  ttp_result clock k2i order w base vars text (map (fun d => (VStr d, $"_all_")) ds) $"list" = Ok R <->
  exists rows, Forall2 (fun d row => ttp_result clock k2i order w base vars text [(VStr d, $"_all_")] $"list" = Ok (VList (map (fun v => VList [v]) row))) (firsts ds) rows /\
               R = VList (map (fun i => VList (column rows i)) (seq 0 (length ts))).
Proof using Hload Hmethod Hinputs Houtputs Hrecords Horder.
  intros Hd. rewrite (together ds Hd).
  assert (Hf : Forall (data_text w) (firsts ds)). { unfold firsts. apply Forall_rev. apply Forall_forall. intros d Hi. apply nodup_In in Hi. apply in_rev in Hi. rewrite Forall_forall in Hd. now apply Hd. }
  assert (G : forall rows, Forall2 (fun d row => rmap (fun t => one_text t d) objects = Ok row) (firsts ds) rows <-> Forall2 (fun d row => ttp_result clock k2i order w base vars text [(VStr d, $"_all_")] $"list" = Ok (VList (map (fun v => VList [v]) row))) (firsts ds) rows).
  { induction Hf as [|d l H1 _ IH]; intros rows; [split; intros H; inversion H; constructor|]. split; intros H; inversion H as [|? row ? rows' Ha Hb]; subst; (constructor; [now apply (alone d H1)|now apply IH]). }
  pose proof (transposed one_text objects (firsts ds)) as T. rewrite objects_length in T. split.
  - intros E. destruct (rmap _ objects) as [cols|] eqn:Ec; [|discriminate]. cbn [rbind] in E. destruct (proj1 (T cols) eq_refl) as (rows & Hr & ->). exists rows. split; [now apply G|]. injection E as <-. now rewrite map_map.
  - intros (rows & Hr & ->). apply G in Hr. rewrite (proj2 (T _) (ex_intro _ rows (conj Hr eq_refl))). cbn [rbind]. now rewrite map_map.
Qed.
End L.
End R.
