(** * SessionFacts: proofs about Session.v against SpecSession.v *)
From Verif Require Import PyBase DictFacts PyEqFacts Session SpecSession.
From Coq Require Import Sorting.Sorted Sorting.Permutation.
Local Open Scope string_scope.
Local Open Scope list_scope.

(** ** generic *)
Lemma rfold_app {A S} (f : S -> A -> res S) l1 l2 s :
  rfold f (l1 ++ l2) s = rbind (rfold f l1 s) (rfold f l2).
Proof. revert s; induction l1 as [|a l1 IH]; intros s; cbn; [reflexivity|]. destruct (f s a); cbn; [apply IH|reflexivity]. Qed.
Lemma rfold_map {A B S} (f : S -> B -> res S) (h : A -> B) l s :
  rfold f (map h l) s = rfold (fun s a => f s (h a)) l s.
Proof. revert s; induction l as [|a l IH]; intros s; cbn; [reflexivity|]. destruct (f s (h a)); cbn; [apply IH|reflexivity]. Qed.
Lemma rfold_concat {A B S} (f : S -> B -> res S) (h : A -> list B) l s :
  rfold f (concat (map h l)) s = rfold (fun s a => rfold f (h a) s) l s.
Proof.
  revert s; induction l as [|a l IH]; intros s; cbn; [reflexivity|]. rewrite rfold_app.
  destruct (rfold f (h a) s); cbn; [apply IH|reflexivity].
Qed.
Lemma rfold_ext {A S} (f g : S -> A -> res S) l : (forall s a, f s a = g s a) -> forall s, rfold f l s = rfold g l s.
Proof. intros H. induction l as [|a l IH]; intros s; cbn; [reflexivity|]. rewrite H. destruct (g s a); cbn; auto. Qed.

Lemma rmap_Forall2 {A B} (f : A -> res B) l l' : rmap f l = Ok l' <-> Forall2 (fun a b => f a = Ok b) l l'.
Proof.
  revert l'; induction l as [|a l IH]; intros l'; cbn.
  - split; [intros H; injection H as <-; constructor|intros H; inversion H; reflexivity].
  - destruct (f a) as [b|e] eqn:E; cbn.
    + destruct (rmap f l) as [bs|e] eqn:E'; cbn.
      * split; [intros H; injection H as <-; constructor; [exact E|now apply IH]|].
        intros H; inversion H; subst. f_equal. f_equal; [congruence|]. assert (Ok bs = Ok l'0) by now apply IH. congruence.
      * split; [discriminate|]. intros H; inversion H; subst. assert (Raise e = Ok l'0) by now apply IH. discriminate.
    + split; [discriminate|]. intros H; inversion H; subst. congruence.
Qed.

Lemma Forall2_imp {A B} (P Q : A -> B -> Prop) l l' : (forall a b, P a b -> Q a b) -> Forall2 P l l' -> Forall2 Q l l'.
Proof. intros H. induction 1; constructor; auto. Qed.

Lemma in_strs_In x l : in_strs x l = true <-> In x l.
Proof.
  unfold in_strs. rewrite existsb_exists. split; [intros (y & H & E); apply str_eqb_eq in E; now subst|].
  intros H. exists x. split; [exact H|apply str_eqb_refl].
Qed.

Lemma ddel_split {V} (d : list (key * V)) k v : dget d k = Some v ->
  exists d1 d2, d = d1 ++ (k, v) :: d2 /\ ~ In k (map fst d1) /\ ddel d k = d1 ++ d2.
Proof.
  induction d as [|[k' v'] d IH]; cbn; [discriminate|]. destruct (key_eqb_spec k k') as [->|H].
  - intros E. injection E as ->. exists [], d. repeat split; auto.
  - intros E. destruct (IH E) as (d1 & d2 & -> & Hn & ->). exists ((k', v') :: d1), d2. repeat split.
    cbn. intros [E'|Hi]; [congruence|tauto].
Qed.
Lemma ddel_app {V} (d1 d2 : list (key * V)) k v : ~ In k (map fst d1) -> ddel (d1 ++ (k, v) :: d2) k = d1 ++ d2.
Proof.
  induction d1 as [|[k' v'] d1 IH]; cbn; [now rewrite key_eqb_refl|]. intros H.
  destruct (key_eqb_spec k k') as [->|H']; [tauto|]. rewrite IH; [reflexivity|tauto].
Qed.
Lemma dget_app_notin {V} (d1 d2 : list (key * V)) k : ~ In k (map fst d1) -> dget (d1 ++ d2) k = dget d2 k.
Proof.
  induction d1 as [|[k' v'] d1 IH]; cbn; [reflexivity|]. intros H. destruct (key_eqb_spec k k') as [->|H']; [tauto|]. apply IH. tauto.
Qed.

Lemma existsb_VStr s l : existsb (py_eq (VStr s)) l = true <-> In (VStr s) l.
Proof.
  rewrite existsb_exists. split.
  - intros (x & H & E). destruct x; cbn in E; try discriminate. apply str_eqb_eq in E. now subst.
  - intros H. exists (VStr s). split; [exact H|apply str_eqb_refl].
Qed.

Lemma form_datum_spec v d : form_datum v = Ok d <-> shaped v d.
Proof.
  unfold form_datum. fold anonymous. split.
  - destruct v as [| | | |l|x|]; try discriminate.
    + destruct (existsb _ l) eqn:E; [discriminate|]. intros H. injection H as <-. constructor.
      intros Hi. apply existsb_VStr in Hi. unfold anonymous in E. congruence.
    + destruct (dget x (KS anonymous)) as [w|] eqn:E.
      * destruct (ddel_split _ _ _ E) as (d1 & d2 & -> & Hn & ->).
        destruct (d1 ++ d2) as [|kv r] eqn:Er.
        -- intros H. injection H as <-. apply app_eq_nil in Er as [-> ->]. apply sh_only.
        -- destruct w; try discriminate. intros H. injection H as <-. rewrite <- Er. apply sh_mixed; [exact Hn|congruence].
      * intros H. injection H as <-. constructor. now apply dget_None_notin.
  - intros H. inversion H; subst; clear H.
    + apply dget_None_notin in H0. unfold anonymous. now rewrite H0.
    + cbn [dget ddel]. unfold anonymous. now rewrite !key_eqb_refl.
    + unfold anonymous. rewrite dget_app_notin by assumption. cbn [dget]. rewrite key_eqb_refl, ddel_app by assumption.
      destruct (d1 ++ d2) eqn:E; [congruence|reflexivity].
    + destruct (existsb _ l) eqn:E; [|reflexivity]. apply existsb_VStr in E. contradiction.
Qed.

Set Default Proof Using "Type".
Section Facts.
Context {Fn G : Type}.
Local Notation input := (input Fn).
Local Notation template := (template Fn).
Local Notation session := (session Fn G).
Local Notation job := (@job Fn).
Variables (fsize : str -> res Z) (tsize : str -> Z) (load : val -> list datum) (nofuncs : Fn)
  (order : list nat -> list nat)
  (prs : nat -> G -> list nat -> Fn -> datum -> val -> res (G * val))
  (multi : template -> G -> res (G * template)).

Lemma set_results_same (t : template) v : same_but_results t (set_results t v).
Proof. repeat split. Qed.
Lemma same_eq (t t' : template) : same_but_results t t' -> t' = set_results t (t_results t').
Proof. destruct t, t'. unfold same_but_results, set_results. cbn. intros (-> & -> & -> & -> & -> & ->). reflexivity. Qed.
Lemma same_trans (t1 t2 t3 : template) : same_but_results t1 t2 -> same_but_results t2 t3 -> same_but_results t1 t3.
Proof. unfold same_but_results. intros (? & ? & ? & ? & ? & ?) (? & ? & ? & ? & ? & ?). repeat split; etransitivity; eassumption. Qed.
Lemma same_jobs (t t' : template) : same_but_results t t' -> jobs t' = jobs t.
Proof. unfold same_but_results, jobs. intros (?&?&?&?&E&?). now rewrite E. Qed.

(** ** one template *)
Definition sep_step (id : nat) (st : G * template) (j : job) : res (G * template) :=
  do (g', v) <- run_job prs id (fst st) j (VDict []); do t' <- form_results (snd st) v; Ok (g', t').

Lemma parse_one_per_input_eq t g : t_method t = $"per_input" ->
  parse_one prs t g = rfold (sep_step (t_id t)) (jobs t) (g, t).
Proof.
  intros Hm. unfold parse_one. rewrite Hm. cbn [str_eqb]. replace (str_eqb (lower $"per_input") $"per_input") with true by reflexivity.
  unfold jobs. rewrite rfold_concat. apply rfold_ext. intros s i. rewrite rfold_map. reflexivity.
Qed.

Lemma parse_one_per_template_eq t g : t_method t = $"per_template" ->
  parse_one prs t g = (do (g', v) <- rfold (fun st j => run_job prs (t_id t) (fst st) j (snd st)) (jobs t) (g, VDict []);
                       do t' <- form_results t v; Ok (g', t')).
Proof.
  intros Hm. unfold parse_one. rewrite Hm.
  replace (str_eqb (lower $"per_template") $"per_input") with false by reflexivity.
  replace (str_eqb (lower $"per_template") $"per_template") with true by reflexivity.
  unfold jobs. rewrite rfold_concat. f_equal. apply rfold_ext. intros s i. rewrite rfold_map. reflexivity.
Qed.

Lemma form_results_per_input (t : template) old v t' : t_method t = $"per_input" -> t_results t = VList old ->
  (form_results t v = Ok t' <-> exists d, shaped v d /\ t' = set_results t (VList (old ++ [d]))).
Proof.
  intros Hm Hr. unfold form_results. rewrite Hm, Hr.
  replace (str_eqb $"per_input" $"per_template") with false by reflexivity.
  replace (str_eqb $"per_input" $"per_input") with true by reflexivity.
  destruct (form_datum v) as [d|e] eqn:E; cbn [rbind].
  - split.
    + intros H. injection H as <-. exists d. split; [now apply form_datum_spec|reflexivity].
    + intros (d' & Hd & ->). apply form_datum_spec in Hd. congruence.
  - split; [discriminate|]. intros (d & Hd & _). apply form_datum_spec in Hd. congruence.
Qed.

Lemma form_results_per_template (t : template) v t' : t_method t = $"per_template" ->
  (form_results t v = Ok t' <-> exists d, shaped v d /\ t' = set_results t d).
Proof.
  intros Hm. unfold form_results. rewrite Hm.
  replace (str_eqb $"per_template" $"per_template") with true by reflexivity.
  destruct (form_datum v) as [d|e] eqn:E; cbn [rbind].
  - split.
    + intros H. injection H as <-. exists d. split; [now apply form_datum_spec|reflexivity].
    + intros (d' & Hd & ->). apply form_datum_spec in Hd. congruence.
  - split; [discriminate|]. intros (d & Hd & _). apply form_datum_spec in Hd. congruence.
Qed.

Lemma sep_steps id js : forall g (t : template) old g' t',
  t_method t = $"per_input" -> t_results t = VList old ->
  (rfold (sep_step id) js (g, t) = Ok (g', t') <->
   exists vs ds, separately (run_job prs id) g js g' vs /\ Forall2 shaped vs ds /\ t' = set_results t (VList (old ++ ds))).
Proof.
  induction js as [|j js IH]; intros g t old g' t' Hm Hr; cbn [rfold].
  - split.
    + intros H. injection H as <- <-. exists [], []. repeat split; try constructor. rewrite app_nil_r, <- Hr. now destruct t.
    + intros (vs & ds & Hs & Hf & ->). inversion Hs; subst. inversion Hf; subst. rewrite app_nil_r, <- Hr. now destruct t.
  - unfold sep_step at 1. cbn [fst snd]. destruct (run_job prs id g j (VDict [])) as [[g1 v]|e] eqn:E; cbn [rbind].
    + destruct (form_results t v) as [t1|e] eqn:Ef; cbn [rbind].
      * apply (form_results_per_input t old v t1 Hm Hr) in Ef as (d & Hd & ->).
        rewrite (IH g1 _ (old ++ [d]) g' t'); [|exact Hm|reflexivity]. split.
        -- intros (vs & ds & Hs & Hf & ->). exists (v :: vs), (d :: ds). split; [econstructor; eassumption|].
           split; [now constructor|]. unfold set_results. cbn. now rewrite <- app_assoc.
        -- intros (vs & ds & Hs & Hf & ->). inversion Hs; subst. rewrite E in *.
           match goal with H : Ok _ = Ok _ |- _ => injection H as <- <- end. inversion Hf; subst.
           exists vs0, l'. split; [assumption|]. split; [assumption|]. unfold set_results; cbn.
           assert (y = d) as -> by (apply form_datum_spec in Hd; match goal with H : shaped v y |- _ => apply form_datum_spec in H; congruence end).
           now rewrite <- app_assoc.
      * split; [discriminate|]. intros (vs & ds & Hs & Hf & ->). inversion Hs; subst. rewrite E in *.
        match goal with H : Ok _ = Ok _ |- _ => injection H as <- <- end. inversion Hf; subst.
        assert (Hx : form_results t v = Ok (set_results t (VList (old ++ [y])))) by (apply (form_results_per_input t old); eauto).
        congruence.
    + split; [discriminate|]. intros (vs & ds & Hs & _). inversion Hs; subst. congruence.
Qed.

Lemma tog_steps (run : G -> job -> val -> res (G * val)) js : forall g v g' v',
  (rfold (fun st j => run (fst st) j (snd st)) js (g, v) = Ok (g', v') <-> together run g v js g' v').
Proof.
  induction js as [|j js IH]; intros g v g' v'; cbn [rfold fst snd].
  - split; [intros H; injection H as <- <-; constructor|intros H; inversion H; reflexivity].
  - destruct (run g j v) as [[g1 v1]|e] eqn:E; cbn [rbind].
    + rewrite IH. split; [intros H; econstructor; eassumption|]. intros H; inversion H; subst. congruence.
    + split; [discriminate|]. intros H; inversion H; subst; congruence.
Qed.

Theorem parse_one_spec (t : template) g g' t' : documented_method t ->
  (parse_one prs t g = Ok (g', t') <-> template_parsed prs t g g' t').
Proof.
  intros [[Hm [old Hr]]|Hm].
  - rewrite parse_one_per_input_eq by exact Hm. rewrite (sep_steps _ _ g t old g' t' Hm Hr). split.
    + intros (vs & ds & Hs & Hf & ->). eapply tp_per_input; eauto using set_results_same.
    + intros H. inversion H; subst.
      * exists vs, ds. split; [assumption|]. split; [assumption|].
        match goal with H : same_but_results t t' |- _ => rewrite (same_eq _ _ H) end. congruence.
      * rewrite Hm in *. discriminate.
  - rewrite parse_one_per_template_eq by exact Hm. split.
    + intros H. destruct (rfold _ _ _) as [[g1 v]|e] eqn:E; [|discriminate]. cbn [rbind] in H.
      apply tog_steps in E. destruct (form_results t v) as [t1|e] eqn:Ef; [|discriminate]. cbn [rbind] in H. injection H as <- <-.
      apply form_results_per_template in Ef as (d & Hd & ->); [|exact Hm]. eapply tp_per_template; eauto using set_results_same.
    + intros H. inversion H; subst; [rewrite Hm in *; discriminate|].
      match goal with H : together _ _ _ _ _ _ |- _ => apply tog_steps in H; rewrite H end. cbn [rbind].
      assert (Ef : form_results t v = Ok t').
      { apply form_results_per_template; [exact Hm|]. eexists. split; [eassumption|]. now apply same_eq. }
      now rewrite Ef.
Qed.

Lemma each_spec (f : template -> G -> res (G * template)) (R : template -> G -> G -> template -> Prop) ts :
  Forall (fun t => forall g g' t', f t g = Ok (g', t') <-> R t g g' t') ts ->
  forall g g' ts', each f ts g = Ok (g', ts') <-> in_turn R ts g g' ts'.
Proof.
  induction 1 as [|t ts Ht _ IH]; intros g g' ts'; cbn [each].
  - split; [intros H; injection H as <- <-; constructor|intros H; inversion H; reflexivity].
  - destruct (f t g) as [[g1 t1]|e] eqn:E; cbn [rbind].
    + destruct (each f ts g1) as [[g2 ts2]|e] eqn:E'; cbn [rbind].
      * split.
        -- intros H. injection H as <- <-. exact (it_cons R t g g1 t1 ts g2 ts2 (proj1 (Ht _ _ _) E) (proj1 (IH _ _ _) E')).
        -- intros H. inversion H; subst. match goal with H : R t g _ _ |- _ => apply Ht in H; rewrite E in H; injection H as <- <- end.
           match goal with H : in_turn _ _ _ _ _ |- _ => apply IH in H; rewrite E' in H; injection H as <- <- end. reflexivity.
      * split; [discriminate|]. intros H. inversion H; subst.
        match goal with H : R t g _ _ |- _ => apply Ht in H; rewrite E in H; injection H as <- <- end.
        match goal with H : in_turn _ _ _ _ _ |- _ => apply IH in H; rewrite E' in H; discriminate end.
    + split; [discriminate|]. intros H. inversion H; subst.
      match goal with H : R t g _ _ |- _ => apply Ht in H; congruence end.
Qed.

Lemma pipe_spec fs : forall v w, rfold (fun r (f : val -> res val) => f r) fs v = Ok w <-> pipe fs v w.
Proof.
  induction fs as [|f fs IH]; intros v w; cbn [rfold].
  - split; [intros H; injection H as <-; constructor|intros H; inversion H; reflexivity].
  - destruct (f v) as [u|e] eqn:E; cbn [rbind].
    + rewrite IH. split; [intros H; econstructor; eassumption|]. intros H; inversion H; subst. congruence.
    + split; [discriminate|]. intros H; inversion H; subst; congruence.
Qed.

Lemma run_outputs_spec (t t' : template) : run_outputs t = Ok t' <-> outputs_run t t'.
Proof.
  unfold run_outputs, outputs_run. destruct (rfold _ (t_outputs t) (t_results t)) as [r|e] eqn:E; cbn [rbind].
  - split.
    + intros H. injection H as <-. split; [apply set_results_same|]. now apply pipe_spec.
    + intros [Hs Hp]. apply pipe_spec in Hp. rewrite E in Hp. injection Hp as Hp. rewrite (same_eq _ _ Hs). congruence.
  - split; [discriminate|]. intros [Hs Hp]. apply pipe_spec in Hp. congruence.
Qed.

(** ** sizes *)
Lemma add_size_fold ds : forall z n, 
  (forall p, In (FileName p) ds -> exists k, fsize p = Ok k) ->
  rfold (add_size fsize tsize) ds (z, n) = Ok ((z + fold_right Z.add 0 (map (datum_size fsize tsize) ds))%Z, n).
Proof.
  induction ds as [|d ds IH]; intros z n H; cbn; [f_equal; f_equal; lia|].
  destruct d as [p|x|v]; cbn.
  - destruct (H p) as [k Hk]; [now left|]. rewrite Hk. cbn. rewrite IH by (intros q Hq; apply H; now right). f_equal; f_equal; lia.
  - rewrite IH by (intros q Hq; apply H; now right). f_equal; f_equal; lia.
  - rewrite IH by (intros q Hq; apply H; now right). f_equal; f_equal; lia.
Qed.
Lemma fold_add_app l1 l2 : fold_right Z.add 0%Z (l1 ++ l2) = (fold_right Z.add 0 l1 + fold_right Z.add 0 l2)%Z.
Proof. induction l1; cbn; lia. Qed.

Lemma data_size_spec (s : session) : files_exist fsize s ->
  data_size fsize tsize s = Ok (total_size fsize tsize s, length (all_data s)).
Proof.
  unfold files_exist, data_size, total_size, all_data.
  assert (In_ : forall (l : list (str * input)) z n,
    (forall p, In (FileName p) (concat (map (fun i => in_data (snd i)) l)) -> exists k, fsize p = Ok k) ->
    rfold (fun acc (i : str * input) => rfold (add_size fsize tsize) (in_data (snd i)) (fst acc, snd acc + length (in_data (snd i)))%nat) l (z, n)
    = Ok ((z + fold_right Z.add 0 (map (datum_size fsize tsize) (concat (map (fun i => in_data (snd i)) l))))%Z,
          (n + length (concat (map (fun i => in_data (snd i)) l)))%nat)).
  { induction l as [|i l IH]; intros z n H; [cbn; f_equal; f_equal; lia|]. cbn [rfold map concat fst snd] in *.
    rewrite add_size_fold by (intros p Hp; apply H, in_or_app; now left). cbn [rbind].
    rewrite IH by (intros p Hp; apply H, in_or_app; now right). rewrite map_app, fold_add_app, app_length. f_equal; f_equal; lia. }
  assert (T_ : forall (ts : list template) z n,
    (forall p, In (FileName p) (concat (map data_of ts)) -> exists k, fsize p = Ok k) ->
    rfold (fun acc (t : template) => rfold (fun acc (i : str * input) => rfold (add_size fsize tsize) (in_data (snd i)) (fst acc, snd acc + length (in_data (snd i)))%nat) (t_inputs t) acc) ts (z, n)
    = Ok ((z + fold_right Z.add 0 (map (datum_size fsize tsize) (concat (map data_of ts))))%Z, (n + length (concat (map data_of ts)))%nat)).
  { induction ts as [|t ts IH]; intros z n H; [cbn; f_equal; f_equal; lia|]. cbn [rfold map concat fst snd] in *.
    rewrite In_ by (intros p Hp; apply H, in_or_app; now left). cbn [rbind].
    rewrite IH by (intros p Hp; apply H, in_or_app; now right). rewrite map_app, fold_add_app, app_length. fold (data_of t). f_equal; f_equal; lia. }
  intros H. rewrite T_ by exact H. reflexivity.
Qed.

(** ** whole parse *)
Definition uses_multi (s : session) (one mult : val) : Prop :=
  one <> VBool true /\
  (mult = VBool true \/ (ss_threshold s < total_size fsize tsize s)%Z /\ (2 <= length (all_data s))%nat).

Lemma is_true_spec v : is_true v = true <-> v = VBool true.
Proof. destruct v as [|[]| | | | |]; cbn; split; congruence. Qed.

Lemma parse_mode (s : session) one mult : files_exist fsize s ->
  (one = VBool true -> mult = VBool true -> parse fsize tsize prs multi s one mult = Raise SystemExit) /\
  (~ (one = VBool true /\ mult = VBool true) ->
   (uses_multi s one mult ->
    parse fsize tsize prs multi s one mult =
      (do (g, ts) <- each multi (ss_templates s) (ss_global s); do ts' <- rmap run_outputs ts; Ok (set_templates (set_global s g) ts'))) /\
   (~ uses_multi s one mult ->
    parse fsize tsize prs multi s one mult =
      (do (g, ts) <- each (parse_one prs) (ss_templates s) (ss_global s); do ts' <- rmap run_outputs ts; Ok (set_templates (set_global s g) ts')))).
Proof.
  intros Hf. unfold parse, uses_multi. rewrite (data_size_spec s Hf). cbn [rbind].
  destruct (is_true one) eqn:E1, (is_true mult) eqn:E2; cbn [andb];
    try apply is_true_spec in E1; try apply is_true_spec in E2; subst.
  - split; [reflexivity|]. intros H. exfalso. apply H. now split.
  - split; [intros _ ->; discriminate|]. intros _. split; [intros [H _]; congruence|reflexivity].
  - assert (one <> VBool true) by (intros ->; discriminate). split; [congruence|]. intros _. split; [reflexivity|].
    intros H1. exfalso. apply H1. split; [assumption|now left].
  - assert (one <> VBool true) by (intros ->; discriminate). assert (mult <> VBool true) by (intros ->; discriminate).
    split; [congruence|]. intros _. destruct (Z.ltb_spec (ss_threshold s) (total_size fsize tsize s)); cbn [andb].
    + destruct (Nat.leb_spec 2 (length (all_data s))).
      * split; [reflexivity|]. intros H3. exfalso. apply H3. auto.
      * split; [|reflexivity]. intros [_ [?|[_ ?]]]; [congruence|lia].
    + split; [|reflexivity]. intros [_ [?|[? _]]]; [congruence|lia].
Qed.

(** what a parse in one process does *)
Definition session_parsed (s s' : session) : Prop :=
  exists g ts, in_turn (template_parsed prs) (ss_templates s) (ss_global s) g ts /\
    Forall2 outputs_run ts (ss_templates s') /\ ss_global s' = g /\ ss_threshold s' = ss_threshold s.

Theorem parse_session (s : session) one mult s' :
  files_exist fsize s -> ~ (one = VBool true /\ mult = VBool true) -> ~ uses_multi s one mult ->
  Forall documented_method (ss_templates s) ->
  (parse fsize tsize prs multi s one mult = Ok s' <-> session_parsed s s').
Proof.
  intros Hf Hb Hu Hd. destruct (parse_mode s one mult Hf) as [_ Hp]. destruct (Hp Hb) as [_ Hp1]. rewrite (Hp1 Hu).
  unfold session_parsed.
  assert (He := each_spec (parse_one prs) (template_parsed prs) (ss_templates s)).
  assert (Hd' : Forall (fun t => forall g g' t', parse_one prs t g = Ok (g', t') <-> template_parsed prs t g g' t') (ss_templates s)).
  { eapply Forall_impl; [|exact Hd]. intros t Ht g g' t'. now apply parse_one_spec. }
  clear Hp Hp1. specialize (He Hd'). split.
  - intros H. destruct (each _ _ _) as [[g ts]|e] eqn:E; [|discriminate]. cbn [rbind] in H. apply He in E.
    destruct (rmap run_outputs ts) as [ts'|e] eqn:Er; [|discriminate]. cbn [rbind] in H. injection H as <-.
    exists g, ts. repeat split; [exact E|]. apply rmap_Forall2 in Er. cbn. eapply Forall2_imp; [|exact Er].
    intros a b Hab. now apply run_outputs_spec.
  - intros (g & ts & Hi & Hf2 & Hg & Hth). apply He in Hi. rewrite Hi. cbn [rbind].
    assert (Er : rmap run_outputs ts = Ok (ss_templates s')).
    { apply rmap_Forall2. eapply Forall2_imp; [|exact Hf2]. intros a b Hab. now apply run_outputs_spec. }
    rewrite Er. cbn [rbind]. f_equal. destruct s'. unfold set_templates, set_global. cbn in *. congruence.
Qed.
End Facts.
