(** * SessionInputs: data and groups of inputs *)
From Verif Require Import PyBase DictFacts PyEqFacts Session SpecSession SessionFacts.
From Coq Require Import Sorting.Sorted Sorting.Permutation.
Local Open Scope string_scope.
Local Open Scope list_scope.

(** ** equality of data items *)
Lemma datum_eqb_spec a b : datum_eqb a b = true <-> same_datum a b.
Proof.
  destruct a, b; cbn; try (split; [discriminate|tauto]); try apply str_eqb_eq. apply py_eq_veq.
Qed.
Lemma same_datum_trans a b c : same_datum a b -> same_datum b c -> same_datum a c.
Proof. destruct a, b, c; cbn; try tauto; try congruence. apply veq_trans. Qed.
Lemma same_datum_refl a : datum_ok a -> same_datum a a.
Proof. destruct a; cbn; try reflexivity. apply veq_refl. Qed.
Lemma existsb_same d l : existsb (datum_eqb d) l = true <-> exists e, In e l /\ same_datum d e.
Proof. rewrite existsb_exists. split; intros (e & H & E); exists e; (split; [exact H|]); now apply datum_eqb_spec. Qed.

Lemma load_data_kept data : forall old, exists l, load_data old data = old ++ l /\ kept old data l.
Proof.
  induction data as [|d data IH]; intros old; cbn [load_data fold_left].
  - exists []. split; [now rewrite app_nil_r|constructor].
  - destruct (existsb (datum_eqb d) old) eqn:E.
    + destruct (IH old) as (l & H1 & H2). exists l. split; [exact H1|]. apply existsb_same in E as (e & He & Hs). econstructor; eassumption.
    + destruct (IH (old ++ [d])) as (l & H1 & H2). exists (d :: l). split; [etransitivity; [exact H1|now rewrite <- app_assoc]|].
      constructor; [|exact H2]. intros e He Hs. assert (existsb (datum_eqb d) old = true) by (apply existsb_same; eauto). congruence.
Qed.

Lemma kept_fun seen all l1 l2 : kept seen all l1 -> kept seen all l2 -> l1 = l2.
Proof.
  intros H. revert l2. induction H as [seen|seen d all l Hn _ IH|seen d all l e He Hs _ IH]; intros l2 H2; inversion H2; subst.
  - reflexivity.
  - f_equal. auto.
  - exfalso. eapply Hn; eassumption.
  - exfalso. match goal with H : forall e, In e _ -> ~ _ |- _ => eapply H; eassumption end.
  - auto.
Qed.

Lemma kept_app seen a b la lb : kept seen a la -> kept (seen ++ la) b lb -> kept seen (a ++ b) (la ++ lb).
Proof.
  intros H. revert b lb. induction H as [seen|seen d all l Hn _ IH|seen d all l e He Hs _ IH]; intros b lb Hb; cbn.
  - now rewrite app_nil_r in Hb.
  - constructor; [exact Hn|]. apply IH. rewrite <- app_assoc. exact Hb.
  - econstructor; [exact He|exact Hs|]. now apply IH.
Qed.

(** removing repetitions first, within the new data, makes no difference *)
Lemma load_cons old d data : load_data old (d :: data) = load_data (if existsb (datum_eqb d) old then old else old ++ [d]) data.
Proof. reflexivity. Qed.
(** items are Python values, hence equal to themselves *)
Lemma load_pre old data : Forall datum_ok data -> load_data old (load_data [] data) = load_data old data.
Proof.
  enough (H : forall data pre, Forall datum_ok data ->
     (forall d, In d pre -> exists e, In e (load_data old pre) /\ same_datum d e) ->
     load_data old (load_data pre data) = load_data (load_data old pre) data).
  { intros Hd. apply (H data []); [exact Hd|]. intros d []. }
  clear data. induction data as [|d data IH]; intros pre Hok Hpre; [reflexivity|]. rewrite !load_cons. inversion Hok; subst.
  assert (App : forall x y z, load_data x (y ++ z) = load_data (load_data x y) z) by (intros; apply fold_left_app).
  destruct (existsb (datum_eqb d) pre) eqn:E.
  - apply existsb_same in E as (e & He & Hs). destruct (Hpre e He) as (f & Hf & Hef).
    assert (E2 : existsb (datum_eqb d) (load_data old pre) = true) by (apply existsb_same; exists f; split; [exact Hf|eapply same_datum_trans; eassumption]).
    rewrite E2. now apply IH.
  - rewrite IH; [|assumption|].
    + now rewrite App, load_cons.
    + intros d' Hd'. rewrite App, load_cons. change (load_data ?x []) with x. apply in_app_or in Hd' as [Hd'|[<-|[]]].
      * destruct (Hpre d' Hd') as (f & Hf & Hs). exists f. split; [|exact Hs]. destruct (existsb (datum_eqb d) (load_data old pre)); [exact Hf|apply in_or_app; now left].
      * destruct (existsb (datum_eqb d) (load_data old pre)) eqn:E2.
        -- apply existsb_same in E2 as (f & Hf & Hs). eauto.
        -- exists d. split; [apply in_or_app; right; now left|now apply same_datum_refl].
Qed.

(** ** what [kept] means *)
Lemma kept_incl seen all l : kept seen all l -> forall d, In d all -> datum_ok d -> exists e, In e (seen ++ l) /\ same_datum d e.
Proof.
  induction 1 as [seen|seen d all l Hn _ IH|seen d all l e He Hs _ IH]; intros x Hx Hok; [destruct Hx| |].
  - destruct Hx as [->|Hx].
    + exists x. split; [apply in_or_app; right; now left|now apply same_datum_refl].
    + destruct (IH x Hx Hok) as (e & He & Hs). exists e. split; [|exact Hs]. now rewrite <- app_assoc in He.
  - destruct Hx as [->|Hx]; [exists e; split; [apply in_or_app; now left|exact Hs]|]. now apply IH.
Qed.
Lemma kept_none seen all : (forall d, In d all -> exists e, In e seen /\ same_datum d e) -> kept seen all [].
Proof.
  induction all as [|d all IH]; intros H; [constructor|]. destruct (H d (or_introl eq_refl)) as (e & He & Hs).
  econstructor; [exact He|exact Hs|]. apply IH. intros x Hx. apply H. now right.
Qed.

(** ** inputs of a template *)
Lemma aget_aset_same {A} (l : list (str * A)) k v : aget (aset l k v) k = Some v.
Proof.
  induction l as [|[k' v'] l IH]; cbn; [now rewrite str_eqb_refl|].
  destruct (str_eqb_spec k k') as [->|H]; cbn; [now rewrite str_eqb_refl|]. destruct (str_eqb_spec k k'); [congruence|exact IH].
Qed.
Lemma aget_aset_other {A} (l : list (str * A)) k k' v : k <> k' -> aget (aset l k v) k' = aget l k'.
Proof.
  intros H. induction l as [|[j w] l IH]; cbn.
  - destruct (str_eqb_spec k' k); congruence.
  - destruct (str_eqb_spec k j) as [->|Hj]; cbn; [destruct (str_eqb_spec k' j); congruence|]. destruct (str_eqb k' j); [reflexivity|exact IH].
Qed.

(** ** sorted sets *)
Lemma insert_nat_in n l m : In m (insert_nat n l) <-> m = n \/ In m l.
Proof.
  induction l as [|k l IH]; cbn [insert_nat In].
  - split; [intros [H|[]]; left; now symmetry|intros [H|[]]; left; now symmetry].
  - destruct (Nat.ltb_spec n k).
    + cbn [In]. split; [intros [H1|H1]; [left; now symmetry|now right]|intros [H1|H1]; [left; now symmetry|now right]].
    + destruct (Nat.eqb_spec n k) as [->|Hne].
      * cbn [In]. split; [now right|intros [->|H1]; [now left|exact H1]].
      * cbn [In]. rewrite IH. tauto.
Qed.
Lemma insert_nat_sorted n l : StronglySorted lt l -> StronglySorted lt (insert_nat n l).
Proof.
  induction 1 as [|k l Hl IH Hk]; cbn [insert_nat]; [repeat constructor|]. destruct (Nat.ltb_spec n k).
  - constructor; [now constructor|]. constructor; [assumption|]. eapply Forall_impl; [|exact Hk]. intros; lia.
  - destruct (Nat.eqb_spec n k); [now constructor|]. constructor; [exact IH|]. apply Forall_forall. intros m Hm.
    apply insert_nat_in in Hm as [->|Hm]; [lia|]. rewrite Forall_forall in Hk. auto.
Qed.
Lemma sort_set_in l n : In n (sort_set l) <-> In n l.
Proof. induction l as [|m l IH]; cbn [sort_set fold_right In]; [reflexivity|]. rewrite insert_nat_in. fold (sort_set l). rewrite IH. split; (intros [H|H]; [left; now symmetry|now right]). Qed.
Lemma sort_set_sorted l : StronglySorted lt (sort_set l).
Proof. induction l as [|m l IH]; cbn; [constructor|]. now apply insert_nat_sorted. Qed.

Lemma extract_groups_spec tgs name groups :
  StronglySorted lt (extract_groups tgs name groups) /\
  forall n, In n (extract_groups tgs name groups) <-> belongs tgs name groups n.
Proof.
  unfold extract_groups, belongs.
  set (gi := filter (fun g => in_strs name (tg_inputs g)) tgs).
  assert (Hgi : (exists g', In g' tgs /\ In name (tg_inputs g')) <-> gi <> []).
  { unfold gi. split.
    - intros (g & H1 & H2) E. assert (In g (filter (fun g => in_strs name (tg_inputs g)) tgs)) as Hx by (apply filter_In; split; [exact H1|now apply in_strs_In]).
      rewrite E in Hx. destruct Hx.
    - intros H. destruct (filter _ tgs) as [|g l] eqn:E; [congruence|]. assert (Hx : In g (filter (fun g => in_strs name (tg_inputs g)) tgs)) by (rewrite E; now left).
      apply filter_In in Hx as [H1 H2]. exists g. split; [exact H1|now apply in_strs_In]. }
  destruct gi as [|g0 gl] eqn:Egi; cbn [map].
  - assert (Hno : ~ exists g', In g' tgs /\ In name (tg_inputs g')) by (rewrite Hgi; congruence).
    split; [apply sort_set_sorted|]. intros n. rewrite sort_set_in.
    destruct (in_strs $"all" groups) eqn:Ea; rewrite in_map_iff; split.
    + intros (g & <- & Hg). apply filter_In in Hg as [Hg Hi]. exists g. split; [exact Hg|]. split; [reflexivity|]. right.
      split; [exact Hno|]. destruct (tg_inputs g); [|discriminate]. split; [reflexivity|]. left. now apply in_strs_In.
    + intros (g & Hg & <- & [[Hx _]|(_ & Hi & _)]); [contradiction|]. exists g. split; [reflexivity|]. apply filter_In. split; [exact Hg|]. now rewrite Hi.
    + intros (g & <- & Hg). apply filter_In in Hg as [Hg Hi]. apply andb_prop in Hi as [Hn Hi]. exists g. split; [exact Hg|]. split; [reflexivity|]. right.
      split; [exact Hno|]. destruct (tg_inputs g); [|discriminate]. split; [reflexivity|]. right. now apply in_strs_In.
    + intros (g & Hg & <- & [[Hx _]|(_ & Hi & Hg2)]); [contradiction|]. exists g. split; [reflexivity|]. apply filter_In. split; [exact Hg|]. rewrite Hi.
      destruct Hg2 as [Hg2|Hg2]; apply in_strs_In in Hg2; [congruence|]. now rewrite Hg2.
  - assert (Hyes : exists g', In g' tgs /\ In name (tg_inputs g')) by (rewrite Hgi; congruence).
    change (tg_index g0 :: map tg_index gl) with (map tg_index (g0 :: gl)). rewrite <- Egi.
    split; [apply sort_set_sorted|]. intros n. rewrite sort_set_in, in_map_iff. split.
    + intros (g & <- & Hg). apply filter_In in Hg as [Hg Hi]. exists g. split; [exact Hg|]. split; [reflexivity|]. left. split; [exact Hyes|now apply in_strs_In].
    + intros (g & Hg & <- & [[_ Hi]|[Hx _]]); [|contradiction]. exists g. split; [reflexivity|]. apply filter_In. split; [exact Hg|now apply in_strs_In].
Qed.

Set Default Proof Using "Type".
Section Inp.
Context {Fn G : Type}.
Local Notation input := (input Fn).
Local Notation template := (template Fn).
Local Notation session := (session Fn G).
Variables (load : val -> list datum) (nofuncs : Fn) (order : list nat -> list nat).

Lemma addressedb_spec name (t : template) : reflect (addressed name t) (addressedb name t).
Proof.
  unfold addressed, addressedb. destruct (str_eqb_spec name ($"_all_")) as [H|H]; [constructor; now left|].
  destruct (str_eqb_spec name (t_name t)) as [H'|H']; constructor; [now right|tauto].
Qed.
Lemma selected_addressed name (t : template) : selected name t = addressedb name t.
Proof.
  unfold selected, addressedb, all_name. destruct (str_eqb_spec name ($"_all_")); [apply orb_true_r|].
  rewrite orb_false_r. destruct (str_eqb_spec (t_name t) name), (str_eqb_spec name (t_name t)); congruence.
Qed.

(** one add_input call: data, input name, template name, groups *)
Record call := { c_data : val; c_input : str; c_template : str; c_groups : list str }.
Definition do_call (s : session) (c : call) : session :=
  add_input load nofuncs order s (c_data c) (c_input c) (c_template c) (c_groups c).
Definition do_calls (s : session) (cs : list call) : session := fold_left do_call cs s.
(** the call is about input [name] of template [t] *)
Definition concerns (t : template) (name : str) (c : call) : bool :=
  (str_eqb (c_input c) name && addressedb (c_template c) t)%bool.
Definition items_for (t : template) (name : str) (cs : list call) : list datum :=
  concat (map (fun c => load (c_data c)) (filter (concerns t name) cs)).
Definition groups_or_all (l : list str) : list str := match l with [] => [$"all"] | _ => l end.
Definition load_ok : Prop := forall v, Forall datum_ok (load v).

Lemma update_input_data (t : template) name groups data n : Forall datum_ok data ->
  input_data (update_input nofuncs order t name groups data) n =
  if str_eqb name n then load_data (input_data t n) data else input_data t n.
Proof.
  intros Hok. unfold update_input, input_data. destruct (aget (t_inputs t) name) as [i|] eqn:E; cbn [t_inputs set_inputs].
  - destruct (str_eqb_spec name n) as [->|H].
    + rewrite aget_aset_same. cbn. rewrite E. now apply load_pre.
    + now rewrite aget_aset_other by exact H.
  - destruct (str_eqb_spec name n) as [->|H].
    + rewrite aget_aset_same. cbn. now rewrite E.
    + now rewrite aget_aset_other by exact H.
Qed.

Definition step_template (c : call) (t : template) : template :=
  match load (c_data c) with
  | [] => t
  | items => if selected (c_template c) t then update_input nofuncs order t (c_input c) (groups_or_all (c_groups c)) items else t
  end.
Lemma do_call_templates s c : ss_templates (do_call s c) = map (step_template c) (ss_templates s).
Proof.
  unfold do_call, add_input, step_template, groups_or_all. destruct (load (c_data c)) eqn:E; cbn; [now rewrite map_id|]. reflexivity.
Qed.
Lemma do_calls_templates cs : forall s, ss_templates (do_calls s cs) = map (fun t => fold_left (fun t c => step_template c t) cs t) (ss_templates s).
Proof.
  induction cs as [|c cs IH]; intros s; cbn; [now rewrite map_id|]. unfold do_calls in *. rewrite IH, do_call_templates, map_map. reflexivity.
Qed.
Lemma step_name c t : t_name (step_template c t) = t_name t /\ t_groups (step_template c t) = t_groups t.
Proof. unfold step_template. destruct (load _); [now split|]. destruct (selected _ _); [|now split]. unfold update_input. destruct (aget _ _); now split. Qed.

Lemma step_data c (t : template) n : load_ok ->
  input_data (step_template c t) n = if concerns t n c then load_data (input_data t n) (load (c_data c)) else input_data t n.
Proof.
  intros Hok. unfold step_template, concerns. specialize (Hok (c_data c)). destruct (load (c_data c)) as [|d l] eqn:E.
  - now destruct (str_eqb (c_input c) n && addressedb (c_template c) t)%bool.
  - rewrite selected_addressed. destruct (addressedb (c_template c) t).
    + rewrite update_input_data by exact Hok. destruct (str_eqb (c_input c) n); reflexivity.
    + now rewrite andb_false_r.
Qed.

Lemma steps_data cs : load_ok -> forall (t : template) n, 
  exists l, input_data (fold_left (fun t c => step_template c t) cs t) n = input_data t n ++ l /\ kept (input_data t n) (items_for t n cs) l.
Proof.
  intros Hok. induction cs as [|c cs IH]; intros t n; cbn [fold_left].
  - exists []. split; [now rewrite app_nil_r|constructor].
  - destruct (IH (step_template c t) n) as (l & H1 & H2). rewrite H1. rewrite step_data in * by exact Hok.
    assert (Ei : items_for (step_template c t) n cs = items_for t n cs).
    { unfold items_for. f_equal. f_equal. apply filter_ext. intros c'. unfold concerns, addressedb. now rewrite (proj1 (step_name c t)). }
    rewrite Ei in H2. unfold items_for in *. cbn [filter]. destruct (concerns t n c) eqn:Ec.
    + destruct (load_data_kept (load (c_data c)) (input_data t n)) as (l1 & E1 & K1). rewrite E1 in *. exists (l1 ++ l).
      split; [now rewrite app_assoc|]. cbn [map concat]. now apply kept_app.
    + exists l. now split.
Qed.

Theorem adds_data (s : session) cs : load_ok ->
  Forall2 (fun t t' => forall n, exists l, input_data t' n = input_data t n ++ l /\ kept (input_data t n) (items_for t n cs) l)
    (ss_templates s) (ss_templates (do_calls s cs)).
Proof.
  intros Hok. rewrite do_calls_templates. induction (ss_templates s) as [|t ts IH]; cbn; constructor; [|exact IH]. intros n. now apply steps_data.
Qed.

(** adding again what was added before changes no input's data *)
Theorem add_again (s : session) cs c : load_ok -> In c cs ->
  Forall2 (fun t t' => forall n, input_data t' n = input_data t n) (ss_templates (do_calls s cs)) (ss_templates (do_call (do_calls s cs) c)).
Proof.
  intros Hok Hin. rewrite do_call_templates, do_calls_templates. induction (ss_templates s) as [|t ts IH]; cbn; constructor; [|exact IH].
  intros n. set (t1 := fold_left (fun t c => step_template c t) cs t). rewrite step_data by exact Hok.
  destruct (concerns t1 n c) eqn:Ec; [|reflexivity].
  assert (Ec' : concerns t n c = true).
  { unfold concerns, addressedb in *. enough (t_name t1 = t_name t) as <- by exact Ec. unfold t1. clear. revert t.
    induction cs as [|c cs IH]; intros t; cbn; [reflexivity|]. rewrite IH. apply step_name. }
  destruct (steps_data cs Hok t n) as (l & H1 & H2). fold t1 in H1.
  destruct (load_data_kept (load (c_data c)) (input_data t1 n)) as (l1 & E1 & K1). rewrite E1.
  assert (kept (input_data t1 n) (load (c_data c)) []) as K2.
  { apply kept_none. intros d Hd. rewrite H1. eapply kept_incl; [exact H2| |].
    - unfold items_for. apply in_concat. exists (load (c_data c)). split; [|exact Hd]. apply in_map_iff. exists c. split; [reflexivity|].
      apply filter_In. now split.
    - specialize (Hok (c_data c)). rewrite Forall_forall in Hok. auto. }
  rewrite (kept_fun _ _ _ _ K1 K2). now rewrite app_nil_r.
Qed.

(** ** groups *)
Lemma update_input_groups (t : template) name groups data n :
  input_groups (update_input nofuncs order t name groups data) n =
  if str_eqb name n then
    match aget (t_inputs t) n with
    | Some i => order (in_groups i ++ extract_groups (t_groups t) n groups)
    | None => extract_groups (t_groups t) n groups
    end else input_groups t n.
Proof.
  unfold update_input, input_groups. destruct (aget (t_inputs t) name) as [i|] eqn:E; cbn [t_inputs set_inputs].
  - destruct (str_eqb_spec name n) as [->|H].
    + rewrite aget_aset_same. cbn. now rewrite E.
    + now rewrite aget_aset_other by exact H.
  - destruct (str_eqb_spec name n) as [->|H].
    + rewrite aget_aset_same. cbn. now rewrite E.
    + now rewrite aget_aset_other by exact H.
Qed.

(** the first call that mentions an input fixes its groups, in template order *)
Theorem first_add_groups (s : session) c : load (c_data c) <> [] ->
  Forall2 (fun t t' => addressed (c_template c) t -> aget (t_inputs t) (c_input c) = None ->
      StronglySorted lt (input_groups t' (c_input c)) /\
      forall n, In n (input_groups t' (c_input c)) <-> belongs (t_groups t) (c_input c) (groups_or_all (c_groups c)) n)
    (ss_templates s) (ss_templates (do_call s c)).
Proof.
  intros Hl. rewrite do_call_templates. induction (ss_templates s) as [|t ts IH]; cbn; constructor; [|exact IH].
  intros Hs Hn. unfold step_template. destruct (load (c_data c)) as [|d l]; [congruence|].
  rewrite selected_addressed. destruct (addressedb_spec (c_template c) t) as [_|Hno]; [|contradiction]. rewrite update_input_groups, str_eqb_refl, Hn.
  apply extract_groups_spec.
Qed.

(** a further call adds its groups *)
Theorem next_add_groups (s : session) c : python_set order -> load (c_data c) <> [] ->
  Forall2 (fun t t' => forall i, addressed (c_template c) t -> aget (t_inputs t) (c_input c) = Some i ->
      NoDup (input_groups t' (c_input c)) /\
      forall n, In n (input_groups t' (c_input c)) <->
                In n (in_groups i) \/ belongs (t_groups t) (c_input c) (groups_or_all (c_groups c)) n)
    (ss_templates s) (ss_templates (do_call s c)).
Proof.
  intros Ho Hl. rewrite do_call_templates. induction (ss_templates s) as [|t ts IH]; cbn; constructor; [|exact IH].
  intros i Hs Hn. unfold step_template. destruct (load (c_data c)) as [|d l]; [congruence|].
  rewrite selected_addressed. destruct (addressedb_spec (c_template c) t) as [_|Hno]; [|contradiction]. rewrite update_input_groups, str_eqb_refl, Hn.
  destruct (Ho (in_groups i ++ extract_groups (t_groups t) (c_input c) (groups_or_all (c_groups c)))) as [H1 H2].
  split; [exact H1|]. intros n. rewrite H2, in_app_iff. now rewrite (proj2 (extract_groups_spec _ _ _)).
Qed.

(** ** which templates and inputs a call touches *)
Lemma update_other (t : template) name groups data : let t' := update_input nofuncs order t name groups data in
  same_but_inputs t t' /\ (forall n, n <> name -> aget (t_inputs t') n = aget (t_inputs t) n) /\
  map fst (t_inputs t') = match aget (t_inputs t) name with Some _ => map fst (t_inputs t) | None => map fst (t_inputs t) ++ [name] end.
Proof.
  assert (HS : forall l (x : input), map fst (aset l name x) = match aget l name with Some _ => map fst l | None => map fst l ++ [name] end).
  { induction l as [|[k v] l IH]; intros x; [reflexivity|]. cbn [aset aget]. destruct (str_eqb_spec name k) as [E|E]; [reflexivity|].
    cbn [map fst]. rewrite IH. now destruct (aget l name). }
  cbv zeta. unfold update_input. destruct (aget (t_inputs t) name) eqn:E; (split; [repeat split|]); cbn [t_inputs set_inputs].
  - split; [intros n H; apply aget_aset_other; congruence|]. rewrite HS. now rewrite E.
  - split; [intros n H; apply aget_aset_other; congruence|]. rewrite HS. now rewrite E.
Qed.
Theorem add_touches (s : session) c : let s' := do_call s c in
  ss_global s' = ss_global s /\ ss_threshold s' = ss_threshold s /\ (load (c_data c) = [] -> s' = s) /\
  Forall2 (fun t t' => (~ addressed (c_template c) t -> t' = t) /\ same_but_inputs t t' /\
      (forall n, n <> c_input c -> aget (t_inputs t') n = aget (t_inputs t) n) /\
      (addressed (c_template c) t -> load (c_data c) <> [] ->
       map fst (t_inputs t') = match aget (t_inputs t) (c_input c) with Some _ => map fst (t_inputs t) | None => map fst (t_inputs t) ++ [c_input c] end))
    (ss_templates s) (ss_templates s').
Proof.
  cbv zeta. split; [unfold do_call, add_input; now destruct (load _)|]. split; [unfold do_call, add_input; now destruct (load _)|].
  split; [intros H; unfold do_call, add_input; now rewrite H|]. rewrite do_call_templates.
  induction (ss_templates s) as [|t ts IH]; cbn; constructor; [|exact IH]. unfold step_template. destruct (load (c_data c)) as [|d l] eqn:E.
  - repeat split. congruence.
  - rewrite selected_addressed. destruct (addressedb_spec (c_template c) t) as [H|H]; [|repeat split; tauto].
    destruct (update_other t (c_input c) (groups_or_all (c_groups c)) (d :: l)) as (H1 & H2 & H3).
    split; [tauto|]. split; [exact H1|]. split; [exact H2|]. intros _ _. exact H3.
Qed.
Theorem clear_touches (s : session) name : let s' := clear_input s name in
  ss_global s' = ss_global s /\ ss_threshold s' = ss_threshold s /\
  Forall2 (fun t t' => (~ addressed name t -> t' = t) /\ (addressed name t -> same_but_inputs t t' /\ t_inputs t' = []))
    (ss_templates s) (ss_templates s').
Proof.
  cbv zeta. do 2 (split; [reflexivity|]). cbn [clear_input set_templates ss_templates].
  induction (ss_templates s) as [|t ts IH]; cbn; constructor; [|exact IH]. rewrite selected_addressed.
  destruct (addressedb_spec name t) as [H|H]; (split; [tauto|]); [|tauto]. intros _. repeat split.
Qed.
Theorem set_touches (s : session) c : load_ok -> let s' := set_input load nofuncs order s (c_data c) (c_input c) (c_template c) (c_groups c) in
  ss_global s' = ss_global s /\ ss_threshold s' = ss_threshold s /\
  Forall2 (fun t t' => (~ addressed (c_template c) t -> t' = t) /\
      (addressed (c_template c) t -> same_but_inputs t t' /\
        match load (c_data c) with
        | [] => t_inputs t' = []
        | items => exists i, t_inputs t' = [(c_input c, i)] /\ kept [] items (in_data i) /\ in_funcs i = nofuncs /\
            StronglySorted lt (in_groups i) /\ forall n, In n (in_groups i) <-> belongs (t_groups t) (c_input c) (groups_or_all (c_groups c)) n
        end))
    (ss_templates s) (ss_templates s').
Proof.
  intros Hok. cbv zeta. unfold set_input. split; [unfold add_input; now destruct (load _)|]. split; [unfold add_input; now destruct (load _)|].
  replace (match c_groups c with [] => [$"all"] | _ => c_groups c end) with (groups_or_all (c_groups c)) by reflexivity.
  set (s1 := clear_input s (c_template c)).
  assert (E : ss_templates (add_input load nofuncs order s1 (c_data c) (c_input c) (c_template c) (groups_or_all (c_groups c))) =
              map (step_template c) (ss_templates s1)).
  { rewrite <- do_call_templates. unfold do_call. f_equal. unfold add_input. destruct (c_groups c); reflexivity. }
  rewrite E. unfold s1. cbn [clear_input set_templates ss_templates]. rewrite map_map.
  induction (ss_templates s) as [|t ts IH]; cbn [map]; constructor; [|exact IH]. rewrite selected_addressed.
  destruct (addressedb_spec (c_template c) t) as [H|H].
  - split; [tauto|]. intros _. unfold step_template. destruct (load (c_data c)) as [|d l] eqn:El; [repeat split|].
    rewrite selected_addressed. destruct (addressedb_spec (c_template c) (set_inputs t [])) as [_|Hn]; [|exfalso; apply Hn; exact H].
    split; [repeat split|]. cbn [update_input aget set_inputs t_inputs aset t_groups]. eexists. split; [reflexivity|]. cbn [in_data in_funcs in_groups].
    split.
    + assert (Hd := load_data_kept (d :: l) []). destruct Hd as (l1 & H1 & H2). cbn [app] in H1. now rewrite H1.
    + split; [reflexivity|]. apply extract_groups_spec.
  - split; [|tauto]. intros _. unfold step_template. destruct (load (c_data c)); [reflexivity|]. rewrite selected_addressed.
    destruct (addressedb_spec (c_template c) t); [contradiction|reflexivity].
Qed.
End Inp.
