(** * FileFacts: load_files finds exactly what SpecFiles says. *)
From Verif Require Import PyBase Regex SpecRegex Template Attributes MatchVar Compile FuncTable Loaders Session Files SpecVariable SpecAttr SpecText SpecFiles.
From Verif Require Import StrFacts DictFacts SessionFacts MadeFacts CallFacts TextFacts LexFacts2.
Local Open Scope string_scope.
Local Open Scope list_scope.

Lemma is_file_iff w p : is_file w p = true <-> a_file w p.
Proof. unfold is_file, a_file. destruct (w_file w p); split; intros H; try congruence; eauto. destruct H; congruence. Qed.
Lemma is_file_f w p : is_file w p = false <-> ~ a_file w p.
Proof. rewrite <- is_file_iff. destruct (is_file w p); split; intros H; congruence || (try reflexivity; now elim H). Qed.
Lemma slash_prefix b : prefixb $"/" b = true <-> exists t, b = "/"%char :: t.
Proof. rewrite prefix_iff. split; intros [t E]; exists t; exact E. Qed.
Lemma slash_suffix a : suffixb $"/" a = true <-> exists t, a = t ++ ["/"%char].
Proof. rewrite suffix_iff. split; intros [t E]; exists t; exact E. Qed.
Lemma joined_iff a b q : joined a b q <-> path_join a b = q.
Proof.
  unfold path_join. split.
  - intros H. destruct H as [a b | b | a b N | a c b N1 N2].
    + replace (prefixb $"/" ("/"%char :: b)) with true; [reflexivity|]. symmetry. apply slash_prefix. eauto.
    + now destruct (prefixb _ b).
    + replace (prefixb $"/" b) with false by (symmetry; apply bool_f with (P := exists t, b = "/"%char :: t); [apply slash_prefix|]; intros [t ->]; now apply (N "/"%char t)).
      assert (X : suffixb $"/" (a ++ ["/"%char]) = true) by (apply slash_suffix; eauto). rewrite X. destruct (a ++ ["/"%char]) eqn:E; [now destruct a|]. now rewrite <- E, <- app_assoc.
    + replace (prefixb $"/" b) with false by (symmetry; apply bool_f with (P := exists t, b = "/"%char :: t); [apply slash_prefix|]; intros [t ->]; now apply (N1 "/"%char t)).
      assert (X : suffixb $"/" (a ++ [c]) = false) by (apply (bool_f _ _ (slash_suffix _)); intros [t E]; apply app_inj_tail in E; destruct E; congruence).
      rewrite X. destruct (a ++ [c]) eqn:E; [now destruct a|]. now rewrite <- E, <- app_assoc.
  - intros <-. destruct (prefixb $"/" b) eqn:P; [apply slash_prefix in P; destruct P as [t ->]; constructor|].
    assert (N : not_next (eq "/"%char) b). { intros c t -> <-. rewrite (proj2 (slash_prefix _)) in P by eauto. congruence. }
    destruct a as [|x a']; [constructor|]. set (a := x :: a') in *. destruct (suffixb $"/" a) eqn:X.
    + apply slash_suffix in X. destruct X as [t E]. rewrite E. rewrite <- app_assoc. now apply jo_slash.
    + destruct (exists_last (l := a) ltac:(discriminate)) as (t & c & E). rewrite E in *. rewrite <- app_assoc. apply (jo_between t c b); [exact N|].
      intros ->. rewrite (proj2 (slash_suffix _)) in X by eauto. congruence.
Qed.
Lemma extension_dot e : ~ In "."%char e -> forall n (a : str), length a <= n -> extension (a ++ "."%char :: e) = e.
Proof.
  intros N. unfold extension. change $"." with ["."%char]. induction n as [|n IH]; intros a L.
  - destruct a; [|cbn [length] in L; lia]. change ([] ++ "."%char :: e) with (([] : str) ++ "."%char :: e). rewrite split_app by easy. now rewrite split_lacks.
  - destruct (in_dec ascii_dec "."%char a) as [I|I].
    + destruct (first_of ["."%char] a) as [F|(a1 & a2 & E & F)]; [apply in_split in I; destruct I as (x & y & ->); now elim (F x y)|].
      assert (K : lacks "."%char a1). { intros K. apply in_split in K. destruct K as (x & y & ->). specialize (F x (y ++ ["."%char] ++ a2)). rewrite E, <- !app_assoc in F. specialize (F eq_refl). rewrite app_length in F. cbn [length] in F. lia. }
      subst a. rewrite <- !app_assoc. change (["."%char] ++ a2 ++ "."%char :: e) with ("."%char :: (a2 ++ "."%char :: e)). rewrite split_app by exact K.
      specialize (IH a2). rewrite !app_length in L. cbn [length] in L. destruct (split ["."%char] (a2 ++ "."%char :: e)) as [|y l] eqn:Y; [now apply split_ne in Y|]. cbn [last] in *. apply IH. lia.
    + rewrite split_app by exact I. now rewrite split_lacks.
Qed.
Lemma ends_in_ex f : exists e, ends_in f e.
Proof.
  induction f as [|c f [e H]] using rev_ind; [exists []; now constructor|]. destruct (ascii_dec c "."%char) as [->|N]; [exists []; now apply ei_dot|].
  destruct H as [a e H | f H].
  - exists (e ++ [c]). rewrite <- app_assoc. apply (ei_dot a (e ++ [c])). intros I. apply in_app_or in I. destruct I as [I|[I|[]]]; congruence || now apply H.
  - exists (f ++ [c]). apply ei_none. intros I. apply in_app_or in I. destruct I as [I|[I|[]]]; congruence || now apply H.
Qed.
Lemma ends_in_ext f e : ends_in f e -> extension f = e.
Proof. intros [a e' N | f' N]; [now apply (extension_dot e' N (length a))|]. unfold extension. change $"." with ["."%char]. now rewrite split_lacks. Qed.
Lemma ends_in_iff f e : ends_in f e <-> extension f = e.
Proof. split; [apply ends_in_ext|]. intros <-. destruct (ends_in_ex f) as [e H]. now rewrite (ends_in_ext _ _ H). Qed.

(** ** wanted names *)
Lemma sublist_filter {A} (P : A -> Prop) (p : A -> bool) l r : (forall x, In x l -> (p x = true <-> P x)) -> sublist P l r <-> filter p l = r.
Proof.
  intros H. split.
  - intros S. induction S as [|x l r Px S IH|x l r Px S IH]; [reflexivity| |]; cbn [filter].
    + rewrite (proj2 (H x (or_introl eq_refl)) Px). now rewrite IH by (intros y I; apply H; now right).
    + destruct (p x) eqn:E; [elim Px; now apply H; [left|]|]. apply IH. intros y I. apply H. now right.
  - intros <-. induction l as [|x l IH]; [constructor|]. cbn [filter]. destruct (p x) eqn:E.
    + constructor; [apply H; [now left|exact E]|]. apply IH. intros y I. apply H. now right.
    + apply sb_drop; [intros Q; apply H in Q; [congruence|now left]|]. apply IH. intros y I. apply H. now right.
Qed.
Definition tried (pat : str) (f : str) : Prop := exists b, re_search pat f = Ok b.
Definition yes (r : res bool) : bool := match r with Ok true => true | _ => false end.
Lemma yes_iff r : yes r = true <-> r = Ok true. Proof. destruct r as [[|]|]; split; cbn; congruence. Qed.
Lemma rfilter_iff pat l r : rfilter (re_search pat) l = Ok r <-> (forall f, In f l -> tried pat f) /\ r = filter (fun f => yes (re_search pat f)) l.
Proof.
  revert r. induction l as [|x l IH]; intros r; cbn [rfilter filter].
  - split; [intros K; split; [intros f []|congruence]|intros [_ ->]; reflexivity].
  - split.
    + intros K. destruct (re_search pat x) as [b|e] eqn:E; [|discriminate]. cbn [rbind] in K. destruct (rfilter (re_search pat) l) as [q|e] eqn:F; [|discriminate].
      cbn [rbind] in K. destruct (proj1 (IH q) eq_refl) as [T ->]. split; [intros f [<-|I]; [now exists b|now apply T]|]. destruct b; cbn [yes]; congruence.
    + intros [T ->]. destruct (T x (or_introl eq_refl)) as [b E]. rewrite E. cbn [rbind]. rewrite (proj2 (IH _) (conj (fun f I => T f (or_intror I)) eq_refl)). cbn [rbind]. now destruct b.
Qed.
Definition all_yes (pats : list str) (f : str) : bool := forallb (fun pat => yes (re_search pat f)) pats.
Lemma all_yes_iff pats f : all_yes pats f = true <-> Forall (fun pat => re_search pat f = Ok true) pats.
Proof. unfold all_yes. rewrite forallb_forall, Forall_forall. split; intros H x I; apply yes_iff; now apply H. Qed.
Lemma filter_filter {A} (p q : A -> bool) l : filter p (filter q l) = filter (fun x => (q x && p x)%bool) l.
Proof. induction l as [|x l IH]; [reflexivity|]. cbn [filter]. destruct (q x); cbn [filter andb]; now rewrite IH. Qed.
Lemma filters_iff pats : forall l r, rfold (fun fs pat => rfilter (re_search pat) fs) pats l = Ok r <->
  (forall f, In f l -> forall pre pat post, pats = pre ++ pat :: post -> Forall (fun pat => re_search pat f = Ok true) pre -> tried pat f) /\ r = filter (all_yes pats) l.
Proof.
  induction pats as [|p pats IH]; intros l r; cbn [rfold].
  - split; [intros K; split; [intros f _ pre pat post E; now destruct pre|]|intros [_ ->]]; replace (filter (all_yes []) l) with l by (symmetry; apply filter_id; reflexivity); congruence.
  - split.
    + intros K. destruct (rfilter (re_search p) l) as [m|e] eqn:F; [|discriminate]. cbn [rbind] in K. apply rfilter_iff in F. destruct F as [T ->]. apply IH in K. destruct K as [T2 ->]. split.
      * intros f I pre pat post E Y. destruct pre as [|p' pre]; [injection E as <- <-; now apply T|]. injection E as <- ->. inversion Y as [|? ? Y1 Y2]; subst.
        apply (T2 f) with (1 := proj2 (filter_In _ _ _) (conj I (proj2 (yes_iff _) Y1))) (2 := eq_refl). exact Y2.
      * now rewrite filter_filter.
    + intros [T ->]. rewrite (proj2 (rfilter_iff p l _) (conj (fun f I => T f I [] p pats eq_refl (Forall_nil _)) eq_refl)). cbn [rbind].
      apply IH. split; [|now rewrite filter_filter]. intros f I pre pat post E Y. apply filter_In in I. destruct I as [I Q]. apply yes_iff in Q.
      apply (T f I (p :: pre) pat post); [now rewrite E|]. now constructor.
Qed.

(** ** load_files *)
Lemma load_file_iff w p read l : load_file w p read = Ok l <-> exists d, l = [d] /\ file_datum w read p d.
Proof.
  unfold load_file. destruct read.
  - destruct (w_file w p) as [x|] eqn:E; split.
    + intros K. exists (TextData x). split; [congruence|now constructor].
    + intros (d & -> & K). inversion K; congruence.
    + discriminate.
    + intros (d & -> & K). inversion K; congruence.
  - split; [intros K; exists (FileName p); split; [congruence|now constructor]|]. intros (d & -> & K). inversion K; congruence.
Qed.
Lemma in_templates_iff w p q : in_templates w p q <-> match w_tdir w with Some ((_ :: _) as d) => Some (path_join d p) | _ => None end = Some q.
Proof.
  unfold in_templates. split.
  - intros (d & N & -> & J). apply joined_iff in J. destruct d; [congruence|]. now rewrite J.
  - destruct (w_tdir w) as [[|c d]|]; try discriminate. intros K. exists (c :: d). repeat split; [discriminate|]. apply joined_iff. congruence.
Qed.
Definition nominated (w : world) (p : str) (exts : list str) (f : str) : bool :=
  (is_file w (path_join p f) && match exts with [] => true | _ => in_strs (extension f) exts end)%bool.
Lemma nominated_iff w p exts f : nominated w p exts f = true <-> (exists q, joined p f q /\ a_file w q) /\ (exts <> [] -> exists e, ends_in f e /\ In e exts).
Proof.
  unfold nominated. rewrite Bool.andb_true_iff, is_file_iff. split.
  - intros [F E]. split; [exists (path_join p f); split; [now apply joined_iff|exact F]|]. intros N. exists (extension f). split; [now apply ends_in_iff|]. destruct exts; [congruence|]. now apply in_strs_b.
  - intros [(q & J & F) E]. apply joined_iff in J. subst q. split; [exact F|]. destruct exts; [reflexivity|]. destruct E as (x & H & I); [discriminate|]. apply ends_in_iff in H. subst x. now apply in_strs_b.
Qed.
Lemma nominate w p exts names :
  match exts with [] => filter (fun f => is_file w (path_join p f)) names | _ => filter (fun f => in_strs (extension f) exts) (filter (fun f => is_file w (path_join p f)) names) end = filter (nominated w p exts) names.
Proof. destruct exts; [|now rewrite filter_filter]. apply filter_ext. intros f. unfold nominated. now rewrite Bool.andb_true_r. Qed.
Lemma wanted_iff w p exts filters f : (nominated w p exts f && all_yes filters f)%bool = true <-> wanted w p exts filters f.
Proof. unfold wanted. rewrite Bool.andb_true_iff, nominated_iff, all_yes_iff. tauto. Qed.
Definition data_of (w : world) (p : str) (read : bool) (files : list str) : res (list datum) :=
  if read then rmap (fun f => match w_file w (path_join p f) with Some x => Ok (TextData x) | None => Raise FileNotFoundError end) files
  else Ok (map (fun f => FileName (path_join p f)) files).
Lemma data_of_iff w p read files ds : data_of w p read files = Ok ds <-> Forall2 (fun f d => exists q, joined p f q /\ file_datum w read q d) files ds.
Proof.
  unfold data_of. destruct read.
  - rewrite rmap_Forall2. split; intros H; induction H as [|f d l r X H IH]; constructor; try exact IH.
    + exists (path_join p f). split; [now apply joined_iff|]. destruct (w_file w (path_join p f)) eqn:E; [|discriminate]. injection X as <-. now constructor.
    + destruct X as (q & J & D). apply joined_iff in J. subst q. inversion D as [? x R E|]; [|congruence]. now rewrite E.
  - split.
    + intros K. injection K as <-. induction files as [|f files IH]; constructor; [|exact IH]. exists (path_join p f). split; [now apply joined_iff|now constructor].
    + intros H. f_equal. induction H as [|f d l r X H IH]; [reflexivity|]. cbn [map]. rewrite IH. destruct X as (q & J & D). apply joined_iff in J. subst q. inversion D; congruence.
Qed.
Ltac loads_inv K := inversion K as [p0 d0 X0 X1 X2 | p0 q0 d0 X0 X1 X2 X3 X4 | p0 l0 names0 fs0 ds0 X0 X1 X2 X3 X4 X5 X6 X7 | p0 X0 X1 X2 X3 | v0 X0]; subst;
  try contradiction; try congruence; try (exfalso; now apply (X0 _ eq_refl)); try (exfalso; eapply X2; eassumption).
Theorem loads_iff w path exts filters read l : load_files w path exts filters read = Ok l <-> loads w exts filters read path l.
Proof.
  destruct path as [| | | p | | |]; try (split; [intros K; injection K as <-; constructor; congruence|intros K; inversion K; subst; try reflexivity]; fail).
  unfold load_files. change $"ttp://" with (t_ "ttp://"). set (p5 := firstn 5000 p). set (td := match w_tdir w with Some ((_ :: _) as d) => Some (path_join d p5) | _ => None end).
  assert (TD : forall q, in_templates w p5 q <-> td = Some q) by (intros q; apply in_templates_iff). clearbody td.
  destruct (prefixb (t_ "ttp://") p) eqn:E0. { split; [discriminate|]. intros K. loads_inv K. }
  destruct (is_file w p5) eqn:E1.
  { apply is_file_iff in E1. rewrite load_file_iff. split; [intros (d & -> & D); now apply ld_file|]. intros K. loads_inv K. now exists d0. }
  apply is_file_f in E1.
  destruct (match td with Some q => is_file w q | None => false end) eqn:E2.
  { destruct td as [q|]; [|discriminate]. apply is_file_iff in E2. pose proof (proj2 (TD q) eq_refl) as Q. rewrite load_file_iff. split; [intros (d & -> & D); now apply (ld_template _ _ _ _ p q)|].
    intros K. loads_inv K. exists d0. apply TD in X2. injection X2 as <-. now split. }
  assert (NT : forall q, in_templates w p5 q -> ~ a_file w q). { intros q Q. apply TD in Q. subst td. now apply is_file_f. }
  subst p5. destruct (w_dir w (firstn 5000 p)) as [ls|] eqn:E3.
  - destruct (w_dir w p) as [names|] eqn:E4.
    2: { split; [discriminate|]. intros K. loads_inv K. now elim (NT q0). }
    cbv zeta. rewrite nominate. split.
    + intros K. destruct (rfold _ filters _) as [fs|e] eqn:F; [|discriminate]. cbn [rbind] in K. apply filters_iff in F. destruct F as [T ->].
      apply (ld_directory w exts filters read p ls names (filter (all_yes filters) (filter (nominated w p exts) names)) l); try assumption.
      * intros f I J X. apply (T f). apply filter_In. split; [exact I|]. now apply nominated_iff.
      * rewrite filter_filter. apply sublist_filter with (p := fun x => (nominated w p exts x && all_yes filters x)%bool); [|reflexivity]. intros x _. apply wanted_iff.
      * apply (proj1 (data_of_iff w p read _ l)). exact K.
    + intros K. loads_inv K; [now elim (NT q0)|].
      rewrite E4 in X4. injection X4 as <-.
      assert (F : rfold (fun fs pat => rfilter (re_search pat) fs) filters (filter (nominated w p exts) names) = Ok fs0).
      { apply filters_iff. split; [|rewrite filter_filter; symmetry; apply (sublist_filter (wanted w p exts filters) (fun x => (nominated w p exts x && all_yes filters x)%bool) names fs0); [intros x _; apply wanted_iff|exact X6]].
        intros f I. apply filter_In in I. destruct I as [I N]. apply nominated_iff in N. apply X5; tauto. }
      rewrite F. cbn [rbind]. apply (proj2 (data_of_iff w p read _ _)). assumption.
  - split; [intros K; injection K as <-; now apply ld_text|]. intros K. loads_inv K. now elim (NT q0).
Qed.
