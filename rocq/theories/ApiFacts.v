(** * ApiFacts: Api.v does what SpecApi says. *)
From Verif Require Import PyBase DictFacts Results Template Attributes FormRegex MatchVar MatchFuncs GroupFuncs Parser Compile FuncTable Session Files Inputs OutputTags Load Run SpecSession SessionFacts SpecVariable SpecFiles SpecLoaded LoadedFacts2 RunSeen SpecSeen SeenFacts SeenRefine Api SpecApi.
From Verif Require Properties_Files.
Local Open Scope string_scope.
Local Open Scope list_scope.

Lemma rmap_app {A B} (f : A -> res B) l l' : rmap f (l ++ l') = (do x <- rmap f l; do y <- rmap f l'; Ok (x ++ y)).
Proof. induction l as [|a l IH]; cbn [app rmap]; [now destruct (rmap f l')|]. destruct (f a); cbn [rbind]; [|reflexivity]. rewrite IH. destruct (rmap f l); cbn [rbind]; [|reflexivity]. now destruct (rmap f l'). Qed.
Lemma number_app {A} (l l' : list A) : forall n, number n (l ++ l') = number n l ++ number (n + length l) l'.
Proof. induction l as [|a l IH]; intros n; cbn [app number length]; [now rewrite Nat.add_0_r|]. rewrite IH. cbn [app]. do 3 f_equal. lia. Qed.

(** ** variables *)
Lemma adds_dec k c : (exists x, adds k c x) \/ (forall x, ~ adds k c x).
Proof.
  destruct c as [|v| | | | | |]; try (right; intros x (d & E & _); discriminate).
  destruct v as [| | | | |d|]; try (right; intros x (d & E & _); discriminate).
  destruct (dget d k) as [x|] eqn:E; [left; exists x, d; auto|]. right. intros x (d' & E' & H). injection E' as <-. congruence.
Qed.
Lemma given_cons k c h x : given k (c :: h) x <-> given k h x \/ (adds k c x /\ never_given k h).
Proof.
  split.
  - intros (h1 & c1 & h2 & E & A & N). destruct h1 as [|c0 h1]; cbn in E; injection E as -> ->; [right; split; [exact A|exact N]|left; exists h1, c1, h2; auto].
  - intros [(h1 & c1 & h2 & -> & A & N)|[A N]]; [exists (c :: h1), c1, h2; auto|exists [], c, h; auto].
Qed.
Lemma given_or_never k h : (exists x, given k h x) \/ never_given k h.
Proof.
  induction h as [|c h [[x IH]|IH]]; [right; intros c y []|left; exists x; apply given_cons; auto|].
  destruct (adds_dec k c) as [[x A]|A]; [left; exists x; apply given_cons; auto|]. right. intros c' y [<-|I]; [apply A|now apply IH].
Qed.
Fixpoint vars_after (v : dict) (h : list call) : dict :=
  match h with [] => v | AddVars (VDict d) :: h => vars_after (dupdate v d) h | _ :: h => vars_after v h end.
Lemma vars_value h : forall v k, real_dicts h ->
  (forall x, given k h x -> dget (vars_after v h) k = Some x) /\ (never_given k h -> dget (vars_after v h) k = dget v k).
Proof.
  induction h as [|c h IH]; intros v k R.
  - split; [intros x (h1 & c & h2 & E & _); now destruct h1|reflexivity].
  - assert (R' : real_dicts h) by (intros d I; apply R; now right).
    assert (S : (exists d, c = AddVars (VDict d)) \/ ((forall d, c <> AddVars (VDict d)) /\ vars_after v (c :: h) = vars_after v h)).
    { destruct c as [|y| | | | | |]; try (right; split; [discriminate|reflexivity]). destruct y; try (right; split; [discriminate|reflexivity]). left; eauto. }
    destruct S as [[d ->]|[N ->]].
    + cbn [vars_after]. destruct (IH (dupdate v d) k R') as [G Nv]. assert (D : dwf d) by (apply R; now left). split.
      * intros x H. apply given_cons in H as [H|[(d' & E & H) H2]]; [now apply G|]. injection E as <-. rewrite (Nv H2), dget_dupdate by exact D. now rewrite H.
      * intros H. rewrite Nv by (intros c y I; apply H; now right). rewrite dget_dupdate by exact D. destruct (dget d k) as [y|] eqn:E; [|reflexivity].
        destruct (H (AddVars (VDict d)) y (or_introl eq_refl)). exists d. auto.
    + destruct (IH v k R') as [G Nv]. split.
      * intros x H. apply given_cons in H as [H|[(d & E & _) _]]; [now apply G|]. now destruct (N d).
      * intros H. apply Nv. intros c' y I. apply H. now right.
Qed.

Section W.
Variables (clock : str -> option val) (k2i : bool) (order : list nat -> list nat) (w : world) (base : str).
Local Notation do_ := (Api.do_call clock k2i order w base).
Local Notation told := (told w).
Local Notation told_all := (told_all w).
Local Notation history := (history w order base).

(** ** calls *)
Definition added (o : obj) (p : val) (tss : list (list tpl)) : Prop :=
  exists ds, loads w [] [] true p ds /\ Forall2 (text_is w order base (o_vars o)) ds tss.
Lemma texts_tpls o p tss : (do texts <- template_texts w p; rmap (load_template w order base (o_vars o)) texts) = Ok tss <-> added o p tss.
Proof.
  unfold template_texts, added. split.
  - intros H. apply rbind_ok in H as (texts & H & E). apply rbind_ok in H as (items & H & E2). apply Properties_Files.C126_files in H. exists items. split; [exact H|].
    clear H. revert texts tss E E2. induction items as [|i items IH]; intros texts tss E E2; cbn [rmap] in E2.
    + injection E2 as <-. cbn in E. injection E as <-. constructor.
    + destruct i; try discriminate. cbn [rbind] in E2. apply rbind_ok in E2 as (l & E2 & K). injection K as <-. cbn [rmap] in E. apply rbind_ok in E as (ts & E3 & E).
      apply rbind_ok in E as (l' & E & K). injection K as <-. constructor; [eexists; split; [reflexivity|now apply load_iff]|eauto].
  - intros (ds & L & F). apply Properties_Files.C126_files in L. rewrite L. cbn [rbind]. clear L.
    assert (K : exists texts, rmap (fun i => match i with TextData x => Ok x | _ => out_of_model end) ds = Ok texts /\ rmap (load_template w order base (o_vars o)) texts = Ok tss).
    { induction F as [|d ts ds tss (x & -> & H) F (texts & E1 & E2)]; [exists []; split; reflexivity|]. exists (x :: texts). cbn [rmap rbind]. rewrite E1. cbn [rbind].
      split; [reflexivity|]. apply load_iff in H. rewrite H. cbn [rbind]. now rewrite E2. }
    destruct K as (texts & E1 & E2). rewrite E1. exact E2.
Qed.
Lemma add_template_iff o p o' : do_ o (AddTemplate p) = Ok o' <->
  exists tss, added o p tss /\
    o' = {| o_vars := o_vars o; o_tpls := o_tpls o ++ concat tss;
            o_session := set_templates (o_session o) (ss_templates (o_session o) ++ map (template_of []) (number (length (o_tpls o)) (concat tss))) |}.
Proof.
  cbn [do_call]. unfold add_template. split.
  - intros H. apply rbind_ok in H as (texts & E & H). apply rbind_ok in H as (tss & E2 & H). exists tss. split; [apply texts_tpls; now rewrite E|].
    injection H as <-. reflexivity.
  - intros (tss & A & ->). apply texts_tpls in A. apply rbind_ok in A as (texts & E & A). rewrite E. cbn [rbind]. rewrite A. reflexivity.
Qed.
Lemma lookup_iff n x i l k : (exists v, load_struct w x (lookup_attrs i l k) = Ok v) -> exists y, lookup_given w (AddLookup n x i l k) n y.
Proof. intros [v H]. apply Properties_Files.C126_load in H. eexists. exists x, i, l, k, v. repeat split. exact H. Qed.
Lemma add_lookup_iff o n x i l k o' : do_ o (AddLookup n x i l k) = Ok o' <->
  exists y, lookup_given w (AddLookup n x i l k) n y /\
    o' = {| o_vars := o_vars o; o_tpls := map (fun t => with_lookups t (dset (tp_lookups t) (KS n) y)) (o_tpls o); o_session := o_session o |}.
Proof.
  cbn [do_call]. unfold add_lookup. split.
  - intros H. apply rbind_ok in H as (v & E & H). apply Properties_Files.C126_load in E. injection H as <-.
    exists (match v with Some x => x | None => VNone end). split; [|reflexivity]. exists x, i, l, k, v. repeat split. exact E.
  - intros (y & (x' & i' & l' & k' & v & E & S & ->) & ->). injection E as <- <- <- <-. apply Properties_Files.C126_load in S. fold (lookup_attrs i l k) in S.
    unfold lookup_attrs in *. change (t_ "include") with ($"include") in S. change (t_ "load") with ($"load") in S. change (t_ "key") with ($"key") in S. rewrite S. reflexivity.
Qed.

Lemma session_calls o c o' : match c with AddInput _ _ _ _ | SetInput _ _ _ _ | ClearInput _ | ParseOne | ClearResult _ => True | _ => False end ->
  do_ o c = Ok o' -> o_vars o' = o_vars o /\ o_tpls o' = o_tpls o.
Proof.
  destruct c; intros []; cbn [do_call]; intros H; try (injection H as <-; split; reflexivity); apply rbind_ok in H as (s & _ & H); injection H as <-; split; reflexivity.
Qed.
Lemma told_same t : same_code t t.
Proof. repeat split. Qed.
(** what a call does to the templates that are loaded *)
Lemma call_tpls o c o' : do_ o c = Ok o' ->
  exists ts news, o_tpls o' = ts ++ news /\ Forall2 (told c) (o_tpls o) ts /\
    match c with
    | AddTemplate p => exists tss, added o p tss /\ news = concat tss /\ o_vars o' = o_vars o
    | AddVars (VDict d) => news = [] /\ o_vars o' = dupdate (o_vars o) d
    | _ => news = [] /\ o_vars o' = o_vars o
    end.
Proof.
  intros H.
  assert (Same : (forall d, c <> AddVars (VDict d)) -> (forall n x i l k, c <> AddLookup n x i l k) -> Forall2 (told c) (o_tpls o) (o_tpls o)).
  { intros N1 N2. induction (o_tpls o) as [|t l IH]; constructor; [now constructor|exact IH]. }
  destruct c as [p|v|n x i l k| | | | |].
  - apply add_template_iff in H as (tss & A & ->). exists (o_tpls o), (concat tss). cbn. split; [reflexivity|]. split; [apply Same; discriminate|eauto].
  - cbn [do_call] in H. injection H as <-. destruct v as [| | | | |d|]; try (exists (o_tpls o), []; rewrite app_nil_r; split; [reflexivity|split; [apply Same; discriminate|split; reflexivity]]).
    exists (map (fun t => with_vars t (dupdate (tp_vars t) d)) (o_tpls o)), []. rewrite app_nil_r. cbn. split; [reflexivity|]. split; [|split; reflexivity].
    clear. induction (o_tpls o) as [|t l IH]; constructor; [|exact IH]. apply to_vars; [repeat split|reflexivity|reflexivity].
  - apply add_lookup_iff in H as (y & G & ->). exists (map (fun t => with_lookups t (dset (tp_lookups t) (KS n) y)) (o_tpls o)), []. rewrite app_nil_r. cbn.
    split; [reflexivity|]. split; [|split; reflexivity].
    clear - G. induction (o_tpls o) as [|t l' IH]; constructor; [|exact IH]. eapply to_lookup; [exact G|repeat split|reflexivity|reflexivity].
  - apply session_calls in H as [-> ->]; [|exact I]. exists (o_tpls o), []. rewrite app_nil_r. split; [reflexivity|split; [apply Same; discriminate|split; reflexivity]].
  - apply session_calls in H as [-> ->]; [|exact I]. exists (o_tpls o), []. rewrite app_nil_r. split; [reflexivity|split; [apply Same; discriminate|split; reflexivity]].
  - apply session_calls in H as [-> ->]; [|exact I]. exists (o_tpls o), []. rewrite app_nil_r. split; [reflexivity|split; [apply Same; discriminate|split; reflexivity]].
  - apply session_calls in H as [-> ->]; [|exact I]. exists (o_tpls o), []. rewrite app_nil_r. split; [reflexivity|split; [apply Same; discriminate|split; reflexivity]].
  - apply session_calls in H as [-> ->]; [|exact I]. exists (o_tpls o), []. rewrite app_nil_r. split; [reflexivity|split; [apply Same; discriminate|split; reflexivity]].
Qed.

Lemma told_cons c h l l1 l2 : Forall2 (told c) l l1 -> Forall2 (told_all h) l1 l2 -> Forall2 (told_all (c :: h)) l l2.
Proof.
  intros F. revert l2. induction F as [|a b l l1 H F IH]; intros l2 K; inversion K; subst; constructor; [econstructor; eassumption|auto].
Qed.
Lemma Forall2_app_inv {A B} (R : A -> B -> Prop) l1 : forall l2 l, Forall2 R (l1 ++ l2) l -> exists m1 m2, l = m1 ++ m2 /\ Forall2 R l1 m1 /\ Forall2 R l2 m2.
Proof.
  induction l1 as [|a l1 IH]; intros l2 l H; cbn in H; [exists [], l; auto|]. inversion H as [|? b ? l' H1 H2]; subst.
  apply IH in H2 as (m1 & m2 & -> & F1 & F2). exists (b :: m1), m2. split; [reflexivity|]. split; [constructor; assumption|assumption].
Qed.
Lemma Forall2_app_ {A B} (R : A -> B -> Prop) l1 m1 l2 m2 : Forall2 R l1 m1 -> Forall2 R l2 m2 -> Forall2 R (l1 ++ l2) (m1 ++ m2).
Proof. intros H K. induction H; cbn; [exact K|now constructor]. Qed.

Theorem history_of h : forall o o', rfold do_ h o = Ok o' ->
  exists old news, o_tpls o' = old ++ news /\ Forall2 (told_all h) (o_tpls o) old /\ history (o_vars o) h news (o_vars o').
Proof.
  induction h as [|c h IH]; intros o o' H; cbn [rfold] in H.
  - injection H as <-. exists (o_tpls o), []. rewrite app_nil_r. split; [reflexivity|]. split; [|constructor]. induction (o_tpls o); constructor; [constructor|assumption].
  - apply rbind_ok in H as (o1 & E & H). apply IH in H as (old & news & Eo & F & Hi). apply call_tpls in E as (ts & ns & E1 & Ft & Ev).
    rewrite E1 in F. apply Forall2_app_inv in F as (m1 & m2 & -> & F1 & F2).
    exists m1. apply (told_cons _ _ _ _ _ Ft) in F1.
    assert (Other : (forall p, c <> AddTemplate p) -> (forall d, c <> AddVars (VDict d)) -> ns = [] -> o_vars o1 = o_vars o ->
      exists news0, o_tpls o' = m1 ++ news0 /\ Forall2 (told_all (c :: h)) (o_tpls o) m1 /\ history (o_vars o) (c :: h) news0 (o_vars o')).
    { intros N1 N2 -> V. inversion F2; subst. exists news. rewrite app_nil_r in Eo. split; [exact Eo|]. split; [exact F1|]. rewrite V in Hi. now apply hi_other. }
    destruct c as [p|v| | | | | |]; try (destruct Ev as [E2 V]; apply Other; [discriminate|discriminate|exact E2|exact V]).
    + destruct Ev as (tss & (ds & L & F) & -> & V). exists (m2 ++ news). split; [now rewrite app_assoc|]. split; [exact F1|]. rewrite V in Hi. econstructor; eassumption.
    + destruct v as [| | | | |d|]; try (destruct Ev as [E2 V]; apply Other; [discriminate|discriminate|exact E2|exact V]).
      destruct Ev as [E2 V]. subst ns. inversion F2; subst. exists news. rewrite app_nil_r in Eo. split; [exact Eo|]. split; [exact F1|]. rewrite V in Hi. now constructor.
Qed.
Theorem run_history h v0 o : Api.run clock k2i order w base h v0 = Ok o -> history v0 h (o_tpls o) (o_vars o).
Proof. intros H. apply history_of in H as (old & news & -> & F & H). cbn in F. inversion F; subst. exact H. Qed.
(** without results to be cleared or made, these calls cannot fail for another reason *)
Lemma history_vars h : forall v l v', history v h l v' -> v' = vars_after v h.
Proof.
  induction h as [|c h IH]; intros v l v' H; inversion H; subst; cbn [vars_after]; eauto.
  destruct c as [|x| | | | | |]; eauto. destruct x; eauto. match goal with K : forall d, AddVars _ <> _ |- _ => now destruct (K d eq_refl) end.
Qed.
Theorem told_vars h : forall t t', told_all h t t' -> tp_vars t' = vars_after (tp_vars t) h /\ same_code t t'.
Proof.
  induction h as [|c h IH]; intros t t' H; inversion H as [|? ? ? t1 ? Hc Hr]; subst; [split; [reflexivity|apply told_same]|].
  apply IH in Hr as [-> S]. split.
  - inversion Hc; subst; cbn [vars_after].
    + now rewrite <- H2.
    + match goal with K : lookup_given _ _ _ _ |- _ => destruct K as (? & ? & ? & ? & ? & -> & _) end. congruence.
    + destruct c as [|x| | | | | |]; try reflexivity. destruct x; try reflexivity. match goal with K : forall d, AddVars _ <> _ |- _ => now destruct (K d eq_refl) end.
  - assert (S1 : same_code t t1) by (inversion Hc; subst; try assumption; apply told_same).
    unfold same_code in *. intuition congruence.
Qed.

(** ** lookup tables *)
Definition looks (n : str) (c : call) : Prop := exists x i l k, c = AddLookup n x i l k.
Lemma looks_dec n c : looks n c \/ ~ looks n c.
Proof.
  destruct c as [| |m x i l k| | | | |]; try (right; intros (a & b & d & e & E); discriminate).
  destruct (str_eqb n m) eqn:E; [apply str_eqb_eq in E as <-; left; repeat eexists|right; intros (a & b & d & e & K); injection K as <-; now rewrite str_eqb_refl in E].
Qed.
Theorem told_lookups h n : forall t t', told_all h t t' ->
  ((forall c, In c h -> ~ looks n c) /\ dget (tp_lookups t') (KS n) = dget (tp_lookups t) (KS n)) \/
  exists h1 c h2 y, h = h1 ++ c :: h2 /\ lookup_given w c n y /\ (forall c', In c' h2 -> ~ looks n c') /\ dget (tp_lookups t') (KS n) = Some y.
Proof.
  induction h as [|c h IH]; intros t t' H; inversion H as [|? ? ? t1 ? Hc Hr]; subst; [left; split; [intros c []|reflexivity]|].
  apply IH in Hr as [[N E]|(h1 & c1 & h2 & y & -> & G & N & E)]; [|right; exists (c :: h1), c1, h2, y; auto].
  inversion Hc as [d a b S L V|c' m y a b G S V L|c' a N1 N2]; subst.
  - left. split; [|congruence]. intros c [<-|I]; [intros (? & ? & ? & ? & K); discriminate|now apply N].
  - rewrite L, dget_dset in E. destruct (key_eqb_spec (KS n) (KS m)) as [K|K].
    + injection K as <-. right. exists [], c, h, y. auto.
    + left. split; [|exact E]. intros c0 [<-|I]; [|now apply N]. intros (? & ? & ? & ? & Q). destruct G as (? & ? & ? & ? & ? & Q2 & _). congruence.
  - left. split; [|exact E]. intros c0 [<-|I]; [|now apply N]. intros (x & i & l & k & Q). now destruct (N2 n x i l k).
Qed.

End W.

(** ** the session goes with what is loaded *)
Lemma in_step_of l ts : Forall2 goes_with (Load.number 0 ts) l -> forall f, (forall t : tmpl, t_id (f t) = t_id t /\ t_name (f t) = t_name t /\ t_method (f t) = t_method t /\ t_groups (f t) = t_groups t) ->
  Forall2 goes_with (Load.number 0 ts) (map f l).
Proof.
  generalize 0. intros n H f K. induction H as [|a b x y (A & B & C & D) F IH]; cbn [map]; constructor; [|exact IH].
  destruct (K b) as (P & Q & R & S). unfold goes_with. intuition congruence.
Qed.
Lemma in_step_tpls n ts : forall ts' l, Forall2 goes_with (Load.number n ts) l -> Forall2 same_code ts ts' -> Forall2 goes_with (Load.number n ts') l.
Proof.
  revert n. induction ts as [|t ts IH]; intros n ts' l H S; inversion S as [|? t' ? ? S1 S2]; subst; cbn [number] in *; inversion H as [|? y ? ? H1 H2]; subst; constructor; eauto.
  destruct H1 as (A & B & C & D). cbn in *. destruct S1 as (S1 & S3 & S4 & S5 & S6 & S7 & _). unfold goes_with. cbn. intuition congruence.
Qed.
Lemma same_step (ts : list tpl) (l l' : list tmpl) : Forall2 same_but_results l l' -> Forall2 goes_with (Load.number 0 ts) l -> Forall2 goes_with (Load.number 0 ts) l'.
Proof.
  intros F. generalize (Load.number 0 ts). induction F as [|a b l l' S F IH]; intros ns H; inversion H as [|? ? ? ? H1 H2]; subst; constructor; [|now apply IH].
  destruct S as (S1 & S2 & S3 & S4 & _). destruct H1 as (A & B & C & D). unfold goes_with. intuition congruence.
Qed.
Definition kept (t t' : tmpl) : Prop := t_id t' = t_id t /\ t_name t' = t_name t /\ t_method t' = t_method t /\ t_groups t' = t_groups t.
Lemma kept_refl t : kept t t.
Proof. repeat split. Qed.
Lemma kept_trans a b c : kept a b -> kept b c -> kept a c.
Proof. unfold kept. intuition congruence. Qed.
Lemma kept_step (ts : list tpl) (l l' : list tmpl) : Forall2 kept l l' -> Forall2 goes_with (Load.number 0 ts) l -> Forall2 goes_with (Load.number 0 ts) l'.
Proof.
  intros F. generalize (Load.number 0 ts). induction F as [|a b l l' S F IH]; intros ns H; inversion H as [|? ? ? ? H1 H2]; subst; constructor; [|now apply IH].
  destruct S as (S1 & S2 & S3 & S4). destruct H1 as (A & B & C & D). unfold goes_with. intuition congruence.
Qed.
Lemma kept_map f (l : list tmpl) : (forall t, kept t (f t)) -> Forall2 kept l (map f l).
Proof. intros H. induction l; constructor; auto. Qed.
Lemma kept_rmap f (l l' : list tmpl) : (forall t t', f t = Ok t' -> kept t t') -> rmap f l = Ok l' -> Forall2 kept l l'.
Proof. intros H E. apply rmap_Forall2 in E. eapply Forall2_imp; [|exact E]. auto. Qed.
Lemma form_kept (t t' : tmpl) v : form_results t v = Ok t' -> kept t t'.
Proof.
  unfold form_results. intros H. apply rbind_ok in H as (d & _ & H). destruct (str_eqb _ _); [injection H as <-; repeat split|].
  destruct (str_eqb _ _); [|injection H as <-; repeat split]. destruct (t_results t); try discriminate. injection H as <-. repeat split.
Qed.
Lemma fold_kept {A} (f : dict * tmpl -> A -> res (dict * tmpl)) l : (forall s a s', f s a = Ok s' -> kept (snd s) (snd s')) -> forall s s', rfold f l s = Ok s' -> kept (snd s) (snd s').
Proof.
  intros H. induction l as [|a l IH]; intros s s' E; cbn [rfold] in E; [injection E as <-; apply kept_refl|]. apply rbind_ok in E as (s1 & E1 & E). eapply kept_trans; eauto.
Qed.
Section X.
Variables (clock : str -> option val) (k2i : bool) (w : world).
Lemma one_kept ts before after t g g' t' : one_seen clock k2i w ts before after t g = Ok (g', t') -> kept t t'.
Proof.
  unfold one_seen. cbv zeta. destruct (str_eqb _ _).
  - intros H. apply (fold_kept _ _) in H; [exact H|]. intros s i s' H2. apply (fold_kept _ _) in H2; [exact H2|]. intros s1 d s1' H3.
    apply rbind_ok in H3 as ([g1 v] & _ & H3). apply rbind_ok in H3 as (t1 & H3 & E). injection E as <-. now apply form_kept in H3.
  - destruct (str_eqb _ _); intros H; [|injection H as _ <-; apply kept_refl]. apply rbind_ok in H as ([g1 v] & _ & H). apply rbind_ok in H as (t1 & H & E).
    injection E as _ <-. now apply form_kept in H.
Qed.
Lemma each_kept ts l : forall before g g' l', each_seen clock k2i w ts before l g = Ok (g', l') -> exists r, l' = before ++ r /\ Forall2 kept l r.
Proof.
  induction l as [|t l IH]; intros before g g' l' H; cbn [each_seen] in H.
  - injection H as _ <-. exists []. rewrite app_nil_r. split; [reflexivity|constructor].
  - apply rbind_ok in H as ([g1 t1] & E & H). apply one_kept in E. apply IH in H as (r & -> & F). exists (t1 :: r). split; [now rewrite <- app_assoc|now constructor].
Qed.
End X.
Lemma kept_trans2 (l1 l2 l3 : list tmpl) : Forall2 kept l1 l2 -> Forall2 kept l2 l3 -> Forall2 kept l1 l3.
Proof. intros F. revert l3. induction F; intros l3 K; inversion K; subst; constructor; eauto using kept_trans. Qed.

(** ** setting the outputs *)
Lemma macros_from ts : forall cur i ms, nth_error (output_macros cur ts) i = Some ms <->
  i < length ts /\
  ((exists j t, j <= i /\ nth_error ts j = Some t /\ macro_setter t /\ ms = tp_macros t /\ forall k u, j < k <= i -> nth_error ts k = Some u -> ~ macro_setter u) \/
   ((forall k u, k <= i -> nth_error ts k = Some u -> ~ macro_setter u) /\ ms = cur)).
Proof.
  induction ts as [|t ts IH]; intros cur i ms; cbn [output_macros].
  - split; [destruct i; discriminate|]. cbn. lia.
  - cbv zeta. set (cur' := match tp_outputs t, tp_macros t with _ :: _, (_ :: _) as ms0 => ms0 | _, _ => cur end).
    assert (C : (macro_setter t /\ cur' = tp_macros t) \/ (~ macro_setter t /\ cur' = cur)).
    { unfold cur', macro_setter. destruct (tp_outputs t), (tp_macros t); [right|right|right|left]; split; try reflexivity; try (intros [A B]; congruence). split; discriminate. }
    destruct i as [|i]; cbn [nth_error length].
    + split.
      * intros H. injection H as <-. split; [lia|]. destruct C as [[S ->]|[S ->]].
        -- left. exists 0, t. split; [lia|]. split; [reflexivity|]. split; [exact S|]. split; [reflexivity|]. intros; lia.
        -- right. split; [|reflexivity]. intros k u L E. replace k with 0 in E by lia. injection E as <-. exact S.
      * intros [_ [(j & t' & L & E & S & -> & _)|[N ->]]].
        -- replace j with 0 in E by lia. injection E as <-. destruct C as [[_ ->]|[S' _]]; [reflexivity|now destruct S'].
        -- destruct C as [[S _]|[_ ->]]; [|reflexivity]. now destruct (N 0 t (Nat.le_refl 0) eq_refl).
    + rewrite IH. split.
      * intros [L [(j & t' & L2 & E & S & M & N)|[N M]]]; (split; [lia|]).
        -- left. exists (Datatypes.S j), t'. split; [lia|]. split; [exact E|]. split; [exact S|]. split; [exact M|]. intros [|k] u L3 E3; [lia|]. apply (N k u); [lia|exact E3].
        -- destruct C as [[S C]|[S C]].
           ++ left. exists 0, t. split; [lia|]. split; [reflexivity|]. split; [exact S|]. split; [congruence|]. intros [|k] u L3 E3; [destruct L3 as [L3 _]; inversion L3|]. apply (N k u); [lia|exact E3].
           ++ right. split; [|congruence]. intros [|k] u L3 E3; [cbn in E3; injection E3 as <-; exact S|apply (N k u); [lia|exact E3]].
      * intros [L [(j & t' & L2 & E & S & M & N)|[N M]]]; (split; [lia|]).
        -- destruct j as [|j].
           ++ cbn in E. injection E as <-. right. split; [intros k u L3 E3; apply (N (Datatypes.S k) u); [lia|exact E3]|]. destruct C as [[_ C]|[S' _]]; [congruence|now destruct S'].
           ++ left. exists j, t'. split; [lia|]. split; [exact E|]. split; [exact S|]. split; [exact M|]. intros k u L3 E3. apply (N (Datatypes.S k) u); [lia|exact E3].
        -- right. split; [intros k u L3 E3; apply (N (Datatypes.S k) u); [lia|exact E3]|]. destruct C as [[S _]|[_ C]]; [now destruct (N 0 t (Nat.le_0_l _) eq_refl)|congruence].
Qed.
Lemma macros_then_iff ts i ms : nth_error (output_macros (parsed_macros ts) ts) i = Some ms <-> i < length ts /\ macros_then ts i ms.
Proof.
  rewrite macros_from. unfold macros_then. split; intros [L H]; (split; [exact L|]); (destruct H as [H|[N M]]; [now left|right; split; [exact N|]]).
  - assert (K : ts <> []) by (intros ->; cbn in L; lia). apply exists_last in K as (ts0 & t & ->). exists ts0, t. split; [reflexivity|].
    rewrite M. unfold parsed_macros. rewrite map_app. cbn. now rewrite last_last.
  - destruct M as (ts0 & t & -> & ->). unfold parsed_macros. rewrite map_app. cbn. now rewrite last_last.
Qed.
Lemma nth_combine {A B} (l : list A) : forall (m : list B) i, nth_error (combine l m) i = match nth_error l i, nth_error m i with Some a, Some b => Some (a, b) | _, _ => None end.
Proof. induction l as [|a l IH]; intros [|b m] [|i]; cbn; try reflexivity; [now destruct (nth_error l i)|apply IH]. Qed.
Lemma nth_number {A} (l : list A) : forall n i, nth_error (Load.number n l) i = match nth_error l i with Some a => Some (n + i, a) | None => None end.
Proof. induction l as [|a l IH]; intros n [|i]; cbn; try reflexivity; [now rewrite Nat.add_0_r|]. rewrite IH. now rewrite Nat.add_succ_r. Qed.
Lemma Forall2_nth {A B} (R : A -> B -> Prop) l : forall l', length l = length l' -> (forall i a b, nth_error l i = Some a -> nth_error l' i = Some b -> R a b) -> Forall2 R l l'.
Proof.
  induction l as [|a l IH]; intros [|b l'] L H; try discriminate; constructor; [exact (H 0 a b eq_refl eq_refl)|]. apply IH; [cbn in L; congruence|]. intros i. exact (H (S i)).
Qed.
Lemma Forall2_at {A B} (R : A -> B -> Prop) l l' : Forall2 R l l' -> forall i b, nth_error l' i = Some b -> exists a, nth_error l i = Some a /\ R a b.
Proof. induction 1 as [|a b l l' H F IH]; intros [|i] x E; try discriminate; [injection E as <-; exists a; split; [reflexivity|exact H]|exact (IH i x E)]. Qed.
Lemma Forall2_len {A B} (R : A -> B -> Prop) l l' : Forall2 R l l' -> length l = length l'.
Proof. induction 1; cbn; congruence. Qed.
Lemma number_len {A} (l : list A) : forall n, length (Load.number n l) = length l.
Proof. induction l as [|a l IH]; intros n; cbn; [reflexivity|now rewrite IH]. Qed.
Lemma macros_len ts : forall cur, length (output_macros cur ts) = length ts.
Proof. induction ts as [|t ts IH]; intros cur; cbn; [reflexivity|now rewrite IH]. Qed.
Lemma map_len {A B} (f : A -> B) l : length (map f l) = length l.
Proof. apply map_length. Qed.

Definition steps_with (ts : list tpl) (s : session_t) : Prop := Forall2 goes_with (Load.number 0 ts) (ss_templates s).
Lemma outputs_set ts (s : session_t) l : steps_with ts s -> (Forall2 (outputs_are ts) (ss_templates s) l <-> l = ss_templates (with_outputs ts s)).
Proof.
  intros St. set (L := ss_templates (with_outputs ts s)).
  pose proof (Forall2_len _ _ _ St) as Len. rewrite number_len in Len.
  assert (LL : length L = length ts).
  { unfold L, with_outputs. cbn [ss_templates set_templates]. rewrite map_len, !combine_length, macros_len. unfold tmpl in *. rewrite <- Len. lia. }
  assert (At : forall i x, nth_error (ss_templates s) i = Some x -> exists t ms, nth_error ts i = Some t /\ t_id x = i /\ macros_then ts i ms /\ (forall ms', macros_then ts i ms' -> ms' = ms) /\
    nth_error L i = Some (set_outputs x (map (fun o v => run_outs ms (tp_vars t) [Found o] v) (tp_outputs t)))).
  { intros i x E. pose proof (Forall2_at _ _ _ St i x E) as ([n t] & E2 & (I & _)). rewrite nth_number in E2. destruct (nth_error ts i) as [t'|] eqn:Et; [|discriminate].
    injection E2 as <- ->. cbn in I. assert (Lt : i < length ts) by (apply nth_error_Some; congruence).
    destruct (nth_error (output_macros (parsed_macros ts) ts) i) as [ms|] eqn:Em; [|apply nth_error_None in Em; rewrite macros_len in Em; lia].
    exists t, ms. split; [reflexivity|]. split; [exact I|]. split; [now apply macros_then_iff in Em as [_ Em]|]. split.
    - intros ms' M. pose proof (proj2 (macros_then_iff ts i ms') (conj Lt M)). congruence.
    - unfold L, with_outputs. cbn [ss_templates set_templates]. rewrite nth_error_map, nth_combine, E, nth_combine, Et, Em. cbn [option_map fst snd template_of t_outputs]. reflexivity. }
  split.
  - intros H.
    assert (K : Forall2 eq l L).
    { apply Forall2_nth; [apply Forall2_len in H; unfold tmpl in *; congruence|]. intros i b c Eb Ec. pose proof (Forall2_at _ _ _ H i b Eb) as (x & Ex & Hs & t & ms & Et & M & Ot).
      apply At in Ex as (t' & ms' & Et' & I & M' & U & El). rewrite I in *. assert (t' = t) as -> by congruence. apply U in M as ->.
      assert (c = set_outputs x (map (fun o v => run_outs ms' (tp_vars t) [Found o] v) (tp_outputs t))) as -> by (pose proof (eq_trans (eq_sym Ec) El) as Q; now injection Q).
      destruct b, x. unfold same_but_outputs, set_outputs in *. cbn in *. intuition congruence. }
    clear - K. induction K; congruence.
  - intros ->. apply Forall2_nth; [unfold tmpl in *; congruence|]. intros i x b Ex Eb. apply At in Ex as (t & ms & Et & I & M & _ & El). pose proof (eq_trans (eq_sym El) Eb) as Q. injection Q as <-.
    split; [repeat split|]. exists t, ms. rewrite I. split; [exact Et|]. split; [exact M|reflexivity].
Qed.
