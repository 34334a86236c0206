(** * ReadFacts: reading the text of a regular expression piece by piece *)
From Verif Require Import PyBase DictFacts Regex SpecRegex RegexFacts FormRegex SpecLine StrFacts.
Local Open Scope string_scope.
Local Open Scope list_scope.

Lemma prun_app a b : forall s, prun (a ++ b) s = match prun a s with Some s' => prun b s' | None => None end.
Proof. induction a as [|c a IH]; intros s; [reflexivity|]. cbn [prun app]. destruct (pstep s c); [apply IH|reflexivity]. Qed.

(** ** an expression inside a group *)
Definition lift (st : list (okind * list re * list re)) (ns : list str) (s : pst) : pst :=
  {| p_mode := p_mode s; p_q := p_q s; p_branch := p_branch s; p_alts := p_alts s;
     p_stack := p_stack s ++ st; p_names := p_names s ++ ns |}.
Lemma quantify_lift st ns s lo hi s' : quantify s lo hi = Some s' -> quantify (lift st ns s) lo hi = Some (lift st ns s').
Proof.
  unfold quantify, lift. cbn. destruct (p_q s); try discriminate. destruct (p_branch s); [discriminate|].
  intros H. now injection H as <-.
Qed.
Lemma quantify_names s lo hi s' : quantify s lo hi = Some s' -> p_names s' = p_names s.
Proof. unfold quantify. destruct (p_q s); try discriminate. destruct (p_branch s); [discriminate|]. intros H. now injection H as <-. Qed.
Lemma step_normal_lift st ns s c s' : step_normal s c = Some s' -> step_normal (lift st ns s) c = Some (lift st ns s') /\ p_names s' = p_names s.
Proof.
  unfold step_normal. destruct (kind_of c) eqn:Ek; cbn [lift p_stack p_mode p_q p_branch p_alts p_names].
  - intros H. now injection H as <-.
  - intros H. now injection H as <-.
  - destruct (p_stack s) as [|[[k b] a] st0] eqn:Es; [discriminate|]. intros H. injection H as <-. cbn [app]. now split.
  - intros H. now injection H as <-.
  - intros H. now injection H as <-.
  - intros H. now injection H as <-.
  - intros H. split; [now apply quantify_lift|now apply quantify_names in H].
  - intros H. split; [now apply quantify_lift|now apply quantify_names in H].
  - destruct (p_q s) eqn:Eq; [intros H; split; [now apply quantify_lift|now apply quantify_names in H] ..|].
    destruct (p_branch s) eqn:Eb.
    + intros H. split; [now apply quantify_lift|now apply quantify_names in H].
    + intros H. now injection H as <-.
  - intros H. now injection H as <-.
  - discriminate.
  - intros H. now injection H as <-.
  - intros H. now injection H as <-.
Qed.
Lemma in_strs_app x a b : in_strs x (a ++ b) = (in_strs x a || in_strs x b)%bool.
Proof. unfold in_strs. apply existsb_app. Qed.
Lemma in_strs_false x l : ~ In x l -> in_strs x l = false.
Proof.
  intros H. unfold in_strs. apply Bool.not_true_is_false. intros E. apply existsb_exists in E as (y & Hy & E).
  apply str_eqb_eq in E. now subst.
Qed.
Lemma pstep_lift st ns s c s' : pstep s c = Some s' -> (forall n, In n ns -> ~ In n (p_names s')) ->
  pstep (lift st ns s) c = Some (lift st ns s') /\ (exists l, p_names s' = l ++ p_names s).
Proof.
  unfold pstep. cbn [lift p_mode]. destruct (p_mode s) eqn:Em.
  - intros H _. apply (step_normal_lift st ns) in H as [H E]. split; [exact H|]. exists []. exact E.
  - destruct (esc_item c); [|discriminate]. intros H _. injection H as <-. split; [reflexivity|now exists []].
  - destruct (is_ch c "?").
    + intros H _. injection H as <-. split; [reflexivity|now exists []].
    + intros H _. apply (step_normal_lift st ns) in H as [H E]. split; [exact H|]. exists []. exact E.
  - destruct (is_ch c "P"); [|destruct (is_ch c ":"); [|destruct (is_ch c "="); [|destruct (is_ch c "!"); [|discriminate]]]];
      intros H _; injection H as <-; (split; [reflexivity|now exists []]).
  - destruct (is_ch c "<"); [|discriminate]. intros H _; injection H as <-; (split; [reflexivity|now exists []]).
  - destruct (is_ch c ">").
    + destruct acc as [|a0 acc0] eqn:Ea; [discriminate|]. rewrite <- Ea. cbn [lift p_names].
      destruct (in_strs (rev acc) (p_names s)) eqn:Ei; [discriminate|]. intros H Hn. injection H as <-.
      rewrite in_strs_app, Ei. cbn [orb p_names] in Hn.
      rewrite (in_strs_false (rev acc) ns). 2:{ intros K. apply (Hn _ K). now left. }
      split; [reflexivity|]. exists [rev acc]. reflexivity.
    + destruct (is_word c); [|discriminate]. intros H _. injection H as <-. split; [reflexivity|now exists []].
  - destruct (is_ch c "^"); [intros H _; injection H as <-; (split; [reflexivity|now exists []])|].
    destruct (is_ch c "]"); [discriminate|]. unfold step_class.
    repeat (match goal with |- (if ?b then _ else _) = _ -> _ => destruct b end; [first [discriminate | intros H _; injection H as <-; (split; [reflexivity|now exists []])]|]).
    intros H _; injection H as <-; (split; [reflexivity|now exists []]).
  - unfold step_class.
    destruct (is_ch c "]"); [destruct items; [discriminate|]; intros H _; injection H as <-; (split; [reflexivity|now exists []])|].
    destruct (is_ch c "\"); [intros H _; injection H as <-; (split; [reflexivity|now exists []])|].
    destruct (is_ch c "-").
    { destruct items as [|[] ?]; intros H _; injection H as <-; (split; [reflexivity|now exists []]). }
    destruct (is_ch c "["); [discriminate|]. intros H _; injection H as <-; (split; [reflexivity|now exists []]).
  - destruct (esc_item c); [|discriminate]. intros H _. injection H as <-. split; [reflexivity|now exists []].
  - destruct (is_ch c "]"); [intros H _; injection H as <-; (split; [reflexivity|now exists []])|].
    destruct (is_ch c "\" || is_ch c "[" || N.ltb (code c) (code a))%bool; [discriminate|]. intros H _; injection H as <-; (split; [reflexivity|now exists []]).
  - destruct (is_dec c); [intros H _; injection H as <-; (split; [reflexivity|now exists []])|].
    destruct lo; [discriminate|]. destruct (is_ch c ","); [intros H _; injection H as <-; (split; [reflexivity|now exists []])|].
    destruct (is_ch c "}"); [|discriminate]. intros H _. split; [now apply quantify_lift|exists []; now apply quantify_names in H].
  - destruct (is_dec c); [intros H _; injection H as <-; (split; [reflexivity|now exists []])|].
    destruct (is_ch c "}"); [|discriminate]. intros H _. split; [now apply quantify_lift|exists []; now apply quantify_names in H].
Qed.
Lemma prun_names t : forall s s', prun t s = Some s' -> exists l, p_names s' = l ++ p_names s.
Proof.
  induction t as [|c t IH]; intros s s' H; cbn [prun] in H; [injection H as <-; now exists []|].
  destruct (pstep s c) as [s1|] eqn:E; [|discriminate]. destruct (IH _ _ H) as [l1 E1].
  destruct (pstep_lift [] [] s c s1 E) as [_ [l2 E2]]; [intros n []|]. exists (l1 ++ l2). now rewrite E1, E2, app_assoc.
Qed.
Lemma prun_lift st ns t : forall s s', prun t s = Some s' -> (forall n, In n ns -> ~ In n (p_names s')) ->
  prun t (lift st ns s) = Some (lift st ns s').
Proof.
  induction t as [|c t IH]; intros s s' H Hn; cbn [prun] in *; [now injection H as <-|].
  destruct (pstep s c) as [s1|] eqn:E; [|discriminate]. destruct (prun_names _ _ _ H) as [l El].
  destruct (pstep_lift st ns s c s1 E) as [E1 _].
  { intros n Hi K. apply (Hn n Hi). rewrite El. apply in_or_app. now right. }
  rewrite E1. apply IH; assumption.
Qed.

(** ** no group in the text, no group in the expression *)
Fixpoint groupless (r : re) : Prop :=
  match r with
  | RSeq a b | RAlt a b => groupless a /\ groupless b
  | RStar _ a | RAhead _ a => groupless a
  | RGroup _ _ => False
  | _ => True
  end.
Lemma groupless_caps r : groupless r -> forall s c s' c', rel r s c s' c' -> c' = c /\ forall d, rel r s d s' d.
Proof.
  induction r as [|neg items| |a IHa b IHb|a IHa b IHb|g r IH|n r IH|neg r IH]; cbn [groupless]; intros G s c s' c' H; cbn [rel] in *.
  - destruct H as [-> ->]. auto.
  - destruct H as (x & -> & Hx & ->). split; [reflexivity|]. intros d. eauto.
  - destruct H as (x & -> & Hx & ->). split; [reflexivity|]. intros d. eauto.
  - destruct G as [Ga Gb]. destruct H as (s1 & c1 & H1 & H2). apply (IHa Ga) in H1 as [-> H1]. apply (IHb Gb) in H2 as [-> H2].
    split; [reflexivity|]. intros d. eauto.
  - destruct G as [Ga Gb]. destruct H as [H|H]; [apply (IHa Ga) in H as [-> H]|apply (IHb Gb) in H as [-> H]]; (split; [reflexivity|]); intros d; auto.
  - specialize (IH G). induction H as [s c|s c s1 c1 s2 c2 H1 Hl _ [-> IH2]].
    + split; [reflexivity|]. intros d. apply sr_stop.
    + apply IH in H1 as [-> H1]. split; [reflexivity|]. intros d. eapply sr_more; [apply H1|exact Hl|apply IH2].
  - destruct G.
  - specialize (IH G). destruct H as [-> H]. destruct neg.
    + destruct H as [-> H]. split; [reflexivity|]. intros d. split; [reflexivity|]. split; [reflexivity|]. intros s1 c1 K.
      apply IH in K as [_ K]. apply (H s1 c), K.
    + destruct H as [s1 H]. apply IH in H as [-> H]. split; [reflexivity|]. intros d. split; [reflexivity|]. now exists s1.
Qed.
Lemma groupless_fold_seq l : forall a, groupless a -> Forall groupless l -> groupless (fold_left (fun acc p => RSeq p acc) l a).
Proof. induction l as [|x l IH]; intros a Ha Hl; [exact Ha|]. inversion Hl; subst. apply IH; [now split|assumption]. Qed.
Lemma groupless_fold_alt l : forall a, groupless a -> Forall groupless l -> groupless (fold_left (fun acc p => RAlt p acc) l a).
Proof. induction l as [|x l IH]; intros a Ha Hl; [exact Ha|]. inversion Hl; subst. apply IH; [now split|assumption]. Qed.
Lemma groupless_rep g r lo hi : groupless r -> groupless (mk_rep g r lo hi).
Proof.
  intros G. unfold mk_rep. assert (T : groupless (match hi with Some h => opts g (h - lo) r | None => RStar g r end)).
  { destruct hi as [h|]; [|exact G]. induction (h - lo) as [|n IH]; [exact I|]. cbn. destruct g; cbn; tauto. }
  revert T. generalize (match hi with Some h => opts g (h - lo) r | None => RStar g r end). intros t T.
  induction lo as [|lo IH]; [exact T|]. now split.
Qed.
Definition clean (s : pst) : Prop :=
  Forall groupless (p_branch s) /\ Forall groupless (p_alts s) /\
  Forall (fun x => (match fst (fst x) with OGroup _ => False | _ => True end) /\ Forall groupless (snd (fst x)) /\ Forall groupless (snd x)) (p_stack s) /\
  match p_q s with QRep r _ _ => groupless r | _ => True end.
Lemma quantify_clean s lo hi s' : clean s -> quantify s lo hi = Some s' -> clean s'.
Proof.
  unfold quantify. intros (Hb & Ha & Hs & Hq). destruct (p_q s); try discriminate. destruct (p_branch s) as [|r b]; [discriminate|].
  intros H. injection H as <-. inversion Hb; subst. unfold clean. cbn. split; [|split; [|split]]; try assumption.
  constructor; [now apply groupless_rep|assumption].
Qed.
Lemma step_normal_clean s c s' : clean s -> step_normal s c = Some s' -> clean s'.
Proof.
  intros HC. pose proof HC as (Hb & Ha & Hs & Hq). unfold step_normal. destruct (kind_of c).
  - intros H. injection H as <-. exact HC.
  - intros H. injection H as <-. exact HC.
  - destruct (p_stack s) as [|[[k b] a] st0]; [discriminate|]. intros H. injection H as <-. inversion Hs as [|? ? (Hk & Hb0 & Ha0) Hst]; subst. cbn in *.
    unfold clean. cbn. split; [|split; [|split]]; try assumption; try exact I. constructor; [|assumption].
    assert (groupless (alt_of (p_alts s) (seq_of (p_branch s)))) by (apply groupless_fold_alt; [apply groupless_fold_seq; [exact I|exact Hb]|exact Ha]).
    destruct k; [assumption|destruct Hk|assumption].
  - intros H. injection H as <-. unfold clean. cbn. split; [constructor|]. split; [|split; [assumption|exact I]].
    constructor; [apply groupless_fold_seq; [exact I|exact Hb]|exact Ha].
  - intros H. injection H as <-. exact HC.
  - intros H. injection H as <-. unfold clean. cbn. split; [|split; [|split]]; try assumption; try exact I. constructor; [exact I|assumption].
  - intros H. eapply quantify_clean; eassumption.
  - intros H. eapply quantify_clean; eassumption.
  - destruct (p_q s) eqn:Eq; [intros H; eapply quantify_clean; [exact HC|exact H]..|].
    destruct (p_branch s) as [|r0 b] eqn:Eb; [intros H; eapply quantify_clean; [exact HC|exact H]|].
    intros H. injection H as <-. inversion Hb; subst. unfold clean. cbn. split; [|split; [|split]]; try assumption; try exact I.
    constructor; [now apply groupless_rep|assumption].
  - intros H. injection H as <-. exact HC.
  - discriminate.
  - intros H. injection H as <-. unfold clean. cbn. split; [|split; [|split]]; try assumption; try exact I. constructor; [cbn; tauto|assumption].
  - intros H. injection H as <-. unfold clean. cbn. split; [|split; [|split]]; try assumption; try exact I. constructor; [exact I|assumption].
Qed.
Lemma push_set_clean s neg items : clean s -> clean (push s (RSet neg items)).
Proof. intros (Hb & Ha & Hs & Hq). unfold clean, push. cbn. split; [|split; [|split]]; try assumption; try exact I. constructor; [exact I|assumption]. Qed.
Lemma open_clean s k : (match k with OGroup _ => False | _ => True end) -> clean s -> clean (open s k).
Proof. intros Hk (Hb & Ha & Hs & Hq). unfold clean, open. cbn. split; [constructor|split; [constructor|split; [|exact I]]]. constructor; [now split|assumption]. Qed.
Lemma pstep_clean s c s' : clean s -> pstep s c = Some s' -> p_names s' = [] -> clean s'.
Proof.
  intros HC. unfold pstep. destruct (p_mode s).
  - intros H _. eapply step_normal_clean; eassumption.
  - destruct (esc_item c); [|discriminate]. intros H _. injection H as <-. now apply push_set_clean.
  - destruct (is_ch c "?"); [intros H _; injection H as <-; exact HC|]. intros H _. eapply step_normal_clean; [|exact H]. apply open_clean; [exact I|exact HC].
  - destruct (is_ch c "P"); [intros H _; injection H as <-; exact HC|].
    destruct (is_ch c ":"); [intros H _; injection H as <-; now apply open_clean|].
    destruct (is_ch c "="); [intros H _; injection H as <-; now apply open_clean|].
    destruct (is_ch c "!"); [intros H _; injection H as <-; now apply open_clean|]. discriminate.
  - destruct (is_ch c "<"); [|discriminate]. intros H _; injection H as <-; exact HC.
  - destruct (is_ch c ">").
    + destruct acc as [|a0 acc0]; [discriminate|]. destruct (in_strs _ _); [discriminate|]. intros H. injection H as <-. cbn. discriminate.
    + destruct (is_word c); [|discriminate]. intros H _; injection H as <-; exact HC.
  - destruct (is_ch c "^"); [intros H _; injection H as <-; exact HC|]. destruct (is_ch c "]") eqn:Eb; [discriminate|]. unfold step_class. rewrite Eb.
    destruct (is_ch c "\"); [intros H _; injection H as <-; exact HC|]. destruct (is_ch c "-"); [intros H _; injection H as <-; exact HC|].
    destruct (is_ch c "["); [discriminate|]. intros H _; injection H as <-; exact HC.
  - unfold step_class. destruct (is_ch c "]"); [destruct items; [discriminate|]; intros H _; injection H as <-; now apply push_set_clean|].
    destruct (is_ch c "\"); [intros H _; injection H as <-; exact HC|].
    destruct (is_ch c "-"); [destruct items as [|[] ?]; intros H _; injection H as <-; exact HC|].
    destruct (is_ch c "["); [discriminate|]. intros H _; injection H as <-; exact HC.
  - destruct (esc_item c); [|discriminate]. intros H _. injection H as <-. exact HC.
  - destruct (is_ch c "]"); [intros H _; injection H as <-; now apply push_set_clean|].
    destruct (is_ch c "\" || is_ch c "[" || N.ltb (code c) (code a))%bool; [discriminate|]. intros H _; injection H as <-; exact HC.
  - destruct (is_dec c); [intros H _; injection H as <-; exact HC|]. destruct lo; [discriminate|].
    destruct (is_ch c ","); [intros H _; injection H as <-; exact HC|]. destruct (is_ch c "}"); [|discriminate]. intros H _. eapply quantify_clean; eassumption.
  - destruct (is_dec c); [intros H _; injection H as <-; exact HC|]. destruct (is_ch c "}"); [|discriminate]. intros H _. eapply quantify_clean; eassumption.
Qed.
Lemma prun_clean t : forall s s', clean s -> prun t s = Some s' -> p_names s' = [] -> clean s'.
Proof.
  induction t as [|c t IH]; intros s s' HC H Hn; cbn [prun] in H; [now injection H as <-|].
  destruct (pstep s c) as [s1|] eqn:E; [|discriminate]. eapply IH; [|exact H|exact Hn]. eapply pstep_clean; [exact HC|exact E|].
  destruct (prun_names _ _ _ H) as [l El]. rewrite Hn in El. symmetry in El. now apply app_eq_nil in El.
Qed.
Lemma compile_groupless t r : re_compile t = Some r -> re_groups t = [] -> groupless r.
Proof.
  unfold re_compile, re_groups. destruct (prun t pst0) as [s|] eqn:E; [|discriminate]. intros H Hn.
  assert (HC : clean s). { eapply prun_clean; [|exact E|exact Hn]. repeat split; constructor. }
  destruct (p_mode s); try discriminate. destruct (p_stack s); [|discriminate]. injection H as <-.
  destruct HC as (Hb & Ha & _). apply groupless_fold_alt; [apply groupless_fold_seq; [exact I|exact Hb]|exact Ha].
Qed.

(** ** pieces *)
(** [t] adds the expressions [ps] to the current alternative and defines the groups [ns] *)
Definition emits (t : str) (ns : list str) (ps : list re) : Prop :=
  forall s, p_mode s = MNormal -> (forall n, In n ns -> ~ In n (p_names s)) ->
  exists q, prun t s = Some {| p_mode := MNormal; p_q := q; p_branch := rev ps ++ p_branch s; p_alts := p_alts s;
                               p_stack := p_stack s; p_names := rev ns ++ p_names s |}.
Lemma emits_nil : emits [] [] [].
Proof. intros s Hm _. exists (p_q s). cbn [prun rev app]. destruct s. cbn in *. now subst. Qed.
Lemma emits_app a b ns ms ps qs : (forall n, In n ns -> ~ In n ms) -> emits a ns ps -> emits b ms qs -> emits (a ++ b) (ns ++ ms) (ps ++ qs).
Proof.
  intros D Ha Hb s Hm Hn. rewrite prun_app.
  destruct (Ha s Hm) as [q Eq]. { intros n Hi. apply Hn, in_or_app. now left. }
  rewrite Eq. match goal with |- context [prun b ?x] => destruct (Hb x eq_refl) as [q2 E2] end.
  { intros n Hi. cbn [p_names]. intros K. apply in_app_or in K as [K|K]; [|apply (Hn n); [apply in_or_app; now right|exact K]].
    apply in_rev in K. exact (D n K Hi). }
  exists q2. rewrite E2. cbn [p_branch p_alts p_stack p_names]. now rewrite !rev_app_distr, !app_assoc.
Qed.
Lemma emits_app0 a b ps qs : emits a [] ps -> emits b [] qs -> emits (a ++ b) [] (ps ++ qs).
Proof. apply (emits_app a b [] []). intros n []. Qed.
Lemma seq_of_rev ps : seq_of (rev ps) = fold_right RSeq REps ps.
Proof. unfold seq_of. rewrite <- fold_left_rev_right. now rewrite rev_involutive. Qed.
Lemma emits_compile t ns ps : emits t ns ps -> re_compile t = Some (fold_right RSeq REps ps).
Proof.
  intros H. destruct (H pst0 eq_refl) as [q E]; [intros n _ []|]. unfold re_compile. rewrite E. cbn [p_mode p_stack p_alts p_branch].
  cbn [pst0 p_branch]. rewrite app_nil_r, seq_of_rev. reflexivity.
Qed.

Definition blanks_re : re := rplus (RSet false [CChar space; CChar tab]).
Definition digs_re : re := rplus (RSet false [CDigitC]).
Definition word_re : re := rplus (RSet false [CNSpaceC]).
Definition eol_re : re := RAhead false (RAlt (RSeq (rchar nl) REps) (RSeq (rchar (chr 13)) (RSeq (rchar nl) REps))).
Definition tail_res : list re := [RStar true (RSet false [CChar tab; CChar space]); eol_re].

Lemma all_ascii (P : ascii -> bool) : (forall a b c d e f g h, P (Ascii a b c d e f g h) = true) -> forall c, P c = true.
Proof. intros H [a b c d e f g h]. apply H. Qed.
Lemma plain_kind c : special c = false -> kind_of c = KLit.
Proof.
  intros H. assert (K : (special c || match kind_of c with KLit => true | _ => false end)%bool = true).
  { revert c H. intros c _. revert c. apply all_ascii. intros [] [] [] [] [] [] [] []; vm_compute; reflexivity. }
  rewrite H in K. cbn in K. destruct (kind_of c); congruence.
Qed.
Lemma special_item c : special c = true -> esc_item c = Some (CChar c).
Proof.
  intros H. assert (K : (negb (special c) || match esc_item c with Some (CChar x) => Ascii.eqb c x | _ => false end)%bool = true).
  { revert c H. intros c _. revert c. apply all_ascii. intros [] [] [] [] [] [] [] []; vm_compute; reflexivity. }
  rewrite H in K. cbn in K. destruct (esc_item c) as [[]|]; try discriminate. apply Ascii.eqb_eq in K. now subst.
Qed.
Lemma space_kind c : is_space c = true -> kind_of c = KLit.
Proof.
  intros H. assert (K : (negb (is_space c) || match kind_of c with KLit => true | _ => false end)%bool = true).
  { revert c H. intros c _. revert c. apply all_ascii. intros [] [] [] [] [] [] [] []; vm_compute; reflexivity. }
  rewrite H in K. cbn in K. destruct (kind_of c); congruence.
Qed.
Ltac eat s Hm := destruct s as [m q b al st ns]; cbn [p_mode] in Hm; subst m; eexists; reflexivity.
Lemma emits_char c : kind_of c = KLit -> emits [c] [] [rchar c].
Proof. intros H s Hm _. cbn [prun]. unfold pstep. rewrite Hm. unfold step_normal. rewrite H. eexists. reflexivity. Qed.
Lemma emits_esc c : emits (esc_c c) [] [rchar c].
Proof.
  unfold esc_c. destruct (special c) eqn:E; [|now apply emits_char, plain_kind].
  intros s Hm _. cbn [prun]. unfold pstep at 1. rewrite Hm.
  change (step_normal s bs) with (Some (with_mode s MEsc)). unfold pstep. cbn [with_mode p_mode]. rewrite (special_item c E). eexists. reflexivity.
Qed.
Lemma emits_blank : emits blank_src [] [blanks_re].
Proof. intros s Hm _. eat s Hm. Qed.
Lemma emits_digit : emits digit_src [] [digs_re].
Proof. intros s Hm _. eat s Hm. Qed.
Lemma emits_word : emits word_src [] [word_re].
Proof. intros s Hm _. eat s Hm. Qed.
Lemma emits_tail : emits tail_src [] tail_res.
Proof. intros s Hm _. eat s Hm. Qed.
Lemma emits_nl : emits $"\n" [] [rchar nl].
Proof. intros s Hm _. eat s Hm. Qed.

(** an expression inside a group *)
Lemma prun_inner t r : re_compile t = Some r -> re_groups t = [] ->
  exists b a, r = alt_of a (seq_of b) /\ forall st ns, exists q,
    prun t {| p_mode := MNormal; p_q := QNone; p_branch := []; p_alts := []; p_stack := st; p_names := ns |} =
    Some {| p_mode := MNormal; p_q := q; p_branch := b; p_alts := a; p_stack := st; p_names := ns |}.
Proof.
  unfold re_compile, re_groups. destruct (prun t pst0) as [s|] eqn:E; [|discriminate]. intros H Hn.
  destruct s as [m q b a sk nm]. cbn [p_mode p_stack p_alts p_branch p_names] in *. subst nm. destruct m; try discriminate. destruct sk; [|discriminate].
  injection H as <-. exists b, a. split; [reflexivity|]. intros st ns. exists q.
  apply (prun_lift st ns) in E; [|intros n _ []]. exact E.
Qed.
Lemma emits_non t r : re_compile t = Some r -> re_groups t = [] -> emits ($"(?:" ++ t ++ $")") [] [r].
Proof.
  intros H Hn. destruct (prun_inner t r H Hn) as (b & a & -> & K). intros s Hm _.
  destruct s as [m q b0 al st ns]. cbn [p_mode] in Hm. subst m.
  rewrite !prun_app. set (s1 := prun _ _).
  assert (E1 : s1 = Some {| p_mode := MNormal; p_q := QNone; p_branch := []; p_alts := []; p_stack := (ONon, b0, al) :: st; p_names := ns |}) by reflexivity.
  rewrite E1. rewrite prun_app. destruct (K ((ONon, b0, al) :: st) ns) as [q2 ->]. eexists. reflexivity.
Qed.
Fixpoint alts_re (rs : list re) : re :=
  match rs with [] => REps | [r] => RSeq r REps | r :: l => RAlt (RSeq r REps) (alts_re l) end.
Lemma prun_name n : Forall (fun c => is_word c = true) n -> forall acc q b al st ns,
  prun n {| p_mode := MName acc; p_q := q; p_branch := b; p_alts := al; p_stack := st; p_names := ns |} =
  Some {| p_mode := MName (rev n ++ acc); p_q := q; p_branch := b; p_alts := al; p_stack := st; p_names := ns |}.
Proof.
  induction 1 as [|c n Hc Hn IH]; intros acc q b al st ns; [reflexivity|]. cbn [prun]. unfold pstep. cbn [p_mode].
  assert (E : is_ch c ">" = false). { unfold is_ch. apply Bool.not_true_is_false. intros E. apply Ascii.eqb_eq in E. subst. discriminate. }
  rewrite E, Hc. unfold with_mode. cbn [p_q p_branch p_alts p_stack p_names]. rewrite IH. cbn [rev]. now rewrite <- app_assoc.
Qed.
Lemma alt_of_snoc a x r : alt_of (x :: a) r = alt_of a (RAlt x r).
Proof. reflexivity. Qed.
(** the alternatives of a variable, up to the closing parenthesis *)
Lemma prun_alts res rs : Forall2 (fun t r => re_compile t = Some r /\ re_groups t = []) res rs -> res <> [] ->
  forall a0 st ns, exists q b a,
    prun ($"(?:" ++ join $")|(?:" res ++ $")") {| p_mode := MNormal; p_q := QNone; p_branch := []; p_alts := a0; p_stack := st; p_names := ns |} =
    Some {| p_mode := MNormal; p_q := q; p_branch := b; p_alts := a; p_stack := st; p_names := ns |} /\
    alt_of a (seq_of b) = alt_of a0 (alts_re rs).
Proof.
  induction 1 as [|t r res rs [Hc Hg] HF IH]; intros Hne a0 st ns; [congruence|].
  destruct res as [|t2 res].
  - inversion HF; subst. cbn [join]. set (s0 := {| p_mode := _ |}).
    destruct (emits_non t r Hc Hg s0 eq_refl) as [q E]; [intros n []|]. rewrite E. unfold s0. cbn [p_branch p_alts p_stack p_names rev app].
    eexists q, _, _. split; [reflexivity|]. reflexivity.
  - rewrite join_cons. destruct rs as [|r2 rs]; [inversion HF|].
    replace ($"(?:" ++ (t ++ $")|(?:" ++ join $")|(?:" (t2 :: res)) ++ $")") with
      (($"(?:" ++ t ++ $")") ++ $"|" ++ ($"(?:" ++ join $")|(?:" (t2 :: res) ++ $")")).
    2:{ change $")|(?:" with ($")" ++ $"|" ++ $"(?:") at 2. now rewrite <- !app_assoc. }
    rewrite prun_app. set (s0 := {| p_mode := _ |}).
    destruct (emits_non t r Hc Hg s0 eq_refl) as [q E]; [intros n []|]. rewrite E. unfold s0. cbn [p_branch p_alts p_stack p_names rev app].
    rewrite prun_app.
    match goal with |- context [prun (list_ascii_of_string "|") ?x] =>
      change (prun (list_ascii_of_string "|") x) with (Some {| p_mode := MNormal; p_q := QNone; p_branch := []; p_alts := RSeq r REps :: a0; p_stack := st; p_names := ns |}) end.
    cbn iota.
    destruct (IH ltac:(discriminate) (RSeq r REps :: a0) st ns) as (q2 & b & a & E2 & E3).
    exists q2, b, a. split; [exact E2|]. rewrite E3. rewrite alt_of_snoc. reflexivity.
Qed.
Lemma emits_named n res rs : n <> [] -> Forall (fun c => is_word c = true) n -> res <> [] ->
  Forall2 (fun t r => re_compile t = Some r /\ re_groups t = []) res rs ->
  emits ($"(?P<" ++ n ++ $">(?:" ++ join $")|(?:" res ++ $"))") [n] [RGroup n (alts_re rs)].
Proof.
  intros Hne Hw Hres HF s Hm Hn.
  replace ($"(?P<" ++ n ++ $">(?:" ++ join $")|(?:" res ++ $"))") with
    ($"(?P<" ++ n ++ $">" ++ ($"(?:" ++ join $")|(?:" res ++ $")") ++ $")").
  2:{ change $">(?:" with ($">" ++ $"(?:"). change $"))" with ($")" ++ $")"). now rewrite <- !app_assoc. }
  destruct s as [m q b0 al st ns]. cbn [p_mode] in Hm. subst m.
  rewrite prun_app. set (s1 := prun _ _).
  assert (E1 : s1 = Some {| p_mode := MName []; p_q := q; p_branch := b0; p_alts := al; p_stack := st; p_names := ns |}) by reflexivity.
  rewrite E1, prun_app, (prun_name n Hw), prun_app. rewrite app_nil_r.
  change $">" with [">"%char]. change $")" with [")"%char] at 2. cbn [prun]. unfold pstep at 1. cbn [p_mode]. change (is_ch ">" ">") with true. cbn iota.
  destruct (rev n) as [|x y] eqn:Er. { exfalso. apply Hne. rewrite <- (rev_involutive n), Er. reflexivity. }
  rewrite <- Er, rev_involutive. rewrite in_strs_false. 2:{ apply Hn. now left. }
  rewrite prun_app. unfold open. cbn [p_branch p_alts p_stack p_names p_q].
  destruct (prun_alts res rs HF Hres [] ((OGroup n, b0, al) :: st) (n :: ns)) as (q2 & b & a & E2 & E3).
  rewrite E2. eexists. cbn [list_ascii_of_string prun]. unfold pstep, step_normal. cbn [p_mode p_stack p_alts p_branch].
  change (kind_of ")") with KClose. cbn iota. cbn [p_stack p_alts p_branch p_names wrap rev app]. rewrite E3. reflexivity.
Qed.
