(** * CharFacts: which characters an expression can take, decided by looking at it *)
From Verif Require Import PyBase Regex SpecRegex RegexFacts FormRegex SpecLine SpecForm StrFacts FindFacts.
Local Open Scope string_scope.
Local Open Scope list_scope.

Definition all_chars256 : list ascii := map (fun n => ascii_of_nat n) (seq 0 256).
Lemma all_chars_in c : In c all_chars256.
Proof. unfold all_chars256. rewrite <- (ascii_nat_embedding c). apply in_map. apply in_seq. pose proof (nat_ascii_bounded c). lia. Qed.
Fixpoint takes_only (p : ascii -> bool) (r : re) : bool :=
  match r with
  | REps => true
  | RSet neg items => forallb (fun c => implb (set_match neg items c) (p c)) all_chars256
  | RAny => forallb (fun c => implb (negb (Ascii.eqb c nl)) (p c)) all_chars256
  | RSeq a b | RAlt a b => (takes_only p a && takes_only p b)%bool
  | RStar _ a | RGroup _ a => takes_only p a
  | RAhead _ _ => true
  end.
Fixpoint nonempty (r : re) : bool :=
  match r with
  | RSet _ _ | RAny => true
  | RSeq a b => (nonempty a || nonempty b)%bool
  | RAlt a b => (nonempty a && nonempty b)%bool
  | RGroup _ a => nonempty a
  | _ => false
  end.
Lemma takes_only_spec p r : takes_only p r = true -> forall s c s' c', rel r s c s' c' -> exists w, s = w ++ s' /\ Forall (fun x => p x = true) w.
Proof.
  induction r as [|neg items| |a IHa b IHb|a IHa b IHb|g r IH|n r IH|neg r IH]; cbn [takes_only]; intros H s c s' c' R; cbn [rel] in R.
  - destruct R as [-> _]. now exists [].
  - destruct R as (x & -> & Hx & _). exists [x]. split; [reflexivity|]. constructor; [|constructor]. rewrite forallb_forall in H. specialize (H x (all_chars_in x)). now rewrite Hx in H.
  - destruct R as (x & -> & Hx & _). exists [x]. split; [reflexivity|]. constructor; [|constructor]. rewrite forallb_forall in H. specialize (H x (all_chars_in x)).
    apply Ascii.eqb_neq in Hx. now rewrite Hx in H.
  - apply Bool.andb_true_iff in H as [Ha Hb]. destruct R as (s1 & c1 & H1 & H2). apply (IHa Ha) in H1 as (w1 & -> & W1). apply (IHb Hb) in H2 as (w2 & -> & W2).
    exists (w1 ++ w2). split; [now rewrite app_assoc|]. apply Forall_app. now split.
  - apply Bool.andb_true_iff in H as [Ha Hb]. destruct R as [R|R]; eauto.
  - induction R as [s c|s c s1 c1 s2 c2 H1 Hl _ (w2 & -> & W2)]; [now exists []|]. apply (IH H) in H1 as (w1 & -> & W1).
    exists (w1 ++ w2). split; [now rewrite app_assoc|]. apply Forall_app. now split.
  - destruct R as (c1 & w & R & _). eauto.
  - destruct R as [-> _]. now exists [].
Qed.
Lemma nonempty_spec r : nonempty r = true -> forall s c s' c', rel r s c s' c' -> length s' < length s.
Proof.
  assert (L : forall r s c s' c', rel r s c s' c' -> length s' <= length s).
  { intros r0 s c s' c' R. apply rel_suffix in R as [w ->]. rewrite app_length. lia. }
  induction r as [|neg items| |a IHa b IHb|a IHa b IHb|g r IH|n r IH|neg r IH]; cbn [nonempty]; intros H s c s' c' R; try discriminate; cbn [rel] in R.
  - destruct R as (x & -> & _). cbn. lia.
  - destruct R as (x & -> & _). cbn. lia.
  - destruct R as (s1 & c1 & H1 & H2). pose proof (L _ _ _ _ _ H1). pose proof (L _ _ _ _ _ H2). apply Bool.orb_true_iff in H as [H|H].
    + apply (IHa H) in H1. lia.
    + apply (IHb H) in H2. lia.
  - apply Bool.andb_true_iff in H as [Ha Hb]. destruct R as [R|R]; eauto.
  - destruct R as (c1 & w & R & _). eauto.
Qed.
Definition word_like (r : re) : bool := (takes_only (fun c => negb (is_space c)) r && nonempty r)%bool.
Lemma word_like_spec rs : forallb word_like rs = true -> wordy rs.
Proof.
  intros H r Hi w s R. rewrite forallb_forall in H. apply H in Hi. unfold word_like in Hi. apply Bool.andb_true_iff in Hi as [H1 H2]. split.
  - apply (nonempty_spec r H2) in R. destruct w; [cbn in R; lia|discriminate].
  - apply (takes_only_spec _ r H1) in R as (w' & E & W). apply app_inv_tail in E. subst w'. eapply Forall_impl; [|exact W]. intros c Hc. now apply Bool.negb_true_iff in Hc.
Qed.
Definition no_newline (r : re) : bool := takes_only (fun c => negb (Ascii.eqb c nl)) r.
Lemma no_newline_spec r : no_newline r = true -> forall w s, rel r (w ++ s) [] s [] -> lacks nl w.
Proof.
  intros H w s R. apply (takes_only_spec _ r H) in R as (w' & E & W). apply app_inv_tail in E. subst w'. intros K. rewrite Forall_forall in W. apply W in K.
  cbn in K. discriminate.
Qed.
Lemma one_line_vars q : Forall (fun p => match p with PLit l => lacks nl l | PVar _ rs => forallb no_newline rs = true end) q -> one_line q.
Proof.
  intros H. eapply Forall_impl; [|exact H]. intros [l|n rs] Hp; [exact Hp|]. intros r Hi. rewrite forallb_forall in Hp. now apply no_newline_spec, Hp.
Qed.
(** the built-in patterns: which of them take words only; all of them stay on the line *)
Example patterns_words : map fst (filter (fun p => match re_compile (snd p) with Some r => word_like r | None => false end) patterns) =
  [$"DIGIT"; $"IP"; $"PREFIX"; $"IPV6"; $"PREFIXV6"; $"WORD"; $"MAC"].
Proof. vm_compute. reflexivity. Qed.
Example patterns_no_newline : forallb (fun p => match re_compile (snd p) with Some r => no_newline r | None => false end) patterns = true.
Proof. vm_compute. reflexivity. Qed.
