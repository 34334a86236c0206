(** * UptimeFacts3: a text in which no digit or dot follows an abbreviation of years or months directly is a time in at most one way *)
From Verif Require Import PyBase Regex StrFacts DictFacts CharFacts Parser MatchFuncs Uptime SpecUptime UptimeFacts UptimeFacts2.
Local Open Scope string_scope.
Local Open Scope list_scope.

Definition dnum (c : ascii) : bool := (is_dec c || Ascii.eqb c ".")%bool.
Definition alpha (c : ascii) : bool := letter (lower_c c).
Definition next (s : str) : str := lstrip_p (fun c => negb (dnum c)) s.
Definition stops (p : ascii -> bool) (s : str) : Prop := match s with [] => True | c :: _ => p c = false end.
Definition none_of (p : ascii -> bool) (s : str) : Prop := Forall (fun c => p c = false) s.
Definition all_of (p : ascii -> bool) (s : str) : Prop := Forall (fun c => p c = true) s.
Lemma run_unique p a : forall a' b b', all_of p a -> all_of p a' -> stops p b -> stops p b' -> a ++ b = a' ++ b' -> a = a' /\ b = b'.
Proof.
  induction a as [|x a IH]; intros [|y a'] b b' Ha Ha' Hb Hb' E; cbn [app] in E.
  - now split.
  - subst b. cbn in Hb. inversion Ha'; subst. congruence.
  - subst b'. cbn in Hb'. inversion Ha; subst. congruence.
  - injection E as -> E. inversion Ha; inversion Ha'; subst. destruct (IH a' b b') as [-> ->]; auto.
Qed.
Lemma next_skip a s : none_of dnum a -> next (a ++ s) = next s.
Proof. induction 1 as [|c a Hc _ IH]; [reflexivity|]. cbn [app]. unfold next in *. cbn [lstrip_p]. rewrite Hc. exact IH. Qed.
Lemma next_none a : none_of dnum a -> next a = [].
Proof. intros H. rewrite <- (app_nil_r a), next_skip by exact H. reflexivity. Qed.
Lemma by_chars (p : ascii -> bool) : forallb p all_chars256 = true -> forall c, p c = true.
Proof. intros H c. rewrite forallb_forall in H. apply H, all_chars_in. Qed.
Lemma space_facts c : is_space c = true -> dnum c = false /\ alpha c = false.
Proof.
  intros H. assert (K := by_chars (fun c => implb (is_space c) (negb (dnum c) && negb (alpha c))) ltac:(vm_compute; reflexivity) c). cbv beta in K. rewrite H in K. cbn [implb] in K.
  apply Bool.andb_true_iff in K as [K1 K2]. now rewrite Bool.negb_true_iff in K1, K2.
Qed.
Lemma alpha_facts c : alpha c = true -> dnum c = false /\ is_space c = false.
Proof.
  intros H. assert (K := by_chars (fun c => implb (alpha c) (negb (dnum c) && negb (is_space c))) ltac:(vm_compute; reflexivity) c). cbv beta in K. rewrite H in K. cbn [implb] in K.
  apply Bool.andb_true_iff in K as [K1 K2]. now rewrite Bool.negb_true_iff in K1, K2.
Qed.
Lemma dnum_facts c : dnum c = true -> alpha c = false /\ is_space c = false.
Proof.
  intros H. assert (K := by_chars (fun c => implb (dnum c) (negb (alpha c) && negb (is_space c))) ltac:(vm_compute; reflexivity) c). cbv beta in K. rewrite H in K. cbn [implb] in K.
  apply Bool.andb_true_iff in K as [K1 K2]. now rewrite Bool.negb_true_iff in K1, K2.
Qed.
Lemma dnum_iff c : dnum c = true <-> is_dec c = true \/ c = "."%char.
Proof. unfold dnum. now rewrite Bool.orb_true_iff, Ascii.eqb_eq. Qed.
Lemma blanks_none b : blanks b -> none_of dnum b.
Proof. intros H. eapply Forall_impl; [|exact H]. intros c K. now apply space_facts. Qed.
Lemma alpha_none w : all_of alpha w -> none_of dnum w.
Proof. intros H. eapply Forall_impl; [|exact H]. intros c K. now apply alpha_facts. Qed.
Lemma count_all u n : count u n -> all_of dnum n.
Proof. intros H. apply Forall_forall. intros c Hc. apply dnum_iff. eapply count_char; eassumption. Qed.
(** the words are letters *)
Lemma lower_alpha w l : forallb letter l = true -> lower w = l -> all_of alpha w.
Proof.
  intros H <-. unfold all_of. rewrite Forall_forall. intros c Hc. rewrite forallb_forall in H. apply H. now apply in_map.
Qed.
Lemma says_alpha l w : forallb (fun x => forallb letter $x) l = true -> says l w -> all_of alpha w /\ (forallb (fun x => negb (str_eqb $x [])) l = true -> w <> []).
Proof.
  intros H (x & Hx & E). rewrite forallb_forall in H. split; [exact (lower_alpha w _ (H x Hx) E)|]. intros K ->. rewrite forallb_forall in K. specialize (K x Hx). rewrite <- E in K. discriminate.
Qed.
Lemma words_alpha u w : says (words u) w -> all_of alpha w /\ w <> [].
Proof. intros H. destruct (says_alpha (words u) w ltac:(destruct u; reflexivity) H) as [A K]. split; [exact A|]. apply K. destruct u; reflexivity. Qed.
Lemma abbreviations_alpha u w : says (abbreviations u) w -> all_of alpha w /\ w <> [] /\ (u = Years \/ u = Months).
Proof.
  intros H. destruct (says_alpha (abbreviations u) w ltac:(destruct u; reflexivity) H) as [A K]. split; [exact A|]. split; [apply K; destruct u; reflexivity|].
  destruct H as (x & Hx & _). destruct u; auto; destruct Hx.
Qed.
Lemma word_head u w : names_unit u w -> exists c t, w = c :: t /\ alpha c = true.
Proof.
  intros [H|(v & c & -> & H & _)].
  - apply words_alpha in H as [H N]. destruct w as [|c t]; [contradiction|]. inversion H; subst. now exists c, t.
  - apply abbreviations_alpha in H as (H & N & _). destruct v as [|x v]; [contradiction|]. inversion H; subst. now exists x, (v ++ [c]).
Qed.
(** the unit that a run of letters names *)
Definition unit_of (r : str) : option unit_ :=
  match find (fun u => existsb (fun x => str_eqb $x r) (words u)) all_units with
  | Some u => Some u
  | None => find (fun u => existsb (fun x => str_eqb $x (removelast r)) (abbreviations u)) all_units
  end.
Lemma unit_of_words u x : In x (words u) -> unit_of $x = Some u.
Proof.
  intros H. assert (K : forallb (fun x => match unit_of $x with Some v => match u, v with Uptime.Years, Uptime.Years | Uptime.Months, Uptime.Months | Uptime.Weeks, Uptime.Weeks
    | Uptime.Days, Uptime.Days | Uptime.Hours, Uptime.Hours | Uptime.Mins, Uptime.Mins | Uptime.Secs, Uptime.Secs => true | _, _ => false end | None => false end) (words u) = true) by (destruct u; vm_compute; reflexivity).
  rewrite forallb_forall in K. specialize (K x H). destruct (unit_of $x) as [v|]; [|discriminate]. destruct u, v; try discriminate; reflexivity.
Qed.
Lemma unit_of_abbreviation u x c : In x (abbreviations u) -> letter c = true -> unit_of ($x ++ [c]) = Some u.
Proof.
  intros H Hc. assert (K : forallb (fun c => implb (letter c) (forallb (fun x => match unit_of ($x ++ [c]) with Some v => match u, v with Uptime.Years, Uptime.Years | Uptime.Months, Uptime.Months => true | _, _ => false end | None => false end) (abbreviations u))) all_chars256 = true) by (destruct u; vm_compute; reflexivity).
  rewrite forallb_forall in K. specialize (K c (all_chars_in c)). rewrite Hc in K. cbn [implb] in K. rewrite forallb_forall in K. specialize (K x H).
  destruct (unit_of ($x ++ [c])) as [v|]; [|discriminate]. destruct u, v; try discriminate; reflexivity.
Qed.
Lemma abbreviations_words u x : In x (abbreviations u) -> In x (words u).
Proof. destruct u; cbn; tauto. Qed.
(** the run of letters at a word, when no letter follows *)
Lemma word_run u w t : names_unit u w -> stops alpha t -> exists r q, w ++ t = r ++ q /\ all_of alpha r /\ stops alpha q /\ unit_of (lower r) = Some u.
Proof.
  intros [H|(v & c & -> & H & _)] Ht.
  - exists w, t. split; [reflexivity|]. split; [now apply words_alpha in H|]. split; [exact Ht|]. destruct H as (x & Hx & ->). now apply unit_of_words.
  - pose proof (proj1 (abbreviations_alpha _ _ H)) as Hv. destruct H as (x & Hx & E). destruct (alpha c) eqn:Ec.
    + exists (v ++ [c]), t. split; [reflexivity|]. split; [apply Forall_app; split; [exact Hv|constructor; [exact Ec|constructor]]|]. split; [exact Ht|].
      rewrite lower_app, E. cbn [lower map]. now apply unit_of_abbreviation.
    + exists v, (c :: t). split; [now rewrite <- app_assoc|]. split; [exact Hv|]. split; [exact Ec|]. rewrite E. apply unit_of_words. now apply abbreviations_words.
Qed.
(** what is written does not start with a letter *)
Lemma writes_start us s l : writes us s l -> stops alpha s.
Proof.
  induction 1 as [us b Hb|u us s l H IH|u us b1 n b2 w b3 sep s l H1 H2 H3 H4 H5 H6 H7 IH]; [|exact IH|].
  - destruct b as [|c b]; [exact I|]. inversion Hb; subst. now apply space_facts.
  - destruct b1 as [|c b]; [|inversion H1; subst; now apply space_facts]. destruct n as [|c n]; [now destruct H2|]. cbn [app stops].
    apply dnum_facts, dnum_iff. eapply count_char; [exact H2|now left].
Qed.
Lemma separator_none u sep : separator u sep -> none_of dnum sep.
Proof. intros [->|(_ & [->| ->])]; repeat constructor. Qed.
Lemma stops_blanks p b s : (forall c, is_space c = true -> p c = false) -> blanks b -> stops p s -> stops p (b ++ s).
Proof. intros K Hb Hs. destruct b as [|c b]; [exact Hs|]. inversion Hb; subst. cbn. now apply K. Qed.
Lemma stops_separator u sep s : separator u sep -> stops alpha s -> stops alpha (sep ++ s).
Proof. intros [->|(_ & [->| ->])] Hs; [exact Hs|reflexivity|reflexivity]. Qed.
Lemma tight_app a s : tight s -> tight (a ++ s).
Proof. intros (x & w & c & y & -> & H). exists (a ++ x), w, c, y. split; [now rewrite <- app_assoc|exact H]. Qed.
Lemma word_none u w t : names_unit u w -> ~ tight (w ++ t) -> none_of dnum w.
Proof.
  intros [H|(v & c & -> & H & _)] Ht; [now apply alpha_none, (words_alpha u)|].
  apply Forall_app. split; [now apply alpha_none, (abbreviations_alpha u)|]. constructor; [|constructor]. destruct (dnum c) eqn:E; [|reflexivity]. exfalso. apply Ht.
  exists [], v, c, t. split; [cbn [app]; now rewrite <- app_assoc|]. split; [|now apply dnum_iff].
  destruct (abbreviations_alpha _ _ H) as (_ & _ & [->| ->]); auto.
Qed.
Lemma count_next u b1 n R : blanks b1 -> count u n -> next (b1 ++ n ++ R) = n ++ R.
Proof.
  intros H1 H2. rewrite next_skip by now apply blanks_none. pose proof (count_all _ _ H2) as H. destruct n as [|c n]; [now destruct H2|].
  inversion H; subst. unfold next. cbn [app lstrip_p]. rewrite H4. reflexivity.
Qed.
Lemma rest_next u b2 w b3 sep s : blanks b2 -> names_unit u w -> blanks b3 -> separator u sep -> ~ tight (b2 ++ w ++ b3 ++ sep ++ s) -> next (b2 ++ w ++ b3 ++ sep ++ s) = next s.
Proof.
  intros H2 H3 H4 H5 Ht. rewrite next_skip by now apply blanks_none. rewrite next_skip.
  - rewrite next_skip by now apply blanks_none. apply next_skip. eapply separator_none; exact H5.
  - apply (word_none u w (b3 ++ sep ++ s)); [exact H3|]. intros K. apply Ht. now apply tight_app.
Qed.
Lemma one_reading us s l : writes us s l -> forall us' s' l', writes us' s' l' -> ~ tight s -> ~ tight s' -> next s = next s' -> l = l'.
Proof.
  assert (B : forall us s l, writes us s l -> next s = [] -> l = []).
  { induction 1 as [us' b Hb|u us' s0 l0 H IH|u us' b1 n b2 w b3 sep s0 l0 H1 H2 H3 H4 H5 H6 H7 IH]; [reflexivity|exact IH|]. intros K.
    rewrite (count_next u) in K by assumption. destruct n; [now destruct H2|discriminate]. }
  induction 1 as [us b Hb|u us s l H IH|u us b1 n b2 w b3 sep s l H1 H2 H3 H4 H5 H6 H7 IH]; intros us' s' l' W' T T' E.
  - symmetry. apply (B _ _ _ W'). rewrite <- E. now apply next_none, blanks_none.
  - eapply IH; eassumption.
  - induction W' as [us' b Hb|u' us' s' l' H' IH'|u' us' b1' n' b2' w' b3' sep' s' l' H1' H2' H3' H4' H5' H6' H7' _].
    + exfalso. rewrite (count_next u), (next_none b) in E by (assumption || now apply blanks_none). destruct n; [now destruct H2|discriminate].
    + now apply IH'.
    + rewrite (count_next u), (count_next u') in E by assumption.
      assert (S : forall u b2 w R, blanks b2 -> names_unit u w -> stops dnum (b2 ++ w ++ R)).
      { intros v b x R Hb Hx. apply stops_blanks; [intros c Hc; now apply space_facts|exact Hb|]. apply word_head in Hx as (c & t & -> & Hc). cbn. now apply alpha_facts. }
      apply (run_unique dnum) in E as [-> E]; [|eapply count_all; eassumption|eapply count_all; eassumption|eapply S; eassumption|eapply S; eassumption].
      assert (X : ~ tight (b2 ++ w ++ b3 ++ sep ++ s)) by (intros K; apply T; rewrite app_assoc; now apply tight_app).
      assert (X' : ~ tight (b2' ++ w' ++ b3' ++ sep' ++ s')) by (intros K; apply T'; rewrite app_assoc; now apply tight_app).
      pose proof (rest_next u b2 w b3 sep s H3 H4 H5 H6 X) as N. pose proof (rest_next u' b2' w' b3' sep' s' H3' H4' H5' H6' X') as N'.
      assert (Es : next s = next s') by (rewrite <- N, <- N', E; reflexivity).
      assert (Sp : forall u w R, names_unit u w -> stops is_space (w ++ R)).
      { intros v x R Hx. apply word_head in Hx as (c & t & -> & Hc). cbn. now apply alpha_facts. }
      apply (run_unique is_space) in E as [-> E]; [|exact H3|exact H3'|eapply Sp; eassumption|eapply Sp; eassumption].
      assert (Q : forall b sep s u us l, blanks b -> separator u sep -> writes us s l -> stops alpha (b ++ sep ++ s)).
      { intros b sp t v vs l0 Hb Hs Hw. apply stops_blanks; [intros c Hc; now apply space_facts|exact Hb|]. eapply stops_separator; [exact Hs|]. eapply writes_start; exact Hw. }
      destruct (word_run u w _ H4 (Q _ _ _ _ _ _ H5 H6 H7)) as (r & q & Er & Hr & Hq & Hu).
      destruct (word_run u' w' _ H4' (Q _ _ _ _ _ _ H5' H6' H7')) as (r' & q' & Er' & Hr' & Hq' & Hu').
      rewrite Er, Er' in E. apply (run_unique alpha) in E as [-> _]; try assumption. rewrite Hu in Hu'. injection Hu' as ->. f_equal.
      apply (IH _ _ _ H7'); [| |exact Es].
      * intros K. apply X. rewrite !app_assoc. now apply tight_app.
      * intros K. apply X'. rewrite !app_assoc. now apply tight_app.
Qed.
Lemma time_unique s l l' : ~ tight s -> time s l -> time s l' -> l = l'.
Proof. intros T H H'. eapply one_reading; [exact H|exact H'|exact T|exact T|reflexivity]. Qed.
Lemma uptime_exact s format l v : ~ tight s -> time s l -> l <> [] -> f_uptimeparse (VStr s) format = SpecOutcome.becomes v <-> time_gives s format l v.
Proof.
  intros T H N. destruct (uptime_spec s format) as (x & E & [(-> & K)|(l' & N' & H' & G)]); [now apply K in H|].
  pose proof (time_unique s l l' T H H') as <-. rewrite E. unfold SpecOutcome.becomes. split.
  - intros Q. injection Q as <-. exact G.
  - intros Q. now rewrite (time_gives_fun _ _ _ _ _ G Q).
Qed.
