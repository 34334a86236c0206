(** * TextFacts: proofs for C125. *)
From Coq Require Import Lia.
From Verif Require Import PyBase DictFacts StrFacts Regex Results Template Attributes EscapeFacts XmlFacts LineFacts FuncTable SpecVariable SpecText.
Local Open Scope string_scope.
Local Open Scope list_scope.

Lemma white_iff c : is_space c = true <-> white c.
Proof.
  unfold white. transitivity (existsb (N.eqb (code c)) [9; 10; 11; 12; 13; 28; 29; 30; 31; 32; 133; 160]%N = true).
  - assert (H : forall c, Bool.eqb (is_space c) (existsb (N.eqb (code c)) [9; 10; 11; 12; 13; 28; 29; 30; 31; 32; 133; 160]%N) = true) by (apply all256; vm_compute; reflexivity). specialize (H c). apply Bool.eqb_prop in H. now rewrite H.
  - rewrite existsb_exists. split; [intros (x & H & E); apply N.eqb_eq in E; now rewrite E|intros H; exists (code c); split; [exact H|apply N.eqb_refl]].
Qed.
Lemma not_white c : is_space c = false <-> ~ white c. Proof. rewrite <- white_iff. destruct (is_space c); split; congruence || (intros H; try reflexivity; now elim H). Qed.

(** letters *)
Definition letter_b (s c : ascii) : bool :=
  (existsb (fun n => match nth_error small n, nth_error capital n with Some a, Some b => Ascii.eqb a s && Ascii.eqb b c | _, _ => false end) (seq 0 26) ||
   N.eqb (code c + 32) (code s) && N.leb 192 (code c) && N.leb (code c) 222 && negb (N.eqb (code c) 215))%bool.
Lemma letter_iff s c : letter_b s c = true <-> letter s c.
Proof.
  unfold letter_b, letter. rewrite orb_true_iff, existsb_exists, !andb_true_iff, !N.leb_le, N.eqb_eq, negb_true_iff, N.eqb_neq. split; (intros [H|H]; [left|right; tauto]).
  - destruct H as (n & Hn & H). exists n. apply in_seq in Hn. split; [lia|]. destruct (nth_error small n), (nth_error capital n); try discriminate. apply andb_true_iff in H as [H1 H2]. apply Ascii.eqb_eq in H1, H2. now subst.
  - destruct H as (n & Hn & H1 & H2). exists n. split; [apply in_seq; lia|]. now rewrite H1, H2, !Ascii.eqb_refl.
Qed.
Definition all_chars : list ascii := map (fun n => ascii_of_N (N.of_nat n)) (seq 0 256).
Lemma in_all c : In c all_chars.
Proof. unfold all_chars. rewrite <- (ascii_N_embedding c). apply in_map_iff. exists (N.to_nat (N_of_ascii c)). rewrite N2Nat.id. split; [reflexivity|]. apply in_seq. pose proof (N_ascii_bounded c). lia. Qed.
(** every letter and its other form *)
Definition upper_b (c : ascii) : bool :=
  if existsb (letter_b c) all_chars then match upper_c c with [k] => letter_b c k && forallb (fun k' => implb (letter_b c k') (Ascii.eqb k' k)) all_chars | _ => false end && negb (N.eqb (code c) 223)
  else if N.eqb (code c) 223 then str_eqb (upper_c c) (t_ "SS") else str_eqb (upper_c c) [c].
Lemma upper_b_all c : upper_b c = true. Proof. revert c. apply all256. vm_compute. reflexivity. Qed.
Lemma upper_iff c r : upper_of c r <-> r = upper_c c.
Proof.
  pose proof (upper_b_all c) as H. unfold upper_b in H. destruct (existsb (letter_b c) all_chars) eqn:E.
  - apply existsb_exists in E as (k & _ & Hk). apply andb_true_iff in H as [H Hs]. destruct (upper_c c) as [|u [|]] eqn:Eu; try discriminate H. apply andb_true_iff in H as [H1 H2]. rewrite forallb_forall in H2. apply negb_true_iff, N.eqb_neq in Hs. split.
    + destruct 1 as [s x Hx|x Hx|x Hx _]; [| |exfalso; apply letter_iff in Hk; exact (Hx _ Hk)]; [|contradiction]. apply letter_iff in Hx. specialize (H2 x (in_all x)). rewrite Hx in H2. apply Ascii.eqb_eq in H2. now subst.
    + intros ->. apply up_letter. now apply letter_iff.
  - assert (N : forall k, ~ letter c k) by (intros k K; apply letter_iff in K; rewrite <- not_true_iff_false in E; apply E; apply existsb_exists; exists k; split; [apply in_all|exact K]).
    destruct (N.eqb (code c) 223) eqn:Es; [apply N.eqb_eq in Es|apply N.eqb_neq in Es]; apply str_eqb_eq in H; rewrite H; split.
    + destruct 1 as [s x Hx|x Hx|x Hx Hn]; [now elim (N x)|reflexivity|contradiction].
    + intros ->. now apply up_sharp.
    + destruct 1 as [s x Hx|x Hx|x Hx Hn]; [now elim (N x)|contradiction|reflexivity].
    + intros ->. now apply up_other.
Qed.
Definition lower_b (c : ascii) : bool :=
  if existsb (fun k => letter_b k c) all_chars then letter_b (lower_c c) c && forallb (fun k' => implb (letter_b k' c) (Ascii.eqb k' (lower_c c))) all_chars else Ascii.eqb (lower_c c) c.
Lemma lower_b_all c : lower_b c = true. Proof. revert c. apply all256. vm_compute. reflexivity. Qed.
Lemma lower_iff c r : lower_of c r <-> r = lower_c c.
Proof.
  pose proof (lower_b_all c) as H. unfold lower_b in H. destruct (existsb (fun k => letter_b k c) all_chars) eqn:E.
  - apply existsb_exists in E as (k & _ & Hk). apply andb_true_iff in H as [H1 H2]. rewrite forallb_forall in H2. split.
    + destruct 1 as [s x Hx|x Hx]; [|exfalso; apply letter_iff in Hk; exact (Hx _ Hk)]. apply letter_iff in Hx. specialize (H2 s (in_all s)). rewrite Hx in H2. now apply Ascii.eqb_eq in H2.
    + intros ->. apply lo_letter. now apply letter_iff.
  - assert (N : forall k, ~ letter k c) by (intros k K; apply letter_iff in K; rewrite <- not_true_iff_false in E; apply E; apply existsb_exists; exists k; split; [apply in_all|exact K]).
    apply Ascii.eqb_eq in H. rewrite H. split; [destruct 1 as [s x Hx|x Hx]; [now elim (N s)|reflexivity]|intros ->; now apply lo_other].
Qed.
Lemma uppers s l : Forall2 upper_of s l <-> l = map upper_c s.
Proof. split; [induction 1 as [|c r s l H _ IH]; [reflexivity|]; apply upper_iff in H; cbn [map]; congruence|intros ->; induction s; constructor; [now apply upper_iff|assumption]]. Qed.
Lemma lowers s l : Forall2 lower_of s l <-> l = map lower_c s.
Proof. split; [induction 1 as [|c r s l H _ IH]; [reflexivity|]; apply lower_iff in H; cbn [map]; congruence|intros ->; induction s; constructor; [now apply lower_iff|assumption]]. Qed.
Lemma upper_concat s : upper s = concat (map upper_c s). Proof. unfold upper. now rewrite flat_map_concat_map. Qed.

(** cutting *)
Section Strip.
Variables (p : ascii -> bool) (P : ascii -> Prop).
Hypothesis same : forall c, p c = true <-> P c.
Lemma not_p c : p c = false <-> ~ P c. Proof. rewrite <- same. destruct (p c); split; congruence || (intros H; try reflexivity; now elim H). Qed.
Lemma lstrip_drop a r : Forall P a -> (forall c t, r = c :: t -> ~ P c) -> lstrip_p p (a ++ r) = r.
Proof.
  intros Ha Hr. induction Ha as [|c a Hc _ IH]; cbn [app].
  - destruct r as [|c t]; [reflexivity|]. cbn [lstrip_p]. now rewrite (proj2 (not_p c) (Hr c t eq_refl)).
  - cbn [lstrip_p]. now rewrite (proj2 (same c) Hc).
Qed.
Lemma rstrip_drop r b : Forall P b -> (forall t c, r = t ++ [c] -> ~ P c) -> rstrip_p p (r ++ b) = r.
Proof.
  intros Hb Hr. unfold rstrip_p. rewrite rev_app_distr, lstrip_drop; [apply rev_involutive|now apply Forall_rev|].
  intros c t E. apply (Hr (rev t) c). rewrite <- (rev_involutive r), E. reflexivity.
Qed.
Lemma lstrip_is s : exists a, s = a ++ lstrip_p p s /\ Forall P a /\ forall c t, lstrip_p p s = c :: t -> ~ P c.
Proof.
  induction s as [|c s (a & E & Ha & Hc)]; [exists []; repeat split; [constructor|discriminate]|]. cbn [lstrip_p]. destruct (p c) eqn:Ec.
  - exists (c :: a). split; [cbn [app]; congruence|]. split; [constructor; [now apply same|exact Ha]|exact Hc].
  - exists []. split; [reflexivity|]. split; [constructor|]. intros x t K. assert (c = x) by congruence. subst x. now apply not_p.
Qed.
Lemma rstrip_is s : exists b, s = rstrip_p p s ++ b /\ Forall P b /\ forall t c, rstrip_p p s = t ++ [c] -> ~ P c.
Proof.
  destruct (lstrip_is (rev s)) as (a & E & Ha & Hc). exists (rev a). unfold rstrip_p. split; [rewrite <- rev_app_distr, <- E; symmetry; apply rev_involutive|]. split; [now apply Forall_rev|].
  intros t c K. apply (Hc c (rev t)). rewrite <- (rev_involutive (lstrip_p p (rev s))), K, rev_app_distr. reflexivity.
Qed.
Lemma lstripped s r : stripped true false P s r <-> r = lstrip_p p s.
Proof.
  split.
  - intros (a & b & -> & Ha & _ & _ & Hb & Hr & _). rewrite (Hb eq_refl), app_nil_r. symmetry. apply lstrip_drop; [exact Ha|exact (Hr eq_refl)].
  - intros ->. destruct (lstrip_is s) as (a & E & Ha & Hc). exists a, []. rewrite app_nil_r. repeat split; auto; discriminate.
Qed.
Lemma rstripped s r : stripped false true P s r <-> r = rstrip_p p s.
Proof.
  split.
  - intros (a & b & -> & _ & Hb & Ha & _ & _ & Hr). rewrite (Ha eq_refl). cbn [app]. symmetry. apply rstrip_drop; [exact Hb|exact (Hr eq_refl)].
  - intros ->. destruct (rstrip_is s) as (b & E & Hb & Hc). exists [], b. cbn [app]. repeat split; auto; discriminate.
Qed.
Lemma both_stripped s r : stripped true true P s r <-> r = lstrip_p p (rstrip_p p s).
Proof.
  split.
  - intros (a & b & -> & Ha & Hb & _ & _ & Hl & Hr). symmetry. destruct r as [|x r].
    + cbn [app]. replace (rstrip_p p (a ++ b)) with (@nil ascii); [reflexivity|]. symmetry. change (a ++ b) with ([] ++ (a ++ b)). apply rstrip_drop; [now apply Forall_app|]. intros t c E. now destruct t.
    + rewrite app_assoc, rstrip_drop; [apply lstrip_drop; [exact Ha|exact (Hl eq_refl)]|exact Hb|]. intros t c E. apply (Hr eq_refl (skipn (length a) t) c). assert (L : length a <= length t). { apply (Logic.f_equal (@length _)) in E. rewrite !app_length in E. cbn [length] in E. lia. }
      apply (Logic.f_equal (skipn (length a))) in E. rewrite skipn_app_exact in E. rewrite E. rewrite skipn_app. replace (length a - length t) with 0 by lia. reflexivity.
  - intros ->. destruct (rstrip_is s) as (b & E & Hb & Hc). destruct (lstrip_is (rstrip_p p s)) as (a & E2 & Ha & Hc2). exists a, b. split; [rewrite app_assoc, <- E2; exact E|]. split; [exact Ha|]. split; [exact Hb|]. split; [discriminate|]. split; [discriminate|]. split; [auto|].
    intros _ t c K. apply (Hc (a ++ t) c). rewrite E2, K. now rewrite app_assoc.
Qed.
End Strip.
Lemma in_chars_iff cs c : in_chars cs c = true <-> In c cs.
Proof. unfold in_chars. rewrite existsb_exists. split; [intros (x & H & E); apply Ascii.eqb_eq in E; now subst|intros H; exists c; split; [exact H|apply Ascii.eqb_refl]]. Qed.

(** words *)
Lemma words_fuel : forall n s l, length s < n -> words_go n s = l <-> words_in s l.
Proof.
  induction n as [|n IH]; intros s l Hn; [lia|]. cbn [words_go]. destruct (lstrip_is is_space white white_iff s) as (g & E & Hg & Hc). unfold lstrip. destruct (lstrip_p is_space s) as [|c t] eqn:El.
  - rewrite app_nil_r in E. subst g. split; [intros <-; now constructor|]. intros H. inversion H as [|g w s' l' Hg' Hw Hw' Hs Hl Heq]; subst; [reflexivity|].
    exfalso. rewrite !Forall_app in Hg. destruct Hg as (_ & Hg & _). destruct w as [|x w]; [congruence|]. inversion Hg; inversion Hw'; subst; contradiction.
  - destruct (span_of (fun c => negb (is_space c)) (c :: t)) as [w r] eqn:Es. apply span_of_spec in Es as (Ew & Hw & Hr). assert (Nc : ~ white c) by (apply (Hc c t); reflexivity).
    assert (Hw0 : w <> []) by (intros ->; cbn [app] in Ew; subst r; apply negb_false_iff in Hr; apply Nc; now apply white_iff).
    assert (Hw1 : Forall (fun c => ~ white c) w) by (eapply Forall_impl; [|exact Hw]; intros x Hx; apply not_white; now apply negb_true_iff in Hx).
    assert (Hr1 : r = [] \/ exists c t, r = c :: t /\ white c) by (destruct r as [|x r]; [now left|right; exists x, r; split; [reflexivity|]; apply negb_false_iff in Hr; now apply white_iff]).
    assert (L : length r < n) by (rewrite E, Ew in Hn; rewrite !app_length in Hn; destruct w; [congruence|cbn [length] in Hn; lia]). split.
    + intros <-. rewrite E, Ew. constructor; auto. now apply IH.
    + intros H. inversion H as [s0 H0|g' w' s' l' Hg' Hw' Hw1' Hs' Hl' Heq]; subst l.
      * exfalso. subst s0. rewrite E in H0. apply Forall_app in H0 as [_ H0]. inversion H0; contradiction.
      * assert (G : lstrip_p is_space s = w' ++ s') by (rewrite <- Heq; apply (lstrip_drop is_space white white_iff); [exact Hg'|]; intros x y K; destruct w' as [|z w']; [congruence|]; inversion Hw1'; subst; assert (z = x) by (cbn [app] in K; congruence); now subst).
        rewrite El in G. assert (S1 : span_of (fun c => negb (is_space c)) (w' ++ s') = (w', s')). { apply span_of_app; [eapply Forall_impl; [|exact Hw1']; cbn beta; intros x Hx; apply not_white in Hx; now rewrite Hx|]. destruct Hs' as [->|(x & y & -> & Hx)]; [exact I|]. apply white_iff in Hx. now rewrite Hx. }
        assert (S2 : span_of (fun c => negb (is_space c)) (w ++ r) = (w, r)). { apply span_of_app; [exact Hw|]. exact Hr. }
        rewrite <- G, Ew, S2 in S1. assert (w = w') by congruence. assert (r = s') by congruence. subst w' s'. f_equal. now apply IH.
Qed.
Lemma words_iff s l : words s = l <-> words_in s l. Proof. apply words_fuel. lia. Qed.

(** separators *)
Lemma no_sep sep s : (forall a b, s <> a ++ sep ++ b) -> forall acc, split_go sep s acc 0 = [rev acc ++ s].
Proof.
  induction s as [|c s IH]; intros H acc; cbn [split_go]; [now rewrite app_nil_r|]. destruct (prefixb sep (c :: s)) eqn:E; [apply prefixb_app in E as [t E]; now elim (H [] t)|].
  rewrite IH; [cbn [rev]; now rewrite <- app_assoc|]. intros a b K. apply (H (c :: a) b). cbn [app]. congruence.
Qed.
Lemma first_sep sep a s : sep <> [] -> (forall a' b', a ++ sep ++ s = a' ++ sep ++ b' -> length a <= length a') -> forall acc, split_go sep (a ++ sep ++ s) acc 0 = (rev acc ++ a) :: split_go sep s [] 0.
Proof.
  intros Hs. induction a as [|c a IH]; intros H acc.
  - cbn [app]. rewrite split_go_prefix; [|exact Hs|apply prefixb_app; now exists s]. now rewrite skipn_app_exact, app_nil_r.
  - cbn [app split_go]. destruct (prefixb sep (c :: a ++ sep ++ s)) eqn:E; [apply prefixb_app in E as [t E]; specialize (H [] t E); cbn [length] in H; lia|].
    rewrite IH; [cbn [rev]; now rewrite <- app_assoc|]. intros a' b' K. specialize (H (c :: a') b'). cbn [app length] in H. assert (G : c :: a ++ sep ++ s = c :: a' ++ sep ++ b') by congruence. specialize (H G). lia.
Qed.
Lemma first_of sep s : {forall a b, s <> a ++ sep ++ b} + {exists (a b : str), s = a ++ sep ++ b /\ forall (a' b' : str), s = a' ++ sep ++ b' -> length a <= length a'}.
Proof.
  induction s as [|c s IH].
  - destruct sep as [|x sep]; [right; exists [], []; split; [reflexivity|]; cbn; lia|left; intros a b K; destruct a; discriminate].
  - destruct (prefixb sep (c :: s)) eqn:E; [right; apply prefixb_app in E as [t E]; exists [], t; split; [exact E|cbn; lia]|]. destruct IH as [IH|IH].
    + left. intros [|x a] b K; [cbn [app] in K; rewrite (proj2 (prefixb_app sep (c :: s)) (ex_intro _ b K)) in E; discriminate|]. cbn [app] in K. apply (IH a b). congruence.
    + right. destruct IH as (a & b & Es & H). exists (c :: a), b. split; [cbn [app]; congruence|]. intros [|x a'] b' K; [cbn [app] in K; rewrite (proj2 (prefixb_app sep (c :: s)) (ex_intro _ b' K)) in E; discriminate|]. cbn [app length] in *. assert (G : s = a' ++ sep ++ b') by congruence. specialize (H _ _ G). lia.
Qed.
Lemma cut_iff sep s l : sep <> [] -> split sep s = l <-> cut_at sep s l.
Proof.
  intros Hs. split.
  - intros <-. assert (G : forall n (s : str), length s <= n -> cut_at sep s (split sep s)); [|now apply (G (length s)); auto]. clear s. induction n as [|n IH]; intros s Hn; (destruct (first_of sep s) as [N|(a & b & -> & H)]; [unfold split; rewrite (no_sep sep s N []); now constructor|]).
    + exfalso. rewrite !app_length in Hn. destruct sep; [congruence|cbn [length] in Hn; lia].
    + unfold split. rewrite (first_sep sep a b Hs H []). cbn [rev app]. constructor; [exact H|]. apply IH. rewrite !app_length in Hn. destruct sep; [congruence|cbn [length] in Hn; lia].
  - induction 1 as [s N|a s l H _ IH]; unfold split; [exact (no_sep sep s N [])|]. rewrite (first_sep sep a s Hs H []). cbn [rev app]. f_equal. exact IH.
Qed.
Lemma intersperse new s : intersperse_all new s = concat (map (fun c => new ++ [c]) s) ++ new.
Proof. induction s as [|c s IH]; [reflexivity|]. cbn [intersperse_all map concat]. rewrite IH, <- !app_assoc. reflexivity. Qed.
Lemma suffix_iff p s : suffixb p s = true <-> exists t, s = t ++ p.
Proof.
  unfold suffixb. rewrite prefixb_app. split; intros [t E]; exists (rev t).
  - rewrite <- (rev_involutive s), E, rev_app_distr. now rewrite rev_involutive.
  - rewrite E, rev_app_distr. reflexivity.
Qed.
