(** * ExtendFacts: which extend tags are expanded *)
From Verif Require Import PyBase DictFacts StrFacts Template SpecTemplate.
Local Open Scope string_scope.
Local Open Scope list_scope.

Section X.
Variable load : elem -> res ((str * list elem) + str).
Local Notation contributes := (contributes load).
Local Notation orderly := (orderly load).

Lemma nth_done {A} (d : list A) x r : nth_error (d ++ x :: r) (length d) = Some x.
Proof. rewrite nth_error_app2, Nat.sub_diag by lia. reflexivity. Qed.
Lemma nth_end {A} (d : list A) : nth_error (d ++ []) (length d) = None.
Proof. rewrite app_nil_r. now apply nth_error_None. Qed.
Lemma remove_done {A} (d : list A) x r : remove_at (length d) (d ++ x :: r) = d ++ r.
Proof. unfold remove_at. rewrite firstn_app, Nat.sub_diag, firstn_all, app_nil_r. f_equal. induction d; cbn; auto. Qed.
Lemma splice_done {A} (d n : list A) x r : splice (length d) n (d ++ x :: r) = d ++ n ++ r.
Proof. unfold splice. rewrite firstn_app, Nat.sub_diag, firstn_all, app_nil_r. do 2 f_equal. induction d; cbn; auto. Qed.
Lemma set_done {A} (d : list A) x y r : set_at (length d) y (d ++ x :: r) = d ++ y :: r.
Proof.
  unfold set_at. rewrite firstn_app, Nat.sub_diag, firstn_all, app_nil_r. f_equal.
  replace (skipn (length d) (d ++ x :: r)) with (x :: r); [reflexivity|]. clear. induction d; cbn; auto.
Qed.

Lemma visit_end rec top is n i text cs : nth_error cs i = None -> visit load rec top is n i text cs = Ok (text, cs).
Proof. intros H. destruct n; cbn [visit]; now rewrite H. Qed.

(** nothing happens to what is expanded *)
Definition keeps (rec : bool -> str -> list elem -> res (str * list elem)) : Prop :=
  forall is text cs r, Forall expanded cs -> rec is text cs = Ok r -> r = (text, cs).
Lemma elem_eta c : Elem (e_tag c) (e_attrs c) (e_text c) (e_children c) (e_tail c) = c.
Proof. now destruct c. Qed.
Lemma visit_keeps rec top is : keeps rec -> forall n d rest text r, Forall expanded rest ->
  visit load rec top is n (length d) text (d ++ rest) = Ok r -> r = (text, d ++ rest).
Proof.
  intros Hrec n. induction n as [|n IH]; intros d rest text r Hf H; destruct rest as [|c rest].
  - rewrite visit_end in H by apply nth_end. congruence.
  - cbn [visit] in H. rewrite nth_done in H. discriminate.
  - rewrite visit_end in H by apply nth_end. congruence.
  - cbn [visit] in H. rewrite nth_done in H. inversion Hf as [|? ? Hc Hr]; subst. inversion Hc as [? Ht Hg]; subst.
    assert (Hl : S (length d) = length (d ++ [c])) by (rewrite app_length; cbn; lia).
    assert (Ha : d ++ c :: rest = (d ++ [c]) ++ rest) by (now rewrite <- app_assoc).
    destruct (str_eqb (e_tag c) $"extend") eqn:E1; [now apply str_eqb_eq in E1|].
    destruct (str_eqb (e_tag c) $"group") eqn:E2.
    + apply str_eqb_eq in E2. destruct (rec true (e_text c) (e_children c)) as [[t' cs']|e] eqn:Er; [|discriminate]. cbn [rbind] in H.
      apply Hrec in Er; [|now apply Hg]. assert (t' = e_text c /\ cs' = e_children c) as [-> ->] by (split; congruence).
      rewrite elem_eta, set_done, Hl, Ha in H. apply IH in H; [|exact Hr]. now rewrite Ha.
    + rewrite Hl, Ha in H. apply IH in H; [|exact Hr]. now rewrite Ha.
Qed.
Lemma handle_keeps fuel : forall top is text cs r, Forall expanded cs -> handle load fuel top is text cs = Ok r -> r = (text, cs).
Proof.
  induction fuel as [|f IH]; intros top is text cs r Hf H; cbn [handle] in H.
  - apply (visit_keeps _ top is (fun _ _ _ _ _ (E : Raise RuntimeError = Ok _) => ltac:(discriminate)) 0 [] cs text r Hf H).
  - apply (visit_keeps (handle load f false) top is (IH false) (S f) [] cs text r Hf H).
Qed.

(** the loop *)
Definition good (rec : bool -> str -> list elem -> res (str * list elem)) : Prop :=
  keeps rec /\
  forall is text cs t' cs', orderly false cs -> rec is text cs = Ok (t', cs') ->
    Forall expanded cs' /\ ((exists e, In e cs /\ e_tag e <> $"extend") -> cs' <> []).

Lemma visit_good rec top is cs0 : good rec -> orderly top cs0 ->
  forall n d mid l1 tail text t' cs', cs0 = l1 ++ tail -> Forall expanded d -> Forall expanded mid ->
  visit load rec top is n (length d) text (d ++ mid ++ tail) = Ok (t', cs') ->
  Forall expanded cs' /\ ((d <> [] \/ mid <> [] \/ exists e, In e tail /\ e_tag e <> $"extend") -> cs' <> []).
Proof.
  intros [Hk Hg] Ho. inversion Ho as [? ? Hnext Hgrp Hext]; subst.
  intros n. induction n as [|n IH]; intros d mid l1 tail text t' cs' Hcs Hd Hm H.
  - destruct (mid ++ tail) as [|x r] eqn:E.
    + rewrite visit_end in H by apply nth_end. apply app_eq_nil in E as [-> ->]. rewrite app_nil_r in H.
      assert (cs' = d) by congruence. subst cs'. split; [exact Hd|]. intros [K|[K|[e [[] _]]]]; [exact K|congruence].
    + cbn [visit] in H. rewrite nth_done in H. discriminate.
  - assert (Hstep : forall x, expanded x -> Forall expanded (d ++ [x])) by (intros; apply Forall_app; split; auto).
    assert (Hlen : forall x : elem, S (length d) = length (d ++ [x])) by (intros; rewrite app_length; cbn; lia).
    assert (Hne : forall x : elem, d ++ [x] <> []) by (intros x Hx; now apply app_eq_nil in Hx).
    destruct mid as [|c mid].
    + cbn [app] in H. destruct tail as [|c tail].
      * rewrite visit_end in H by apply nth_end. rewrite app_nil_r in H.
        assert (cs' = d) by congruence. subst cs'. split; [exact Hd|]. intros [K|[K|[e [[] _]]]]; [exact K|congruence].
      * cbn [visit] in H. rewrite nth_done in H. assert (Hin : In c cs0) by (rewrite Hcs; apply in_or_app; right; now left).
        assert (Hcs' : cs0 = (l1 ++ [c]) ++ tail) by (now rewrite <- app_assoc).
        destruct (str_eqb (e_tag c) $"extend") eqn:E1.
        -- apply str_eqb_eq in E1. 
           (* the tag vanishes: what follows is skipped *)
           assert (Hvan : forall text, visit load rec top is n (S (length d)) text (d ++ tail) = Ok (t', cs') ->
             (~ contributes top c) -> Forall expanded cs' /\
             (d <> [] \/ ([] : list elem) <> [] \/ (exists e, In e (c :: tail) /\ e_tag e <> $"extend") -> cs' <> [])).
           { intros tx Hv Hno. destruct tail as [|d' tail].
             - rewrite visit_end in Hv by (apply nth_error_None; rewrite app_nil_r; lia). rewrite app_nil_r in Hv.
               assert (cs' = d) by congruence. subst cs'. split; [exact Hd|]. intros [K|[K|[e [[<-|[]] K]]]]; congruence.
             - destruct (Hnext l1 c d' tail Hcs E1) as [K|K]; [now apply Hno in K|].
               rewrite (Hlen d') in Hv. replace (d ++ d' :: tail) with ((d ++ [d']) ++ [] ++ tail) in Hv by (now rewrite <- app_assoc).
               destruct (IH (d ++ [d']) [] ((l1 ++ [c]) ++ [d']) tail tx t' cs') as [A B]; auto.
               { rewrite Hcs, <- !app_assoc. reflexivity. } }
           destruct (load c) as [[[ctext content]|t]|] eqn:El; [| |discriminate]; cbn [rbind] in H.
           ++ destruct (rec _ ctext (filter_extend content c top)) as [[t2 new]|e] eqn:Er; [|discriminate]. cbn [rbind] in H.
              rewrite splice_done in H. destruct (Hg _ _ _ _ _ (Hext c ctext content Hin E1 El) Er) as [Hn Hne2].
              destruct new as [|x new].
              ** cbn [app] in H. apply (Hvan text H). intros (ctext' & content' & e & Hl' & He & Ht). rewrite El in Hl'.
                 assert (content' = content) by congruence. subst content'. apply Hne2; eauto.
              ** inversion Hn as [|? ? Hx Hnew]; subst. rewrite (Hlen x) in H.
                 replace (d ++ (x :: new) ++ tail) with ((d ++ [x]) ++ new ++ tail) in H by (now rewrite <- app_assoc).
                 destruct (IH (d ++ [x]) new (l1 ++ [c]) tail text t' cs') as [A B]; auto.
           ++ destruct is; [|discriminate]. destruct (no_text text || no_text t)%bool; [discriminate|]. rewrite remove_done in H. apply (Hvan (text ++ t) H).
              intros (ctext' & content' & e & Hl' & _). rewrite El in Hl'. discriminate.
        -- assert (Ht : e_tag c <> $"extend") by (intros K; rewrite K, str_eqb_refl in E1; discriminate).
           destruct (str_eqb (e_tag c) $"group") eqn:E2.
           ++ apply str_eqb_eq in E2. destruct (rec true (e_text c) (e_children c)) as [[t2 new]|e] eqn:Er; [|discriminate]. cbn [rbind] in H.
              destruct (Hg _ _ _ _ _ (Hgrp c Hin E2) Er) as [Hn _]. rewrite set_done in H.
              set (c' := Elem (e_tag c) (e_attrs c) t2 new (e_tail c)) in *.
              assert (Hc' : expanded c') by (constructor; [exact Ht|intros _; exact Hn]).
              rewrite (Hlen c') in H. replace (d ++ c' :: tail) with ((d ++ [c']) ++ [] ++ tail) in H by (now rewrite <- app_assoc).
              destruct (IH (d ++ [c']) [] (l1 ++ [c]) tail text t' cs') as [A B]; auto.
           ++ assert (Hc : expanded c) by (constructor; [exact Ht|intros K; rewrite K, str_eqb_refl in E2; discriminate]).
              rewrite (Hlen c) in H. replace (d ++ c :: tail) with ((d ++ [c]) ++ [] ++ tail) in H by (now rewrite <- app_assoc).
              destruct (IH (d ++ [c]) [] (l1 ++ [c]) tail text t' cs') as [A B]; auto.
    + cbn [app] in H. cbn [visit] in H. rewrite nth_done in H. inversion Hm as [|? ? Hc Hm']; subst. inversion Hc as [? Ht Hcg]; subst.
      assert (Ha : d ++ c :: mid ++ tail = (d ++ [c]) ++ mid ++ tail) by (now rewrite <- app_assoc).
      destruct (str_eqb (e_tag c) $"extend") eqn:E1; [now apply str_eqb_eq in E1|].
      assert (K : visit load rec top is n (S (length d)) text (d ++ c :: mid ++ tail) = Ok (t', cs')).
      { destruct (str_eqb (e_tag c) $"group") eqn:E2; [|exact H].
        apply str_eqb_eq in E2. destruct (rec true (e_text c) (e_children c)) as [[t2 new]|e] eqn:Er; [|discriminate]. cbn [rbind] in H.
        apply Hk in Er; [|now apply Hcg]. assert (t2 = e_text c /\ new = e_children c) as [-> ->] by (split; congruence).
        rewrite elem_eta, set_done in H. exact H. }
      rewrite (Hlen c), Ha in K. destruct (IH (d ++ [c]) mid l1 tail text t' cs') as [A B]; auto.
Qed.

Lemma handle_good fuel : forall top is text cs t' cs', orderly top cs -> handle load fuel top is text cs = Ok (t', cs') ->
  Forall expanded cs' /\ ((exists e, In e cs /\ e_tag e <> $"extend") -> cs' <> []).
Proof.
  induction fuel as [|f IH]; intros top is text cs t' cs' Ho H; cbn [handle] in H.
  - destruct (visit_good (fun _ _ _ => Raise RuntimeError) top is cs) with (n := 0) (d := @nil elem) (mid := @nil elem) (l1 := @nil elem) (tail := cs) (text := text) (t' := t') (cs' := cs') as [A B]; auto.
    + split; [intros ? ? ? ? ? K; discriminate|intros ? ? ? ? ? ? K; discriminate].
  - destruct (visit_good (handle load f false) top is cs) with (n := S f) (d := @nil elem) (mid := @nil elem) (l1 := @nil elem) (tail := cs) (text := text) (t' := t') (cs' := cs') as [A B]; auto.
    + split; [intros i tx c r; apply handle_keeps|intros i tx c t2 c2; apply IH].
Qed.
End X.
