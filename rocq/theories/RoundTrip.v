(** * RoundTrip: a line whose variables are words set off by blanks is read in one way *)
From Coq Require Import Sorting.Sorted.
From Verif Require Import PyBase DictFacts Regex SpecRegex RegexFacts Template FormRegex SpecLine SpecForm StrFacts ReadFacts LitFacts LineFacts LineRegex FindFacts.
Local Open Scope string_scope.
Local Open Scope list_scope.

Definition rep (xs xd : bool) (c : ascii) : ascii := match run_of xs xd c with Some r => r | None => c end.
Lemma norm_first xs xd c t : exists n, norm xs xd (c :: t) = rep xs xd c :: n.
Proof. unfold rep. destruct (run_of xs xd c) as [r|] eqn:E; [rewrite (norm_run _ _ _ _ _ E)|rewrite (norm_plain _ _ _ _ E)]; eauto. Qed.
Lemma norm_app xs xd a b : (forall u c d v, a = u ++ [c] -> b = d :: v -> same_run (run_of xs xd c) (run_of xs xd d) = false) -> norm xs xd (a ++ b) = norm xs xd a ++ norm xs xd b.
Proof.
  revert b. assert (H : forall n a, length a <= n -> forall b, (forall u c d v, a = u ++ [c] -> b = d :: v -> same_run (run_of xs xd c) (run_of xs xd d) = false) -> norm xs xd (a ++ b) = norm xs xd a ++ norm xs xd b).
  { clear a. induction n as [|n IH]; intros a Hl b Hb; (destruct a as [|c a]; [reflexivity|]); [cbn in Hl; lia|]. cbn [length] in Hl. cbn [app].
    destruct (run_of xs xd c) as [r|] eqn:Er.
    - rewrite !(norm_run xs xd c _ r Er). set (p := fun d => _). destruct (lstrip_split p a) as (w & Ew & Hw).
      assert (Es : lstrip_p p (a ++ b) = lstrip_p p a ++ b).
      { rewrite Ew at 1. rewrite <- app_assoc, lstrip_app by exact Hw. destruct (lstrip_p p a) as [|y u] eqn:Eu; cbn [app].
        - destruct b as [|d b]; [reflexivity|]. cbn [lstrip_p]. assert (Ep : p d = false); [|now rewrite Ep]. rewrite app_nil_r in Ew.
          assert (exists u0 c0, c :: a = u0 ++ [c0] /\ run_of xs xd c0 = Some r) as (u0 & c0 & E0 & E1).
          { destruct a as [|y a]; [exists [], c; auto|]. destruct (exists_last (l := y :: a) ltac:(discriminate)) as (u0 & c0 & E0). exists (c :: u0), c0. rewrite E0. split; [reflexivity|].
            rewrite <- Ew in Hw. rewrite E0 in Hw. apply Forall_app in Hw as [_ Hw]. inversion Hw as [|? ? K _]; subst. now apply same_run_eq in K. }
          pose proof (Hb u0 c0 d b E0 eq_refl) as K. rewrite E1 in K. exact K.
        - cbn [lstrip_p]. pose proof (lstrip_head p a) as K. rewrite Eu in K. now rewrite K. }
      rewrite Es. rewrite IH; [reflexivity| |]; [pose proof (lstrip_len p a); lia|].
      intros u c0 d v E Eb. apply (Hb (c :: w ++ u) c0 d v); [|exact Eb]. rewrite Ew at 1. rewrite E. cbn [app]. now rewrite <- app_assoc.
    - rewrite !(norm_plain xs xd c _ Er). rewrite IH; [reflexivity|lia|]. intros u c0 d v E Eb. apply (Hb (c :: u) c0 d v); [now rewrite E|exact Eb]. }
  intros b. apply (H (length a)). lia.
Qed.
Lemma norm_last xs xd b z : exists a, norm xs xd (b ++ [z]) = a ++ [rep xs xd z].
Proof.
  assert (H : forall n b, length b <= n -> exists a, norm xs xd (b ++ [z]) = a ++ [rep xs xd z]); [|now apply (H (length b))]. clear b.
  induction n as [|n IH]; intros b Hl; (destruct b as [|c b]; [exists []; cbn [app norm]; unfold rep; now destruct (run_of xs xd z)|]); [cbn in Hl; lia|].
  cbn [length] in Hl. cbn [app]. destruct (run_of xs xd c) as [r|] eqn:Er.
  - rewrite (norm_run xs xd c _ r Er). set (p := fun d : ascii => same_run (Some r) (run_of xs xd d)). destruct (lstrip_split p (b ++ [z])) as (w & Ew & Hw). destruct (lstrip_p p (b ++ [z])) as [|y u] eqn:Eu.
    + exists []. rewrite app_nil_r in Ew. rewrite <- Ew in Hw. apply Forall_app in Hw as [_ Hw]. inversion Hw as [|? ? K _]; subst.
      apply same_run_eq in K. unfold rep. now rewrite K.
    + destruct (exists_last (l := y :: u) ltac:(discriminate)) as (b' & z' & Eb'). rewrite Eb' in *. rewrite app_assoc in Ew. apply app_inj_tail in Ew as [Ew <-].
      destruct (IH b') as (a & E1); [subst b; rewrite app_length in Hl; lia|]. exists (r :: a). now rewrite E1.
  - rewrite (norm_plain xs xd c _ Er). destruct (IH b ltac:(lia)) as (a & E1). exists (c :: a). now rewrite E1.
Qed.
Lemma rep_blank xs xd c : blank (rep xs xd c) = blank c.
Proof.
  unfold rep, run_of. destruct xs; cbn [negb andb].
  - destruct (negb xd && is_dec c)%bool eqn:E; [|reflexivity]. apply Bool.andb_true_iff in E as [_ E]. destruct (blank c) eqn:Eb; [apply blank_not_dec in Eb; congruence|reflexivity].
  - destruct (blank c) eqn:Eb; [reflexivity|]. destruct (negb xd && is_dec c)%bool; [reflexivity|exact Eb].
Qed.
Lemma same_starts xs xd l t : same_text xs xd l t -> starts_blank l -> starts_blank t.
Proof.
  unfold same_text. intros H (c & u & -> & Hc). destruct (norm_first xs xd c u) as (n & E). rewrite E in H.
  destruct t as [|d v]; [discriminate|]. destruct (norm_first xs xd d v) as (m & E2). rewrite E2 in H. injection H as H _.
  exists d, v. split; [reflexivity|]. rewrite <- (rep_blank xs xd), H, rep_blank. exact Hc.
Qed.
Lemma same_stops xs xd l t : same_text xs xd l t -> stops_blank l -> stops_blank t.
Proof.
  unfold same_text. intros H (u & c & -> & Hc). destruct (norm_last xs xd u c) as (n & E). rewrite E in H.
  destruct t as [|d v]; [destruct n; discriminate|]. destruct (exists_last (l := d :: v) ltac:(discriminate)) as (v' & d' & Ed). rewrite Ed in *.
  destruct (norm_last xs xd v' d') as (m & E2). rewrite E2 in H. apply app_inj_tail in H as [_ H].
  exists v', d'. split; [reflexivity|]. rewrite <- (rep_blank xs xd), H, rep_blank. exact Hc.
Qed.
Lemma blank_run xs xd c x : blank c = true -> blank x = false -> same_run (run_of xs xd c) (run_of xs xd x) = false.
Proof.
  intros Hc Hx. unfold run_of. rewrite Hc, Hx, (blank_not_dec c Hc), !Bool.andb_false_r, Bool.andb_true_r. destruct xs; cbn [negb]; [reflexivity|]. destruct (negb xd && is_dec x)%bool; reflexivity.
Qed.
(** literal text that is empty or ends with a blank cannot be prolonged by a non-blank *)
Lemma lit_ext xs xd l t x e : l = [] \/ stops_blank l -> same_text xs xd l t -> same_text xs xd l (t ++ x :: e) -> blank x = true.
Proof.
  intros Hl H1 H2. destruct (blank x) eqn:Ex; [reflexivity|]. exfalso. destruct Hl as [->|Hl].
  - apply norm_nil in H2. destruct t; discriminate.
  - apply (same_stops xs xd l t H1) in Hl as (u & c & -> & Hc). unfold same_text in *. rewrite norm_app in H2.
    + rewrite H1 in H2. rewrite <- (app_nil_r (norm xs xd l)) in H2 at 2. apply app_inv_head in H2. apply norm_nil in H2. discriminate.
    + intros u0 c0 d v E Eb. apply app_inj_tail in E as [_ <-]. injection Eb as <- <-. now apply blank_run.
Qed.
Lemma app_compare {A} (a b c d : list A) : a ++ b = c ++ d -> (exists e, c = a ++ e /\ b = e ++ d) \/ (exists e, a = c ++ e /\ d = e ++ b).
Proof.
  revert c. induction a as [|x a IH]; intros c H; [left; exists c; auto|]. destruct c as [|y c]; [right; exists (x :: a); auto|].
  cbn [app] in H. injection H as -> H. destruct (IH c H) as [(e & -> & ->)|(e & -> & ->)]; [left|right]; exists e; auto.
Qed.
Lemma blank_space c : blank c = true -> is_space c = true.
Proof. unfold blank. intros H. apply Bool.orb_true_iff in H as [H|H]; apply Ascii.eqb_eq in H; subst; reflexivity. Qed.
(** literal text followed by a word *)
Definition word_start (s : str) : Prop := exists c t, s = c :: t /\ is_space c = false.
Lemma lit_unique xs xd l t1 t2 s1 s2 : l = [] \/ stops_blank l -> same_text xs xd l t1 -> same_text xs xd l t2 ->
  word_start s1 -> word_start s2 -> t1 ++ s1 = t2 ++ s2 -> t1 = t2 /\ s1 = s2.
Proof.
  intros Hl H1 H2 (c1 & u1 & -> & W1) (c2 & u2 & -> & W2) E. assert (Et : t1 = t2); [|split; [exact Et|subst; now apply app_inv_head in E]].
  apply app_compare in E as [(e & -> & E)|(e & -> & E)]; (destruct e as [|x e]; [now rewrite app_nil_r|]); exfalso; cbn [app] in E; injection E as <- _.
  - apply lit_ext in H2; [|assumption..]. apply blank_space in H2. congruence.
  - apply lit_ext in H1; [|assumption..]. apply blank_space in H1. congruence.
Qed.
(** a word followed by white space *)
Definition space_start (s : str) : Prop := exists c t, s = c :: t /\ is_space c = true.
Lemma word_unique w1 w2 s1 s2 : Forall (fun c => is_space c = false) w1 -> Forall (fun c => is_space c = false) w2 ->
  space_start s1 -> space_start s2 -> w1 ++ s1 = w2 ++ s2 -> w1 = w2 /\ s1 = s2.
Proof.
  intros W1 W2 (c1 & u1 & -> & S1) (c2 & u2 & -> & S2) E. assert (Et : w1 = w2); [|split; [exact Et|subst; now apply app_inv_head in E]].
  apply app_compare in E as [(e & -> & E)|(e & -> & E)]; (destruct e as [|x e]; [now rewrite app_nil_r|]); exfalso; cbn [app] in E; injection E as <- _.
  - apply Forall_app in W2 as [_ W2]. inversion W2; subst. congruence.
  - apply Forall_app in W1 as [_ W1]. inversion W1; subst. congruence.
Qed.
(** what follows a variable *)
Lemma reads_space xs xd q s s' b c : spaced true q -> reads xs xd q s (b ++ s') c -> Forall (fun x => blank x = true) b -> at_eol s' -> space_start s.
Proof.
  intros Hs Hr Hb He.
  assert (Hend : space_start (b ++ s')).
  { destruct b as [|x b]; cbn [app].
    - destruct He as (u & [->| ->]); eexists _, _; split; reflexivity.
    - inversion Hb; subst. exists x, (b ++ s'). split; [reflexivity|now apply blank_space]. }
  assert (Hst : forall t u, starts_blank t -> space_start (t ++ u)).
  { intros t u (x & y & -> & Hx). exists x, (y ++ u). split; [reflexivity|now apply blank_space]. }
  inversion Hs as [after l Hl|after l n rs q0 Hl Hl2 Hw Hq]; subst; inversion Hr as [|l0 ps t s0 s1 c0 Ht Hrd|]; subst.
  - inversion Hrd; subst. destruct (Hl eq_refl) as [->|Hl']; [apply norm_nil in Ht; subst; exact Hend|]. apply Hst. eapply same_starts; eassumption.
  - apply Hst. eapply same_starts; [exact Ht|]. now apply Hl.
Qed.
Lemma reads_unique xs xd q : forall after, spaced after q -> forall s s1 s2 b1 b2 c1 c2,
  reads xs xd q s (b1 ++ s1) c1 -> reads xs xd q s (b2 ++ s2) c2 ->
  Forall (fun x => blank x = true) b1 -> at_eol s1 -> Forall (fun x => blank x = true) b2 -> at_eol s2 -> c1 = c2.
Proof.
  intros after Hs. induction Hs as [after l Hl|after l n rs q Hl Hl2 Hw Hq IH]; intros s s1 s2 b1 b2 c1 c2 H1 H2 B1 E1 B2 E2.
  - inversion H1 as [|l0 ps t s0 s3 c0 Ht Hrd|]; subst. inversion Hrd; subst. inversion H2 as [|l0 ps t' s0 s3 c0 Ht' Hrd'|]; subst. now inversion Hrd'; subst.
  - inversion H1 as [|l0 ps t u s3 c0 Ht Hrd|]; subst. inversion Hrd as [| |n0 alts r ps w v s3 c3 Hi Hr Hrd2]; subst.
    inversion H2 as [|l0 ps t' u' s3 c0 Ht' Hrd'|]; subst. inversion Hrd' as [| |n0 alts r' ps w' v' s3 c4 Hi' Hr' Hrd2']; subst.
    destruct (Hw r Hi w v Hr) as [Wn W]. destruct (Hw r' Hi' w' v' Hr') as [Wn' W'].
    assert (WS : forall w v, w <> [] -> Forall (fun c => is_space c = false) w -> word_start (w ++ v)).
    { intros x y Hx Hf. destruct x as [|c x]; [congruence|]. inversion Hf; subst. exists c, (x ++ y). now split. }
    match goal with H : _ ++ _ = _ ++ _ |- _ => symmetry in H; rename H into E end.
    destruct (lit_unique xs xd l t t' (w ++ v) (w' ++ v') Hl2 Ht Ht' (WS w v Wn W) (WS w' v' Wn' W') E) as [-> E'].
    destruct (word_unique w w' v v' W W') as [-> ->]; [eapply reads_space; eassumption..|exact E'|].
    assert (c3 = c4) by (eapply IH; eassumption). subst. reflexivity.
Qed.
Theorem reads_line_unique xs xd indent q s s1 s2 c1 c2 : spaced false q ->
  reads_line xs xd indent q s s1 c1 -> reads_line xs xd indent q s s2 c2 -> c1 = c2.
Proof.
  intros Hs (u1 & b1 & -> & H1 & B1 & E1) (u2 & b2 & E & H2 & B2 & E2). injection E as E. apply app_inv_head in E. subst u2. eapply reads_unique; eassumption.
Qed.
Theorem finditer_values ast xs xd indent q : lacks nl indent -> one_line q -> spaced false q ->
  (forall s s' c, rel ast s [] s' c <-> reads_line xs xd indent q s s' c) ->
  forall text a s s' c, text = a ++ s -> reads_line xs xd indent q s s' c ->
  exists m, In m (finditer ast text) /\ m_start m = length a /\ m_caps m = c.
Proof.
  intros Hi Hq Hs Hast text a s s' c E H. destruct (finditer_lines ast xs xd indent q Hi Hq Hast text) as (F1 & F2 & _).
  destruct (F2 a s s' c E H) as (m & Hm & Ea). exists m. split; [exact Hm|]. split; [exact Ea|]. destruct (F1 m Hm) as [_ Hr].
  rewrite Ea, E, skipn_app_exact in Hr. eapply reads_line_unique; eassumption.
Qed.
