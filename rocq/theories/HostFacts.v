(** * HostFacts: gethostname finds the host that SpecHost says. *)
From Coq Require Import Lia.
From Verif Require Import PyBase DictFacts StrFacts Regex SpecRegex RegexFacts Template FormRegex Attributes FuncTable Loaders Session Files Inputs SpecVariable SpecText SpecHost.
From Verif Require Import LitFacts AttrFacts PathDyn TextFacts.
Local Open Scope string_scope.
Local Open Scope list_scope.

(** ** repetition of a class of characters *)
Section Star.
Variables (ng : bool) (it : list citem).
Notation p := (set_match ng it).
Definition all_p (a : str) : Prop := Forall (fun c => p c = true) a.
Lemma sstar_no (k : str -> mres) s : sstar p k s = None <-> forall a t, s = a ++ t -> all_p a -> k t = None.
Proof.
  induction s as [|y s IH]; cbn [sstar].
  - split; [|intros H; apply (H [] []); [reflexivity|constructor]]. intros N a t E _. destruct a; [|discriminate]. cbn in E. now subst t.
  - destruct (p y) eqn:P.
    + split.
      * intros N a t E A. destruct (sstar p k s) eqn:N'; [discriminate|]. destruct a as [|z a]; [cbn in E; now subst t|]. injection E as <- E. inversion A; subst. now apply (proj1 IH eq_refl a t).
      * intros H. rewrite (proj2 IH); [apply (H [] (y :: s)); [reflexivity|constructor]|]. intros a t E A. apply (H (y :: a) t); [cbn; congruence|constructor; assumption].
    + split.
      * intros N a t E A. destruct a as [|z a]; [cbn in E; now subst t|]. injection E as <- E. inversion A; subst. congruence.
      * intros H. apply (H [] (y :: s)); [reflexivity|constructor].
Qed.
Lemma sstar_some (k : str -> mres) s : forall x, sstar p k s = Some x <->
  exists a t, s = a ++ t /\ all_p a /\ k t = Some x /\ forall a' t', s = a' ++ t' -> all_p a' -> length a < length a' -> k t' = None.
Proof.
  induction s as [|y s IH]; intros x; cbn [sstar].
  - split.
    + intros K. exists [], []. split; [reflexivity|]. split; [constructor|]. split; [exact K|]. intros a' t' E _ L. destruct a'; [cbn in L; lia|discriminate].
    + intros (a & t & E & _ & K & _). destruct a; [|discriminate]. cbn in E. now subst t.
  - destruct (p y) eqn:P.
    + destruct (sstar p k s) as [w|] eqn:E.
      * rewrite IH. split.
        -- intros (a & t & -> & A & K & M). exists (y :: a), t. split; [reflexivity|]. split; [constructor; assumption|]. split; [exact K|]. intros a' t' E' A' L. destruct a' as [|z a']; [cbn in L; lia|]. injection E' as <- E'. inversion A'; subst. cbn in L. apply (M a' t'); [assumption|assumption|lia].
        -- intros (a & t & E' & A & K & M). destruct a as [|z a].
           ++ exfalso. cbn in E'. subst t. destruct (proj1 (IH w) eq_refl) as (a & t & -> & A1 & K1 & _). rewrite (M (y :: a) t) in K1; [discriminate|reflexivity|constructor; assumption|cbn; lia].
           ++ injection E' as <- E'. inversion A; subst. exists a, t. split; [reflexivity|]. split; [assumption|]. split; [exact K|]. intros a' t' E' A' L. apply (M (y :: a') t'); [cbn; congruence|constructor; assumption|cbn; lia].
      * pose proof (proj1 (sstar_no k s) E) as HN. split.
        -- intros K. exists [], (y :: s). split; [reflexivity|]. split; [constructor|]. split; [exact K|]. intros a' t' E' A' L. destruct a' as [|z a']; [cbn in L; lia|]. injection E' as <- E'. inversion A'; subst. apply (HN a' t'); [reflexivity|assumption].
        -- intros (a & t & E' & A & K & M). destruct a as [|z a]; [cbn in E'; now subst t|]. injection E' as <- E'. inversion A; subst. rewrite (HN a t eq_refl) in K by assumption. discriminate.
    + split.
      * intros K. exists [], (y :: s). split; [reflexivity|]. split; [constructor|]. split; [exact K|]. intros a' t' E' A' L. destruct a' as [|z a']; [cbn in L; lia|]. injection E' as <- E'. inversion A'; subst. congruence.
      * intros (a & t & E' & A & K & M). destruct a as [|z a]; [cbn in E'; now subst t|]. injection E' as <- E'. inversion A; subst. congruence.
Qed.
(** at least one *)
Lemma plus_some s c k x : mt (RSeq (RSet ng it) (RStar true (RSet ng it))) s c k = Some x <->
  exists a t, s = a ++ t /\ a <> [] /\ all_p a /\ k t c = Some x /\ forall a' t', s = a' ++ t' -> all_p a' -> length a < length a' -> k t' c = None.
Proof.
  rewrite mt_seq, mt_set. destruct s as [|y s].
  - split; [discriminate|]. intros (a & t & E & N & _). destruct a; [congruence|discriminate].
  - destruct (p y) eqn:P.
    + rewrite mt_star_set, sstar_some. split.
      * intros (a & t & -> & A & K & M). exists (y :: a), t. split; [reflexivity|]. split; [discriminate|]. split; [constructor; assumption|]. split; [exact K|].
        intros a' t' E' A' L. destruct a' as [|z a']; [cbn in L; lia|]. injection E' as <- E'. inversion A'; subst. cbn in L. apply (M a' t'); [assumption|assumption|lia].
      * intros (a & t & E & N & A & K & M). destruct a as [|z a]; [congruence|]. injection E as <- E. inversion A; subst. exists a, t. split; [reflexivity|]. split; [assumption|]. split; [exact K|].
        intros a' t' E' A' L. apply (M (y :: a') t'); [cbn; congruence|constructor; assumption|cbn; lia].
    + split; [discriminate|]. intros (a & t & E & N & A & K & M). destruct a as [|z a]; [congruence|]. injection E as <- E. inversion A; subst. congruence.
Qed.
Lemma plus_no s c k : mt (RSeq (RSet ng it) (RStar true (RSet ng it))) s c k = None <-> forall a t, s = a ++ t -> a <> [] -> all_p a -> k t c = None.
Proof.
  rewrite mt_seq, mt_set. destruct s as [|y s].
  - split; [|reflexivity]. intros _ a t E N. destruct a; [congruence|discriminate].
  - destruct (p y) eqn:P.
    + rewrite mt_star_set, sstar_no. split.
      * intros H a t E N A. destruct a as [|z a]; [congruence|]. injection E as <- E. inversion A; subst. now apply (H a t).
      * intros H a t -> A. apply (H (y :: a) t); [reflexivity|discriminate|constructor; assumption].
    + split; [|reflexivity]. intros _ a t E N A. destruct a as [|z a]; [congruence|]. injection E as <- E. inversion A; subst. congruence.
Qed.
(** the shortest *)
Lemma lazy_star k c : forall n s x, length s <= n -> star_mt (RSet ng it) false k n s c = Some x <->
  exists a t, s = a ++ t /\ all_p a /\ k t c = Some x /\ forall a' t', s = a' ++ t' -> all_p a' -> length a' < length a -> k t' c = None.
Proof.
  induction n as [|n IH]; intros s x L.
  - destruct s; [|cbn in L; lia]. cbn [star_mt]. split.
    + intros K. exists [], []. split; [reflexivity|]. split; [constructor|]. split; [destruct (k [] c); congruence|]. intros a' t' _ _ L'. cbn in L'. lia.
    + intros (a & t & E & _ & K & _). destruct a; [|discriminate]. cbn in E. subst t. now rewrite K.
  - cbn [star_mt]. destruct (k s c) as [w|] eqn:K0.
    + split.
      * intros K. exists [], s. split; [reflexivity|]. split; [constructor|]. split; [congruence|]. intros a' t' _ _ L'. cbn in L'. lia.
      * intros (a & t & E & A & K & M). destruct a as [|z a]; [cbn in E; subst t; congruence|]. rewrite (M [] s) in K0; [discriminate|reflexivity|constructor|cbn; lia].
    + rewrite mt_set. destruct s as [|y s].
      * split; [discriminate|]. intros (a & t & E & _ & K & _). destruct a; [|discriminate]. cbn in E. subst t. congruence.
      * cbn in L. destruct (p y) eqn:P.
        -- assert (Nat.ltb (length s) (length (y :: s)) = true) as -> by (apply Nat.ltb_lt; cbn; lia). rewrite IH by lia. split.
           ++ intros (a & t & -> & A & K & M). exists (y :: a), t. split; [reflexivity|]. split; [constructor; assumption|]. split; [exact K|]. intros a' t' E' A' L'. destruct a' as [|z a']; [cbn in E'; now subst t'|]. injection E' as <- E'. inversion A'; subst. cbn in L'. apply (M a' t'); [assumption|assumption|lia].
           ++ intros (a & t & E & A & K & M). destruct a as [|z a]; [cbn in E; subst t; congruence|]. injection E as <- E. inversion A; subst. exists a, t. split; [reflexivity|]. split; [assumption|]. split; [exact K|]. intros a' t' E' A' L'. apply (M (y :: a') t'); [cbn; congruence|constructor; assumption|cbn; lia].
        -- split; [discriminate|]. intros (a & t & E & A & K & _). destruct a as [|z a]; [cbn in E; subst t; congruence|]. injection E as <- E. inversion A; subst. congruence.
Qed.
Lemma lazy_some s c k x : mt (RSeq (RSet ng it) (RStar false (RSet ng it))) s c k = Some x <->
  exists a t, s = a ++ t /\ a <> [] /\ all_p a /\ k t c = Some x /\ forall a' t', s = a' ++ t' -> a' <> [] -> all_p a' -> length a' < length a -> k t' c = None.
Proof.
  rewrite mt_seq, mt_set. destruct s as [|y s].
  - split; [discriminate|]. intros (a & t & E & N & _). destruct a; [congruence|discriminate].
  - destruct (p y) eqn:P.
    + rewrite mt_star, lazy_star by lia. split.
      * intros (a & t & -> & A & K & M). exists (y :: a), t. split; [reflexivity|]. split; [discriminate|]. split; [constructor; assumption|]. split; [exact K|].
        intros a' t' E' N' A' L. destruct a' as [|z a']; [congruence|]. injection E' as <- E'. inversion A'; subst. cbn in L. apply (M a' t'); [assumption|assumption|lia].
      * intros (a & t & E & N & A & K & M). destruct a as [|z a]; [congruence|]. injection E as <- E. inversion A; subst. exists a, t. split; [reflexivity|]. split; [assumption|]. split; [exact K|].
        intros a' t' E' A' L. apply (M (y :: a') t'); [cbn; congruence|discriminate|constructor; assumption|cbn; lia].
    + split; [discriminate|]. intros (a & t & E & N & A & K & M). destruct a as [|z a]; [congruence|]. injection E as <- E. inversion A; subst. congruence.
Qed.
End Star.
Lemma lazy_star_no ng it k c : forall n s, length s <= n -> star_mt (RSet ng it) false k n s c = None <-> forall a t, s = a ++ t -> all_p ng it a -> k t c = None.
Proof.
  induction n as [|n IH]; intros s L.
  - destruct s; [|cbn in L; lia]. cbn [star_mt]. split.
    + intros K a t E _. destruct a; [|discriminate]. cbn in E. subst t. now destruct (k [] c).
    + intros H. rewrite (H [] []); [reflexivity|reflexivity|constructor].
  - cbn [star_mt]. destruct (k s c) as [w|] eqn:K0.
    + split; [discriminate|]. intros H. rewrite (H [] s) in K0; [discriminate|reflexivity|constructor].
    + rewrite mt_set. destruct s as [|y s].
      * split; [|reflexivity]. intros _ a t E _. destruct a; [|discriminate]. cbn in E. now subst t.
      * cbn in L. destruct (set_match ng it y) eqn:P.
        -- assert (Nat.ltb (length s) (length (y :: s)) = true) as -> by (apply Nat.ltb_lt; cbn; lia). rewrite IH by lia. split.
           ++ intros H a t E A. destruct a as [|z a]; [cbn in E; now subst t|]. injection E as <- E. inversion A; subst. now apply (H a t).
           ++ intros H a t -> A. apply (H (y :: a) t); [reflexivity|constructor; assumption].
        -- split; [|reflexivity]. intros _ a t E A. destruct a as [|z a]; [cbn in E; now subst t|]. injection E as <- E. inversion A; subst. congruence.
Qed.
Lemma lazy_no ng it s c k : mt (RSeq (RSet ng it) (RStar false (RSet ng it))) s c k = None <-> forall a t, s = a ++ t -> a <> [] -> all_p ng it a -> k t c = None.
Proof.
  rewrite mt_seq, mt_set. destruct s as [|y s].
  - split; [|reflexivity]. intros _ a t E N. destruct a; [congruence|discriminate].
  - destruct (set_match ng it y) eqn:P.
    + rewrite mt_star, lazy_star_no by lia. split.
      * intros H a t E N A. destruct a as [|z a]; [congruence|]. injection E as <- E. inversion A; subst. now apply (H a t).
      * intros H a t -> A. apply (H (y :: a) t); [reflexivity|discriminate|constructor; assumption].
    + split; [|reflexivity]. intros _ a t E N A. destruct a as [|z a]; [congruence|]. injection E as <- E. inversion A; subst. congruence.
Qed.

(** ** the end of the line *)
Definition kend (s : str) (c : caps) : mres := Some (s, c).
Definition eol : re := RSeq (RStar true RAny) (RSeq (RAhead false (RSeq (RSet false [CChar nl]) REps)) REps).
Lemma mt_any s c k : mt RAny s c k = mt (RSet true [CChar nl]) s c k.
Proof. destruct s as [|x s]; cbn [mt]; [reflexivity|]. unfold set_match. cbn [existsb citem_match]. rewrite orb_false_r, Ascii.eqb_sym. now destruct (Ascii.eqb nl x). Qed.
Lemma star_any k : forall n s c, star_mt RAny true k n s c = star_mt (RSet true [CChar nl]) true k n s c.
Proof.
  induction n as [|n IH]; intros s c; [reflexivity|]. cbn [star_mt]. rewrite mt_any.
  assert (E : mt (RSet true [CChar nl]) s c (fun s' c' => if Nat.ltb (length s') (length s) then star_mt RAny true k n s' c' else None) =
              mt (RSet true [CChar nl]) s c (fun s' c' => if Nat.ltb (length s') (length s) then star_mt (RSet true [CChar nl]) true k n s' c' else None)).
  { destruct s as [|x s]; [reflexivity|]. rewrite !mt_set. destruct (set_match _ _ x); [|reflexivity]. now rewrite IH. }
  now rewrite E.
Qed.
Lemma no_nl a : all_p true [CChar nl] a <-> lacks nl a.
Proof.
  unfold all_p, lacks. rewrite Forall_forall. split.
  - intros H K. apply H in K. now vm_compute in K.
  - intros H x K. unfold set_match. cbn [existsb citem_match]. destruct (Ascii.eqb nl x) eqn:E; [apply Ascii.eqb_eq in E; now subst x|reflexivity].
Qed.
Lemma ahead_nl s c : mt (RSeq (RAhead false (RSeq (RSet false [CChar nl]) REps)) REps) s c kend = match s with x :: _ => if Ascii.eqb nl x then Some (s, c) else None | [] => None end.
Proof. destruct s as [|x s]; [reflexivity|]. cbn [mt]. unfold set_match. cbn [existsb citem_match]. rewrite orb_false_r. cbn [xorb]. now destruct (Ascii.eqb nl x). Qed.
Lemma eol_some s c x : mt eol s c kend = Some x <-> exists r t, s = r ++ nl :: t /\ lacks nl r /\ x = (nl :: t, c).
Proof.
  unfold eol. rewrite mt_seq, mt_star, star_any, <- mt_star, mt_star_set, sstar_some. split.
  - intros (a & t & -> & A & K & _). rewrite ahead_nl in K. destruct t as [|y t]; [discriminate|]. destruct (Ascii.eqb nl y) eqn:E; [|discriminate]. apply Ascii.eqb_eq in E. subst y. exists a, t. split; [reflexivity|]. split; [now apply no_nl|congruence].
  - intros (r & t & -> & N & ->). exists r, (nl :: t). split; [reflexivity|]. split; [now apply no_nl|]. split; [now rewrite ahead_nl, Ascii.eqb_refl|].
    intros a' t' E A L. exfalso. apply no_nl in A. apply A. assert (I : In nl (r ++ [nl])) by (apply in_or_app; right; now left).
    assert (G : r ++ nl :: t = (r ++ [nl]) ++ t) by (now rewrite <- app_assoc). rewrite G in E. apply app_eq_app in E. destruct E as (l & [[E1 E2]|[E1 E2]]).
    + rewrite E1 in I. apply (Logic.f_equal (@length _)) in E1. rewrite !app_length in E1. cbn in E1. assert (length l = 0) by lia. destruct l; [|discriminate]. now rewrite app_nil_r in I.
    + rewrite E1. apply in_or_app. now left.
Qed.
Lemma eol_no s c : mt eol s c kend = None <-> lacks nl s.
Proof.
  split.
  - intros N K. apply in_split in K. destruct (in_dec ascii_dec nl s) as [I|I]; [|destruct K as (l1 & l2 & ->); apply I; apply in_or_app; right; now left].
    assert (F : exists r t, s = r ++ nl :: t /\ lacks nl r).
    { clear -I. induction s as [|y s IH]; [destruct I|]. destruct (ascii_dec y nl) as [->|D]; [exists [], s; split; [reflexivity|intros []]|]. destruct I as [I|I]; [congruence|]. destruct (IH I) as (r & t & -> & H). exists (y :: r), t. split; [reflexivity|]. intros [E|E]; [congruence|contradiction]. }
    destruct F as (r & t & E & L). assert (X : mt eol s c kend = Some (nl :: t, c)); [|congruence]. apply eol_some. eauto.
  - intros L. destruct (mt eol s c kend) eqn:E; [|reflexivity]. apply eol_some in E. destruct E as (r & t & -> & _). exfalso. apply L. apply in_or_app. right. now left.
Qed.
(** a character of [E] and the rest of the line *)
Definition ends (E : str) (s : str) : Prop := exists e r t, s = e :: r ++ nl :: t /\ In e E /\ lacks nl r.
Lemma set_chars E x : set_match false (map CChar E) x = true <-> In x E.
Proof. unfold set_match. rewrite xorb_false_l, existsb_exists. split; [intros (i & I & M); apply in_map_iff in I; destruct I as (y & <- & I); apply Ascii.eqb_eq in M; now subst|]. intros I. exists (CChar x). split; [now apply in_map|apply Ascii.eqb_refl]. Qed.
Lemma ends_some E s c x : mt (RSeq (RSet false (map CChar E)) eol) s c kend = Some x <-> exists e r t, s = e :: r ++ nl :: t /\ In e E /\ lacks nl r /\ x = (nl :: t, c).
Proof.
  rewrite mt_seq, mt_set. destruct s as [|y s]; [split; [discriminate|intros (e & r & t & H & _); discriminate]|]. destruct (set_match false (map CChar E) y) eqn:M.
  - apply set_chars in M. rewrite eol_some. split; [intros (r & t & -> & L & ->); eauto 8|]. intros (e & r & t & H & I & L & ->). injection H as <- ->. eauto.
  - split; [discriminate|]. intros (e & r & t & H & I & _). injection H as <- _. apply set_chars in I. congruence.
Qed.
Lemma ends_no E s c : mt (RSeq (RSet false (map CChar E)) eol) s c kend = None <-> ~ ends E s.
Proof.
  split.
  - intros N (e & r & t & H & I & L). assert (X : mt (RSeq (RSet false (map CChar E)) eol) s c kend = Some (nl :: t, c)); [|congruence]. apply ends_some. eauto 8.
  - intros N. destruct (mt _ s c kend) eqn:K; [|reflexivity]. apply ends_some in K. destruct K as (e & r & t & H & I & L & _). elim N. exists e, r, t. auto.
Qed.
Lemma solid_all a : all_p false [CNSpaceC] a <-> solid a.
Proof.
  unfold all_p, solid. assert (H : forall c, set_match false [CNSpaceC] c = true <-> ~ white c) by (intros c; unfold set_match; cbn [existsb citem_match]; rewrite orb_false_r, xorb_false_l, negb_true_iff; apply not_white).
  split; intros K; eapply Forall_impl; try exact K; intros c; apply H.
Qed.
Lemma firstn_cut (a t : str) : firstn (length (a ++ t) - length t) (a ++ t) = a.
Proof. rewrite app_length. replace (length a + length t - length t) with (length a) by lia. now rewrite firstn_app, Nat.sub_diag, firstn_all, app_nil_r. Qed.
Notation SS := (RSet false [CNSpaceC]).
Definition host_end (g : bool) (E : str) : re := RSeq (RGroup $"h" (RSeq (RSeq SS (RStar g SS)) REps)) (RSeq (RSet false (map CChar E)) eol).
Definition T (E s h : str) : Prop := exists t, s = h ++ t /\ word h /\ ends E t.
Definition best (g : bool) (h h' : str) : Prop := if g then length h' <= length h else length h <= length h'.
Lemma ends_cap E t c x : mt (RSeq (RSet false (map CChar E)) eol) t c kend = Some x -> snd x = c /\ ends E t.
Proof. intros K. apply ends_some in K. destruct K as (e & r & u & -> & I & L & ->). split; [reflexivity|]. exists e, r, u. auto. Qed.
Lemma host_some g E s x : mt (host_end g E) s [] kend = Some x -> exists h, T E s h /\ snd x = [($"h", h)] /\ forall h', T E s h' -> best g h h'.
Proof.
  unfold host_end. rewrite mt_seq. change (mt (RGroup $"h" ?r) s [] ?k) with (mt r s [] (fun s' c' => k s' (cap_set $"h" (firstn (length s - length s') s) c'))). cbv beta. rewrite mt_seq. intros K.
  assert (G : exists a t, s = a ++ t /\ a <> [] /\ all_p false [CNSpaceC] a /\ mt (RSeq (RSet false (map CChar E)) eol) t (cap_set $"h" (firstn (length s - length t) s) []) kend = Some x /\
     forall a' t', s = a' ++ t' -> a' <> [] -> all_p false [CNSpaceC] a' -> (if g then length a < length a' else length a' < length a) -> ~ ends E t').
  { destruct g; [apply plus_some in K|apply lazy_some in K]; destruct K as (a & t & H & N & A & K & M); rewrite mt_eps in K; exists a, t; (split; [exact H|]; split; [exact N|]; split; [exact A|]; split; [exact K|]); intros a' t' H' N' A' L.
    - specialize (M a' t' H' A' L). rewrite mt_eps in M. now apply ends_no in M.
    - specialize (M a' t' H' N' A' L). rewrite mt_eps in M. now apply ends_no in M. }
  destruct G as (a & t & -> & N & A & K' & M). rewrite firstn_cut in K'. apply ends_cap in K'. destruct K' as [C En]. exists a. split; [exists t; split; [reflexivity|]; split; [split; [exact N|now apply solid_all]|exact En]|]. split; [exact C|].
  intros h' (t' & H' & [N' S'] & En'). apply solid_all in S'. unfold best. destruct g; [destruct (le_lt_dec (length h') (length a)) as [L|L]|destruct (le_lt_dec (length a) (length h')) as [L|L]]; try exact L; exfalso; exact (M h' t' H' N' S' L En').
Qed.
Lemma host_no g E s : mt (host_end g E) s [] kend = None -> forall h, ~ T E s h.
Proof.
  unfold host_end. rewrite mt_seq. change (mt (RGroup $"h" ?r) s [] ?k) with (mt r s [] (fun s' c' => k s' (cap_set $"h" (firstn (length s - length s') s) c'))). cbv beta. rewrite mt_seq. intros K h (t & H & [N A] & En). apply solid_all in A.
  destruct g; [rewrite plus_no in K|rewrite lazy_no in K]; specialize (K h t H N A); rewrite mt_eps in K; apply ends_no in K; contradiction.
Qed.

(** ** the prompts on a text *)
Definition SH (p : prompt) (s a h : str) : Prop :=
  match p with
  | AluSros => (word a /\ length a <= 2) /\ exists s1, s = a ++ ":"%char :: s1 /\ T (t_ ">#") s1 h
  | IosXr => word a /\ exists s1, s = a ++ ":"%char :: s1 /\ T (t_ "#") s1 h
  | IosPriv => a = [] /\ T (t_ "#") s h
  | Juniper => solid a /\ exists s1, s = a ++ "@"%char :: s1 /\ T (t_ ">") s1 h
  | Huawei => a = [] /\ exists s1, s = "<"%char :: s1 /\ T (t_ ">") s1 h
  | IosExec => a = [] /\ T (t_ ">") s h
  | Fortigate => a = [] /\ exists x y r t, h = x ++ t_ " (" ++ y ++ t_ ")" /\ word x /\ word y /\ s = h ++ t_ " #" ++ r ++ nl :: t /\ lacks nl r
  end.
Lemma solid_lacks a : solid a -> lacks nl a.
Proof. intros H K. unfold solid in H. rewrite Forall_forall in H. apply (H _ K). apply white_iff. reflexivity. Qed.
Lemma nl_cut (u v t t' : str) : u ++ nl :: t = v ++ nl :: t' -> lacks nl u -> lacks nl v -> u = v /\ t = t'.
Proof.
  revert v. induction u as [|x u IH]; intros v E A B; (destruct v as [|y v]; cbn [app] in E).
  - injection E as E. auto.
  - injection E as E _. elim B. now left.
  - injection E as E _. elim A. now left.
  - injection E as -> E. apply IH in E; [|intros K; apply A; now right|intros K; apply B; now right]. destruct E as [-> ->]. auto.
Qed.
Lemma lacks_app2 c (a b : str) : lacks c (a ++ b) <-> lacks c a /\ lacks c b.
Proof. unfold lacks. rewrite in_app_iff. tauto. Qed.
Lemma lacks_cons c x (b : str) : lacks c (x :: b) <-> x <> c /\ lacks c b.
Proof. unfold lacks. cbn [In]. tauto. Qed.
Lemma SH_shaped p u t a h : lacks nl u -> SH p (u ++ nl :: t) a h <-> shaped p u a h.
Proof.
  intros L. split.
  - destruct p; cbn [SH].
    + intros [[W A2] (s1 & E & t1 & -> & Wh & e & r & t' & -> & I & Lr)].
      replace (a ++ ":"%char :: h ++ e :: r ++ nl :: t') with ((a ++ t_ ":" ++ h ++ [e] ++ r) ++ nl :: t') in E by (cbn; rewrite <- !app_assoc; cbn; rewrite <- !app_assoc; reflexivity).
      apply nl_cut in E; [|exact L|]. { destruct E as [-> _]. now apply sh_alu. }
      rewrite !lacks_app2. repeat split; try (now apply solid_lacks; apply W || apply Wh); try exact Lr; intros [K|[]]; subst; [discriminate|]. cbn in I. destruct I as [I|[I|[]]]; discriminate.
    + intros [W (s1 & E & t1 & -> & Wh & e & r & t' & -> & [<-|[]] & Lr)].
      match type of E with _ = ?x => replace x with ((a ++ t_ ":" ++ h ++ t_ "#" ++ r) ++ nl :: t') in E by (cbn; rewrite <- !app_assoc; cbn; rewrite <- !app_assoc; reflexivity) end.
      apply nl_cut in E; [|exact L|]. { destruct E as [-> _]. now apply sh_xr. }
      rewrite !lacks_app2. repeat split; try (now apply solid_lacks; apply W || apply Wh); try exact Lr; intros [K|[]]; discriminate.
    + intros [-> (t1 & E & Wh & e & r & t' & -> & [<-|[]] & Lr)].
      match type of E with _ = ?x => replace x with ((h ++ t_ "#" ++ r) ++ nl :: t') in E by (cbn; rewrite <- !app_assoc; cbn; reflexivity) end.
      apply nl_cut in E; [|exact L|]. { destruct E as [-> _]. now apply sh_priv. }
      rewrite !lacks_app2. repeat split; try (now apply solid_lacks; apply Wh); try exact Lr; intros [K|[]]; discriminate.
    + intros [W (s1 & E & t1 & -> & Wh & e & r & t' & -> & [<-|[]] & Lr)].
      match type of E with _ = ?x => replace x with ((a ++ t_ "@" ++ h ++ t_ ">" ++ r) ++ nl :: t') in E by (cbn; rewrite <- !app_assoc; cbn; rewrite <- !app_assoc; reflexivity) end.
      apply nl_cut in E; [|exact L|]. { destruct E as [-> _]. now apply sh_juniper. }
      rewrite !lacks_app2. repeat split; try (now apply solid_lacks; apply W || apply Wh); try exact Lr; intros [K|[]]; discriminate.
    + intros [-> (s1 & E & t1 & -> & Wh & e & r & t' & -> & [<-|[]] & Lr)].
      match type of E with _ = ?x => replace x with ((t_ "<" ++ h ++ t_ ">" ++ r) ++ nl :: t') in E by (cbn; rewrite <- !app_assoc; cbn; reflexivity) end.
      apply nl_cut in E; [|exact L|]. { destruct E as [-> _]. now apply sh_huawei. }
      rewrite !lacks_app2. repeat split; try (now apply solid_lacks; apply Wh); try exact Lr; intros [K|[]]; discriminate.
    + intros [-> (t1 & E & Wh & e & r & t' & -> & [<-|[]] & Lr)].
      match type of E with _ = ?x => replace x with ((h ++ t_ ">" ++ r) ++ nl :: t') in E by (cbn; rewrite <- !app_assoc; cbn; reflexivity) end.
      apply nl_cut in E; [|exact L|]. { destruct E as [-> _]. now apply sh_exec. }
      rewrite !lacks_app2. repeat split; try (now apply solid_lacks; apply Wh); try exact Lr; intros [K|[]]; discriminate.
    + intros [-> (x & y & r & t' & -> & Wx & Wy & E & Lr)].
      match type of E with _ = ?z => replace z with ((x ++ t_ " (" ++ y ++ t_ ") #" ++ r) ++ nl :: t') in E by (cbn; rewrite <- !app_assoc; cbn; rewrite <- !app_assoc; reflexivity) end.
      apply nl_cut in E; [|exact L|]. { destruct E as [-> _]. now apply sh_forti. }
      rewrite !lacks_app2. repeat split; try (now apply solid_lacks; apply Wx || apply Wy); try exact Lr; intros K; cbn in K; repeat (destruct K as [K|K]; [discriminate|]); destruct K.
  - intros K. destruct K; cbn [SH].
    + split; [auto|]. eexists. split; [rewrite <- !app_assoc; cbn; reflexivity|]. eexists. split; [reflexivity|]. split; [assumption|]. exists e, r, t. split; [reflexivity|]. split; [assumption|]. rewrite !lacks_app2 in L. tauto.
    + split; [auto|]. eexists. split; [rewrite <- !app_assoc; cbn; reflexivity|]. eexists. split; [rewrite <- ?app_assoc; reflexivity|]. split; [assumption|]. eexists _, r, t. split; [cbn; reflexivity|]. split; [now left|]. rewrite !lacks_app2 in L. tauto.
    + split; [auto|]. eexists. split; [rewrite <- !app_assoc; reflexivity|]. split; [assumption|]. eexists _, r, t. split; [cbn; reflexivity|]. split; [now left|]. rewrite !lacks_app2 in L. tauto.
    + split; [auto|]. eexists. split; [rewrite <- !app_assoc; cbn; reflexivity|]. eexists. split; [rewrite <- ?app_assoc; reflexivity|]. split; [assumption|]. eexists _, r, t. split; [cbn; reflexivity|]. split; [now left|]. rewrite !lacks_app2 in L. tauto.
    + split; [auto|]. eexists. split; [rewrite <- !app_assoc; cbn; reflexivity|]. eexists. split; [rewrite <- ?app_assoc; reflexivity|]. split; [assumption|]. eexists _, r, t. split; [cbn; reflexivity|]. split; [now left|]. rewrite !lacks_app2 in L. tauto.
    + split; [auto|]. eexists. split; [rewrite <- !app_assoc; reflexivity|]. split; [assumption|]. eexists _, r, t. split; [cbn; reflexivity|]. split; [now left|]. rewrite !lacks_app2 in L. tauto.
    + split; [auto|]. exists x, y, r, t. split; [reflexivity|]. split; [assumption|]. split; [assumption|]. split; [rewrite <- !app_assoc; cbn; reflexivity|]. rewrite !lacks_app2 in L. tauto.
Qed.

(** ** the expressions *)
Notation chr_re c := (RSet false [CChar c]).
Definition body_of (p : prompt) : re :=
  match p with
  | AluSros => RSeq (RSeq SS (RAlt (RSeq SS REps) REps)) (RSeq (chr_re ":"%char) (host_end false (t_ ">#")))
  | IosXr => RSeq (RSeq SS (RStar true SS)) (RSeq (chr_re ":"%char) (host_end true (t_ "#")))
  | IosPriv => host_end true (t_ "#")
  | Juniper => RSeq (RStar true SS) (RSeq (chr_re "@"%char) (host_end true (t_ ">")))
  | Huawei => RSeq (chr_re "<"%char) (host_end true (t_ ">"))
  | IosExec => host_end true (t_ ">")
  | Fortigate => RSeq (RGroup $"h" (RSeq (RSeq SS (RStar true SS)) (RSeq (chr_re space) (RSeq (chr_re "("%char) (RSeq (RSeq SS (RStar true SS)) (RSeq (chr_re ")"%char) REps))))))
                      (RSeq (chr_re space) (RSeq (chr_re "#"%char) eol))
  end.
Lemma compiled : map re_compile hostname_res = map (fun p => Some (RSeq (chr_re nl) (body_of p))) prompts.
Proof. vm_compute. reflexivity. Qed.
Lemma mt_chr e s c k : mt (chr_re e) s c k = match s with x :: t => if Ascii.eqb e x then k t c else None | [] => None end.
Proof. destruct s as [|x s]; [reflexivity|]. rewrite mt_set. unfold set_match. cbn [existsb citem_match]. now rewrite orb_false_r, xorb_false_l. Qed.
Section Pre.
Variables (pre : re) (Q : str -> Prop) (c : ascii) (g : bool) (E : str).
Hypothesis pre_some : forall s k x, mt pre s [] k = Some x -> exists a t, s = a ++ t /\ Q a /\ k t [] = Some x /\ forall a' t', s = a' ++ t' -> Q a' -> length a < length a' -> k t' [] = None.
Hypothesis pre_no : forall s k, mt pre s [] k = None -> forall a t, s = a ++ t -> Q a -> k t [] = None.
Lemma after_some t x : mt (RSeq (chr_re c) (host_end g E)) t [] kend = Some x -> exists s1 h, t = c :: s1 /\ T E s1 h /\ snd x = [($"h", h)] /\ forall h', T E s1 h' -> best g h h'.
Proof.
  rewrite mt_seq, mt_chr. destruct t as [|y t]; [discriminate|]. destruct (Ascii.eqb c y) eqn:Y; [|discriminate]. apply Ascii.eqb_eq in Y. subst y. intros K. apply host_some in K. destruct K as (h & K). eauto.
Qed.
Lemma after_no s1 : mt (RSeq (chr_re c) (host_end g E)) (c :: s1) [] kend = None -> forall h, ~ T E s1 h.
Proof. rewrite mt_seq, mt_chr, Ascii.eqb_refl. apply host_no. Qed.
Lemma with_pre_some s x : mt (RSeq pre (RSeq (chr_re c) (host_end g E))) s [] kend = Some x ->
  exists a s1 h, Q a /\ s = a ++ c :: s1 /\ T E s1 h /\ snd x = [($"h", h)] /\
    forall a' h', Q a' /\ (exists s1', s = a' ++ c :: s1' /\ T E s1' h') -> length a' < length a \/ (length a' = length a /\ best g h h').
Proof.
  rewrite mt_seq. intros K. apply pre_some in K. destruct K as (a & t & -> & A & K & M). apply after_some in K. destruct K as (s1 & h & -> & TH & C & B). exists a, s1, h. repeat (split; [solve [auto]|]).
  intros a' h' (A' & s1' & S' & T'). destruct (Nat.lt_trichotomy (length a') (length a)) as [L|[L|L]]; [now left| |].
  - right. split; [exact L|]. apply app_eq_app in S'. assert (a' = a /\ s1' = s1) as [-> ->].
    { destruct S' as (l & [[E1 E2]|[E1 E2]]); subst; rewrite app_length in L; assert (L0 : length l = 0) by lia; (destruct l; [|discriminate]); rewrite app_nil_r; cbn in E2; split; congruence. }
    now apply B.
  - exfalso. specialize (M a' _ S' A' L). exact (after_no _ M h' T').
Qed.
Lemma with_pre_no s : mt (RSeq pre (RSeq (chr_re c) (host_end g E))) s [] kend = None -> forall a h, ~ (Q a /\ exists s1, s = a ++ c :: s1 /\ T E s1 h).
Proof. rewrite mt_seq. intros K a h (A & s1 & S & TH). specialize (pre_no _ _ K a _ S A). exact (after_no _ pre_no h TH). Qed.
End Pre.
Lemma two_some s k x : mt (RSeq SS (RAlt (RSeq SS REps) REps)) s [] k = Some x ->
  exists a t, s = a ++ t /\ (word a /\ length a <= 2) /\ k t [] = Some x /\ forall a' t', s = a' ++ t' -> (word a' /\ length a' <= 2) -> length a < length a' -> k t' [] = None.
Proof.
  rewrite mt_seq, mt_set. destruct s as [|y s]; [discriminate|]. destruct (set_match false [CNSpaceC] y) eqn:P; [|discriminate]. rewrite mt_alt, mt_seq, mt_set, mt_eps.
  assert (W : word [y]) by (split; [discriminate|]; apply solid_all; constructor; [exact P|constructor]).
  assert (One : k s [] = Some x -> (forall z s', s = z :: s' -> set_match false [CNSpaceC] z = true -> k s' [] = None) -> exists a t, y :: s = a ++ t /\ (word a /\ length a <= 2) /\ k t [] = Some x /\ forall a' t', y :: s = a' ++ t' -> (word a' /\ length a' <= 2) -> length a < length a' -> k t' [] = None).
  { intros K N. exists [y], s. split; [reflexivity|]. split; [split; [exact W|cbn; lia]|]. split; [exact K|]. intros a' t' S' [W' L'] L. destruct a' as [|y' [|z' [|? ?]]]; cbn in L, L'; try lia. cbn in S'. injection S' as <- ->. apply (N z' t' eq_refl). destruct W' as [_ W']. apply solid_all in W'. inversion W' as [|? ? _ W1]; subst. now inversion W1; subst. }
  destruct s as [|z s]; [intros K; apply One; [exact K|discriminate]|]. destruct (set_match false [CNSpaceC] z) eqn:Pz.
  - rewrite mt_eps. destruct (k s []) as [w|] eqn:K2.
    + intros K. exists [y; z], s. split; [reflexivity|]. split; [split; [|cbn; lia]|].
      * split; [discriminate|]. apply solid_all. constructor; [exact P|]. constructor; [exact Pz|constructor].
      * split; [congruence|]. intros a' t' _ [_ L'] L. cbn in L. lia.
    + intros K. apply One; [exact K|]. intros z' s' S' _. congruence.
  - intros K. apply One; [exact K|]. intros z' s' S' P'. congruence.
Qed.
Lemma two_no s k : mt (RSeq SS (RAlt (RSeq SS REps) REps)) s [] k = None -> forall a t, s = a ++ t -> (word a /\ length a <= 2) -> k t [] = None.
Proof.
  rewrite mt_seq, mt_set. intros K a t -> [[N W] L]. apply solid_all in W. destruct a as [|y a]; [congruence|]. cbn [app] in K. inversion W as [|? ? P W1]; subst. rewrite P, mt_alt, mt_seq, mt_set, mt_eps in K. destruct a as [|z [|? ?]]; cbn in L; try lia.
  - cbn [app] in K. destruct t as [|z t]; [exact K|]. destruct (set_match false [CNSpaceC] z); [|exact K]. destruct (mt REps t [] k); [discriminate|exact K].
  - cbn [app] in K. inversion W1 as [|? ? P2 _]; subst. rewrite P2, mt_eps in K. destruct (k t []); [discriminate|reflexivity].
Qed.
Lemma best_true h h' : best true h h' -> length h' <= length h. Proof. exact (fun x => x). Qed.
(** the last prompt: there is one way only *)
Lemma solid_cut (x x' : str) b b' t t' : x ++ b :: t = x' ++ b' :: t' -> solid x -> solid x' -> white b -> white b' -> x = x' /\ b :: t = b' :: t'.
Proof.
  revert x'. induction x as [|y x IH]; intros x' E A B W W'; (destruct x' as [|z x']; cbn [app] in E).
  - auto.
  - injection E as -> _. inversion B; subst. contradiction.
  - injection E as <- _. inversion A; subst. contradiction.
  - injection E as -> E. inversion A; inversion B; subst. apply IH in E; auto. destruct E as [-> E]. auto.
Qed.
Lemma white_space : white space. Proof. apply white_iff. reflexivity. Qed.
Lemma forti_unique s a h a' h' : SH Fortigate s a h -> SH Fortigate s a' h' -> a = a' /\ h = h'.
Proof.
  intros [-> (x & y & r & t & -> & [_ Wx] & [_ Wy] & -> & _)] [-> (x' & y' & r' & t' & -> & [_ Wx'] & [_ Wy'] & E & _)]. split; [reflexivity|]. rewrite <- !app_assoc in E. cbn in E.
  apply solid_cut in E; auto using white_space. destruct E as [-> E]. injection E as E.
  assert (S : forall q, solid q -> solid (q ++ [")"%char])).
  { intros q H. unfold solid. apply Forall_app. split; [exact H|]. constructor; [|constructor]. apply not_white. reflexivity. }
  assert (E' : (y ++ [")"%char]) ++ space :: "#"%char :: r ++ nl :: t = (y' ++ [")"%char]) ++ space :: "#"%char :: r' ++ nl :: t') by (rewrite <- !app_assoc; exact E).
  apply solid_cut in E'; auto using white_space. destruct E' as [E' _]. apply app_inj_tail in E'. destruct E' as [-> _]. reflexivity.
Qed.
Lemma forti_some s x : mt (body_of Fortigate) s [] kend = Some x -> exists a h, SH Fortigate s a h /\ snd x = [($"h", h)].
Proof.
  cbn [body_of]. rewrite mt_seq. change (mt (RGroup $"h" ?r) s [] ?k) with (mt r s [] (fun s' c' => k s' (cap_set $"h" (firstn (length s - length s') s) c'))). cbv beta. rewrite mt_seq. intros K.
  apply plus_some in K. destruct K as (u & t & -> & Nu & Au & K & _). rewrite mt_seq, mt_chr in K. destruct t as [|b t]; [discriminate|]. destruct (Ascii.eqb space b) eqn:B; [|discriminate]. apply Ascii.eqb_eq in B. subst b.
  rewrite mt_seq, mt_chr in K. destruct t as [|b t]; [discriminate|]. destruct (Ascii.eqb "(" b) eqn:B; [|discriminate]. apply Ascii.eqb_eq in B. subst b. rewrite mt_seq in K.
  apply plus_some in K. destruct K as (v & t' & -> & Nv & Av & K & _). rewrite mt_seq, mt_chr in K. destruct t' as [|b t']; [discriminate|]. destruct (Ascii.eqb ")" b) eqn:B; [|discriminate]. apply Ascii.eqb_eq in B. subst b. rewrite mt_eps in K.
  replace (u ++ space :: "("%char :: v ++ ")"%char :: t') with ((u ++ t_ " (" ++ v ++ t_ ")") ++ t') in K |- * by (cbn; rewrite <- !app_assoc; cbn; rewrite <- !app_assoc; reflexivity).
  rewrite firstn_cut in K. rewrite mt_seq, mt_chr in K. destruct t' as [|b t]; [discriminate|]. destruct (Ascii.eqb space b) eqn:B; [|discriminate]. apply Ascii.eqb_eq in B. subst b.
  rewrite mt_seq, mt_chr in K. destruct t as [|b t]; [discriminate|]. destruct (Ascii.eqb "#" b) eqn:B; [|discriminate]. apply Ascii.eqb_eq in B. subst b.
  apply eol_some in K. destruct K as (r & t' & -> & L & ->). exists [], (u ++ t_ " (" ++ v ++ t_ ")"). split; [|reflexivity]. apply solid_all in Au, Av. split; [reflexivity|]. exists u, v, r, t'. repeat split; auto.
Qed.
Lemma forti_no s : mt (body_of Fortigate) s [] kend = None -> forall a h, ~ SH Fortigate s a h.
Proof.
  cbn [body_of]. rewrite mt_seq. change (mt (RGroup $"h" ?r) s [] ?k) with (mt r s [] (fun s' c' => k s' (cap_set $"h" (firstn (length s - length s') s) c'))). cbv beta. rewrite mt_seq. intros K a h [-> (x & y & r & t & -> & [Nx Wx] & [Ny Wy] & E & L)]. apply solid_all in Wx, Wy. rewrite plus_no in K.
  rewrite <- !app_assoc in E. specialize (K x _ E Nx Wx). cbn [app t_ list_ascii_of_string] in K. rewrite mt_seq, mt_chr in K. change " "%char with space in K. rewrite Ascii.eqb_refl, mt_seq, mt_chr, Ascii.eqb_refl, mt_seq in K. rewrite plus_no in K. specialize (K y _ eq_refl Ny Wy).
  rewrite mt_seq, mt_chr, Ascii.eqb_refl, mt_eps, mt_seq, mt_chr, Ascii.eqb_refl, mt_seq, mt_chr, Ascii.eqb_refl, eol_no in K. apply K. apply in_or_app. right. now left.
Qed.
Theorem body_some p s x : mt (body_of p) s [] kend = Some x -> exists a h, SH p s a h /\ snd x = [($"h", h)] /\ forall a' h', SH p s a' h' -> preferred p a h a' h'.
Proof.
  destruct p; intros K.
  - apply (with_pre_some _ _ _ _ _ two_some) in K. destruct K as (a & s1 & h & A & S & TH & C & M). exists a, h. split; [split; [exact A|eauto]|]. split; [exact C|exact M].
  - apply (with_pre_some (RSeq SS (RStar true SS)) word) in K.
    2:{ clear. intros s k x K. apply plus_some in K. destruct K as (a & t & E & N & A & K & M). exists a, t. split; [exact E|]. split; [split; [exact N|now apply solid_all]|]. split; [exact K|]. intros a' t' E' [_ A'] L. apply solid_all in A'. now apply (M a' t'). }
    destruct K as (a & s1 & h & A & S & TH & C & M). exists a, h. split; [split; [exact A|eauto]|]. split; [exact C|exact M].
  - cbn [body_of] in K. apply host_some in K. destruct K as (h & TH & C & M). exists [], h. split; [now split|]. split; [exact C|]. intros a' h' [-> T']. right. split; [reflexivity|]. now apply M.
  - apply (with_pre_some (RStar true SS) solid) in K.
    2:{ clear. intros s k x K. rewrite mt_star_set in K. apply sstar_some in K. destruct K as (a & t & E & A & K & M). exists a, t. split; [exact E|]. split; [now apply solid_all|]. split; [exact K|]. intros a' t' E' A' L. apply solid_all in A'. now apply (M a' t'). }
    destruct K as (a & s1 & h & A & S & TH & C & M). exists a, h. split; [split; [exact A|eauto]|]. split; [exact C|exact M].
  - cbn [body_of] in K. apply after_some in K. destruct K as (s1 & h & -> & TH & C & M). exists [], h. split; [split; [reflexivity|eauto]|]. split; [exact C|]. intros a' h' [-> (s1' & E & T')]. right. split; [reflexivity|]. assert (s1 = s1') by congruence. subst. now apply M.
  - cbn [body_of] in K. apply host_some in K. destruct K as (h & TH & C & M). exists [], h. split; [now split|]. split; [exact C|]. intros a' h' [-> T']. right. split; [reflexivity|]. now apply M.
  - apply forti_some in K. destruct K as (a & h & H & C). exists a, h. split; [exact H|]. split; [exact C|]. intros a' h' H'. destruct (forti_unique _ _ _ _ _ H H') as [-> ->]. right. split; reflexivity.
Qed.
Theorem body_no p s : mt (body_of p) s [] kend = None -> forall a h, ~ SH p s a h.
Proof.
  destruct p; intros K a h H; cbn [body_of SH] in *.
  - exact (with_pre_no _ _ _ _ _ two_no _ K a h H).
  - revert H. apply (with_pre_no (RSeq SS (RStar true SS)) word ":"%char true (t_ "#")); [|exact K]. clear. intros s k K a t E [N A]. apply solid_all in A. rewrite plus_no in K. now apply (K a t).
  - destruct H as [_ H]. exact (host_no _ _ _ K h H).
  - revert H. apply (with_pre_no (RStar true SS) solid "@"%char true (t_ ">")); [|exact K]. clear. intros s k K a t E A. apply solid_all in A. rewrite mt_star_set, sstar_no in K. now apply (K a t).
  - destruct H as [_ (s1 & -> & H)]. exact (after_no _ _ _ _ K h H).
  - destruct H as [_ H]. exact (host_no _ _ _ K h H).
  - exact (forti_no _ K a h H).
Qed.

(** ** searching the lines *)
Fixpoint hfirst (r : re) (s : str) : option caps :=
  match rmatch r s with Some (_, c) => Some c | None => match s with [] => None | _ :: t => hfirst r t end end.
Lemma find_first r : forall f s pos, length s < f -> match finditer_go f r s pos with m :: _ => Some (m_caps m) | [] => None end = hfirst r s.
Proof.
  induction f as [|f IH]; intros s pos L; [lia|]. cbn [finditer_go]. destruct s as [|x s]; cbn [hfirst].
  - destruct (rmatch r []) as [[s' c]|]; [|reflexivity]. destruct (length [] - length s'); reflexivity.
  - destruct (rmatch r (x :: s)) as [[s' c]|]; [|apply IH; cbn in L; lia]. destruct (length (x :: s) - length s'); reflexivity.
Qed.
Definition prompt_re (p : prompt) : re := RSeq (chr_re nl) (body_of p).
Lemma at_nl p s : rmatch (prompt_re p) (nl :: s) = mt (body_of p) s [] kend.
Proof. unfold rmatch, prompt_re. rewrite mt_seq, mt_chr, Ascii.eqb_refl. reflexivity. Qed.
Lemma hfirst_skip p u s : lacks nl u -> hfirst (prompt_re p) (u ++ s) = hfirst (prompt_re p) s.
Proof.
  induction u as [|x u IH]; intros L; [reflexivity|]. apply lacks_cons in L. destruct L as [N L]. cbn [app hfirst]. unfold rmatch at 1, prompt_re at 1. rewrite mt_seq, mt_chr.
  destruct (Ascii.eqb nl x) eqn:E; [apply Ascii.eqb_eq in E; congruence|]. now apply IH.
Qed.
Lemma hfirst_none p u : lacks nl u -> hfirst (prompt_re p) u = None.
Proof. intros L. rewrite <- (app_nil_r u), hfirst_skip by exact L. reflexivity. Qed.
Lemma SH_nl p s a h : SH p s a h -> In nl s.
Proof.
  assert (G : forall E s h, T E s h -> In nl s) by (intros E s0 h0 (t & -> & _ & e & r & t' & -> & _); apply in_or_app; right; right; apply in_or_app; right; now left).
  destruct p; cbn [SH].
  - intros (_ & s1 & -> & K). apply G in K. apply in_or_app. right. now right.
  - intros (_ & s1 & -> & K). apply G in K. apply in_or_app. right. now right.
  - intros (_ & K). now apply G in K.
  - intros (_ & s1 & -> & K). apply G in K. apply in_or_app. right. now right.
  - intros (_ & s1 & -> & K). apply G in K. now right.
  - intros (_ & K). now apply G in K.
  - intros (_ & x & y & r & t & _ & _ & _ & -> & _). rewrite !in_app_iff. do 3 right. now left.
Qed.
Definition lines_after (ls : list str) (last : str) : str := flat_map (fun l => nl :: l) ls ++ nl :: last.
Lemma scan p last : lacks nl last -> forall ls, Forall (lacks nl) ls ->
  match hfirst (prompt_re p) (lines_after ls last) with
  | Some c => exists ls1 line ls2 h, ls = ls1 ++ line :: ls2 /\ never p ls1 /\ line_host p line h /\ c = [($"h", h)]
  | None => never p ls
  end.
Proof.
  intros Ll. induction ls as [|l ls IH]; intros F.
  - unfold lines_after. cbn [flat_map app hfirst]. rewrite at_nl. destruct (mt (body_of p) last [] kend) as [x|] eqn:K.
    + exfalso. apply body_some in K. destruct K as (a & h & H & _). apply SH_nl in H. contradiction.
    + rewrite hfirst_none by exact Ll. intros l a h [].
  - inversion F as [|? ? Hl Fl]; subst. specialize (IH Fl). unfold lines_after in *. cbn [flat_map app hfirst]. rewrite at_nl, <- app_assoc.
    assert (X : exists t, flat_map (fun l => nl :: l) ls ++ nl :: last = nl :: t) by (destruct ls; cbn; eauto). destruct X as [t X].
    destruct (mt (body_of p) (l ++ flat_map (fun l => nl :: l) ls ++ nl :: last) [] kend) as [[s' c]|] eqn:K.
    + rewrite X in K. apply body_some in K. destruct K as (a & h & H & C & M). cbn [snd] in C. subst c. exists [], l, ls, h. split; [reflexivity|]. split; [intros ? ? ? []|]. split; [|reflexivity].
      exists a. split; [now apply (SH_shaped p l t)|]. intros a' h' H'. apply M. now apply SH_shaped.
    + assert (N : forall a h, ~ shaped p l a h). { intros a h H. rewrite X in K. apply (body_no _ _ K a h). now apply SH_shaped. }
      rewrite hfirst_skip by exact Hl. destruct (hfirst (prompt_re p) (flat_map (fun l => nl :: l) ls ++ nl :: last)) as [c|].
      * destruct IH as (ls1 & line & ls2 & h & -> & Nv & H & ->). exists (l :: ls1), line, ls2, h. split; [reflexivity|]. split; [|auto]. intros l' a' h' [<-|I]; [apply N|now apply Nv].
      * intros l' a' h' [<-|I]; [apply N|now apply IH].
Qed.
Lemma join_lines p0 rest : join [nl] (p0 :: rest) = p0 ++ flat_map (fun l => nl :: l) rest.
Proof. revert p0. induction rest as [|l rest IH]; intros p0; [cbn; now rewrite app_nil_r|]. change (join [nl] (p0 :: l :: rest)) with (p0 ++ [nl] ++ join [nl] (l :: rest)). rewrite IH. reflexivity. Qed.
Theorem text_scan p text ls : inner_lines text ls ->
  match hfirst (prompt_re p) text with
  | Some c => exists ls1 line ls2 h, ls = ls1 ++ line :: ls2 /\ never p ls1 /\ line_host p line h /\ c = [($"h", h)]
  | None => never p ls
  end.
Proof.
  intros [(p0 & last & C)|[C ->]]; apply cut_iff in C; try discriminate; pose proof (split_pieces nl text) as F; rewrite C in F.
  - inversion F as [|? ? F0 F1]; subst. apply Forall_app in F1. destruct F1 as [F1 F2]. inversion F2; subst. rewrite <- (join_split [nl] text ltac:(discriminate)), C, join_lines, flat_map_app, hfirst_skip by exact F0. cbn [flat_map]. rewrite app_nil_r. now apply scan.
  - inversion F; subst. rewrite hfirst_none by assumption. intros ? ? ? [].
Qed.
Lemma has_inner text : exists ls, inner_lines text ls.
Proof.
  pose proof (split_ne [nl] text) as N. destruct (split [nl] text) as [|p0 rest] eqn:E; [congruence|]. assert (X : rest = [] \/ exists ls last, rest = ls ++ [last]) by (destruct rest as [|z rest]; [now left|right; destruct (@exists_last _ (z :: rest)) as (ls & la & ->); [discriminate|eauto]]). destruct X as [-> | (ls & last & ->)].
  - exists []. right. split; [|reflexivity]. apply cut_iff; [discriminate|]. pose proof (join_split [nl] text ltac:(discriminate)) as J. rewrite E in J. cbn in J. now subst p0.
  - exists ls. left. exists p0, last. now apply cut_iff.
Qed.
Lemma inner_fun text ls ls' : inner_lines text ls -> inner_lines text ls' -> ls = ls'.
Proof.
  intros [(p0 & la & C)|[C ->]] [(p0' & la' & C')|[C' ->]]; apply cut_iff in C, C'; try discriminate; rewrite C in C'; try congruence.
  - injection C' as _ C'. apply app_inj_tail in C'. tauto.
  - exfalso. injection C' as _ C'. destruct ls; discriminate.
  - exfalso. injection C' as _ C'. destruct ls'; discriminate.
Qed.
(** marks *)
Lemma marks_iff ms : forall s r, without_marks ms s r <-> fold_left (fun s b => lstrip_p (in_chars b) s) ms s = r.
Proof.
  induction ms as [|m ms IH]; intros s r; cbn [fold_left].
  - split; [intros K; now inversion K|intros <-; constructor].
  - rewrite <- IH. split.
    + intros K. inversion K as [|? ? ? s1 ? A B]; subst. apply (lstripped (in_chars m) (fun c => In c m) (in_chars_iff m)) in A. now subst s1.
    + intros K. econstructor; [|exact K]. now apply (lstripped (in_chars m) (fun c => In c m) (in_chars_iff m)).
Qed.
(** ** all prompts *)
Lemma first_host_step p t text : re_compile p = Some t -> forall res, first_host (p :: res) text = match hfirst t text with Some c => match cap $"h" c with Some h => Some (strip_boms h) | None => first_host res text end | None => first_host res text end.
Proof. intros E res. cbn [first_host]. rewrite E. rewrite <- (find_first t (S (length text)) text 0) by lia. unfold finditer. destruct (finditer_go _ t text 0); reflexivity. Qed.
Lemma hosts text ls : inner_lines text ls -> forall ps res, map re_compile res = map (fun p => Some (prompt_re p)) ps ->
  match first_host res text with
  | Some h => exists ps1 p ps2 ls1 line ls2 h0, ps = ps1 ++ p :: ps2 /\ Forall (fun q => never q ls) ps1 /\ ls = ls1 ++ line :: ls2 /\ never p ls1 /\ line_host p line h0 /\ without_marks marks h0 h
  | None => Forall (fun q => never q ls) ps
  end.
Proof.
  intros I. induction ps as [|p ps IH]; intros res E; (destruct res as [|r res]; cbn [map] in E; try discriminate).
  - constructor.
  - assert (E1 : re_compile r = Some (prompt_re p)) by congruence. assert (E2 : map re_compile res = map (fun p => Some (prompt_re p)) ps) by congruence. clear E. specialize (IH _ E2).
    rewrite (first_host_step _ _ _ E1). pose proof (text_scan p text ls I) as S. destruct (hfirst (prompt_re p) text) as [c|].
    + destruct S as (ls1 & line & ls2 & h & -> & N & H & ->). cbn [cap]. rewrite str_eqb_refl. exists [], p, ps, ls1, line, ls2, h. split; [reflexivity|]. split; [constructor|]. repeat (split; [solve [auto]|]). apply marks_iff. reflexivity.
    + destruct (first_host res text) as [h|].
      * destruct IH as (ps1 & p' & ps2 & ls1 & line & ls2 & h0 & -> & F & X). exists (p :: ps1), p', ps2, ls1, line, ls2, h0. split; [reflexivity|]. split; [now constructor|exact X].
      * now constructor.
Qed.
Lemma same_len {A} (a b a' b' : list A) : a ++ b = a' ++ b' -> length a = length a' -> a = a' /\ b = b'.
Proof. revert a'. induction a as [|x a IH]; intros [|y a'] E L; cbn in L; try lia; [auto|]. cbn [app] in E. injection E as -> E. apply IH in E; [|lia]. destruct E as [-> ->]. auto. Qed.
Definition sep_of (p : prompt) : str := match p with AluSros | IosXr => t_ ":" | Juniper => t_ "@" | Huawei => t_ "<" | _ => [] end.
Lemma shaped_form p line a h : shaped p line a h -> exists r, line = a ++ sep_of p ++ h ++ r.
Proof. destruct 1; cbn [sep_of app]; eexists; try reflexivity. rewrite <- !app_assoc. reflexivity. Qed.
Lemma line_host_fun p line h h' : line_host p line h -> line_host p line h' -> h = h'.
Proof.
  intros (a & H & M) (a' & H' & M'). specialize (M _ _ H'). specialize (M' _ _ H). unfold preferred in *. destruct M as [M|[La M]], M' as [M'|[La' M']]; try lia.
  apply shaped_form in H, H'. destruct H as [r ->], H' as [r' E]. apply same_len in E; [|lia]. destruct E as [_ E]. apply app_inv_head in E. apply same_len in E; [tauto|]. destruct p; lia.
Qed.
Lemma first_unique {A} (P : A -> Prop) (l1 l2 l1' l2' : list A) x x' : l1 ++ x :: l2 = l1' ++ x' :: l2' -> Forall P l1 -> ~ P x -> Forall P l1' -> ~ P x' -> l1 = l1' /\ x = x' /\ l2 = l2'.
Proof.
  revert l1'. induction l1 as [|y l1 IH]; intros l1' E F N F' N'; (destruct l1' as [|y' l1']; cbn [app] in E).
  - injection E as -> ->. auto.
  - injection E as <- _. inversion F'; subst. contradiction.
  - injection E as -> _. inversion F; subst. contradiction.
  - injection E as -> E. inversion F; inversion F'; subst. apply IH in E; auto. destruct E as (-> & -> & ->). auto.
Qed.
Definition unlike (p : prompt) (l : str) : Prop := forall a h, ~ shaped p l a h.
Lemma never_all p ls : never p ls <-> Forall (unlike p) ls.
Proof. unfold never, unlike. rewrite Forall_forall. split; intros H; [intros l I a h; now apply H|intros l a h I; now apply H]. Qed.
Theorem hostname_iff text h : gethostname text = Some h <-> host_in text h.
Proof.
  destruct (has_inner text) as [ls I]. pose proof (hosts text ls I prompts hostname_res compiled) as G. unfold gethostname. split.
  - intros K. rewrite K in G. destruct G as (ps1 & p & ps2 & ls1 & line & ls2 & h0 & E & F & E' & N & H & W). exists ls, ps1, p, ps2, ls1, line, ls2, h0. auto 10.
  - intros (ls' & ps1 & p & ps2 & ls1 & line & ls2 & h0 & I' & E & F & E' & N & H & W). assert (X : ls' = ls) by (now apply (inner_fun text)). rewrite X in E', F. clear X I' ls'.
    assert (NN : ~ never p ls). { intros K. destruct H as (a & H & _). apply (K line a h0); [rewrite E'; apply in_or_app; right; now left|exact H]. }
    destruct (first_host hostname_res text) as [h1|].
    + destruct G as (qs1 & q & qs2 & ls1' & line' & ls2' & h0' & Eq & Fq & Eq' & Nq & Hq & Wq).
      assert (NQ : ~ never q ls). { intros K. destruct Hq as (a & Hq & _). apply (K line' a h0'); [rewrite Eq'; apply in_or_app; right; now left|exact Hq]. }
      assert (X : ps1 = qs1 /\ p = q /\ ps2 = qs2). { apply (first_unique (fun q => never q ls)); auto. congruence. } destruct X as (_ & <- & _).
      apply never_all in N, Nq. assert (X : ls1 = ls1' /\ line = line' /\ ls2 = ls2').
      { apply (first_unique (unlike p)); auto; [congruence|intros U; destruct H as (a & H & _); now apply (U a h0)|intros U; destruct Hq as (a & H0 & _); now apply (U a h0')]. }
      destruct X as (_ & <- & _). assert (h0 = h0') by now apply (line_host_fun p line). subst h0'. apply marks_iff in W, Wq. congruence.
    + exfalso. rewrite E in G. apply Forall_app in G. destruct G as [_ G]. inversion G; subst. contradiction.
Qed.
Theorem no_hostname text : gethostname text = None <-> forall ls p, inner_lines text ls -> never p ls.
Proof.
  destruct (has_inner text) as [ls I]. pose proof (hosts text ls I prompts hostname_res compiled) as G. unfold gethostname. split.
  - intros K ls' p I'. rewrite K in G. assert (ls' = ls) by (now apply (inner_fun text)). subst ls'. rewrite Forall_forall in G. apply G. destruct p; cbn; tauto.
  - intros K. destruct (first_host hostname_res text) as [h|]; [|reflexivity]. destruct G as (ps1 & p & ps2 & ls1 & line & ls2 & h0 & E & F & E' & N & H & W). exfalso. destruct H as (a & H & _). apply (K ls p I line a h0); [rewrite E'; apply in_or_app; right; now left|exact H].
Qed.
