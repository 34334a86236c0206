(** * RegexFacts: the matcher finds a match iff there is one *)
From Verif Require Import PyBase Regex SpecRegex.

Lemma star_suffix (R : str -> caps -> str -> caps -> Prop) : (forall s c s' c', R s c s' c' -> exists w, s = w ++ s') ->
  forall s c s' c', star_rel R s c s' c' -> exists w, s = w ++ s'.
Proof.
  intros H s c s' c'. induction 1 as [|s c s1 c1 s2 c2 H1 _ _ (w & IH)]; [now exists []|].
  destruct (H _ _ _ _ H1) as (v & ->). exists (v ++ w). rewrite <- app_assoc. now rewrite <- IH.
Qed.
Lemma rel_suffix r : forall s c s' c', rel r s c s' c' -> exists w, s = w ++ s'.
Proof.
  induction r as [|neg items| |a IHa b IHb|a IHa b IHb|g r IH|n r IH|neg r IH]; intros s c s' c' H; cbn [rel] in H.
  - destruct H as [-> _]. now exists [].
  - destruct H as (x & -> & _). now exists [x].
  - destruct H as (x & -> & _). now exists [x].
  - destruct H as (s1 & c1 & H1 & H2). destruct (IHa _ _ _ _ H1) as [w ->]. destruct (IHb _ _ _ _ H2) as [v ->]. exists (w ++ v). now rewrite app_assoc.
  - destruct H as [H|H]; eauto.
  - eapply star_suffix; [exact IH|exact H].
  - destruct H as (c1 & w & _ & -> & _). now exists w.
  - destruct H as [-> _]. now exists [].
Qed.

Definition star_mt (r1 : re) (greedy : bool) (k : str -> caps -> mres) :=
  fix star (n : nat) (s : str) (c : caps) {struct n} : mres :=
         let more :=
           match n with
           | O => None
           | S n' => mt r1 s c (fun s' c' =>
                       if Nat.ltb (length s') (length s) then star n' s' c' else None)
           end in
         if greedy
         then match more with Some x => Some x | None => k s c end
         else match k s c with Some x => Some x | None => more end.
Lemma mt_star g r s c k : mt (RStar g r) s c k = star_mt r g k (length s) s c.
Proof. reflexivity. Qed.

(** whether there is a match does not depend on the captures *)
Lemma rel_caps r : forall s c s' c' d, rel r s c s' c' -> exists d', rel r s d s' d'.
Proof.
  induction r as [|neg items| |a IHa b IHb|a IHa b IHb|g r IH|n r IH|neg r IH]; intros s c s' c' d H; cbn [rel] in *.
  - destruct H as [-> _]. eauto.
  - destruct H as (x & -> & Hx & _). eauto 6.
  - destruct H as (x & -> & Hx & _). eauto 6.
  - destruct H as (s1 & c1 & H1 & H2). destruct (IHa _ _ _ _ d H1) as [d1 K1]. destruct (IHb _ _ _ _ d1 H2) as [d2 K2]. eauto.
  - destruct H as [H|H]; [destruct (IHa _ _ _ _ d H)|destruct (IHb _ _ _ _ d H)]; eauto.
  - revert d. induction H as [s c|s c s1 c1 s2 c2 H1 L _ IHs]; intros d; [exists d; constructor|].
    destruct (IH _ _ _ _ d H1) as [d1 K1]. destruct (IHs d1) as [d2 K2]. exists d2. econstructor; eassumption.
  - destruct H as (c1 & w & H & -> & _). destruct (IH _ _ _ _ d H) as [d1 K]. exists (cap_set n w d1), d1, w. auto.
  - destruct H as [-> H]. destruct neg.
    + destruct H as [_ H]. exists d. split; [reflexivity|]. split; [reflexivity|]. intros s1 c1 K.
      destruct (IH _ _ _ _ c K) as [c2 K2]. exact (H _ _ K2).
    + destruct H as [s1 H]. destruct (IH _ _ _ _ d H) as [d1 K]. exists d1. eauto.
Qed.

Lemma mres_dec (x y : str * caps) : {x = y} + {x <> y}.
Proof. repeat decide equality. Qed.

Lemma mt_both r :
  (forall s c k x, mt r s c k = Some x -> exists s' c', rel r s c s' c' /\ k s' c' = Some x) /\
  (forall s c k s' c', rel r s c s' c' -> (forall d, k s' d <> None) -> mt r s c k <> None).
Proof.
  induction r as [|neg items| |a [Sa Ca] b [Sb Cb]|a [Sa Ca] b [Sb Cb]|g r [Sr Cr]|n r [Sr Cr]|neg r [Sr Cr]]; split.
  - intros s c k x H. exists s, c. split; [split; reflexivity|exact H].
  - intros s c k s' c' [-> ->] Hk. apply Hk.
  - intros s c k x H. cbn [mt] in H. destruct s as [|y t]; [discriminate|]. destruct (set_match neg items y) eqn:E; [|discriminate].
    exists t, c. split; [exists y; auto|exact H].
  - intros s c k s' c' (x & -> & Hx & ->) Hk. cbn [mt]. rewrite Hx. apply Hk.
  - intros s c k x H. cbn [mt] in H. destruct s as [|y t]; [discriminate|]. destruct (Ascii.eqb_spec y nl) as [E|E]; [discriminate|].
    exists t, c. split; [exists y; auto|exact H].
  - intros s c k s' c' (x & -> & Hx & ->) Hk. cbn [mt]. destruct (Ascii.eqb_spec x nl); [contradiction|]. apply Hk.
  - intros s c k x H. cbn [mt] in H. destruct (Sa _ _ _ _ H) as (s1 & c1 & H1 & H2). destruct (Sb _ _ _ _ H2) as (s2 & c2 & H3 & H4).
    exists s2, c2. split; [exists s1, c1; auto|exact H4].
  - intros s c k s' c' (s1 & c1 & H1 & H2) Hk. cbn [mt]. apply (Ca _ _ _ _ _ H1). intros d. destruct (rel_caps _ _ _ _ _ d H2) as [d' K]. eapply Cb; eassumption.
  - intros s c k x H. cbn [mt] in H. destruct (mt a s c k) as [y|] eqn:E.
    + destruct (Sa _ _ _ _ E) as (s1 & c1 & H1 & H2). exists s1, c1. split; [now left|congruence].
    + destruct (Sb _ _ _ _ H) as (s1 & c1 & H1 & H2). exists s1, c1. split; [now right|exact H2].
  - intros s c k s' c' [H|H] Hk; cbn [mt]; [|destruct (mt a s c k); [discriminate|]; eapply Cb; eassumption].
    assert (K := Ca _ _ _ _ _ H Hk). destruct (mt a s c k); [discriminate|contradiction].
  - intros s c k x H. rewrite mt_star in H. revert H. generalize (length s) as n. intros n. revert s c.
    induction n as [|n IHn]; intros s c H; cbn [star_mt] in H.
    + exists s, c. split; [constructor|]. destruct g; [exact H|]. destruct (k s c); [congruence|discriminate].
    + assert (M : mt r s c (fun s' c' => if Nat.ltb (length s') (length s) then star_mt r g k n s' c' else None) = Some x ->
        exists s' c', rel (RStar g r) s c s' c' /\ k s' c' = Some x).
      { intros Hy. destruct (Sr _ _ _ _ Hy) as (s1 & c1 & H1 & H2). destruct (Nat.ltb_spec (length s1) (length s)) as [L|L]; [|discriminate].
        destruct (IHn _ _ H2) as (s2 & c2 & H3 & H4). exists s2, c2. split; [econstructor; eassumption|exact H4]. }
      destruct g.
      * destruct (mt r s c _) as [y|] eqn:E; [apply M; congruence|]. exists s, c. split; [constructor|exact H].
      * destruct (k s c) as [y|] eqn:E; [exists s, c; split; [constructor|congruence]|]. now apply M.
  - intros s c k s' c' H Hk. rewrite mt_star. cbn [rel] in H.
    assert (K : forall d n, length s <= n -> star_mt r g k n s d <> None); [|now apply K].
    induction H as [s c|s c s1 c1 s2 c2 H1 L H2 IHs]; intros d n Hn.
    + destruct n; cbn [star_mt]; destruct g; try apply Hk.
      * destruct (k s d) eqn:E; [discriminate|]. now apply Hk in E.
      * destruct (mt r s d _); [discriminate|apply Hk].
      * destruct (k s d) eqn:E; [discriminate|]. now apply Hk in E.
    + destruct n as [|n]; [lia|]. cbn [star_mt].
      assert (M : mt r s d (fun s' c' => if Nat.ltb (length s') (length s) then star_mt r g k n s' c' else None) <> None).
      { destruct (rel_caps _ _ _ _ _ d H1) as [d1 K1]. apply (Cr _ _ _ _ _ K1). intros e. destruct (Nat.ltb_spec (length s1) (length s)) as [_|?]; [|lia].
        apply IHs; [exact Hk|lia]. }
      destruct g; [destruct (mt r s d _); [discriminate|contradiction]|]. destruct (k s d); [discriminate|exact M].
  - intros s c k x H. cbn [mt] in H. destruct (Sr _ _ _ _ H) as (s1 & c1 & H1 & H2). exists s1. eexists. split; [|exact H2].
    destruct (rel_suffix _ _ _ _ _ H1) as [w ->]. exists c1, w. split; [exact H1|]. split; [reflexivity|].
    f_equal. rewrite app_length. replace (length w + length s1 - length s1) with (length w) by lia. now rewrite firstn_app, Nat.sub_diag, firstn_all, app_nil_r.
  - intros s c k s' c' (c1 & w & H & -> & _) Hk. cbn [mt]. apply (Cr _ _ _ _ _ H). intros d. apply Hk.
  - intros s c k x H. cbn [mt] in H. destruct (mt r s c (fun s' c' => Some (s', c'))) as [[s1 c1]|] eqn:E; destruct neg; try discriminate.
    + destruct (Sr _ _ _ _ E) as (s2 & c2 & H1 & H2). injection H2 as -> ->. exists s, c1. split; [split; [reflexivity|now exists s1]|exact H].
    + exists s, c. split; [|exact H]. split; [reflexivity|]. split; [reflexivity|]. intros s1 c1 Hr. apply (Cr _ _ (fun s' c' => Some (s', c')) _ _ Hr); [discriminate|exact E].
  - intros s c k s' c' [-> H] Hk. cbn [mt]. destruct (mt r s c (fun s' c' => Some (s', c'))) as [[s1 c1]|] eqn:E; destruct neg.
    + destruct (Sr _ _ _ _ E) as (s2 & c2 & H1 & _). destruct H as [_ H]. exfalso. eapply H; eassumption.
    + apply Hk.
    + apply Hk.
    + destruct H as [s1 H]. exfalso. apply (Cr _ _ (fun s' c' => Some (s', c')) _ _ H); [discriminate|exact E].
Qed.

(** the search succeeds iff there is a match, and what it finds is one *)
Lemma rmatch_sound r s s' c : rmatch r s = Some (s', c) -> rel r s [] s' c.
Proof. intros H. apply (proj1 (mt_both r)) in H as (s1 & c1 & H1 & H2). now injection H2 as -> ->. Qed.
Lemma rmatch_complete r s s' c : rel r s [] s' c -> exists s1 c1, rmatch r s = Some (s1, c1).
Proof.
  intros H. destruct (rmatch r s) as [[s1 c1]|] eqn:E; [eauto|]. exfalso.
  apply (proj2 (mt_both r) s [] (fun s' c => Some (s', c)) s' c H); [discriminate|exact E].
Qed.
Lemma rmatch_none r s : rmatch r s = None <-> forall s' c, ~ rel r s [] s' c.
Proof.
  split.
  - intros E s' c H. destruct (rmatch_complete r s s' c H) as (s1 & c1 & K). congruence.
  - intros H. destruct (rmatch r s) as [[s1 c1]|] eqn:E; [|reflexivity]. exfalso. eapply H, rmatch_sound, E.
Qed.
