(** * FrameFacts: a save changes nothing outside the addressed element. *)
From Verif Require Import PyBase DictFacts Regex Tree Results SpecTree ResultsFacts ResultsHist.

Lemma dget_cons_same (d : dict) k v : dget ((k, v) :: d) k = Some v.
Proof. simpl. now rewrite key_eqb_refl. Qed.

Lemma shape_le_refl w : shape_le w w.
Proof. destruct w; simpl; auto. Qed.
Lemma shape_le_trans u v w : shape_le u v -> shape_le v w -> shape_le u w.
Proof.
  destruct u; simpl; try (intros -> ; intros H; exact H); intros H1 H2.
  - destruct v; try contradiction. simpl in H2. destruct w; try contradiction. lia.
  - destruct v; try contradiction. simpl in H2. destruct w; try contradiction. auto.
Qed.

Lemma list_upd_length {A} (l : list A) i f : length (list_upd l i f) = length l.
Proof. revert i; induction l as [|x l IH]; intros [|i]; simpl; congruence. Qed.
Lemma dmem_dset (d : dict) k v j : dmem d j = true -> dmem (dset d k v) j = true.
Proof. unfold dmem. rewrite dget_dset. destruct (key_eqb j k); auto. Qed.

(** updating below [a] only: every other address keeps its value up to growth *)
Lemma upd_shape a f : forall v c w, get_at c v = Some w -> ~ above a c ->
  exists w', get_at c (upd_at a f v) = Some w' /\ shape_le w w'.
Proof.
  induction a as [|s a IH]; intros v c w Hg Hn; [exfalso; apply Hn; exact I|].
  destruct c as [|t c].
  - simpl in Hg. injection Hg as <-. exists (upd_at (s :: a) f v). split; [reflexivity|].
    destruct s as [k|i]; simpl; destruct v; simpl; auto.
    + destruct (dget d k); simpl; auto. intros j. apply dmem_dset.
    + rewrite list_upd_length. lia.
  - destruct s as [k|i], t as [k'|j]; simpl in *.
    + destruct v; try discriminate. destruct (dget d k') as [x|] eqn:Ex; [|discriminate].
      destruct (dget d k) as [y|] eqn:Ey.
      * simpl. rewrite dget_dset. destruct (key_eqb_spec k' k) as [->|Hk].
        -- apply (IH y c w); [congruence|]. intros Ha. apply Hn. auto.
        -- rewrite Ex. exists w. split; [exact Hg|apply shape_le_refl].
      * simpl. rewrite Ex. exists w. split; [exact Hg|apply shape_le_refl].
    + destruct v; try discriminate. exists w. split; [exact Hg|apply shape_le_refl].
    + destruct v; try discriminate. exists w. split; [exact Hg|apply shape_le_refl].
    + destruct v; try discriminate. simpl. rewrite nth_error_list_upd.
      destruct (nth_error l j) as [x|] eqn:Ex; [|discriminate].
      destruct (Nat.eqb_spec i j) as [->|Hij]; simpl.
      * apply (IH x c w Hg). intros Ha. apply Hn. auto.
      * exists w. split; [exact Hg|apply shape_le_refl].
Qed.

Lemma keeps_refl S E : keeps S E E.
Proof. intros c w Hg _. exists w. split; [exact Hg|apply shape_le_refl]. Qed.

Lemma keeps_trans (S S' : addr -> Prop) E E1 E2 :
  keeps S E E1 -> keeps S' E1 E2 -> (forall c w, get_at c E = Some w -> ~ S c -> ~ S' c) -> keeps S E E2.
Proof.
  intros H1 H2 HS c w Hg Hn. destruct (H1 c w Hg Hn) as (w1 & Hg1 & Hs1).
  destruct (H2 c w1 Hg1 (HS c w Hg Hn)) as (w2 & Hg2 & Hs2). exists w2. split; [exact Hg2|].
  eapply shape_le_trans; eauto.
Qed.

Lemma keeps_upd a f E : keeps (above a) E (upd_at a f E).
Proof. intros c w Hg Hn. now apply upd_shape. Qed.

(** replacing a value by one that contains it *)
Lemma keeps_at (S : addr -> Prop) a f E w w' : get_at a E = Some w -> f w = w' -> keeps (fun _ => False) w w' ->
  keeps S E (upd_at a f E).
Proof.
  intros Hg Hf HK c u Hc _. revert c E Hg Hc; induction a as [|s a IH]; intros c E Hg Hc.
  - simpl in Hg. injection Hg as ->. simpl. subst w'. apply HK; auto.
  - destruct c as [|t c].
    + simpl in Hc. injection Hc as <-. exists (upd_at (s :: a) f E). split; [reflexivity|].
      destruct s as [k|i]; simpl; destruct E as [| | | |l|d|]; simpl; auto.
      * destruct (dget d k); simpl; auto. intros j. apply dmem_dset.
      * rewrite list_upd_length. lia.
    + destruct s as [k|i], t as [k'|j]; simpl in *; destruct E as [| | | |l|d|]; try discriminate.
      * destruct (dget d k) as [y|] eqn:Ey; [|discriminate]. simpl. rewrite dget_dset.
        destruct (key_eqb_spec k' k) as [->|Hk].
        -- apply IH; [exact Hg|]. now rewrite Ey in Hc.
        -- exists u. split; [exact Hc|apply shape_le_refl].
      * simpl. rewrite nth_error_list_upd. destruct (nth_error l i) as [y|] eqn:Ey; [|discriminate].
        destruct (Nat.eqb_spec i j) as [<-|Hij]; simpl.
        -- rewrite Ey in Hc. simpl. rewrite Ey. simpl. apply IH; assumption.
        -- exists u. split; [exact Hc|apply shape_le_refl].
Qed.

Lemma keeps_dict_snoc S d n x : dget d (KS n) = None -> keeps S (VDict d) (VDict (d ++ [(KS n, x)])).
Proof.
  intros Hd c w Hg _. rewrite <- (dset_fresh d) by exact Hd. destruct c as [|[k|i] c].
  - simpl in Hg. injection Hg as <-. eexists; split; [reflexivity|]. simpl. intros j. apply dmem_dset.
  - simpl in *. destruct (dget d k) as [y|] eqn:Ey; [|discriminate]. rewrite dget_dset_other by congruence.
    rewrite Ey. exists w. split; [exact Hg|apply shape_le_refl].
  - discriminate.
Qed.
Lemma keeps_nil_list S l : keeps S (VList []) (VList l).
Proof.
  intros c w Hg _. destruct c as [|[k|i] c]; simpl in *; [|discriminate|destruct i; discriminate].
  injection Hg as <-. eexists; split; [reflexivity|]. simpl. lia.
Qed.

Section Frame.
Variable k2i : bool.

(** the element addressed by path [P], and everything below it *)
Lemma addressed_above P E a w : reaches (names P) E a w -> forall c, above a c -> addressed P E c.
Proof. intros H c Hc. exists a, w. auto. Qed.

Theorem save_keeps mwl P E data E' :
  P <> [] -> plain k2i P -> (forall a w, reaches (names P) E a w -> flat a = true) ->
  save_cur k2i mwl E P data = Ok E' -> keeps (addressed P E) E E'.
Proof.
  intros Hne Hp Hflat H.
  assert (Hupd : forall a w f, reaches (names P) E a w -> keeps (addressed P E) E (upd_at a f E)).
  { intros a w f Hr. eapply keeps_trans; [apply keeps_refl with (S := addressed P E)|apply keeps_upd with (a := a)|].
    intros c u _ Hn Ha. apply Hn. eapply addressed_above; eauto. }
  destruct (path_cases P E) as [a w Hr|Q n st R a d HP Ha Hd|Q n st R a HP Ha|Q n st R a w HP Ha Hs].
  - unfold save_cur in H. rewrite (dbp_full k2i P E a w Hp Hr) in H. cbn [rbind] in H.
    rewrite (reaches_get _ _ _ _ Hr), (popped_plain k2i _ _ Hp) in H.
    destruct w as [| | | |l|e|].
    1-4,7: injection H as <-; apply keeps_refl.
    + destruct (truthy data); [|injection H as <-; apply keeps_refl].
      destruct mwl.
      * destruct (opt_last l); [|discriminate]. destruct (merge_rec _ _); [|discriminate].
        injection H as <-. eapply Hupd; eauto.
      * injection H as <-. eapply Hupd; eauto.
    + destruct mwl.
      * destruct (merge_rec _ _); [|discriminate]. injection H as <-. eapply Hupd; eauto.
      * destruct (opt_last P) as [[n st]|] eqn:EL; [|discriminate]. destruct (Nat.eqb st 2).
        -- destruct data; try discriminate. injection H as <-. eapply Hupd; eauto.
        -- destruct e as [|kv e].
           ++ destruct (update_val [] data); [|discriminate]. injection H as <-. eapply Hupd; eauto.
           ++ rewrite (vtl_reaches P E a _ data (plain_false k2i P Hp) Hr (Hflat _ _ Hr)) in H.
              injection H as <-. eapply Hupd; eauto.
  - (* missing key: everything happens inside a fresh branch *)
    subst P. pose proof Hp as Hp0. apply plain_app in Hp0 as [HpQ HpR].
    assert (Hb : dict_by_path k2i (Q ++ (n, st) :: R) E =
      Ok (upd_at a (fun _ => VDict (d ++ [(KS n, skeleton st R)])) E, Some (a ++ SKey (KS n) :: skel_addr st R))).
    { rewrite (dbp_arrives k2i Q n st R E a _ HpQ Ha), (dbp_missing k2i n st R d HpR Hd). reflexivity. }
    set (b := a ++ SKey (KS n) :: skel_addr st R) in *.
    set (E1 := upd_at a (fun _ => VDict (d ++ [(KS n, skeleton st R)])) E) in *.
    assert (HK : forall f, keeps (addressed (Q ++ (n, st) :: R) E) E (upd_at b f E1)).
    { intros f. unfold b, E1. rewrite upd_at_app, upd_at_twice.
      eapply (keeps_at _ a _ E (VDict d)); [apply (arrives_get _ _ _ _ Ha)|reflexivity|].
      rewrite <- (dset_fresh d) by exact Hd. cbn [upd_at]. rewrite dget_dset_same, dset_dset.
      rewrite (dset_fresh d) by exact Hd. now apply keeps_dict_snoc. }
    assert (HE1 : keeps (addressed (Q ++ (n, st) :: R) E) E E1).
    { unfold E1. eapply (keeps_at _ a _ E (VDict d)); [apply (arrives_get _ _ _ _ Ha)|reflexivity|now apply keeps_dict_snoc]. }
    assert (Hg : get_at b E1 = Some (if Nat.eqb (last_st R st) 1 then VList [] else VDict [])).
    { unfold b, E1. rewrite get_at_app.
      rewrite (get_upd_same a _ E (VDict d)) by apply (arrives_get _ _ _ _ Ha).
      rewrite <- (dset_fresh d) by exact Hd. cbn [get_at]. rewrite dget_dset_same. apply skel_get. }
    unfold save_cur in H. rewrite Hb in H. cbn [rbind] in H. rewrite Hg, (popped_plain k2i _ _ Hp) in H.
    destruct (Nat.eqb (last_st R st) 1) eqn:E1s.
    + destruct (truthy data); [|injection H as <-; exact HE1].
      destruct mwl; [discriminate|]. injection H as <-. apply HK.
    + destruct mwl.
      * destruct (merge_rec _ _); [|discriminate]. injection H as <-. apply HK.
      * destruct (opt_last (Q ++ (n, st) :: R)) as [[n' st']|]; [|discriminate].
        destruct (Nat.eqb st' 2).
        -- destruct data; try discriminate. injection H as <-. apply HK.
        -- destruct (update_val [] data); [|discriminate]. injection H as <-. apply HK.
  - (* empty list *)
    subst P. pose proof Hp as Hp0. apply plain_app in Hp0 as [HpQ HpR].
    assert (Hb : dict_by_path k2i (Q ++ (n, st) :: R) E =
      Ok (upd_at a (fun _ => VList [VDict [(KS n, skeleton st R)]]) E, Some (a ++ SIdx 0 :: SKey (KS n) :: skel_addr st R))).
    { rewrite (dbp_arrives k2i Q n st R E a _ HpQ Ha), (dbp_empty_list k2i n st R HpR). reflexivity. }
    set (b := a ++ SIdx 0 :: SKey (KS n) :: skel_addr st R) in *.
    set (E1 := upd_at a (fun _ => VList [VDict [(KS n, skeleton st R)]]) E) in *.
    assert (HK : forall f, keeps (addressed (Q ++ (n, st) :: R) E) E (upd_at b f E1)).
    { intros f. unfold b, E1. rewrite upd_at_app, upd_at_twice.
      eapply (keeps_at _ a _ E (VList [])); [apply (arrives_get _ _ _ _ Ha)|reflexivity|].
      apply keeps_nil_list. }
    assert (HE1 : keeps (addressed (Q ++ (n, st) :: R) E) E E1).
    { unfold E1. eapply (keeps_at _ a _ E (VList [])); [apply (arrives_get _ _ _ _ Ha)|reflexivity|apply keeps_nil_list]. }
    assert (Hg : get_at b E1 = Some (if Nat.eqb (last_st R st) 1 then VList [] else VDict [])).
    { unfold b, E1. rewrite get_at_app.
      rewrite (get_upd_same a _ E (VList [])) by apply (arrives_get _ _ _ _ Ha).
      cbn [get_at nth_error]. rewrite dget_cons_same. apply skel_get. }
    unfold save_cur in H. rewrite Hb in H. cbn [rbind] in H. rewrite Hg, (popped_plain k2i _ _ Hp) in H.
    destruct (Nat.eqb (last_st R st) 1) eqn:E1s.
    + destruct (truthy data); [|injection H as <-; exact HE1].
      destruct mwl; [discriminate|]. injection H as <-. apply HK.
    + destruct mwl.
      * destruct (merge_rec _ _); [|discriminate]. injection H as <-. apply HK.
      * destruct (opt_last (Q ++ (n, st) :: R)) as [[n' st']|]; [|discriminate].
        destruct (Nat.eqb st' 2).
        -- destruct data; try discriminate. injection H as <-. apply HK.
        -- destruct (update_val [] data); [|discriminate]. injection H as <-. apply HK.
  - (* blocked by a scalar *)
    subst P. apply plain_app in Hp as [HpQ HpR]. unfold save_cur in H.
    rewrite (dbp_arrives k2i Q n st R E a w HpQ Ha), (dbp_scalar k2i) in H by exact Hs.
    cbn [rbind option_map] in H. rewrite (upd_at_id _ _ _ (arrives_get _ _ _ _ Ha)) in H. injection H as <-.
    apply keeps_refl.
Qed.

(** a save without merge of a dictionary record never raises *)
Theorem save_total P E r :
  P <> [] -> plain k2i P -> (forall a w, reaches (names P) E a w -> flat a = true) -> dwf r ->
  exists E', save_cur k2i false E P (VDict r) = Ok E'.
Proof.
  intros Hne Hp Hflat Hw.
  destruct (path_cases P E) as [a w Hr|Q n st R a d HP Ha Hd|Q n st R a HP Ha|Q n st R a w HP Ha Hs].
  - destruct w as [| | | |l|e|].
    1-4,7: eexists; eapply save_scalar; eauto.
    + eexists; eapply save_list; eauto.
    + destruct (Nat.eq_dec (stars P) 2) as [H2|H2]; [eexists; eapply save_starstar; eauto|].
      destruct e as [|kv e]; [eexists; eapply save_dict_empty; eauto|].
      eexists; eapply save_dict_full; eauto. discriminate.
  - subst P. eexists; eapply save_missing; eauto.
  - subst P. eexists; eapply save_empty_list; eauto.
  - subst P. apply plain_app in Hp as [HpQ HpR]. eexists; eapply save_blocked; eauto.
Qed.
End Frame.
