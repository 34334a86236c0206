(** * NestFacts: saves put no list directly inside a list. *)
From Verif Require Import PyBase DictFacts Regex Tree Results SpecTree ResultsFacts ResultsHist FrameFacts.

Lemma un_list l : unnested (VList l) <-> Forall (fun x => unnested x /\ is_list x = false) l.
Proof.
  cbn [unnested]. induction l as [|x l IH]; split; intros H; [constructor|exact I| |].
  - destruct H as [H1 H2]. constructor; [exact H1|]. apply IH. exact H2.
  - inversion H; subst. split; [assumption|]. apply IH. assumption.
Qed.
Lemma un_dict (d : dict) : unnested (VDict d) <-> Forall (fun kv => unnested (snd kv)) d.
Proof.
  cbn [unnested]. induction d as [|x l IH]; split; intros H; [constructor|exact I| |].
  - destruct H as [H1 H2]. constructor; [exact H1|]. apply IH. exact H2.
  - inversion H; subst. split; [assumption|]. apply IH. assumption.
Qed.
Lemma un_nth l i x : unnested (VList l) -> nth_error l i = Some x -> unnested x /\ is_list x = false.
Proof. intros H E. apply un_list in H. rewrite Forall_forall in H. apply H. eapply nth_error_In, E. Qed.
Lemma un_dget (d : dict) k x : unnested (VDict d) -> dget d k = Some x -> unnested x.
Proof. intros H E. apply un_dict in H. rewrite Forall_forall in H. apply dget_In in E. exact (H _ E). Qed.
Lemma un_dset (d : dict) k x : unnested (VDict d) -> unnested x -> unnested (VDict (dset d k x)).
Proof.
  intros Hd Hx. apply un_dict. apply un_dict in Hd. induction Hd as [|[a y] d H1 H2 IH]; cbn [dset].
  - constructor; [exact Hx|constructor].
  - destruct (key_eqb k a); [constructor; [exact Hx|exact H2]|constructor; [exact H1|exact IH]].
Qed.
Lemma un_dupdate (e : dict) : forall d, unnested (VDict d) -> unnested (VDict e) -> unnested (VDict (dupdate d e)).
Proof.
  induction e as [|[k v] e IH]; intros d Hd He; [exact Hd|]. rewrite dupdate_cons. apply un_dict in He. inversion He; subst.
  apply IH; [|now apply un_dict]. now apply un_dset.
Qed.

(** replacing a value by one that is no list, or is a list where a list or an entry of a dictionary was *)
Lemma un_upd a w' : forall E w, unnested E -> get_at a E = Some w -> unnested w' ->
  (is_list w' = true -> is_list w = true \/ match opt_last a with Some (SIdx _) => False | _ => True end) ->
  unnested (upd_at a (fun _ => w') E).
Proof.
  induction a as [|s a IH]; intros E w HE Hg Hw Hk; [exact Hw|].
  assert (Hl : a <> [] -> opt_last (s :: a) = opt_last a) by (intros Ha; destruct a as [|t a]; [congruence|apply opt_last_cons]).
  assert (Hk' : is_list w' = true -> is_list w = true \/ match opt_last a with Some (SIdx _) => False | _ => True end).
  { intros Hi. destruct (Hk Hi) as [H|H]; [now left|]. right. destruct a as [|t a]; [exact I|]. rewrite Hl in H by discriminate. exact H. }
  destruct s as [k|i]; cbn [get_at upd_at] in *; destruct E as [| | | |l|d|]; try discriminate.
  - destruct (dget d k) as [x|] eqn:Ex; [|discriminate]. apply un_dset; [exact HE|]. eapply IH; eauto. eapply un_dget; eauto.
  - destruct (nth_error l i) as [x|] eqn:Ex; [|discriminate]. apply un_list. apply Forall_forall. intros y Hy.
    apply In_nth_error in Hy as [j Hj]. rewrite nth_error_list_upd in Hj. destruct (Nat.eqb_spec i j) as [Hij|Hij]; [subst j|].
    + rewrite Ex in Hj. cbn [option_map] in Hj. injection Hj as <-. destruct (un_nth l i x HE Ex) as [Hx1 Hx2].
      split; [eapply IH; eauto|]. destruct a as [|t a].
      * cbn [upd_at]. cbn [get_at] in Hg. injection Hg as <-. destruct (is_list w') eqn:Ew; [|reflexivity].
        destruct (Hk eq_refl) as [H|H]; [congruence|]. cbn in H. contradiction.
      * destruct t as [k|j]; cbn [upd_at]; destruct x as [| | | |l'|d'|]; try exact Hx2. destruct (dget d' k); reflexivity.
    + exact (un_nth l j y HE Hj).
Qed.

(** paths lead to entries of dictionaries *)
Lemma reaches_end P : forall E a w, reaches P E a w -> P <> [] -> exists a' k, a = a' ++ [SKey k].
Proof.
  intros E a w H. induction H as [v|n P d x a w Hd H IH|n P l x a w H IH]; intros Hne.
  - congruence.
  - destruct P as [|m P].
    + inversion H; subst. exists [], (KS n). reflexivity.
    + destruct IH as (a' & k & ->); [discriminate|]. exists (SKey (KS n) :: a'), k. reflexivity.
  - destruct IH as (a' & k & ->); [discriminate|]. exists (SIdx (length l) :: a'), k. reflexivity.
Qed.
Lemma reaches_flat P : forall E a w, reaches P E a w -> unnested E -> flat a = true.
Proof.
  intros E a w H. induction H as [v|n P d x a w Hd H IH|n P l x a w H IH]; intros HE; [reflexivity| |].
  - cbn [flat]. apply IH. eapply un_dget; eauto.
  - assert (Hx : unnested x /\ is_list x = false) by (apply (un_nth (l ++ [x]) (length l)); [exact HE|apply nth_error_mid]).
    inversion H; subst; [|destruct Hx; discriminate]. cbn [flat]. apply IH. tauto.
Qed.

Lemma un_merge data : forall el v, unnested el -> unnested data -> merge_rec el data = Ok v -> unnested v /\ is_list v = is_list el.
Proof.
  induction data as [|b|z|s|l IHl|nd IH|o] using val_rect'; intros el v Hel Hd H; try discriminate.
  cbn [merge_rec] in H. apply un_dict in Hd. revert el Hel H.
  induction nd as [|[nk w] nd IHnd]; intros el Hel H; [injection H as <-; auto|].
  inversion IH as [|? ? Hw IHt]; subst. inversion Hd as [|? ? Hmw Hmt]; subst. cbn [snd] in *.
  destruct el as [| | | | |e|]; try discriminate. change (is_list (VDict e)) with false.
  assert (HK : forall x r, unnested x -> r = VDict (dset e nk x) ->
    (fix go (nd : list (key * val)) (el : val) : res val :=
         match nd with
         | [] => Ok el
         | (nk, v) :: t =>
             match el with
             | VDict e =>
                 match dget e nk with
                 | Some old =>
                     match v with
                     | VDict _ =>
                         if truthy old
                         then do old' <- merge_rec old v; go t (VDict (dset e nk old'))
                         else go t (VDict (dset e nk v))
                     | _ => go t (VDict (dset e nk v))
                     end
                 | None => go t (VDict (dset e nk v))
                 end
             | _ => Raise AttributeError
             end
         end) nd r = Ok v -> unnested v /\ is_list v = false).
  { intros x r Hx -> Hr. eapply (IHnd IHt Hmt) in Hr; [exact Hr|]. now apply un_dset. }
  destruct (dget e nk) as [old|] eqn:Ek.
  - destruct w as [| | | | |wd|]; try (eapply HK; [|reflexivity|exact H]; auto; fail).
    destruct (truthy old).
    + destruct (merge_rec old (VDict wd)) as [o'|] eqn:Em; [|discriminate].
      eapply HK; [|reflexivity|exact H]. eapply Hw; [|exact Hmw|exact Em]. exact (un_dget e nk old Hel Ek).
    + eapply HK; [|reflexivity|exact H]. auto.
  - destruct w; (eapply HK; [|reflexivity|exact H]); auto.
Qed.
Lemma un_skeleton R : forall st, unnested (skeleton st R).
Proof.
  induction R as [|[n st'] R IH]; intros st; cbn [skeleton].
  - destruct (Nat.eqb st 1); [apply un_list; constructor|apply un_dict; constructor].
  - assert (H : unnested (VDict [(KS n, skeleton st' R)])) by (apply un_dict; constructor; [apply IH|constructor]).
    destruct (Nat.eqb st 1); [|exact H]. apply un_list. constructor; [|constructor]. split; [exact H|reflexivity].
Qed.
Lemma un_get a : forall E w, unnested E -> get_at a E = Some w -> unnested w.
Proof.
  induction a as [|[k|i] a IH]; intros E w HE Hg; cbn [get_at] in Hg; [injection Hg as <-; exact HE| |]; destruct E as [| | | |l|d|]; try discriminate.
  - destruct (dget d k) as [x|] eqn:Ex; [|discriminate]. eapply IH; [|exact Hg]. eapply un_dget; eauto.
  - destruct (nth_error l i) as [x|] eqn:Ex; [|discriminate]. eapply IH; [|exact Hg]. eapply un_nth; eauto.
Qed.
Lemma un_set_last l x y : unnested (VList l) -> opt_last l = Some x -> unnested y -> is_list y = is_list x -> unnested (VList (set_last l y)).
Proof.
  intros Hl Hx Hy Hk. apply un_list in Hl. apply un_list. apply opt_last_Some in Hx as [l' ->]. apply Forall_app in Hl as [H1 H2].
  rewrite set_last_app.
  apply Forall_app. split; [exact H1|]. inversion H2 as [|? ? [H3 H4] _]; subst. constructor; [|constructor]. split; [exact Hy|congruence].
Qed.
Lemma un_update_val d v d' : unnested (VDict d) -> unnested v -> update_val d v = Ok d' -> unnested (VDict d').
Proof.
  intros Hd Hv H. destruct v as [| | |[|c s]|[|x l]|e|]; cbn [update_val] in H; try discriminate; injection H as <-; auto. now apply un_dupdate.
Qed.

(** what happens at an element found by the walk, except that a full dictionary becomes a list *)
Lemma un_at (mwl : bool) E1 a w data E' : unnested E1 -> get_at a E1 = Some w -> unnested data -> is_list data = false ->
  (match w with
   | VList l => if truthy data then
        if mwl then match opt_last l with None => Raise IndexError | Some x => do x' <- merge_rec x data; Ok (upd_at a (fun _ => VList (set_last l x')) E1) end
        else Ok (upd_at a (fun _ => VList (l ++ [data])) E1) else Ok E1
   | VDict e => if mwl then do e' <- merge_rec (VDict e) data; Ok (upd_at a (fun _ => e') E1) else Raise TypeError
   | _ => Ok E1 end) = Ok E' -> unnested E'.
Proof.
  intros HE Hg Hd Hk H. pose proof (un_get a E1 w HE Hg) as Hw.
  destruct w as [| | | |l|e|]; try (injection H as <-; exact HE).
  - destruct (truthy data); [|injection H as <-; exact HE]. destruct mwl.
    + destruct (opt_last l) as [x|] eqn:El; [|discriminate]. destruct (merge_rec x data) as [x'|] eqn:Em; [|discriminate]. injection H as <-.
      assert (Hx : unnested x) by (pose proof El as El'; apply opt_last_Some in El' as [l' ->]; apply un_list in Hw; apply Forall_app in Hw as [_ Hw]; inversion Hw; tauto).
      destruct (un_merge data x x' Hx Hd Em) as [H1 H2].
      eapply un_upd; [exact HE|exact Hg|eapply un_set_last; eauto|]. intros _. now left.
    + injection H as <-. eapply un_upd; [exact HE|exact Hg| |intros _; now left]. apply un_list. apply Forall_app. split; [now apply un_list|].
      constructor; [auto|constructor].
  - destruct mwl; [|discriminate]. destruct (merge_rec (VDict e) data) as [e'|] eqn:Em; [|discriminate]. injection H as <-.
    destruct (un_merge data _ _ Hw Hd Em) as [H1 H2]. eapply un_upd; [exact HE|exact Hg|exact H1|]. rewrite H2. discriminate.
Qed.

(** a save of a record without nested lists leaves results without nested lists *)
Theorem save_unnested k2i mwl P E data E' : P <> [] -> plain k2i P -> unnested E -> unnested data -> is_list data = false ->
  save_cur k2i mwl E P data = Ok E' -> unnested E'.
Proof.
  intros Hne Hp HE Hd Hk H.
  assert (HF : forall E1 b w, unnested E1 -> get_at b E1 = Some w -> w = VList [] \/ w = VDict [] ->
    dict_by_path k2i P E = Ok (E1, Some b) -> unnested E').
  { intros E1 b w HE1 Hg Hw Hb. unfold save_cur in H. rewrite Hb in H. cbn [rbind] in H. rewrite Hg in H.
    destruct Hw as [-> | ->].
    - exact (un_at mwl E1 b (VList []) data E' HE1 Hg Hd Hk H).
    - destruct mwl; [exact (un_at true E1 b (VDict []) data E' HE1 Hg Hd Hk H)|].
      destruct (opt_last (popped P E)) as [[n st]|]; [|discriminate]. destruct (Nat.eqb st 2).
      + destruct data as [| | | | |dd|]; try discriminate. injection H as <-. eapply un_upd; [exact HE1|exact Hg| |discriminate].
        apply un_dupdate; [apply un_dict; constructor|exact Hd].
      + destruct (update_val [] data) as [e'|] eqn:Eu; [|discriminate]. injection H as <-. eapply un_upd; [exact HE1|exact Hg| |discriminate].
        eapply un_update_val; [|exact Hd|exact Eu]. apply un_dict. constructor. }
  destruct (path_cases P E) as [a w Hr|Q n st R a d HP Ha Hm|Q n st R a HP Ha|Q n st R a w HP Ha Hs].
  - pose proof (dbp_full k2i P E a w Hp Hr) as Hb. pose proof (reaches_get _ _ _ _ Hr) as Hg.
    destruct w as [| | | |l|[|kv e]|];
      [unfold save_cur in H; rewrite Hb in H; cbn [rbind] in H; rewrite Hg in H; injection H as <-; exact HE ..| | | |
       unfold save_cur in H; rewrite Hb in H; cbn [rbind] in H; rewrite Hg in H; injection H as <-; exact HE].
    + unfold save_cur in H; rewrite Hb in H; cbn [rbind] in H; rewrite Hg in H. exact (un_at mwl E a (VList l) data E' HE Hg Hd Hk H).
    + eapply HF; [exact HE|exact Hg|now right|exact Hb].
    + pose proof (un_get a E _ HE Hg) as Hw. unfold save_cur in H; rewrite Hb in H; cbn [rbind] in H; rewrite Hg, (popped_plain k2i _ _ Hp) in H.
      destruct mwl; [exact (un_at true E a (VDict (kv :: e)) data E' HE Hg Hd Hk H)|].
      destruct (opt_last P) as [[n st]|] eqn:EL; [|discriminate]. destruct (Nat.eqb st 2).
      * destruct data as [| | | | |dd|]; try discriminate. injection H as <-. eapply un_upd; [exact HE|exact Hg| |discriminate].
        apply un_dupdate; [exact Hw|]. exact (un_dupdate (kv :: e) dd Hd Hw).
      * rewrite (vtl_reaches P E a _ data (plain_false k2i P Hp) Hr (reaches_flat _ _ _ _ Hr HE)) in H. injection H as <-.
        eapply un_upd; [exact HE|exact Hg| |].
        -- apply un_list. constructor; [split; [exact Hw|reflexivity]|]. constructor; [split; assumption|constructor].
        -- intros _. right. destruct (reaches_end _ _ _ _ Hr) as (a' & k & ->); [destruct P; [congruence|discriminate]|]. rewrite opt_last_app. exact I.
  - subst P. pose proof Hp as Hp0. apply plain_app in Hp0 as [HpQ HpR].
    pose proof (arrives_get _ _ _ _ Ha) as Hga. pose proof (un_get a E _ HE Hga) as Hdd.
    assert (HE1 : unnested (upd_at a (fun _ => VDict (d ++ [(KS n, skeleton st R)])) E)).
    { eapply un_upd; [exact HE|exact Hga| |discriminate]. apply un_dict. apply Forall_app. split; [now apply un_dict|]. constructor; [apply un_skeleton|constructor]. }
    eapply (HF _ (a ++ SKey (KS n) :: skel_addr st R)); [exact HE1| | |].
    + rewrite get_at_app, (get_upd_same a _ E (VDict d)) by exact Hga. rewrite <- (dset_fresh d) by exact Hm. cbn [get_at]. rewrite dget_dset_same. apply skel_get.
    + destruct (Nat.eqb (last_st R st) 1); auto.
    + rewrite (dbp_arrives k2i Q n st R E a _ HpQ Ha), (dbp_missing k2i n st R d HpR Hm). reflexivity.
  - subst P. pose proof Hp as Hp0. apply plain_app in Hp0 as [HpQ HpR].
    pose proof (arrives_get _ _ _ _ Ha) as Hga.
    assert (HE1 : unnested (upd_at a (fun _ => VList [VDict [(KS n, skeleton st R)]]) E)).
    { eapply un_upd; [exact HE|exact Hga| |now left]. apply un_list. constructor; [|constructor]. split; [|reflexivity].
      apply un_dict. constructor; [apply un_skeleton|constructor]. }
    eapply (HF _ (a ++ SIdx 0 :: SKey (KS n) :: skel_addr st R)); [exact HE1| | |].
    + rewrite get_at_app, (get_upd_same a _ E (VList [])) by exact Hga. cbn [get_at nth_error]. rewrite dget_cons_same. apply skel_get.
    + destruct (Nat.eqb (last_st R st) 1); auto.
    + rewrite (dbp_arrives k2i Q n st R E a _ HpQ Ha), (dbp_empty_list k2i n st R HpR). reflexivity.
  - subst P. apply plain_app in Hp as [HpQ HpR]. unfold save_cur in H.
    rewrite (dbp_arrives k2i Q n st R E a w HpQ Ha), (dbp_scalar k2i) in H by exact Hs.
    cbn [rbind option_map] in H. rewrite (upd_at_id _ _ _ (arrives_get _ _ _ _ Ha)) in H. injection H as <-. exact HE.
Qed.
