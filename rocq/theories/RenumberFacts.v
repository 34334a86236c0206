(** * RenumberFacts: saving with digit keys as numbers is saving, then renumbering. *)
From Verif Require Import PyBase DictFacts StrFacts Regex Tree Results SpecTree SpecKeys ResultsFacts ResultsHist FrameFacts SaveSpec.

Notation rn := renumber.
Definition rd (d : dict) : dict := map (fun kv => (renumber_key (fst kv), renumber (snd kv))) d.
Lemma rn_dict d : rn (VDict d) = VDict (rd d).
Proof. reflexivity. Qed.
Notation ok := (keys_all usual_key).
Lemma ok_list l : ok (VList l) <-> Forall ok l.
Proof.
  cbn [keys_all]. induction l as [|x l IH]; split; intros H; [constructor|exact I| |].
  - destruct H as [H1 H2]. constructor; [exact H1|]. apply IH. exact H2.
  - inversion H; subst. split; [assumption|]. apply IH. assumption.
Qed.
Definition okd (d : dict) : Prop := Forall (fun kv => usual_key (fst kv) /\ ok (snd kv)) d.
Lemma ok_dict d : ok (VDict d) <-> okd d.
Proof.
  cbn [keys_all]. unfold okd. induction d as [|x l IH]; split; intros H; [constructor|exact I| |].
  - destruct H as [H1 H2]. constructor; [exact H1|]. apply IH. exact H2.
  - inversion H; subst. split; [assumption|]. apply IH. assumption.
Qed.

Lemma as_number_inj n m : usual n -> usual m -> as_number n = as_number m -> n = m.
Proof.
  unfold usual, as_number. intros Hn Hm. destruct (isdigit n), (isdigit m); intros H.
  - destruct (Hn eq_refl) as (z & E & ->), (Hm eq_refl) as (z' & E' & ->). rewrite E, E' in H. congruence.
  - destruct (Hn eq_refl) as (z & E & _). rewrite E in H. discriminate.
  - destruct (Hm eq_refl) as (z & E & _). rewrite E in H. discriminate.
  - congruence.
Qed.
Lemma as_number_cases n : as_number n = KS n \/ exists z, as_number n = KI z.
Proof. unfold as_number. destruct (isdigit n); [|now left]. destruct (py_int n); [right; eauto|now left]. Qed.
Lemma renumber_inj k j : usual_key k -> usual_key j -> renumber_key k = renumber_key j -> k = j.
Proof.
  destruct k as [n|z|], j as [m|z'|]; cbn [usual_key renumber_key]; try contradiction; intros Hk Hj H; try reflexivity.
  - f_equal. now apply as_number_inj.
  - destruct (as_number_cases n) as [E|[z E]]; rewrite E in H; discriminate.
  - destruct (as_number_cases m) as [E|[z E]]; rewrite E in H; discriminate.
Qed.
Lemma key_eqb_rn k j : usual_key k -> usual_key j -> key_eqb (renumber_key k) (renumber_key j) = key_eqb k j.
Proof.
  intros Hk Hj. destruct (key_eqb_spec k j) as [->|Hn]; [apply key_eqb_refl|]. apply key_eqb_neq. intros H. apply Hn. now apply renumber_inj.
Qed.
Lemma dget_rd d k : okd d -> usual_key k -> dget (rd d) (renumber_key k) = option_map rn (dget d k).
Proof.
  intros Hd Hk. induction Hd as [|[j v] d [Hj _] Hd IH]; [reflexivity|]. cbn [rd map dget fst snd] in *. rewrite key_eqb_rn by assumption.
  destruct (key_eqb k j); [reflexivity|exact IH].
Qed.
Lemma dset_rd d k v : okd d -> usual_key k -> dset (rd d) (renumber_key k) (rn v) = rd (dset d k v).
Proof.
  intros Hd Hk. induction Hd as [|[j w] d [Hj _] Hd IH]; [reflexivity|]. cbn [rd map dset fst snd] in *. rewrite key_eqb_rn by assumption.
  destruct (key_eqb k j); cbn [map fst snd]; [reflexivity|]. f_equal. exact IH.
Qed.
Lemma okd_dset d k v : okd d -> usual_key k -> ok v -> okd (dset d k v).
Proof.
  intros Hd Hk Hv. unfold okd. induction Hd as [|[j w] d [Hj Hw] Hd IH]; cbn [dset]; [repeat constructor; assumption|].
  destruct (key_eqb k j); constructor; auto.
Qed.
Lemma okd_dget d k v : okd d -> dget d k = Some v -> ok v.
Proof. intros Hd E. apply dget_In in E. unfold okd in Hd. rewrite Forall_forall in Hd. apply (Hd _ E). Qed.
Lemma dupdate_rd e : forall d, okd d -> okd e -> dupdate (rd d) (rd e) = rd (dupdate d e) /\ okd (dupdate d e).
Proof.
  induction e as [|[k v] e IH]; intros d Hd He; [auto|]. inversion He as [|? ? [Hk Hv] He']; subst. cbn [fst snd] in *.
  change (rd ((k, v) :: e)) with ((renumber_key k, rn v) :: rd e). rewrite !dupdate_cons, dset_rd by assumption. apply IH; [now apply okd_dset|exact He'].
Qed.

Definition rstep (s : step) : step := match s with SKey k => SKey (renumber_key k) | SIdx i => SIdx i end.
Definition ok_addr (a : addr) : Prop := Forall (fun s => match s with SKey k => usual_key k | SIdx _ => True end) a.
Lemma get_rn a : forall E, ok E -> ok_addr a -> get_at (map rstep a) (rn E) = option_map rn (get_at a E).
Proof.
  induction a as [|[k|i] a IH]; intros E HE Ha; [reflexivity| |]; inversion Ha; subst; cbn [map rstep get_at].
  - destruct E as [| | | |l|d|]; try reflexivity. rewrite rn_dict. apply ok_dict in HE. rewrite dget_rd by assumption.
    destruct (dget d k) as [x|] eqn:Ex; [|reflexivity]. cbn [option_map]. apply IH; [|assumption]. eapply okd_dget; eauto.
  - destruct E as [| | | |l|d|]; try reflexivity. cbn [renumber]. rewrite nth_error_map. apply ok_list in HE.
    destruct (nth_error l i) as [x|] eqn:Ex; [|reflexivity]. cbn [option_map]. apply IH; [|assumption]. rewrite Forall_forall in HE. apply HE. eapply nth_error_In, Ex.
Qed.
Lemma ok_get a : forall E w, ok E -> get_at a E = Some w -> ok w.
Proof.
  induction a as [|[k|i] a IH]; intros E w HE H; cbn [get_at] in H; [injection H as <-; exact HE| |]; destruct E as [| | | |l|d|]; try discriminate.
  - destruct (dget d k) as [x|] eqn:Ex; [|discriminate]. eapply IH; [|exact H]. apply ok_dict in HE. eapply okd_dget; eauto.
  - destruct (nth_error l i) as [x|] eqn:Ex; [|discriminate]. eapply IH; [|exact H]. apply ok_list in HE. rewrite Forall_forall in HE. apply HE. eapply nth_error_In, Ex.
Qed.
Lemma upd_rn a w : forall E, ok E -> ok_addr a -> ok w ->
  upd_at (map rstep a) (fun _ => rn w) (rn E) = rn (upd_at a (fun _ => w) E) /\ ok (upd_at a (fun _ => w) E).
Proof.
  induction a as [|[k|i] a IH]; intros E HE Ha Hw; [split; [reflexivity|exact Hw]| |]; inversion Ha as [|? ? Hk Ha']; subst; cbn [map rstep upd_at].
  - destruct E as [| | | |l|d|]; try (split; [reflexivity|exact HE]). rewrite rn_dict. pose proof HE as HE0. apply ok_dict in HE. rewrite dget_rd by assumption.
    destruct (dget d k) as [x|] eqn:Ex; [|split; [now rewrite rn_dict|exact HE0]]. cbn [option_map].
    destruct (IH x (okd_dget _ _ _ HE Ex) Ha' Hw) as [H1 H2]. rewrite H1, dset_rd, rn_dict by assumption. split; [reflexivity|].
    apply ok_dict. now apply okd_dset.
  - destruct E as [| | | |l|d|]; try (split; [reflexivity|exact HE]). 
    cbn [renumber]. apply ok_list in HE. clear Ha. revert i. induction HE as [|x l Hx HE IHl]; intros [|i]; cbn [map list_upd].
    + split; [reflexivity|exact I].
    + split; [reflexivity|exact I].
    + destruct (IH x Hx Ha' Hw) as [H1 H2]. rewrite H1. split; [reflexivity|]. apply ok_list. constructor; assumption.
    + destruct (IHl i) as [H1 H2]. split; [congruence|]. apply ok_list in H2. apply ok_list. constructor; assumption.
Qed.

(** ** the walk *)
Definition usual_path (P : list pitem) : Prop := Forall (fun p => usual (fst p) /\ fst p <> $"_") P.
Lemma path_key_on n : usual n -> path_key true n = Ok (as_number n).
Proof.
  intros H. unfold path_key, as_number. cbn [andb]. destruct (isdigit n) eqn:E; [|reflexivity]. destruct (H E) as (z & -> & _). reflexivity.
Qed.
Lemma ltd_rn P : usual_path P -> exists d, list_to_dict_fwd false P = Ok (VDict d) /\ list_to_dict_fwd true P = Ok (rn (VDict d)) /\ okd d.
Proof.
  intros H. induction H as [|[n st] P [Hn _] H IH]; [exists []; repeat split; constructor|]. destruct IH as (d & E1 & E2 & Hd).
  cbn [list_to_dict_fwd]. cbn [fst] in Hn. rewrite (path_key_on n Hn). cbn [rbind path_key andb].
  destruct (Nat.eqb st 1).
  - destruct P as [|p P]; [exists [(KS n, VList [])]; repeat split; constructor; [split; [exact Hn|exact I]|constructor]|].
    rewrite E1, E2. exists [(KS n, VList [VDict d])]. repeat split. constructor; [|constructor]. split; [exact Hn|]. apply ok_list. constructor; [now apply ok_dict|constructor].
  - rewrite E1, E2. exists [(KS n, VDict d)]. repeat split. constructor; [|constructor]. split; [exact Hn|]. now apply ok_dict.
Qed.
Lemma to_last_rn E : to_last (rn E) = (fst (to_last E), rn (snd (to_last E))).
Proof.
  induction E as [|b|z|s|l IHl|nd IH|o] using val_rect'; try reflexivity.
  destruct (opt_last l) as [x|] eqn:El.
  - apply opt_last_Some in El as [l' ->]. cbn [renumber]. rewrite map_app. cbn [map]. rewrite !to_last_snoc, map_length.
    apply Forall_app in IHl as [_ IHl]. inversion IHl as [|? ? Hx _]; subst. rewrite Hx. reflexivity.
  - apply opt_last_None in El as ->. reflexivity.
Qed.
Lemma to_last_idx E : Forall (fun s => match s with SKey _ => False | SIdx _ => True end) (fst (to_last E)) /\ get_at (fst (to_last E)) E = Some (snd (to_last E)).
Proof.
  induction E as [|b|z|s|l IHl|nd IH|o] using val_rect'; try (split; [constructor|reflexivity]).
  destruct (opt_last l) as [x|] eqn:El.
  - apply opt_last_Some in El as [l' ->]. rewrite to_last_snoc. apply Forall_app in IHl as [_ IHl]. inversion IHl as [|? ? [H1 H2] _]; subst. cbn [fst snd].
    split; [constructor; [exact I|exact H1]|]. cbn [get_at]. now rewrite nth_error_mid.
  - apply opt_last_None in El as ->. split; [constructor|reflexivity].
Qed.
Lemma idx_rstep a : Forall (fun s => match s with SKey _ => False | SIdx _ => True end) a -> map rstep a = a /\ ok_addr a.
Proof.
  induction 1 as [|s a Hs H [IH1 IH2]]; [split; [reflexivity|constructor]|]. destruct s as [k|i]; [contradiction|]. cbn [map rstep]. rewrite IH1. split; [reflexivity|]. constructor; [exact I|exact IH2].
Qed.

(** both outcomes agree, up to renumbering *)
Definition agree (x y : res (val * option addr)) : Prop :=
  match x, y with
  | Ok (E, a), Ok (E', a') => E' = rn E /\ a' = option_map (map rstep) a /\ ok E /\ match a with Some b => ok_addr b | None => True end
  | Raise e, Raise e' => e = e'
  | _, _ => False
  end.
Lemma dict_step_rn d n P f f' : okd d -> usual n -> usual_path P -> (forall v, ok v -> agree (f v) (f' (rn v))) ->
  agree (dict_step false d (KS n) P f) (dict_step true (rd d) (as_number n) P f').
Proof.
  intros Hd Hn HP Hf. unfold dict_step. change (as_number n) with (renumber_key (KS n)). rewrite dget_rd by assumption.
  destruct (dget d (KS n)) as [v|] eqn:Ev; cbn [option_map].
  - specialize (Hf v (okd_dget _ _ _ Hd Ev)). destruct (f v) as [[v' a]|e], (f' (rn v)) as [[w' a']|e']; cbn [agree rbind] in *; try contradiction; [|exact Hf].
    destruct Hf as (-> & -> & Hv' & Ha). rewrite dset_rd by assumption. split; [now rewrite rn_dict|]. split; [now destruct a|].
    split; [apply ok_dict; now apply okd_dset|]. destruct a; [|exact I]. constructor; [exact Hn|exact Ha].
  - destruct (ltd_rn P HP) as (nd & -> & -> & Hnd). cbn [rbind]. rewrite rn_dict.
    destruct (dupdate_rd nd d Hd Hnd) as [E1 E2]. rewrite E1, dget_rd by assumption.
    destruct (dget (dupdate d nd) (KS n)) as [v|] eqn:Ev2; cbn [option_map]; [|reflexivity].
    specialize (Hf v (okd_dget _ _ _ E2 Ev2)). destruct (f v) as [[v' a]|e], (f' (rn v)) as [[w' a']|e']; cbn [agree rbind] in *; try contradiction; [|exact Hf].
    destruct Hf as (-> & -> & Hv' & Ha). rewrite dset_rd by assumption. split; [now rewrite rn_dict|]. split; [now destruct a|].
    split; [apply ok_dict; now apply okd_dset|]. destruct a; [|exact I]. constructor; [exact Hn|exact Ha].
Qed.
Lemma dbp_rn P : usual_path P -> forall E, ok E -> agree (dict_by_path false P E) (dict_by_path true P (rn E)).
Proof.
  induction 1 as [|[n st] P [Hn Hu] HP IH]; intros E HE; [cbn; repeat split; [exact HE|constructor]|]. cbn [fst] in *.
  assert (HP' : usual_path ((n, st) :: P)) by (constructor; [auto|exact HP]).
  cbn [dict_by_path]. rewrite to_last_rn. destruct (to_last_idx E) as [Hi Hg]. destruct (to_last E) as [a0 T]. cbn [fst snd] in *.
  destruct (idx_rstep a0 Hi) as [Hr Hoa]. rewrite (path_key_on n Hn). cbn [rbind path_key andb].
  assert (HN : key_eqb (as_number n) (KS underscore) = false /\ key_eqb (KS n) (KS underscore) = false).
  { split; apply key_eqb_neq; [|unfold underscore; congruence]. destruct (as_number_cases n) as [->|[z ->]]; [unfold underscore; congruence|discriminate]. }
  destruct HN as [HN1 HN2].
  pose proof (ok_get a0 E T HE Hg) as HT.
  destruct T as [| | | |l|d|]; try (cbn [renumber agree]; repeat split; exact HE).
  - cbn [renumber]. destruct (ltd_rn _ HP') as (nd & -> & -> & Hnd). cbn [rbind]. rewrite rn_dict. rewrite HN1, HN2.
    pose proof (dict_step_rn nd n _ _ _ Hnd Hn HP' IH) as HS.
    destruct (dict_step false nd (KS n) _ _) as [[T' a]|e], (dict_step true (rd nd) (as_number n) _ _) as [[T2 a2]|e2]; cbn [agree rbind] in *; try contradiction; [|exact HS].
    destruct HS as (-> & -> & HT' & Ha). destruct (upd_rn a0 (VList [T']) E HE Hoa) as [H1 H2]; [apply ok_list; constructor; [exact HT'|constructor]|].
    rewrite Hr in H1. split; [exact H1|]. split; [destruct a as [b|]; [|reflexivity]; cbn [option_map]; rewrite map_app, Hr; reflexivity|]. split; [exact H2|].
    destruct a as [b|]; [|exact I]. cbn [option_map]. apply Forall_app. split; [exact Hoa|]. constructor; [exact I|exact Ha].
  - rewrite rn_dict. apply ok_dict in HT. rewrite HN1, HN2.
    pose proof (dict_step_rn d n _ _ _ HT Hn HP' IH) as HS.
    destruct (dict_step false d (KS n) _ _) as [[T' a]|e], (dict_step true (rd d) (as_number n) _ _) as [[T2 a2]|e2]; cbn [agree rbind] in *; try contradiction; [|exact HS].
    destruct HS as (-> & -> & HT' & Ha). destruct (upd_rn a0 T' E HE Hoa HT') as [H1 H2].
    rewrite Hr in H1. split; [exact H1|]. split; [destruct a as [b|]; [|reflexivity]; cbn [option_map]; rewrite map_app, Hr; reflexivity|]. split; [exact H2|].
    destruct a as [b|]; [|exact I]. cbn [option_map]. apply Forall_app. split; [exact Hoa|exact Ha].
Qed.
Lemma truthy_rn v : truthy (rn v) = truthy v.
Proof. destruct v as [| | | |[|x l]|[|x d]|]; reflexivity. Qed.
Definition agreev (x y : res val) : Prop :=
  match x, y with Ok v, Ok w => w = rn v /\ ok v | Raise e, Raise e' => e = e' | _, _ => False end.
Lemma merge_cons e nk v t : merge_rec (VDict e) (VDict ((nk, v) :: t)) =
  do x <- (match dget e nk, v with Some old, VDict _ => if truthy old then merge_rec old v else Ok v | _, _ => Ok v end);
  merge_rec (VDict (dset e nk x)) (VDict t).
Proof.
  cbn [merge_rec]. destruct (dget e nk) as [old|]; destruct v; try reflexivity. destruct (truthy old); reflexivity.
Qed.
Lemma merge_rn data : ok data -> forall el, ok el -> agreev (merge_rec el data) (merge_rec (rn el) (rn data)).
Proof.
  induction data as [|b|z|s|l IHl|nd IH|o] using val_rect'; intros Hd el Hel; try exact eq_refl.
  apply ok_dict in Hd. rewrite rn_dict. revert el Hel.
  induction nd as [|[nk w] nd IHnd]; intros el Hel; [split; [reflexivity|exact Hel]|].
  inversion IH as [|? ? Hw IHt]; subst. inversion Hd as [|? ? [Hk Hmw] Hmt]; subst. cbn [rd map fst snd] in *.
  destruct el as [| | | | |e|]; try exact eq_refl. rewrite rn_dict, !merge_cons. apply ok_dict in Hel. rewrite dget_rd by assumption.
  assert (HX : agreev (match dget e nk, w with Some old, VDict _ => if truthy old then merge_rec old w else Ok w | _, _ => Ok w end)
                      (match option_map rn (dget e nk), rn w with Some old, VDict _ => if truthy old then merge_rec old (rn w) else Ok (rn w) | _, _ => Ok (rn w) end)).
  { destruct (dget e nk) as [old|] eqn:Ek; cbn [option_map]; [|destruct w; (split; [reflexivity|exact Hmw])].
    destruct w as [| | | | |wd|]; try (split; [reflexivity|exact Hmw]). rewrite truthy_rn. destruct (truthy old); [|split; [reflexivity|exact Hmw]].
    apply Hw; [exact Hmw|]. exact (okd_dget e nk old Hel Ek). }
  revert HX. generalize (match dget e nk, w with Some old, VDict _ => if truthy old then merge_rec old w else Ok w | _, _ => Ok w end).
  generalize (match option_map rn (dget e nk), rn w with Some old, VDict _ => if truthy old then merge_rec old (rn w) else Ok (rn w) | _, _ => Ok (rn w) end).
  intros [y|ey] [x|ex] HX; cbn [agreev rbind] in *; try contradiction; [|exact HX]. destruct HX as [-> Hx].
  rewrite dset_rd by assumption. rewrite <- rn_dict. apply (IHnd IHt Hmt). apply ok_dict. now apply okd_dset.
Qed.
Lemma merge_rn' data el : ok data -> ok el -> agreev (merge_rec el data) (merge_rec (rn el) (rn data)).
Proof. intros. now apply merge_rn. Qed.

(** saves: the option renumbers the outcome, unless a second record is to be put next to a first one *)
Definition turns_into_list (P : list pitem) (E : val) : Prop := exists a e, reaches (names P) E a (VDict e) /\ e <> [].
Theorem save_rn mwl P E data : P <> [] -> usual_path P -> ok E -> ok data ->
  (mwl = false -> stars P <> 2 -> ~ turns_into_list P E) ->
  agreev (save_cur false mwl E P data) (save_cur true mwl (rn E) P (rn data)).
Proof.
  intros Hne HP HE Hd HN. unfold save_cur.
  assert (Hpl : plain false P) by (eapply Forall_impl; [|exact HP]; cbn; intros p [_ H]; split; [exact H|discriminate]).
  pose proof (dbp_rn P HP E HE) as HD.
  assert (HPp : popped P (rn E) = P).
  { destruct P as [|[n st] P']; [congruence|]. inversion HP as [|? ? [_ Hu] _]; subst. unfold popped. destruct P' as [|q P']; [reflexivity|].
    cbn [fst] in Hu. destruct (snd (to_last (rn E))); try reflexivity; now rewrite (proj2 (str_eqb_neq n underscore)). }
  rewrite HPp, (popped_plain false P E Hpl).
  destruct (dict_by_path false P E) as [[r1 oa]|e1] eqn:Eb, (dict_by_path true P (rn E)) as [[r2 oa2]|e2]; cbn [agree rbind] in HD |- *; try contradiction; [|exact HD].
  destruct HD as (-> & -> & Hr1 & Hoa). destruct oa as [a|]; cbn [option_map]; [|split; [reflexivity|exact Hr1]].
  rewrite get_rn by assumption. destruct (get_at a r1) as [w|] eqn:Eg; cbn [option_map]; [|split; [reflexivity|exact Hr1]].
  pose proof (ok_get a r1 w Hr1 Eg) as Hw.
  assert (HU : forall x, ok x -> agreev (Ok (upd_at a (fun _ => x) r1)) (Ok (upd_at (map rstep a) (fun _ => rn x) (rn r1)))).
  { intros x Hx. destruct (upd_rn a x r1 Hr1 Hoa Hx) as [H1 H2]. split; assumption. }
  destruct w as [| | | |l|e|]; try (split; [reflexivity|exact Hr1]).
  - cbn [renumber]. rewrite truthy_rn. destruct (truthy data); [|split; [reflexivity|exact Hr1]]. apply ok_list in Hw. destruct mwl.
    + destruct (opt_last l) as [x|] eqn:El.
      * apply opt_last_Some in El as [l' ->]. rewrite map_app. cbn [map]. rewrite !opt_last_app. apply Forall_app in Hw as [Hw1 Hw2]. inversion Hw2; subst.
        pose proof (merge_rn' data x Hd ltac:(assumption)) as HM.
        destruct (merge_rec x data) as [x'|], (merge_rec (rn x) (rn data)) as [y'|]; cbn [agreev rbind] in HM |- *; try contradiction; [|exact HM].
        destruct HM as [-> Hx']. rewrite !set_last_app. specialize (HU (VList (l' ++ [x']))). cbn [renumber] in HU. rewrite map_app in HU. apply HU.
        apply ok_list. apply Forall_app. split; [exact Hw1|]. constructor; [exact Hx'|constructor].
      * apply opt_last_None in El as ->. reflexivity.
    + specialize (HU (VList (l ++ [data]))). cbn [renumber] in HU. rewrite map_app in HU. apply HU.
      apply ok_list. apply Forall_app. split; [exact Hw|]. constructor; [exact Hd|constructor].
  - rewrite rn_dict. destruct mwl.
    + rewrite <- rn_dict. pose proof (merge_rn' data (VDict e) Hd Hw) as HM.
      destruct (merge_rec (VDict e) data) as [x'|], (merge_rec (rn (VDict e)) (rn data)) as [y'|]; cbn [agreev rbind] in HM |- *; try contradiction; [|exact HM].
      destruct HM as [-> Hx']. apply HU. exact Hx'.
    + apply ok_dict in Hw. destruct (opt_last P) as [[n st]|] eqn:EL; [|reflexivity].
      assert (Hst : stars P = st) by (unfold stars; now rewrite EL).
      destruct (Nat.eqb_spec st 2) as [E2|E2].
      * destruct data as [| | | | |dd|]; try reflexivity. apply ok_dict in Hd. rewrite rn_dict.
        destruct (dupdate_rd e dd Hd Hw) as [H1 H2]. destruct (dupdate_rd (dupdate dd e) e Hw H2) as [H3 H4].
        rewrite H1, H3. rewrite <- rn_dict. apply HU. now apply ok_dict.
      * destruct e as [|kv e].
        -- cbn [rd map]. destruct data as [| | |[|c s]|[|x l]|dd|]; cbn [renumber update_val rbind]; try reflexivity.
           1, 2: apply (HU (VDict [])); exact I.
           change ((fix go (d : list (key * val)) : list (key * val) := match d with [] => [] | kv :: t => (renumber_key (fst kv), rn (snd kv)) :: go t end) dd) with (rd dd).
           apply ok_dict in Hd. destruct (dupdate_rd dd [] (Forall_nil _) Hd) as [H1 H2]. change (dupdate [] (rd dd)) with (dupdate (rd []) (rd dd)). rewrite H1. rewrite <- rn_dict. apply HU. now apply ok_dict.
        -- exfalso. apply (HN eq_refl); [congruence|].
           destruct (path_cases P E) as [a' w Hr|Q n' st' R a' d' HPq Ha Hm|Q n' st' R a' HPq Ha|Q n' st' R a' w HPq Ha Hs].
           ++ rewrite (dbp_full false P E a' w Hpl Hr) in Eb. injection Eb as <- <-. rewrite (reaches_get _ _ _ _ Hr) in Eg. injection Eg as ->.
              exists a', (kv :: e). split; [exact Hr|discriminate].
           ++ subst P. apply plain_app in Hpl as [HpQ HpR]. rewrite (dbp_arrives false Q n' st' R E a' _ HpQ Ha), (dbp_missing false n' st' R d' HpR Hm) in Eb.
              cbn [rbind option_map] in Eb. injection Eb as <- <-. rewrite get_at_app, (get_upd_same a' _ E (VDict d')) in Eg by exact (arrives_get _ _ _ _ Ha).
              rewrite <- (dset_fresh d') in Eg by exact Hm. cbn [get_at] in Eg. rewrite dget_dset_same, skel_get in Eg. destruct (Nat.eqb (last_st R st') 1); discriminate.
           ++ subst P. apply plain_app in Hpl as [HpQ HpR]. rewrite (dbp_arrives false Q n' st' R E a' _ HpQ Ha), (dbp_empty_list false n' st' R HpR) in Eb.
              cbn [rbind option_map] in Eb. injection Eb as <- <-. rewrite get_at_app, (get_upd_same a' _ E (VList [])) in Eg by exact (arrives_get _ _ _ _ Ha).
              cbn [get_at nth_error] in Eg. rewrite dget_cons_same, skel_get in Eg. destruct (Nat.eqb (last_st R st') 1); discriminate.
           ++ subst P. apply plain_app in Hpl as [HpQ HpR]. rewrite (dbp_arrives false Q n' st' R E a' w HpQ Ha), (dbp_scalar false) in Eb by exact Hs. discriminate.
Qed.

(** ** the one case left: the record is not put next to the first one, everything around it is lost *)
Lemma reaches_split P : forall Q E b w, reaches (P ++ Q) E b w -> Q <> [] -> exists a u c, reaches P E a u /\ reaches Q u c w /\ b = a ++ c.
Proof.
  induction P as [|n P IH]; intros Q E b w H HQ.
  - exists [], E, b. split; [apply reach_here|]. split; [exact H|reflexivity].
  - remember ((n :: P) ++ Q) as PQ eqn:EP. revert EP. induction H as [v|m P' d x a w Hd H IHr|m P' l x a w H IHr]; intros EP; [discriminate| |].
    + injection EP as -> ->. destruct (IH Q x a w H HQ) as (a1 & u & c & H1 & H2 & ->). exists (SKey (KS n) :: a1), u, c.
      split; [eapply reach_key; eauto|]. split; [exact H2|reflexivity].
    + destruct (IHr EP) as (a1 & u & c & H1 & H2 & ->). exists (SIdx (length l) :: a1), u, c. split; [|split; [exact H2|reflexivity]].
      apply reach_last. exact H1.
Qed.
Lemma flat_tail a : forall b, flat (a ++ b) = true -> flat b = true.
Proof.
  induction a as [|s a IH]; intros b H; [exact H|]. apply IH. destruct s as [k|i]; cbn [app flat] in H; [exact H|].
  destruct (a ++ b) as [|[k|j] t]; [reflexivity|exact H|discriminate].
Qed.
Lemma flat_head a : forall b, flat (a ++ b) = true -> flat a = true.
Proof.
  induction a as [|s a IH]; intros b H; [reflexivity|]. destruct s as [k|i]; cbn [app flat] in H |- *; [exact (IH b H)|].
  destruct a as [|[k|j] t]; [reflexivity|exact (IH b H)|discriminate].
Qed.
Lemma vtl_lost n st R r (Q : list pitem) : n <> $"_" -> forall E a w d, plain true Q -> reaches (names Q) E a w -> flat a = true ->
  w = VDict d \/ (exists l, w = VList (l ++ [VDict d])) -> dget d (KS n) = None ->
  value_to_list E (Q ++ (n, st) :: R) r = Ok (upd_at a (fun _ => VNone) E).
Proof.
  intros Hn. induction Q as [|[m s] Q IH]; intros E a w d0 Hp Hr Hf Hw Hd.
  - inversion Hr; subst. cbn [app value_to_list]. rewrite (proj2 (str_eqb_neq n underscore)) by exact Hn.
    destruct Hw as [-> |[l ->]]; cbn [vstep upd_at].
    + now rewrite Hd.
    + rewrite opt_last_app. cbn [py_in rbind]. unfold dmem. now rewrite Hd.
  - apply plain_cons in Hp as (Hm & _ & Hp). cbn [fst] in Hm.
    cbn [app value_to_list]. rewrite (proj2 (str_eqb_neq m underscore)) by exact Hm.
    inversion Hr as [|n0 P0 d x a1 w1 Hg Hr'|n0 P0 l x a1 w1 Hr']; subst.
    + cbn [vstep]. rewrite Hg. rewrite (IH x a1 w d0 Hp Hr') by assumption. cbn [rbind upd_at]. now rewrite Hg.
    + inversion Hr' as [|n1 P1 d x1 a2 w1 Hg Hr''|n1 P1 l1 x1 a2 w1 Hr'']; subst; [|discriminate].
      cbn [vstep]. rewrite opt_last_app. cbn [py_in rbind]. cbn [flat] in Hf.
      unfold dmem. rewrite Hg. rewrite (IH x1 a2 w d0 Hp Hr'') by assumption.
      cbn [rbind upd_at]. rewrite list_upd_app, set_last_app. cbn [upd_at]. now rewrite Hg.
Qed.
Lemma as_number_not_digit n : isdigit n = false -> as_number n = KS n.
Proof. intros H. unfold as_number. now rewrite H. Qed.
Lemma reaches_rn (Q : list pitem) E a w : plain true Q -> ok E -> reaches (names Q) E a w -> reaches (names Q) (rn E) a (rn w) /\ ok w.
Proof.
  intros Hp HE H. remember (names Q) as NQ eqn:HN. revert Q HN Hp HE. induction H as [v|m P' d x a w Hd H IHr|m P' l x a w H IHr]; intros Q HN Hp HE.
  - split; [apply reach_here|exact HE].
  - destruct Q as [|[n s] Q]; [discriminate|]. cbn [names map fst] in HN. injection HN as -> ->. apply plain_cons in Hp as (Hn & Hk & Hp). cbn [fst] in *.
    apply ok_dict in HE. destruct (IHr Q eq_refl Hp (okd_dget _ _ _ HE Hd)) as [H1 H2]. split; [|exact H2]. rewrite rn_dict. eapply reach_key; [|exact H1].
    specialize (Hk eq_refl). rewrite <- (as_number_not_digit n Hk). change (as_number n) with (renumber_key (KS n)). rewrite dget_rd; [now rewrite Hd|exact HE|].
    cbn [usual_key]. intros Hx. congruence.
  - apply ok_list in HE. apply Forall_app in HE as [_ HE]. inversion HE; subst. destruct (IHr Q HN Hp ltac:(assumption)) as [G1 G2]. split; [|exact G2].
    cbn [renumber]. rewrite map_app. cbn [map]. rewrite <- (map_length rn l). apply reach_last. exact G1.
Qed.
Lemma digit_gone d n : okd d -> isdigit n = true -> dget (rd d) (KS n) = None.
Proof.
  intros Hd Hn. induction Hd as [|[k v] d [Hk _] Hd IH]; [reflexivity|]. cbn [rd map dget fst snd] in *.
  destruct (key_eqb_spec (KS n) (renumber_key k)) as [E|_]; [|exact IH]. exfalso. destruct k as [m|z|]; cbn [renumber_key usual_key] in *; try discriminate.
  unfold as_number in E. destruct (isdigit m) eqn:Em.
  - destruct (Hk Em) as (z & Ez & _). rewrite Ez in E. discriminate.
  - congruence.
Qed.
Theorem save_lost Q n st R E b e data : plain true Q -> isdigit n = true -> usual_path (Q ++ (n, st) :: R) -> ok E ->
  stars (Q ++ (n, st) :: R) <> 2 -> reaches (names (Q ++ (n, st) :: R)) E b (VDict e) -> e <> [] -> flat b = true ->
  exists a w, reaches (names Q) (rn E) a w /\ above a b /\
    save_cur true false (rn E) (Q ++ (n, st) :: R) data = Ok (upd_at a (fun _ => VNone) (rn E)).
Proof.
  intros HQ Hn HP HE Hst Hr He Hf. set (P := Q ++ (n, st) :: R) in *.
  assert (Hpl : plain false P) by (eapply Forall_impl; [|exact HP]; cbn; intros p [_ H]; split; [exact H|discriminate]).
  assert (Hnu : n <> $"_") by (apply Forall_app in HP as [_ HP]; inversion HP as [|? ? [_ H] _]; subst; exact H).
  pose proof Hr as Hr0. unfold P, names in Hr0. rewrite map_app in Hr0. cbn [map fst] in Hr0.
  apply reaches_split in Hr0 as (a & u & c & H1 & H2 & ->); [|discriminate].
  destruct (reaches_rn Q E a u HQ HE H1) as [H1' Hu]. exists a, (rn u). split; [exact H1'|]. split; [apply above_app|].
  assert (Hud : exists d, (u = VDict d \/ exists l, u = VList (l ++ [VDict d])) /\ okd d).
  { apply flat_tail in Hf. inversion H2 as [|n0 P0 d x a1 w1 Hg Hr'|n0 P0 l x a1 w1 Hr']; subst.
    - exists d. split; [now left|now apply ok_dict].
    - inversion Hr' as [|n1 P1 d x1 a2 w1 Hg Hr''|n1 P1 l1 x1 a2 w1 Hr'']; subst; [|discriminate].
      exists d. split; [right; eauto|]. apply ok_list in Hu. apply Forall_app in Hu as [_ Hu]. inversion Hu; subst. now apply ok_dict. }
  destruct Hud as (d & Hud & Hd). pose proof (dbp_rn P HP E HE) as HD. rewrite (dbp_full false P E _ _ Hpl Hr) in HD.
  unfold save_cur. destruct (dict_by_path true P (rn E)) as [[r2 oa2]|e2]; cbn [agree rbind] in HD |- *; [|contradiction].
  destruct HD as (-> & -> & _ & Hoa). cbn [option_map]. rewrite get_rn by assumption. rewrite (reaches_get _ _ _ _ Hr). cbn [option_map]. rewrite rn_dict.
  assert (HPp : popped P (rn E) = P).
  { unfold P. destruct Q as [|[m s] Q']; cbn [app]; unfold popped.
    - destruct R as [|q R]; [reflexivity|]. destruct (snd (to_last (rn E))); try reflexivity; now rewrite (proj2 (str_eqb_neq n underscore)).
    - apply plain_cons in HQ as (Hm & _ & _). cbn [fst] in Hm. destruct (Q' ++ (n, st) :: R); [reflexivity|].
      destruct (snd (to_last (rn E))); try reflexivity; now rewrite (proj2 (str_eqb_neq m underscore)). }
  rewrite HPp. unfold stars in Hst. destruct (opt_last P) as [[m s]|] eqn:EL; [|apply opt_last_None in EL; unfold P in EL; destruct Q; discriminate].
  destruct (Nat.eqb_spec s 2); [congruence|]. destruct e as [|kv e]; [congruence|]. cbn [rd map].
  unfold P. apply (vtl_lost n st R data Q Hnu (rn E) a (rn u) (rd d) HQ H1').
  - exact (flat_head a c Hf).
  - destruct Hud as [-> |[l ->]]; [left; apply rn_dict|right]. exists (map rn l). cbn [renumber]. now rewrite map_app.
  - now apply digit_gone.
Qed.
