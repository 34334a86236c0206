(** * Conserve: the results builder invents no data. *)
From Verif Require Import PyBase DictFacts Regex Tree Results SpecTree ResultsFacts SpecLeaves MuteFacts.

Definition dmade (S : val -> Prop) (d : dict) : Prop := Forall (fun kv => made_of S (snd kv)) d.

Section Made.
Variable S : val -> Prop.
Notation made := (made_of S).
Notation dmd := (dmade S).

Lemma made_dget d k x : dmd d -> dget d k = Some x -> made x.
Proof.
  intros H Ek. induction d as [|[k0 y] d IH]; [discriminate|]. inversion H; subst. cbn [dget] in Ek.
  destruct (key_eqb k k0); [injection Ek as <-; assumption|auto].
Qed.
Lemma made_dset d k x : dmd d -> made x -> dmd (dset d k x).
Proof.
  intros H Hx. induction H as [|[k0 y] d Hy Hd IH]; cbn [dset]; [repeat constructor; exact Hx|].
  destruct (key_eqb k k0); constructor; auto.
Qed.
Lemma made_dupdate e : forall d, dmd d -> dmd e -> dmd (dupdate d e).
Proof.
  induction e as [|[k v] e IH]; intros d Hd He; [exact Hd|]. inversion He; subst. rewrite dupdate_cons.
  apply IH; [apply made_dset; auto|assumption].
Qed.
Lemma made_ddel d k : dmd d -> dmd (ddel d k).
Proof.
  intros H. induction H as [|[k0 y] d Hy Hd IH]; cbn [ddel]; [constructor|].
  destruct (key_eqb k k0); [assumption|constructor; assumption].
Qed.
Lemma made_last l x : Forall made l -> opt_last l = Some x -> made x.
Proof.
  intros H Hl. rewrite Forall_forall in H. apply H. clear H. unfold opt_last in Hl.
  destruct (rev l) as [|y t] eqn:E; [discriminate|]. injection Hl as ->. apply in_rev. rewrite E. left; reflexivity.
Qed.
Lemma made_set_last l x : Forall made l -> made x -> Forall made (set_last l x).
Proof.
  intros H Hx. unfold set_last. apply Forall_app. split; [|repeat constructor; exact Hx].
  rewrite Forall_forall in *. intros y Hy. apply H. clear -Hy.
  induction l as [|z l IH]; [exact Hy|]. cbn [removelast] in Hy. destruct l; [contradiction|].
  destruct Hy as [->|Hy]; [left; reflexivity|right; auto].
Qed.
Lemma made_list_upd l i f : Forall made l -> (forall x, made x -> made (f x)) -> Forall made (list_upd l i f).
Proof.
  intros H Hf. revert i. induction H as [|x l Hx Hl IH]; intros i; cbn [list_upd]; [constructor|].
  destruct i; constructor; auto.
Qed.
Lemma made_upd a f : forall E, made E -> (forall x, made x -> made (f x)) -> made (upd_at a f E).
Proof.
  induction a as [|[k|i] a IH]; intros E HE Hf; cbn [upd_at]; [auto| |].
  - destruct E as [| | | | |d|]; auto. destruct (dget d k) as [x|] eqn:Ek; auto.
    apply made_dict in HE. apply made_dict. apply made_dset; auto. apply IH; auto. eapply made_dget; eauto.
  - destruct E as [| | | |l| |]; auto. apply made_list in HE. apply made_list. apply made_list_upd; auto.
Qed.
Lemma made_get a : forall E w, made E -> get_at a E = Some w -> made w.
Proof.
  induction a as [|[k|i] a IH]; intros E w HE Hg; cbn [get_at] in Hg.
  - injection Hg as <-. exact HE.
  - destruct E as [| | | | |d|]; try discriminate. destruct (dget d k) as [x|] eqn:Ek; [|discriminate].
    apply (IH x); auto. apply made_dict in HE. eapply made_dget; eauto.
  - destruct E as [| | | |l| |]; try discriminate. destruct (nth_error l i) as [x|] eqn:Ei; [|discriminate].
    apply (IH x); auto. apply made_list in HE. rewrite Forall_forall in HE. apply HE. eapply nth_error_In; eauto.
Qed.

Variable k2i : bool.

Lemma made_ltd P : forall v, list_to_dict_fwd k2i P = Ok v -> made v.
Proof.
  induction P as [|[n st] P IH]; intros v H; cbn [list_to_dict_fwd] in H; [injection H as <-; exact I|].
  destruct (path_key k2i n) as [k|]; [|discriminate]. cbn [rbind] in H.
  destruct (Nat.eqb st 1).
  - destruct P as [|p P]; [injection H as <-; cbn; auto|].
    destruct (list_to_dict_fwd k2i (p :: P)) as [w|] eqn:E; [|discriminate]. cbn [rbind] in H. injection H as <-.
    specialize (IH _ eq_refl). cbn [made_of snd]. auto.
  - destruct (list_to_dict_fwd k2i P) as [w|] eqn:E; [|discriminate]. cbn [rbind] in H. injection H as <-.
    specialize (IH _ eq_refl). cbn [made_of snd]. auto.
Qed.

Lemma to_last_enters v : enters v (fst (to_last v)) (snd (to_last v)).
Proof.
  induction v as [|b|z|s|l IH|d IHd|o] using val_rect'; try apply enter_here.
  destruct (rev l) as [|x t] eqn:E.
  - assert (l = []) as -> by (rewrite <- (rev_involutive l), E; reflexivity). apply enter_here.
  - assert (l = rev t ++ [x]) as -> by (rewrite <- (rev_involutive l), E; reflexivity).
    rewrite to_last_snoc. cbn [fst snd]. constructor. rewrite Forall_forall in IH. apply IH. apply in_app_iff. right; left; reflexivity.
Qed.

Lemma made_dict_step d k P rec r a :
  dmd d -> (forall v v' b, made v -> rec v = Ok (v', b) -> made v') ->
  dict_step k2i d k P rec = Ok (r, a) -> made r.
Proof.
  intros Hd Hrec H. unfold dict_step in H. destruct (dget d k) as [v|] eqn:Ek.
  - destruct (rec v) as [[v' b]|] eqn:Er; [|discriminate]. cbn [rbind] in H. injection H as <- <-.
    apply made_dict. apply made_dset; auto. eapply Hrec; [|exact Er]. eapply made_dget; eauto.
  - destruct (list_to_dict_fwd k2i P) as [nb|] eqn:En; [|discriminate]. cbn [rbind] in H.
    pose proof (made_ltd _ _ En) as Hnb. destruct nb as [| | | | |nd|]; try discriminate.
    apply made_dict in Hnb. pose proof (made_dupdate nd d Hd Hnb) as Hu.
    destruct (dget (dupdate d nd) k) as [v|] eqn:Ek'; [|discriminate].
    destruct (rec v) as [[v' b]|] eqn:Er; [|discriminate]. cbn [rbind] in H. injection H as <- <-.
    apply made_dict. apply made_dset; auto. eapply Hrec; [|exact Er]. eapply (made_dget _ _ _ Hu); eauto.
Qed.

Lemma made_dbp_aux m : forall P E E' a, length P <= m -> made E -> dict_by_path k2i P E = Ok (E', a) -> made E'.
Proof.
  induction m as [|m IH]; intros P E E' a Hl HE H; destruct P as [|[n st] P1]; cbn [length] in Hl.
  - cbn in H. injection H as <- <-. exact HE.
  - lia.
  - cbn in H. injection H as <- <-. exact HE.
  - cbn [dict_by_path] in H. pose proof (enters_get _ _ _ (to_last_enters E)) as HT.
    destruct (to_last E) as [a0 T] eqn:ET. cbn [fst snd] in HT.
    pose proof (made_get _ _ _ HE HT) as HMT.
    assert (HD : forall d T' b, dmd d ->
      (do k0 <- path_key k2i n;
       if key_eqb k0 (KS underscore)
       then match P1 with [] => Ok (VDict d, Some []) | (n2, _) :: P2 => dict_step k2i d (KS n2) P1 (dict_by_path k2i P2) end
       else dict_step k2i d k0 ((n, st) :: P1) (dict_by_path k2i P1)) = Ok (T', b) -> made T').
    { intros d T' b Hd Hx. destruct (path_key k2i n) as [k0|]; [|discriminate]. cbn [rbind] in Hx.
      destruct (key_eqb k0 (KS underscore)).
      - destruct P1 as [|[n2 s2] P2]; [injection Hx as <- <-; apply made_dict; exact Hd|].
        eapply made_dict_step; [exact Hd| |exact Hx]. intros v v' c Hv Hr. eapply (IH P2); eauto. cbn [length] in Hl; lia.
      - eapply made_dict_step; [exact Hd| |exact Hx]. intros v v' c Hv Hr. eapply (IH P1); eauto. lia. }
    destruct T as [| | | |l|d|]; try (injection H as <- <-; exact HE).
    + destruct (list_to_dict_fwd k2i ((n, st) :: P1)) as [nb|] eqn:En; [|discriminate].
      pose proof (made_ltd _ _ En) as Hnb.
      cbn [rbind] in H. destruct nb as [| | | | |nd|]; try discriminate. apply made_dict in Hnb.
      match type of H with rbind ?X _ = _ => destruct X as [[T' b]|] eqn:EX end; [|discriminate].
      cbn [rbind] in H. injection H as <- <-. apply made_upd; auto. intros _ _. apply made_list. constructor; [|constructor].
      eapply HD; [exact Hnb|exact EX].
    + apply made_dict in HMT.
      match type of H with rbind ?X _ = _ => destruct X as [[T' b]|] eqn:EX end; [|discriminate].
      cbn [rbind] in H. injection H as <- <-. apply made_upd; auto. intros _ _. eapply HD; [exact HMT|exact EX].
Qed.
Lemma made_dbp P E E' a : made E -> dict_by_path k2i P E = Ok (E', a) -> made E'.
Proof. apply (made_dbp_aux (length P)). apply le_n. Qed.

Lemma made_update_val d v d' : dmd d -> made v -> update_val d v = Ok d' -> dmd d'.
Proof.
  intros Hd Hv H. destruct v as [| | |s|l|e|]; try discriminate; cbn [update_val] in H.
  - destruct s; [injection H as <-; exact Hd|discriminate].
  - destruct l; [injection H as <-; exact Hd|discriminate].
  - injection H as <-. apply made_dupdate; auto. now apply made_dict.
Qed.

Hypothesis HN : S VNone.

Lemma made_vstep D n rec r : made D -> (forall v v', made v -> rec v = Ok v' -> made v') ->
  vstep D n rec = Ok r -> made r.
Proof.
  intros HD Hrec H. unfold vstep in H. destruct D as [| | | |l|d|]; try (injection H as <-; exact HN).
  - apply made_list in HD. destruct (opt_last l) as [x|] eqn:El; [|discriminate].
    pose proof (made_last _ _ HD El) as Hx.
    destruct (py_in n x) as [b|]; [|discriminate]. cbn [rbind] in H.
    destruct b; [|injection H as <-; exact HN]. destruct x as [| | | | |d|]; try discriminate.
    destruct (dget d (KS n)) as [v|] eqn:Ek; [|injection H as <-; exact HN].
    destruct (rec v) as [v'|] eqn:Er; [|discriminate]. cbn [rbind] in H. injection H as <-.
    apply made_dict in Hx. apply made_list. apply made_set_last; auto. apply made_dict. apply made_dset; auto.
    eapply Hrec; [|exact Er]. eapply made_dget; eauto.
  - apply made_dict in HD. destruct (dget d (KS n)) as [v|] eqn:Ek; [|injection H as <-; exact HN].
    destruct (rec v) as [v'|] eqn:Er; [|discriminate]. cbn [rbind] in H. injection H as <-.
    apply made_dict. apply made_dset; auto. eapply Hrec; [|exact Er]. eapply made_dget; eauto.
Qed.

Lemma made_vtl_aux m : forall P D r v, length P <= m -> made D -> made r -> value_to_list D P r = Ok v -> made v.
Proof.
  induction m as [|m IH]; intros P D r v Hl HD Hr H; destruct P as [|[n st] P1]; cbn [length] in Hl.
  - injection H as <-. apply made_list. repeat constructor; auto.
  - lia.
  - injection H as <-. apply made_list. repeat constructor; auto.
  - cbn [value_to_list] in H. destruct (str_eqb n underscore).
    + destruct P1 as [|[n2 s2] P2].
      * destruct D as [| | | |l|d|]; try (injection H as <-; exact HD).
        -- apply made_list in HD. destruct (opt_last l) as [x|] eqn:El; [|discriminate].
           pose proof (made_last _ _ HD El) as Hx. destruct x as [| | | | |d|]; try discriminate.
           destruct (update_val d r) as [d'|] eqn:Eu; [|discriminate]. cbn [rbind] in H. injection H as <-.
           apply made_list. apply made_set_last; auto. apply made_dict. eapply made_update_val; [|exact Hr|exact Eu]. now apply made_dict.
        -- destruct (update_val d r) as [d'|] eqn:Eu; [|discriminate]. cbn [rbind] in H. injection H as <-.
           apply made_dict. eapply made_update_val; [|exact Hr|exact Eu]. now apply made_dict.
      * eapply made_vstep; [exact HD| |exact H]. intros w w' Hw Hx. apply (IH P2 w r w'); auto. cbn [length] in Hl; lia.
    + eapply made_vstep; [exact HD| |exact H]. intros w w' Hw Hx. apply (IH P1 w r w'); auto. lia.
Qed.
Lemma made_vtl P D r v : made D -> made r -> value_to_list D P r = Ok v -> made v.
Proof. apply (made_vtl_aux (length P)). apply le_n. Qed.

Lemma made_merge data : forall el v, made el -> made data -> merge_rec el data = Ok v -> made v.
Proof.
  induction data as [|b|z|s|l IHl|nd IH|o] using val_rect'; intros el v Hel Hd H; try discriminate.
  cbn [merge_rec] in H. apply made_dict in Hd. revert el Hel H.
  induction nd as [|[nk w] nd IHnd]; intros el Hel H; [injection H as <-; exact Hel|].
  inversion IH as [|? ? Hw IHt]; subst. inversion Hd as [|? ? Hmw Hmt]; subst. cbn [snd] in *.
  destruct el as [| | | | |e|]; try discriminate. apply made_dict in Hel.
  destruct (dget e nk) as [old|] eqn:Ek.
  - destruct w as [| | | | |wd|]; try (eapply (IHnd IHt Hmt); [|exact H]; apply made_dict; apply made_dset; auto; fail).
    destruct (truthy old).
    + destruct (merge_rec old (VDict wd)) as [o'|] eqn:Em; [|discriminate].
      eapply (IHnd IHt Hmt); [|exact H]. apply made_dict. apply made_dset; auto.
      eapply Hw; [|exact Hmw|exact Em]. exact (made_dget e nk old Hel Ek).
    + eapply (IHnd IHt Hmt); [|exact H]. apply made_dict. apply made_dset; auto.
  - destruct w; eapply (IHnd IHt Hmt); try exact H; apply made_dict; apply made_dset; auto.
Qed.

Theorem made_save mwl E P data E' : made E -> made data -> save_cur k2i mwl E P data = Ok E' -> made E'.
Proof.
  intros HE Hd H. unfold save_cur in H. destruct (dict_by_path k2i P E) as [[r1 oa]|] eqn:Eb; [|discriminate].
  pose proof (made_dbp _ _ _ _ HE Eb) as H1. cbn [rbind] in H.
  destruct oa as [a|]; [|injection H as <-; exact H1].
  destruct (get_at a r1) as [w|] eqn:Eg; [|injection H as <-; exact H1].
  pose proof (made_get _ _ _ H1 Eg) as Hw.
  destruct w as [| | | |l|e|]; try (injection H as <-; exact H1).
  - apply made_list in Hw. destruct (truthy data); [|injection H as <-; exact H1].
    destruct mwl.
    + destruct (opt_last l) as [x|] eqn:El; [|discriminate].
      destruct (merge_rec x data) as [x'|] eqn:Em; [|discriminate]. cbn [rbind] in H. injection H as <-.
      apply made_upd; auto. intros _ _. apply made_list. apply made_set_last; auto.
      eapply made_merge; [|exact Hd|exact Em]. eapply made_last; eauto.
    + injection H as <-. apply made_upd; auto. intros _ _. apply made_list. apply Forall_app. split; auto.
  - destruct mwl.
    + destruct (merge_rec (VDict e) data) as [x'|] eqn:Em; [|discriminate]. cbn [rbind] in H. injection H as <-.
      apply made_upd; auto. intros _ _. eapply made_merge; [|exact Hd|exact Em]. exact Hw.
    + apply made_dict in Hw. destruct (opt_last (popped P E)) as [[n st]|]; [|discriminate].
      destruct (Nat.eqb st 2).
      * destruct data as [| | | | |dd|]; try discriminate. injection H as <-. apply made_dict in Hd.
        apply made_upd; auto. intros _ _. apply made_dict. apply made_dupdate; [exact Hw|apply made_dupdate; [exact Hd|exact Hw]].
      * destruct e as [|kv e].
        -- destruct (update_val [] data) as [e'|] eqn:Eu; [|discriminate]. cbn [rbind] in H. injection H as <-.
           apply made_upd; auto. intros _ _. apply made_dict. eapply made_update_val; [constructor|exact Hd|exact Eu].
        -- eapply made_vtl; [exact H1|exact Hd|exact H].
Qed.

(** ** the machine *)
Lemma made_subst vars ms : forall it data cache o d c,
  made data -> dmd cache -> subst_vars vars ms it data cache = Ok (o, d, c) -> made d /\ dmd c.
Proof.
  induction ms as [|m ms IH]; intros it data cache o d c Hd Hc H; cbn [subst_vars] in H.
  - injection H as <- <- <-. auto.
  - destruct (res_lookup data m) as [r|] eqn:El; [|discriminate]. cbn [rbind] in H.
    destruct r as [v|].
    + assert (Hv : made v).
      { unfold res_lookup in El. destruct data as [| | |s|l|dd|].
        6: { injection El as El. apply made_dict in Hd. exact (made_dget _ _ _ Hd El). }
        all: destruct (py_in m _) as [[]|]; discriminate El. }
      assert (Hp : made (res_pop data m)).
      { destruct data; auto. cbn [res_pop]. apply made_dict in Hd. apply made_dict. now apply made_ddel. }
      assert (Hc' : dmd (dset cache (KS m) v)) by (apply made_dset; auto).
      destruct (re_sub (dyn_var_re m) (py_str v) it) as [it'|x]; [eapply IH; eauto|].
      destruct x; try discriminate. eapply IH; eauto.
    + destruct (dget cache (KS m)) as [cv|].
      * destruct cv; try discriminate. destruct (re_sub (dyn_var_re m) s it) as [it'|]; [|discriminate].
        cbn [rbind] in H. eapply IH; eauto.
      * destruct (dget vars (KS m)) as [vv|].
        -- destruct (re_sub (dyn_var_re m) (py_str vv) it) as [it'|]; [|discriminate]. cbn [rbind] in H. eapply IH; eauto.
        -- injection H as <- <- <-. auto.
Qed.
Lemma made_form_path vars ps : forall data cache o d c,
  made data -> dmd cache -> form_path vars ps data cache = Ok (o, d, c) -> made d /\ dmd c.
Proof.
  induction ps as [|p ps IH]; intros data cache o d c Hd Hc H; cbn [form_path] in H.
  - injection H as <- <- <-. auto.
  - destruct (split_stars p) as [b st].
    destruct (subst_vars vars (dyn_vars b) b data cache) as [[[oi d1] c1]|] eqn:Es; [|discriminate]. cbn [rbind] in H.
    destruct (made_subst _ _ _ _ _ _ _ _ Hd Hc Es) as [H1 H2].
    destruct oi as [it|]; [|injection H as <- <- <-; auto].
    destruct (form_path vars ps d1 c1) as [[[rest d2] c2]|] eqn:Ef; [|discriminate]. cbn [rbind] in H.
    injection H as <- <- <-. eapply IH; eauto.
Qed.

Variable F : Type.
Variable runf : F -> fstate -> res (fstate * bool).
Notation rstate := (rstate F).

(** everything a group function can see is made of [S] *)
Definition fs_made (st : fstate) : Prop :=
  made (fs_data st) /\ dmd (fs_defaults st) /\ dmd (fs_cache st) /\ made (fs_results st) /\ dmd (e_vars (fs_env st)).
(** group functions, if any, invent nothing *)
Hypothesis Hrunf : forall f st st' b, fs_made st -> runf f st = Ok (st', b) -> fs_made st'.

Lemma made_run_funcs fs : forall st st' b, fs_made st -> run_funcs F runf fs st = Ok (st', b) -> fs_made st'.
Proof.
  induction fs as [|f fs IH]; intros st st' b H Hr; cbn [run_funcs] in Hr; [injection Hr as <- <-; exact H|].
  destruct (runf f st) as [[st1 ok]|] eqn:E; [|discriminate]. cbn [rbind] in Hr.
  pose proof (Hrunf _ _ _ _ H E). destruct ok; [eapply IH; eauto|]. injection Hr as <- <-. assumption.
Qed.

Lemma made_add_defaults ds : forall r, dmd r -> dmd ds -> dmd (add_defaults r ds).
Proof.
  unfold add_defaults. induction ds as [|[k v] ds IH]; intros r Hr Hd; [exact Hr|]. inversion Hd; subst. cbn [fold_left fst snd] in *.
  apply IH; [|assumption]. unfold dsetdefault. destruct (dmem r k); [exact Hr|]. apply made_dset; auto.
Qed.

Definition st_made (s : rstate) : Prop :=
  made (s_results F s) /\ dmd (rc_result F (s_rec F s)) /\ dmd (rc_defaults F (s_rec F s)) /\
  dmd (s_cache F s) /\ dmd (e_vars (s_env F s)).

Lemma made_flush s s' : st_made s -> flush F runf k2i s = Ok s' -> st_made s'.
Proof.
  intros (H1 & H2 & H3 & H4 & H5) H. unfold flush, processgrp in H.
  set (result := add_defaults (rc_result F (s_rec F s)) (rc_defaults F (s_rec F s))) in *.
  assert (Hres : dmd result) by (now apply made_add_defaults).
  match type of H with rbind (rbind ?X _) _ = _ => destruct X as [[[results1 data1] cache1]|] eqn:EX end; [|discriminate].
  assert (HX : made results1 /\ made data1 /\ dmd cache1).
  { destruct (rc_mwl F (s_rec F s)); [|injection EX as <- <- <-; repeat split; auto; now apply made_dict].
    destruct (form_path (e_vars (s_env F s)) (rc_path F (s_rec F s)) (VDict result) (s_cache F s)) as [[[op d1] c1]|] eqn:Ef; [|discriminate].
    cbn [rbind] in EX. apply made_form_path in Ef as [Hd1 Hc1]; [|now apply made_dict|exact H4].
    destruct op as [[|p pp]|]; try (injection EX as <- <- <-; auto; fail).
    destruct d1 as [| | | | |dd|]; try (injection EX as <- <- <-; auto; fail).
    destruct (reconstruct k2i (s_results F s) (p :: pp) dd) as [[rs merged]|] eqn:Er; [|discriminate].
    cbn [rbind] in EX. injection EX as <- <- <-. unfold reconstruct in Er.
    destruct (dict_by_path k2i (p :: pp) (s_results F s)) as [[r1 oa]|] eqn:Eb; [|discriminate]. cbn [rbind] in Er.
    pose proof (made_dbp _ _ _ _ H1 Eb) as Hr1. destruct oa as [a|]; [|discriminate].
    destruct (get_at a r1) as [w|] eqn:Eg; [|discriminate]. pose proof (made_get _ _ _ Hr1 Eg) as Hw.
    apply made_dict in Hd1.
    destruct w as [| | | |l|e|]; try discriminate.
    - apply made_list in Hw. destruct (opt_last l) as [x|] eqn:El; [|discriminate]. pose proof (made_last _ _ Hw El) as Hx.
      destruct x as [| | | | |e|]; try discriminate. injection Er as <- <-. apply made_dict in Hx.
      repeat split; auto. apply made_dict. now apply made_dupdate.
    - injection Er as <- <-. apply made_dict in Hw. repeat split; auto. apply made_dict. now apply made_dupdate. }
  clear EX. destruct HX as (HX1 & HX2 & HX3). cbn [rbind] in H.
  match type of H with context [run_funcs F runf ?fs ?st] => destruct (run_funcs F runf fs st) as [[fs' ok]|] eqn:Ef end; [|discriminate].
  cbn [rbind] in H. apply made_run_funcs in Ef; [|repeat split; auto]. destruct Ef as (G1 & G2 & G3 & G4 & G5).
  destruct ok.
  - destruct (form_path (e_vars (fs_env fs')) (fs_path fs') (fs_data fs') (fs_cache fs')) as [[[op d2] c2]|] eqn:Ep; [|discriminate].
    cbn [rbind] in H. apply made_form_path in Ep as [Hd2 Hc2]; auto.
    destruct op as [[|p pp]|]; cbn [rbind] in H; try (injection H as <-; repeat split; auto; fail).
    cbn [s_results] in H. destruct (save_cur k2i (rc_mwl F (s_rec F s)) (fs_results fs') (p :: pp) d2) as [v|] eqn:Es; [|discriminate].
    cbn [rbind] in H. injection H as <-. apply made_save in Es; auto. repeat split; auto.
  - cbn [rbind] in H. injection H as <-. repeat split; auto.
Qed.

(** either no line joins, or [S] is closed under joining strings *)
Definition join_ok (x : item F) : Prop :=
  r_action F (fst x) = AJoin -> forall a jc b, S (VStr a) -> S (VStr b) -> S (VStr (a ++ jc ++ b)).
Definition item_made (x : item F) : Prop :=
  dmd (g_runs F (r_group F (fst x))) /\ match snd x with Some r => dmd r | None => True end /\ join_ok x.

Lemma made_join jc r : forall rr rr', (forall a b, S (VStr a) -> S (VStr b) -> S (VStr (a ++ jc ++ b))) ->
  dmd rr -> dmd r -> rfold (fun rr kv => join_one jc rr (fst kv) (snd kv)) r rr = Ok rr' -> dmd rr'.
Proof.
  induction r as [|[k v] r IH]; intros rr rr' Hj Hrr Hr H; cbn [rfold] in H; [injection H as <-; exact Hrr|].
  destruct (join_one jc rr (fst (k, v)) (snd (k, v))) as [r1|] eqn:E; [|discriminate].
  cbn [rbind] in H. inversion Hr as [|? ? Hv Hr']; subst. eapply (IH r1 rr' Hj); auto.
  cbn [fst snd] in *. unfold join_one in E. destruct (dget rr k) as [old|] eqn:Ek.
  - pose proof (made_dget _ _ _ Hrr Ek) as Ho.
    destruct old as [| | |a|l| |]; try (injection E as <-; apply made_dset; auto; apply made_list; repeat constructor; auto; fail).
    + destruct v; try discriminate. injection E as <-. apply made_dset; auto. cbn in *. auto.
    + apply made_list in Ho. destruct v; injection E as <-; apply made_dset; auto; apply made_list; apply Forall_app; split; auto; now apply made_list.
  - injection E as <-. now apply made_dset.
Qed.

Lemma made_do_start s rd r mwl ds s' : st_made s -> dmd r -> dmd ds ->
  do_start F runf k2i s rd r mwl ds = Ok s' -> st_made s'.
Proof.
  intros Hs Hr Hds H. unfold do_start in H.
  match type of H with rbind (flush F runf k2i ?S0) _ = _ => destruct (flush F runf k2i S0) as [s2|] eqn:E end; [|discriminate].
  apply made_flush in E; [|exact Hs]. cbn [rbind] in H. injection H as <-. destruct E as (G1 & G2 & G3 & G4 & G5).
  repeat split; auto.
Qed.

Lemma made_handle s x s' : st_made s -> item_made x -> handle F runf k2i s x = Ok s' -> st_made s'.
Proof.
  destruct x as [rd data]. intros Hs (Hi1 & Hi2 & Hi3) H. cbn [fst snd] in *. unfold handle in H.
  destruct data as [r|]; [|injection H as <-; exact Hs].
  destruct (ogid_in _ _); [injection H as <-; exact Hs|].
  assert (HD : forall s1, st_made s1 -> dispatch F runf k2i s1 rd r = Ok s' -> st_made s').
  { clear s H Hs. intros s Hs H. unfold dispatch in H. unfold join_ok in Hi3. cbn [fst] in Hi3.
    destruct (r_action F rd).
    - apply (made_do_start _ _ _ _ _ _ Hs Hi2 Hi1 H).
    - apply (made_do_start _ _ _ _ _ _ Hs (Forall_nil _) Hi1 H).
    - unfold do_add in H. destruct (path_eqb _ _).
      + injection H as <-. destruct Hs as (G1 & G2 & G3 & G4 & G5). repeat split; auto. now apply made_dupdate.
      + destruct (gid_in _ _); [exact (made_do_start _ _ _ _ _ _ Hs Hi2 (Forall_nil _) H)|injection H as <-; exact Hs].
    - unfold do_join in H. destruct (path_eqb _ _).
      + destruct (rfold _ r _) as [rr|] eqn:E; [|discriminate]. cbn [rbind] in H. injection H as <-.
        destruct Hs as (G1 & G2 & G3 & G4 & G5). repeat split; auto. cbn. eapply made_join; [|exact G2|exact Hi2|exact E].
        intros a b. now apply Hi3.
      + destruct (gid_in _ _); [exact (made_do_start _ _ _ _ _ _ Hs Hi2 (Forall_nil _) H)|injection H as <-; exact Hs].
    - unfold do_end in H. destruct (negb _); [|injection H as <-; exact Hs].
      destruct (s_started F s); [discriminate|]. destruct (gid_eqb _ _); injection H as <-; exact Hs. }
  destruct (gid_in _ _).
  - destruct (is_start _); [|injection H as <-; exact Hs]. eapply HD; [|exact H]. exact Hs.
  - eapply HD; eauto.
Qed.

Lemma made_step s c s' : st_made s -> Forall item_made c -> step_item F runf k2i s c = Ok s' -> st_made s'.
Proof.
  intros Hs Hc H. unfold step_item in H. destruct (choose F s c) as [x|] eqn:E; [|discriminate].
  eapply made_handle; [exact Hs| |exact H]. destruct (choose_priority F s c x E) as [E0 _]. rewrite Forall_forall in Hc. exact (Hc x E0).
Qed.

Lemma made_rfold_step css : forall s s', st_made s -> Forall (Forall item_made) css ->
  rfold (step_item F runf k2i) css s = Ok s' -> st_made s'.
Proof.
  induction css as [|c css IH]; intros s s' Hs Hc H; cbn [rfold] in H; [injection H as <-; exact Hs|].
  inversion Hc; subst. destruct (step_item F runf k2i s c) as [s1|] eqn:E; [|discriminate]. cbn [rbind] in H.
  eapply IH; [|eassumption|exact H]. eapply made_step; eauto.
Qed.
Lemma made_run_groups raw : forall s s', st_made s -> Forall (Forall (Forall item_made)) raw ->
  run_groups F runf k2i raw s = Ok s' -> st_made s'.
Proof.
  unfold run_groups. induction raw as [|g raw IH]; intros s s' Hs Hc H; cbn [rfold] in H; [injection H as <-; exact Hs|].
  inversion Hc; subst. destruct (rfold (step_item F runf k2i) g s) as [s1|] eqn:E; [|discriminate]. cbn [rbind] in H.
  eapply IH; [|eassumption|exact H]. eapply made_rfold_step; eauto.
Qed.

Lemma made_collect vars ns : forall acc, dmd acc -> dmd vars -> dmd (fold_left (fun acc n => match dget vars (KS n) with Some v => dset acc (KS n) v | None => acc end) ns acc).
Proof.
  induction ns as [|n ns IH]; intros acc Ha Hv; [exact Ha|]. cbn [fold_left]. apply IH; auto.
  destruct (dget vars (KS n)) eqn:E; [|exact Ha]. apply made_dset; auto. exact (made_dget _ _ _ Hv E).
Qed.
Lemma made_save_vars s v2r s' : st_made s -> save_vars F k2i s v2r = Ok s' -> st_made s'.
Proof.
  intros Hs H. unfold save_vars in H.
  destruct (rfold (save_var_path F k2i) (sort_paths v2r) s) as [s1|] eqn:E; [|discriminate]. cbn [rbind] in H. injection H as <-.
  assert (H1 : st_made s1).
  { revert s Hs E. induction (sort_paths v2r) as [|[p ns] l IH]; intros s Hs E; cbn [rfold] in E; [injection E as <-; exact Hs|].
    destruct (save_var_path F k2i s (p, ns)) as [s2|] eqn:E2; [|discriminate]. cbn [rbind] in E. apply (IH s2); [|exact E].
    unfold save_var_path in E2. destruct p as [|c p]; [injection E2 as <-; exact Hs|].
    destruct Hs as (G1 & G2 & G3 & G4 & G5).
    match type of E2 with rbind (form_path ?a ?b ?c ?d) _ = _ => destruct (form_path a b c d) as [[[op d2] c2]|] eqn:Ef end; [|discriminate].
    cbn [rbind] in E2. apply made_form_path in Ef as [Hd Hc]; [|apply made_dict; apply made_collect; [constructor|exact G5]|exact G4].
    destruct op as [[|q pp]|]; try (injection E2 as <-; repeat split; auto; fail).
    match type of E2 with rbind ?X _ = _ => destruct X as [v|] eqn:Ev end; [|discriminate]. cbn [rbind] in E2. injection E2 as <-.
    apply made_save in Ev; auto. repeat split; auto. }
  destruct H1 as (G1 & G2 & G3 & G4 & G5). repeat split; auto; constructor.
Qed.

Theorem made_results e v2r raw main s' :
  made main -> dmd (e_vars e) -> Forall (Forall (Forall item_made)) raw ->
  make_results F runf k2i e v2r raw main = Ok s' -> made (s_results F s').
Proof.
  intros Hm He Hr H. unfold make_results in H.
  assert (H0 : st_made (init_state F e main)) by (repeat split; auto; constructor).
  match type of H with rbind ?X _ = _ => destruct X as [s1|] eqn:E1 end; [|discriminate]. cbn [rbind] in H.
  assert (H1 : st_made s1).
  { destruct raw; [injection E1 as <-; exact H0|]. exact (made_save_vars _ _ _ H0 E1). }
  destruct (run_groups F runf k2i raw s1) as [s2|] eqn:E2; [|discriminate]. cbn [rbind] in H.
  exact (proj1 (made_flush _ _ (made_run_groups _ _ _ H1 Hr E2) H)).
Qed.
End Made.
