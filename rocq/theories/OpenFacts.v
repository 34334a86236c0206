(** * OpenFacts: the stack of started groups. *)
From Verif Require Import PyBase DictFacts Regex Tree Results SpecTree ResultsFacts PathFacts SpecRecords MachineFacts MuteFacts MachineProps SpecOpen.

Lemma rfold_append {A S} (f : S -> A -> res S) l1 l2 s : rfold f (l1 ++ l2) s = (do s1 <- rfold f l1 s; rfold f l2 s1).
Proof. revert s. induction l1 as [|x l1 IH]; intros s; [reflexivity|]. cbn [rfold app]. destruct (f s x) as [s1|]; [apply IH|reflexivity]. Qed.

Section Open.
Variable F : Type.
Variable runf : F -> fstate -> res (fstate * bool).
Variable k2i : bool.
Notation rstate := (rstate F).
Notation item := (item F).
Notation group := (group F).
Notation redict := (redict F).
Notation flush := (flush F runf k2i).
Notation step_item := (step_item F runf k2i).
Notation handle := (handle F runf k2i).
Notation gid_of x := (g_id F (r_group F (fst x))).
Notation parent_of x := (g_parent F (r_group F (fst x))).
Set Default Proof Using "Type".

Lemma trace_opens (g : group) isline st : opens isline (g_id F g) (g_parent F g) st (trace F st g isline).
Proof.
  induction st as [|t st IH]; cbn [trace].
  - apply op_alone; [intros q _ []|reflexivity].
  - remember (trace F st g isline) as st' eqn:E. clear E. destruct (g_parent F g) as [p|] eqn:Ep.
    + destruct (gid_eqb_spec p t) as [->|Hn].
      * apply (op_under isline _ _ []); [reflexivity|intros []|reflexivity].
      * destruct isline; [apply op_line; [reflexivity|congruence]|].
        destruct IH as [a q b Hq Hna _|st Hq _|]; [| |discriminate].
        -- injection Hq as <-. apply (op_under _ _ _ (t :: a)); [reflexivity| |discriminate]. intros [K|K]; [congruence|contradiction].
        -- apply op_alone; [|discriminate]. intros q [= <-] [K|K]; [congruence|]. eapply Hq; [reflexivity|exact K].
    + destruct isline; [apply op_line; [reflexivity|congruence]|].
      destruct IH as [a q b Hq Hna _|st Hq _|]; [discriminate| |discriminate].
      apply op_alone; [intros q; discriminate|discriminate].
Qed.
Lemma opens_fun isline g p st st1 : opens isline g p st st1 -> forall st2, opens isline g p st st2 -> st1 = st2.
Proof.
  intros H1 st2 H2. destruct H1 as [a q b Hq Hna Hl|st Hq Hl|t b Hl Hp].
  - inversion H2 as [a' q' b' Hq' Hna' Hl' E1 E2|? Hq' Hl' E1 E2|t b' Hl' Hp' E1 E2]; subst.
    + injection Hq' as <-. assert (b = b') as ->; [|reflexivity].
      clear H2 Hl Hl'. revert a' Hna' E1 Hna. clear. induction a as [|x a IH]; intros [|y a'] Hna' E1 Hna; cbn in E1; injection E1; intros; subst; auto.
      * exfalso. apply Hna'. now left.
      * exfalso. apply Hna. now left.
      * apply (IH a'); auto; intros K; [apply Hna'|apply Hna]; now right.
    + exfalso. eapply Hq'; [reflexivity|]. apply in_or_app. right. now left.
    + destruct a as [|x a]; [cbn in E1; injection E1 as -> ->; congruence|]. specialize (Hl eq_refl). discriminate.
  - inversion H2 as [a' q' b' Hq' Hna' Hl' E1 E2|? Hq' Hl' E1 E2|t b' Hl' Hp' E1 E2]; subst; [|reflexivity|specialize (Hl eq_refl); discriminate].
    exfalso. eapply Hq; [reflexivity|]. apply in_or_app. right. now left.
  - inversion H2 as [a' q' b' Hq' Hna' Hl' E1 E2|? Hq' Hl' E1 E2|t' b' Hl' Hp' E1 E2]; subst.
    + specialize (Hl' eq_refl). subst a'. cbn in E1. congruence.
    + specialize (Hl' eq_refl). discriminate.
    + reflexivity.
Qed.

Lemma flush_started s s' : flush s = Ok s' -> s_started F s' = s_started F s /\ s_rec F s' = s_rec F s.
Proof.
  unfold Results.flush, processgrp. intros H.
  destruct (if rc_mwl F (s_rec F s) then _ else _) as [[[r1 d1] c1]|]; [|discriminate]. cbn [rbind] in H.
  destruct (run_funcs F runf _ _) as [[fs ok]|]; [|discriminate]. cbn [rbind] in H.
  destruct ok; cbn [rbind] in H.
  - destruct (form_path _ _ _ _) as [[[op d2] c2]|]; [|discriminate]. cbn [rbind] in H.
    destruct op as [[|pp ps]|]; cbn [rbind] in H.
    + injection H as <-. now split.
    + destruct (save_cur _ _ _ _ _) as [v|]; [|discriminate]. cbn [rbind] in H. injection H as <-. now split.
    + injection H as <-. now split.
  - injection H as <-. now split.
Qed.
Lemma do_start_open s rd r mwl df s' : do_start F runf k2i s rd r mwl df = Ok s' ->
  opens (r_isline F rd) (g_id F (r_group F rd)) (g_parent F (r_group F rd)) (s_started F s) (s_started F s') /\ rc_gid F (s_rec F s') = Some (g_id F (r_group F rd)).
Proof.
  unfold do_start. intros H. destruct (flush _) as [s2|] eqn:E; [|discriminate]. cbn [rbind] in H. injection H as <-.
  apply flush_started in E as [E _]. cbn [set_rec s_started s_rec rc_gid]. split; [|reflexivity]. rewrite E. cbn [set_started s_started]. apply trace_opens.
Qed.

(** the match makes its group the current one *)
Definition begins (s : rstate) (x : item) : Prop :=
  snd x <> None /\ (forall p, parent_of x = Some p -> ~ In p (s_ended F s)) /\
  (is_start (r_action F (fst x)) = true \/
   (r_action F (fst x) = AAdd \/ r_action F (fst x) = AJoin) /\ ~ In (gid_of x) (s_ended F s) /\
   rc_path F (s_rec F s) <> g_path F (r_group F (fst x)) /\ In (gid_of x) (s_started F s)).

Lemma handle_open s x s' : handle s x = Ok s' ->
  (begins s x /\ opens (r_isline F (fst x)) (gid_of x) (parent_of x) (s_started F s) (s_started F s') /\ rc_gid F (s_rec F s') = Some (gid_of x)) \/
  (~ begins s x /\ s_started F s' = s_started F s /\ rc_gid F (s_rec F s') = rc_gid F (s_rec F s)).
Proof.
  destruct x as [rd [r|]]; unfold Results.handle, begins; cbn [fst snd].
  2:{ intros [= <-]. right. split; [intros [K _]; congruence|]. now split. }
  assert (Hp : ogid_in (g_parent F (r_group F rd)) (s_ended F s) = true <-> exists p, g_parent F (r_group F rd) = Some p /\ In p (s_ended F s)).
  { destruct (g_parent F (r_group F rd)) as [p|]; cbn [ogid_in].
    - rewrite gid_in_spec. split; [intros; exists p; now split|]. intros (q & [= <-] & K). exact K.
    - split; [discriminate|]. intros (q & K & _). discriminate. }
  destruct (ogid_in _ _).
  { intros [= <-]. right. destruct Hp as [Hp _]. destruct (Hp eq_refl) as (p & Ep & Ip). split; [intros (_ & K & _); exfalso; eapply K; eauto|]. now split. }
  assert (Hp' : forall p, g_parent F (r_group F rd) = Some p -> ~ In p (s_ended F s)).
  { intros p Ep Ip. destruct Hp as [_ Hp]. discriminate Hp. exists p. now split. }
  assert (Hge := gid_in_spec (g_id F (r_group F rd)) (s_ended F s)).
  destruct (gid_in (g_id F (r_group F rd)) (s_ended F s)).
  - destruct Hge as [Hge _]. specialize (Hge eq_refl).
    destruct (is_start (r_action F rd)) eqn:Es.
    + intros H. unfold dispatch in H. assert (H' : exists s0 r' mwl df, do_start F runf k2i s0 rd r' mwl df = Ok s' /\ s_started F s0 = s_started F s).
      { destruct (r_action F rd); try discriminate; eexists _, _, _, _; (split; [exact H|reflexivity]). }
      destruct H' as (s0 & r' & mwl & df & H' & E0). apply do_start_open in H'. rewrite E0 in H'. left. split; [|exact H']. split; [discriminate|]. split; [exact Hp'|now left].
    + intros [= <-]. right. split; [|now split]. intros (_ & _ & [K|(_ & K & _)]); [congruence|contradiction].
  - assert (Hge' : ~ In (g_id F (r_group F rd)) (s_ended F s)) by (intros K; apply Hge in K; discriminate).
    unfold dispatch. destruct (r_action F rd) eqn:Ea.
    + intros H. apply do_start_open in H. left. split; [|exact H]. split; [discriminate|]. split; [exact Hp'|now left].
    + intros H. apply do_start_open in H. left. split; [|exact H]. split; [discriminate|]. split; [exact Hp'|now left].
    + unfold do_add. destruct (path_eqb_spec (rc_path F (s_rec F s)) (g_path F (r_group F rd))) as [E|E].
      * intros [= <-]. right. split; [|now split]. intros (_ & _ & [K|(_ & _ & K & _)]); [discriminate|contradiction].
      * assert (Hst := gid_in_spec (g_id F (r_group F rd)) (s_started F s)). destruct (gid_in _ (s_started F s)).
        -- intros H. apply do_start_open in H. left. split; [|exact H]. split; [discriminate|]. split; [exact Hp'|]. right. split; [now left|]. split; [exact Hge'|]. split; [exact E|now apply Hst].
        -- intros [= <-]. right. split; [|now split]. intros (_ & _ & [K|(_ & _ & _ & K)]); [discriminate|]. apply Hst in K. discriminate.
    + unfold do_join. destruct (path_eqb_spec (rc_path F (s_rec F s)) (g_path F (r_group F rd))) as [E|E].
      * intros H. destruct (rfold _ _ _) as [rr|]; [|discriminate]. cbn [rbind] in H. injection H as <-. right. split; [|now split]. intros (_ & _ & [K|(_ & _ & K & _)]); [discriminate|contradiction].
      * assert (Hst := gid_in_spec (g_id F (r_group F rd)) (s_started F s)). destruct (gid_in _ (s_started F s)).
        -- intros H. apply do_start_open in H. left. split; [|exact H]. split; [discriminate|]. split; [exact Hp'|]. right. split; [now right|]. split; [exact Hge'|]. split; [exact E|now apply Hst].
        -- intros [= <-]. right. split; [|now split]. intros (_ & _ & [K|(_ & _ & _ & K)]); [discriminate|]. apply Hst in K. discriminate.
    + unfold do_end. intros H. assert (s_started F s' = s_started F s /\ s_rec F s' = s_rec F s) as [E1 E2].
      { destruct (negb _); [|injection H as <-; now split]. destruct (s_started F s) as [|t st] in H; [discriminate|]. destruct (gid_eqb _ t); injection H as <-; now split. }
      right. split; [|rewrite E1, E2; now split]. intros (_ & _ & [K|([K|K] & _)]); discriminate.
Qed.

(** open groups along a history *)
Section Family.
Variable par : gid -> option gid.
Definition family (x : item) : Prop := parent_of x = par (gid_of x) /\ r_isline F (fst x) = false.
Definition good (s : rstate) : Prop := lineage par (s_started F s) /\ hd_error (s_started F s) = rc_gid F (s_rec F s).

Lemma lineage_app a q b : lineage par (a ++ q :: b) -> lineage par (q :: b).
Proof. induction a as [|x a IH]; [auto|]. intros H. apply IH. destruct a; cbn in *; tauto. Qed.
Lemma opens_lineage g st st' : lineage par st -> opens false g (par g) st st' -> lineage par st' /\ hd_error st' = Some g.
Proof.
  intros HL H. inversion H; subst; [|now split|discriminate]. split; [|reflexivity]. cbn. split; [assumption|]. eapply lineage_app, HL.
Qed.
Lemma lineage_anc st h g : lineage par (h :: st) -> In g (h :: st) -> ancestor par g h.
Proof.
  revert h. induction st as [|p st IH]; intros h HL [->|Hi]; try apply anc_self; [destruct Hi|]. destruct HL as [E HL]. eapply anc_up; [exact E|]. now apply IH.
Qed.
Lemma step_good s c s' : good s -> Forall family c -> step_item s c = Ok s' -> good s'.
Proof.
  intros [G1 G2] Hc H. unfold Results.step_item in H. destruct (choose F s c) as [x|] eqn:Ex; [|discriminate].
  apply choose_priority in Ex as [Ex _]. rewrite Forall_forall in Hc. destruct (Hc x Ex) as [P1 P2].
  apply handle_open in H as [(_ & H1 & H2)|(_ & H1 & H2)].
  - rewrite P2, P1 in H1. apply opens_lineage in H1 as [K1 K2]; [|exact G1]. split; [exact K1|]. now rewrite H2.
  - split; [now rewrite H1|]. now rewrite H1, H2.
Qed.
Lemma run_good css : forall s s', good s -> Forall (Forall family) css -> rfold step_item css s = Ok s' -> good s'.
Proof.
  induction css as [|c css IH]; intros s s' G Hc H; cbn [rfold] in H; [congruence|].
  inversion Hc; subst. destruct (step_item s c) as [s1|] eqn:E; [|discriminate]. cbn [rbind] in H. eapply IH; [|eassumption|exact H]. now apply (step_good s c).
Qed.
(** a line of a group that is not the current one or an ancestor of it *)
Lemma dropped s rd r h :
  good s -> (r_action F rd = AAdd \/ r_action F rd = AJoin) -> rc_path F (s_rec F s) <> g_path F (r_group F rd) ->
  rc_gid F (s_rec F s) = Some h -> ~ ancestor par (g_id F (r_group F rd)) h -> handle s (rd, Some r) = Ok s.
Proof.
  intros [G1 G2] Ha Hp Hh Hn. rewrite Hh in G2. destruct (s_started F s) as [|h' st] eqn:Es; [discriminate|]. injection G2 as ->.
  assert (Hst : gid_in (g_id F (r_group F rd)) (s_started F s) = false).
  { apply Bool.not_true_is_false. intros K. apply gid_in_spec in K. rewrite Es in K. apply Hn. now apply (lineage_anc st). }
  unfold Results.handle. destruct (ogid_in _ _); [reflexivity|].
  assert (is_start (r_action F rd) = false) as E1 by (destruct Ha as [-> | ->]; reflexivity).
  rewrite E1. destruct (gid_in _ (s_ended F s)); [reflexivity|].
  unfold dispatch. destruct Ha as [-> | ->]; unfold do_add, do_join; rewrite Hst;
    (destruct (path_eqb_spec (rc_path F (s_rec F s)) (g_path F (r_group F rd))); [contradiction|reflexivity]).
Qed.
End Family.
End Open.
