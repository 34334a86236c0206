(** * EnvFacts: whose dictionary a function of the package sees. *)
From Verif Require Import PyBase DictFacts StrFacts Cache SpecCache CacheFacts.
Local Open Scope string_scope.
Local Open Scope list_scope.

Section Env.
Variables (major : nat) (files : list pyfile).
Local Notation off := (offers major files).
Local Notation touch := (touches major files).
Local Notation called_ := (has_called major files).
Local Notation lastf := (last_first major files).
Local Notation state es := (fst (rt_run (scan major files) rt_init es)).

Lemma has_called_snoc es e s f : called_ (es ++ [e]) s f <-> touch s f e \/ (called_ es s f /\ e <> ENew s).
Proof.
  split.
  - intros (a & x & b & E & Ht & Hb). destruct b as [|y b] using rev_ind.
    + apply app_inj_tail in E as [_ <-]. now left.
    + rewrite app_comm_cons, app_assoc in E. apply app_inj_tail in E as [-> <-]. right. split.
      * exists a, x, b. split; [reflexivity|]. split; [exact Ht|]. intros K. apply Hb, in_or_app. now left.
      * intros ->. apply Hb, in_or_app. right. now left.
  - intros [H|[(a & x & b & -> & Ht & Hb) He]].
    + exists es, e, []. split; [reflexivity|]. split; [exact H|intros []].
    + exists a, x, (b ++ [e]). split; [now rewrite <- app_assoc|]. split; [exact Ht|]. intros K. apply in_app_or in K as [K|[K|[]]]; [now apply Hb|congruence].
Qed.
Lemma last_first_fun f es s s' : lastf f es s -> lastf f es s' -> s = s'.
Proof.
  intros H. revert s'. induction H as [es e s Ht Hc|es e s H IH Hk]; intros s' H'.
  - remember (es ++ [e]) as l eqn:El. destruct H' as [es' e' s' Ht' Hc'|es' e' s' H' Hk']; apply app_inj_tail in El as [-> ->].
    + destruct Ht as (? & ? & ? & -> & _), Ht' as (? & ? & ? & K & _). congruence.
    + exfalso. apply Hc. now apply Hk'.
  - remember (es ++ [e]) as l eqn:El. destruct H' as [es' e' s' Ht' Hc'|es' e' s' H' Hk']; apply app_inj_tail in El as [-> ->].
    + exfalso. apply Hc'. now apply Hk.
    + now apply IH.
Qed.

Hypothesis Hn : no_clash major files.
Hypothesis Hd : distinct_modules major files.
Definition inv2 (es : list rt_event) (r : runtime) : Prop :=
  (forall s dir name sl, fget (r_tabs r s) dir name = Some sl ->
     match sl with
     | Lazy c => exists f def, off dir name f def /\ c = mkC f name /\ ~ called_ es s f
     | Real f def => off dir name f def /\ called_ es s f
     | Custom _ => False
     end) /\
  (forall s dir name f def, In (ENew s) es -> off dir name f def -> exists sl, fget (r_tabs r s) dir name = Some sl) /\
  (forall f dir name def s, off dir name f def -> called_ es s f -> exists s', dget (r_bind r) (module_key f) = Some s') /\
  (forall f dir name def s, off dir name f def -> dget (r_bind r) (module_key f) = Some s -> lastf f es s).
Lemma off_module dir name f def : off dir name f def -> In f files /\ is_module major f.
Proof using. clear. intros H. unfold offers in H. tauto. Qed.
Lemma inv2_step es e : (forall s sc n k, e <> EAdd s sc n k) -> (forall s d n, e = ECall s d n -> In (ENew s) es) ->
  inv2 es (state es) -> inv2 (es ++ [e]) (fst (rt_step (scan major files) (state es) e)).
Proof using Hn Hd.
  intros Ha Hnew (J1 & J2 & J3 & J4). set (r := state es) in *. destruct e as [q|q d0 n0|q d0 n0 k]; [| |now destruct (Ha q d0 n0 k)]; cbn [rt_step].
  - (* a new parser *)
    cbn [fst]. unfold new_parser.
    assert (T : forall s f, ~ touch s f (ENew q)) by (intros s f (d & n & def & K & _); discriminate).
    split; [|split; [|split]].
    + intros s dir name sl. cbn [r_tabs]. destruct (Nat.eq_dec s q) as [->|Hs].
      * rewrite set_tab_same, as_slots_get. destruct (fget (scan major files) dir name) as [c|] eqn:E; [|discriminate]. cbn. intros H. injection H as <-.
        apply (scan_offers major files dir name Hn) in E as (f & def & Ho & ->). exists f, def. split; [exact Ho|]. split; [reflexivity|].
        rewrite has_called_snoc. intros [K|[_ K]]; [now apply (T q f)|congruence].
      * rewrite set_tab_other by exact Hs. intros H. specialize (J1 _ _ _ _ H). destruct sl as [c|f def|n]; [|split; [apply J1|]|exact J1].
        -- destruct J1 as (f & def & Ho & E & K). exists f, def. split; [exact Ho|]. split; [exact E|]. rewrite has_called_snoc. intros [K'|[K' _]]; [now apply (T s f)|contradiction].
        -- apply has_called_snoc. right. split; [apply J1|congruence].
    + intros s dir name f def Hs Ho. cbn [r_tabs]. destruct (Nat.eq_dec s q) as [->|Hq].
      * rewrite set_tab_same, as_slots_get. assert (fget (scan major files) dir name = Some (mkC f name)) as -> by (apply (scan_offers major files dir name Hn); now exists f, def).
        now eexists.
      * rewrite set_tab_other by exact Hq. apply (J2 s dir name f def); [|exact Ho]. apply in_app_or in Hs as [Hs|[Hs|[]]]; [exact Hs|congruence].
    + intros f dir name def s Ho K. cbn [r_bind]. apply has_called_snoc in K as [K|[K _]]; [now destruct (T s f)|]. now apply (J3 f dir name def s).
    + intros f dir name def s Ho K. cbn [r_bind] in K. apply lf_keep; [now apply (J4 f dir name def s)|]. intros s' K'. now destruct (T s' f).
  - specialize (Hnew q d0 n0 eq_refl).
    assert (T : forall s f, touch s f (ECall q d0 n0) -> s = q /\ exists def, off d0 n0 f def).
    { intros s f (d & n & def & K & Ho). injection K as -> -> ->. split; [reflexivity|now exists def]. }
    (* nothing changed *)
    assert (K0 : (forall s f, touch s f (ECall q d0 n0) -> called_ es s f) -> inv2 (es ++ [ECall q d0 n0]) r).
    { intros Hc. assert (C : forall s f, called_ (es ++ [ECall q d0 n0]) s f <-> called_ es s f).
      { intros s f. rewrite has_called_snoc. split; [intros [K|[K _]]; auto|intros K; right; split; [exact K|discriminate]]. }
      split; [|split; [|split]].
      - intros s dir name sl H. specialize (J1 _ _ _ _ H). destruct sl as [c|f def|n]; [|split; [apply J1|apply C, J1]|exact J1].
        destruct J1 as (f & def & Ho & E & K). exists f, def. split; [exact Ho|]. split; [exact E|]. now rewrite C.
      - intros s dir name f def Hs. apply J2. eapply new_in; [exact Hs|discriminate].
      - intros f dir name def s Ho K. apply C in K. now apply (J3 f dir name def s).
      - intros f dir name def s Ho K. apply lf_keep; [now apply (J4 f dir name def s)|]. intros s' K'. now apply Hc. }
    unfold call. destruct (fget (r_tabs r q) d0 n0) as [[c|g x|m]|] eqn:E; cbn [fst].
    + destruct (J1 _ _ _ _ E) as (f & def & Ho & -> & Hnc). cbn [c_file c_name r_tabs]. rewrite set_tab_same.
      pose proof (off_file _ _ _ _ _ _ Ho) as Hf.
      assert (T2 : forall s g, touch s g (ECall q d0 n0) -> s = q /\ g = f).
      { intros s g K. apply T in K as [-> [y Ky]]. split; [reflexivity|]. now destruct (Hn _ _ _ _ _ _ Ho Ky). }
      assert (T3 : touch q f (ECall q d0 n0)) by (exists d0, n0, def; now split).
      assert (C : forall s g, called_ (es ++ [ECall q d0 n0]) s g <-> (s = q /\ g = f) \/ called_ es s g).
      { intros s g. rewrite has_called_snoc. split.
        - intros [K|[K _]]; [left; now apply T2|now right].
        - intros [[-> ->]|K]; [now left|right; split; [exact K|discriminate]]. }
      assert (L : inv2 (es ++ [ECall q d0 n0]) (mkRt (set_tab r q (load_module (r_tabs r q) f)) (dset (r_bind r) (module_key f) q))).
      { split; [|split; [|split]].
        - intros s dir name sl. cbn [r_tabs]. destruct (Nat.eq_dec s q) as [->|Hs].
          + rewrite set_tab_same. destruct (load_offers major files f dir name (r_tabs r q) Hf) as [(y & K1 & K2)|[K1 K2]]; rewrite K2; intros H.
            * injection H as <-. split; [exact K1|]. apply C. now left.
            * specialize (J1 _ _ _ _ H). destruct sl as [c|g z|n]; [|split; [apply J1|apply C; right; apply J1]|exact J1].
              destruct J1 as (g & z & Hg & Ec & K). exists g, z. split; [exact Hg|]. split; [exact Ec|]. rewrite C. intros [[_ ->]|K']; [|contradiction]. apply K1. now exists z.
          + rewrite set_tab_other by exact Hs. intros H. specialize (J1 _ _ _ _ H). destruct sl as [c|g z|n]; [|split; [apply J1|apply C; right; apply J1]|exact J1].
            destruct J1 as (g & z & Hg & Ec & K). exists g, z. split; [exact Hg|]. split; [exact Ec|]. rewrite C. intros [[-> _]|K']; congruence.
        - intros s dir name g z Hs Hg. cbn [r_tabs]. apply new_in in Hs; [|discriminate]. destruct (Nat.eq_dec s q) as [->|Hq].
          + rewrite set_tab_same. destruct (load_offers major files f dir name (r_tabs r q) Hf) as [(y & _ & K2)|[_ K2]]; rewrite K2; [now eexists|]. now apply (J2 q dir name g z).
          + rewrite set_tab_other by exact Hq. now apply (J2 s dir name g z).
        - intros g dir name z s Hg K. cbn [r_bind]. rewrite dget_dset. destruct (key_eqb (module_key g) (module_key f)) eqn:Ek; [now eexists|].
          apply C in K as [[-> ->]|K]; [rewrite key_eqb_refl in Ek; discriminate|now apply (J3 g dir name z s)].
        - intros g dir name z s Hg K. cbn [r_bind] in K. rewrite dget_dset in K. destruct (key_eqb (module_key g) (module_key f)) eqn:Ek.
          + injection K as <-. apply key_eqb_eq in Ek. destruct (off_module _ _ _ _ Hg) as [G1 G2]. destruct (off_module _ _ _ _ Ho) as [F1 F2].
            rewrite (Hd g f G1 F1 G2 F2 Ek). now apply lf_here.
          + apply lf_keep; [now apply (J4 g dir name z s)|]. intros s' K'. apply T2 in K' as [_ ->]. rewrite key_eqb_refl in Ek. discriminate. }
      destruct (fget (load_module (r_tabs r q) f) (pf_dir f) n0) as [[c|h x|m]|] eqn:El; cbn [fst]; try exact L.
      * exfalso. destruct (load_offers major files f (pf_dir f) n0 (r_tabs r q) Hf) as [(y & _ & K2)|[K1 _]]; [congruence|]. apply K1. exists def.
        apply offers_iff in Ho as Ho'. destruct Ho' as (_ & Hdd & _). now rewrite Hdd.
      * exfalso. destruct (load_offers major files f (pf_dir f) n0 (r_tabs r q) Hf) as [(y & _ & K2)|[K1 _]]; [congruence|]. apply K1. exists def.
        apply offers_iff in Ho as Ho'. destruct Ho' as (_ & Hdd & _). now rewrite Hdd.
    + apply K0. intros s f K. apply T in K as [-> [y Ky]]. destruct (J1 _ _ _ _ E) as [Hg Hc]. now destruct (Hn _ _ _ _ _ _ Ky Hg) as [-> _].
    + destruct (J1 _ _ _ _ E).
    + apply K0. intros s f K. apply T in K as [-> [y Ky]]. destruct (J2 q d0 n0 f y Hnew Ky) as [sl Es]. congruence.
Qed.

Lemma calls_prefix es e : calls_after_new (es ++ [e]) -> calls_after_new es.
Proof using. clear. intros H a s dir name b ->. apply (H a s dir name (b ++ [e])). now rewrite <- app_assoc. Qed.
Lemma inv2_run es : (forall s sc n k, ~ In (EAdd s sc n k) es) -> calls_after_new es -> inv2 es (state es).
Proof using Hn Hd.
  induction es as [|e es IH] using rev_ind; intros Ha Hc.
  - split; [intros s dir name sl H; discriminate|]. split; [intros s dir name f def []|]. split.
    + intros f dir name def s _ (a & x & b & K & _). destruct a; discriminate.
    + intros f dir name def s _ K. discriminate.
  - rewrite rt_run_snoc. apply inv2_step.
    + intros s sc n k ->. apply (Ha s sc n k), in_or_app. right. now left.
    + intros s d n ->. apply (Hc es s d n []). reflexivity.
    + apply IH; [intros s sc n k K; apply (Ha s sc n k), in_or_app; now left|now apply calls_prefix in Hc].
Qed.
Theorem call_sees es s dir name f def :
  (forall s sc n k, ~ In (EAdd s sc n k) es) -> calls_after_new es -> In (ENew s) es -> off dir name f def ->
  exists env r', call (state es) s dir name = Ok (CallReal f def (Some env), r') /\ lastf f (es ++ [ECall s dir name]) env.
Proof using Hn Hd.
  intros Ha Hc Hs Ho. destruct (call_offered major files Hn es s dir name f def Hs Ho (Ha s dir name)) as (env & r' & E).
  assert (I : inv2 (es ++ [ECall s dir name]) (state (es ++ [ECall s dir name]))).
  { apply inv2_run.
    - intros s0 sc n k K. apply in_app_or in K as [K|[K|[]]]; [now apply (Ha s0 sc n k)|discriminate].
    - intros a s0 d n b K. destruct b as [|y b] using rev_ind.
      + apply app_inj_tail in K as [<- K]. injection K as -> _ _. exact Hs.
      + rewrite app_comm_cons, app_assoc in K. apply app_inj_tail in K as [K _]. now apply (Hc a s0 d n b). }
  rewrite rt_run_snoc in I. cbn [rt_step] in I. rewrite E in I. cbn [fst] in I. destruct I as (_ & _ & I3 & I4).
  assert (Eb : env = dget (r_bind r') (module_key f)).
  { unfold call in E. destruct (fget (r_tabs (state es) s) dir name) as [[c|g x|m]|]; try discriminate; [|congruence]. cbn zeta in E.
    destruct (fget _ (pf_dir (c_file c)) (c_name c)) as [[|g x|]|]; try discriminate. injection E as <- <- <- <-. reflexivity. }
  destruct (I3 f dir name def s Ho) as [s' Es'].
  { apply has_called_snoc. left. exists dir, name, def. now split. }
  exists s', r'. split; [congruence|]. now apply (I4 f dir name def s').
Qed.
(** one parser only: it is always its own *)
Theorem call_sees_own es s dir name f def :
  (forall e, In e es -> exists d n, e = ENew s \/ e = ECall s d n) -> calls_after_new es -> In (ENew s) es -> off dir name f def ->
  exists r', call (state es) s dir name = Ok (CallReal f def (Some s), r').
Proof using Hn Hd.
  intros He Hc Hs Ho. destruct (call_sees es s dir name f def) as (env & r' & E & L); auto.
  { intros s0 sc n k K. destruct (He _ K) as (d & n' & [K'|K']); discriminate. }
  exists r'. assert (env = s) as ->; [|exact E]. clear - L He.
  assert (G : forall l, lastf f l env -> (forall e, In e l -> exists d n, e = ENew s \/ e = ECall s d n) -> env = s).
  { clear. intros l H. induction H as [es e s' Ht _|es e s' _ IH _]; intros He.
    - destruct Ht as (d & n & x & -> & _). destruct (He (ECall s' d n)) as (d' & n' & [K|K]); [apply in_or_app; right; now left|discriminate|congruence].
    - apply IH. intros e' K. apply He, in_or_app. now left. }
  apply (G _ L). intros e K. apply in_app_or in K as [K|[<-|[]]]; [now apply He|]. exists dir, name. now right.
Qed.
End Env.
