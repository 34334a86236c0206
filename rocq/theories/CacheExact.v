(** * CacheExact: exactly when a user's function stays in place. *)
From Verif Require Import PyBase DictFacts Cache SpecCache CacheFacts.
Local Open Scope string_scope.
Local Open Scope list_scope.

Section Exact.
Variables (major : nat) (files : list pyfile).
Hypothesis Hn : no_clash major files.
Local Notation off := (offers major files).
Local Notation used := (has_used major files).
Local Notation state es := (fst (rt_run (scan major files) rt_init es)).

Lemma used_snoc b e s f : used (b ++ [e]) s f <->
  used b s f \/ exists d0 n0 def, e = ECall s d0 n0 /\ off d0 n0 f def /\ forall m, ~ In (EAdd s d0 n0 m) b.
Proof using.
  split.
  - intros (b1 & d0 & n0 & def & b2 & E & Ho & Ha). destruct b2 as [|x b2 _] using rev_ind.
    + apply app_inj_tail in E as [-> ->]. right. eauto 6.
    + rewrite app_comm_cons, app_assoc in E. apply app_inj_tail in E as [-> ->]. left. exists b1, d0, n0, def, b2. auto.
  - intros [(b1 & d0 & n0 & def & b2 & -> & Ho & Ha)|(d0 & n0 & def & -> & Ho & Ha)].
    + exists b1, d0, n0, def, (b2 ++ [e]). rewrite <- app_assoc. auto.
    + exists b, d0, n0, def, []. auto.
Qed.

(** what one event does to the functions of parser [s] *)
Lemma tab_step es e s : e <> ENew s ->
  let T := r_tabs (state es) s in let T' := r_tabs (state (es ++ [e])) s in
  (exists d0 n0 g x, e = ECall s d0 n0 /\ fget T d0 n0 = Some (Lazy (mkC g n0)) /\ off d0 n0 g x /\ T' = load_module T g) \/
  (exists d0 n0 k, e = EAdd s d0 n0 k /\ T' = fput T d0 n0 (Custom k)) \/
  (T' = T /\ (forall d0 n0, e = ECall s d0 n0 -> forall c, fget T d0 n0 <> Some (Lazy c)) /\ (forall d0 n0 k n1, e = EAdd s d0 n0 k -> fget T d0 n1 = None)).
Proof.
  intros He T T'. subst T T'. rewrite rt_run_snoc. destruct (inv_run major files Hn es) as [I1 _]. destruct e as [q|q d0 n0|q d0 n0 k]; cbn [rt_step].
  - right. right. cbn [fst new_parser r_tabs]. rewrite set_tab_other by congruence. split; [reflexivity|split; discriminate].
  - destruct (Nat.eq_dec q s) as [->|Hq].
    + unfold call. destruct (fget (r_tabs (state es) s) d0 n0) as [[c|f d|m]|] eqn:E; cbn [fst].
      2,3,4: right; right; (split; [reflexivity|]); (split; [|discriminate]); intros d1 n1 [= <- <-]; rewrite E; discriminate.
      destruct (I1 _ _ _ _ E) as (f & def & Ho & ->). cbn [c_file c_name r_tabs]. rewrite set_tab_same.
      destruct (load_offers major files f (pf_dir f) n0 (r_tabs (state es) s) (off_file major files _ _ _ _ Ho)) as [(x & K1 & K2)|[K1 _]].
      * rewrite K2. cbn [fst r_tabs]. rewrite set_tab_same. left. exists d0, n0, f, def. auto.
      * exfalso. apply K1. exists def. apply offers_iff in Ho as Ho'. destruct Ho' as (_ & Hd & _). now rewrite Hd.
    + right. right. split; [|split; [intros d1 n1 K; congruence|discriminate]]. unfold call. destruct (fget (r_tabs (state es) q) d0 n0) as [[c|f d|m]|] eqn:E; cbn [fst]; try reflexivity.
      cbn [r_tabs]. destruct (fget _ (pf_dir (c_file c)) (c_name c)) as [[c'|h x|m]|]; cbn [fst r_tabs]; try reflexivity; apply set_tab_other; congruence.
  - unfold add_function. destruct (Nat.eq_dec q s) as [->|Hq].
    + destruct (dget (r_tabs (state es) s) (KS d0)) as [sc|] eqn:Ed; cbn [fst r_tabs].
      * right. left. exists d0, n0, k. rewrite set_tab_same. auto.
      * right. right. split; [reflexivity|]. split; [discriminate|]. intros d1 n1 k1 n2 [= <- <- <-]. unfold fget. now rewrite Ed.
    + right. right. split; [|split; [discriminate|intros; congruence]]. destruct (dget (r_tabs (state es) q) (KS d0)); cbn [fst r_tabs]; [|reflexivity]. apply set_tab_other. congruence.
Qed.

Definition life (b : list rt_event) (s : nat) (dir name : str) (sl : slot) : Prop :=
  match sl with
  | Lazy c => exists f def, off dir name f def /\ c = mkC f name /\ ~ used b s f /\ forall m, ~ In (EAdd s dir name m) b
  | Real f d => off dir name f d /\ used b s f
  | Custom n => In (EAdd s dir name n) b
  end.
Lemma used_unchanged b e s f : (forall d0 n0 def, e = ECall s d0 n0 -> off d0 n0 f def -> used b s f \/ exists m, In (EAdd s d0 n0 m) b) ->
  used (b ++ [e]) s f -> used b s f.
Proof using.
  intros H K. apply used_snoc in K as [K|(d0 & n0 & def & -> & Ho & Ha)]; [exact K|].
  destruct (H d0 n0 def eq_refl Ho) as [K|[m K]]; [exact K|]. now destruct (Ha m).
Qed.
Lemma fget_cases (T : table_ slot) d n k d' n' : (d' = d /\ n' = n /\ fget (fput T d n (Custom k)) d' n' = Some (Custom k)) \/
  ((d', n') <> (d, n) /\ fget (fput T d n (Custom k)) d' n' = fget T d' n').
Proof using.
  rewrite fget_fput. destruct (str_eqb d' d && str_eqb n' n)%bool eqn:E.
  - apply andb_true_iff in E as [E1 E2]. apply str_eqb_eq in E1, E2. left. auto.
  - right. split; [|reflexivity]. intros K. injection K as -> ->. rewrite !str_eqb_refl in E. discriminate.
Qed.
Lemma in_snoc {A} (x e : A) b : In x (b ++ [e]) <-> In x b \/ x = e.
Proof using. rewrite in_app_iff. cbn. split; [intros [H|[H|[]]]; auto|intros [H|H]; auto]. Qed.

Lemma life_inv a s b : ~ In (ENew s) b -> forall dir name sl,
  fget (r_tabs (state (a ++ ENew s :: b)) s) dir name = Some sl -> life b s dir name sl.
Proof.
  induction b as [|e b IH] using rev_ind; intros Hb dir name sl.
  - rewrite rt_run_snoc. cbn [rt_step fst new_parser r_tabs]. rewrite set_tab_same, as_slots_get. intros H.
    destruct (fget (scan major files) dir name) as [c|] eqn:E; [|discriminate]. cbn in H. injection H as <-. cbn.
    apply (scan_offers major files dir name Hn) in E as (f & def & Ho & ->). exists f, def. split; [exact Ho|]. split; [reflexivity|]. split; [|intros m []].
    intros (b1 & d0 & n0 & x & b2 & K & _). destruct b1; discriminate.
  - assert (Hb' : ~ In (ENew s) b) by (intros K; apply Hb, in_snoc; now left).
    assert (He : e <> ENew s) by (intros ->; apply Hb, in_snoc; now right). specialize (IH Hb').
    rewrite app_comm_cons, app_assoc. destruct (tab_step (a ++ ENew s :: b) e s He) as [(d0 & n0 & g & x & -> & HL & Hg & ->)|[(d0 & n0 & k & -> & ->)|(-> & Hc & Hadd)]].
    + assert (Hug : used (b ++ [ECall s d0 n0]) s g).
      { apply used_snoc. right. exists d0, n0, x. split; [reflexivity|]. split; [exact Hg|]. destruct (IH _ _ _ HL) as (_ & _ & _ & _ & _ & K). exact K. }
      destruct (load_offers major files g dir name (r_tabs (state (a ++ ENew s :: b)) s) (off_file major files _ _ _ _ Hg)) as [(y & K1 & K2)|[K1 K2]]; rewrite K2.
      * intros [= <-]. split; [exact K1|exact Hug].
      * intros H. specialize (IH _ _ _ H). destruct sl as [c|f d|m]; cbn in *.
        -- destruct IH as (f & def & Ho & -> & Hu & Ha). exists f, def. split; [exact Ho|]. split; [reflexivity|]. split.
           ++ intros K. apply used_snoc in K as [K|(d1 & n1 & z & [= <- <-] & Hz & _)]; [contradiction|]. destruct (Hn _ _ _ _ _ _ Hg Hz) as [<- _]. apply K1. now exists def.
           ++ intros m K. apply in_snoc in K as [K|K]; [now apply (Ha m)|discriminate].
        -- destruct IH as [Ho Hu]. split; [exact Ho|]. apply used_snoc. now left.
        -- apply in_snoc. now left.
    + assert (HU : forall f, used (b ++ [EAdd s d0 n0 k]) s f <-> used b s f).
      { intros f. split; [apply used_unchanged; discriminate|]. intros K. apply used_snoc. now left. }
      destruct (fget_cases (r_tabs (state (a ++ ENew s :: b)) s) d0 n0 k dir name) as [(-> & -> & ->)|[Hd ->]].
      * intros [= <-]. cbn. apply in_snoc. now right.
      * intros H. specialize (IH _ _ _ H). destruct sl as [c|f d|m]; cbn in *.
        -- destruct IH as (f & def & Ho & -> & Hu & Ha). exists f, def. rewrite HU. split; [exact Ho|]. split; [reflexivity|]. split; [exact Hu|].
           intros m K. apply in_snoc in K as [K|K]; [now apply (Ha m)|]. injection K as -> -> ->. now apply Hd.
        -- now rewrite HU.
        -- apply in_snoc. now left.
    + intros H. pose proof (IH _ _ _ H) as L. destruct sl as [c|f d|m]; cbn in *.
      * destruct L as (f & def & Ho & -> & Hu & Ha). exists f, def. split; [exact Ho|]. split; [reflexivity|]. split.
        -- intros K. apply Hu. revert K. apply used_unchanged. intros d1 n1 z -> Hz.
           destruct (inv_run major files Hn (a ++ ENew s :: b)) as [_ I2].
           destruct (I2 s d1 n1 f z ltac:(apply in_or_app; right; now left) Hz) as [sl E].
           pose proof (IH _ _ _ E) as L. destruct sl as [c|h y|m]; cbn in L.
           ++ destruct (Hc d1 n1 eq_refl c E).
           ++ destruct L as [Hh Hu']. destruct (Hn _ _ _ _ _ _ Hz Hh) as [<- _]. now left.
           ++ right. now exists m.
        -- intros m K. apply in_snoc in K as [K|K]; [now apply (Ha m)|]. subst e. rewrite (Hadd dir name m name eq_refl) in H. discriminate.
      * destruct L as [Ho Hu]. split; [exact Ho|]. apply used_snoc. now left.
      * apply in_snoc. now left.
Qed.

(** exactly when the user's function stays *)
Theorem custom_exact a b es' s dir name n f def : ~ In (ENew s) b -> Forall (quiet s dir name) es' -> off dir name f def ->
  let es := a ++ ENew s :: b ++ [EAdd s dir name n] ++ es' in
  (used b s f \/ ~ used (b ++ [EAdd s dir name n] ++ es') s f -> exists r', call (state es) s dir name = Ok (CallCustom n, r')) /\
  (~ used b s f -> used (b ++ [EAdd s dir name n] ++ es') s f -> exists env r', call (state es) s dir name = Ok (CallReal f def env, r')).
Proof.
  intros Hb Hq Ho es.
  assert (Hadd : forall x, used (b ++ [EAdd s dir name n]) s x <-> used b s x).
  { intros x. split; [apply used_unchanged; discriminate|]. intros K. apply used_snoc. now left. }
  assert (K : let sl := fget (r_tabs (state es) s) dir name in
    (used b s f \/ ~ used (b ++ [EAdd s dir name n] ++ es') s f -> sl = Some (Custom n)) /\
    (~ used b s f -> used (b ++ [EAdd s dir name n] ++ es') s f -> sl = Some (Real f def))).
  { subst es. cbv zeta. induction es' as [|e es' IH] using rev_ind.
    - rewrite app_nil_r. change (a ++ ENew s :: b ++ [EAdd s dir name n]) with (a ++ (ENew s :: b) ++ [EAdd s dir name n]). rewrite app_assoc.
      assert (E : fget (r_tabs (state ((a ++ ENew s :: b) ++ [EAdd s dir name n])) s) dir name = Some (Custom n)).
      { apply add_sets; [exact Hn|now exists f, def, name|]. apply in_or_app. right. now left. }
      rewrite Hadd, E. split; [reflexivity|]. intros; contradiction.
    - apply Forall_app in Hq as [Hq He]. inversion He as [|? ? [He1 He2] _]; subst. specialize (IH Hq).
      set (c := b ++ [EAdd s dir name n] ++ es') in *.
      replace (a ++ ENew s :: b ++ [EAdd s dir name n] ++ es' ++ [e]) with ((a ++ ENew s :: c) ++ [e]) by (subst c; rewrite <- !app_assoc; cbn [app]; rewrite <- !app_assoc; reflexivity).
      replace (b ++ [EAdd s dir name n] ++ es' ++ [e]) with (c ++ [e]) by (subst c; rewrite <- !app_assoc; reflexivity).
      fold c in IH.
      assert (Hnc : ~ In (ENew s) c).
      { subst c. intros K. apply in_app_or in K as [K|K]; [contradiction|]. apply in_app_or in K as [[K|[]]|K]; [discriminate|]. rewrite Forall_forall in Hq. now destruct (Hq _ K). }
      pose proof (life_inv a s c Hnc) as L. destruct IH as [IH1 IH2].
      assert (Hm : used b s f -> used c s f).
      { intros (b1 & d0 & n0 & x & b2 & -> & H1 & H2). exists b1, d0, n0, x, (b2 ++ [EAdd s dir name n] ++ es'). subst c. rewrite <- app_assoc. auto. }
      destruct (tab_step (a ++ ENew s :: c) e s He1) as [(d0 & n0 & g & x & -> & HL & Hg & ->)|[(d0 & n0 & k & -> & ->)|(-> & Hc & _)]].
      + destruct (L _ _ _ HL) as (g' & x' & Hg' & Eg & Hu & Ha). injection Eg as <-.
        destruct (load_offers major files g dir name (r_tabs (state (a ++ ENew s :: c)) s) (off_file major files _ _ _ _ Hg)) as [(y & K1 & K2)|[K1 K2]]; rewrite K2.
        * destruct (Hn _ _ _ _ _ _ Ho K1) as [<- <-]. split; [|reflexivity]. intros [K|K]; [exfalso; now apply Hu, Hm|]. exfalso. apply K, used_snoc. right. exists d0, n0, x'. auto.
        * assert (Hgf : g <> f) by (intros ->; apply K1; now exists def).
          assert (HU : used (c ++ [ECall s d0 n0]) s f <-> used c s f).
          { split; [|intros K; apply used_snoc; now left]. intros K. apply used_snoc in K as [K|(d1 & n1 & z & [= <- <-] & Hz & _)]; [exact K|]. destruct (Hn _ _ _ _ _ _ Hg Hz) as [E _]. contradiction. }
          rewrite HU. split; assumption.
      + assert (HU : used (c ++ [EAdd s d0 n0 k]) s f <-> used c s f).
        { split; [apply used_unchanged; discriminate|]. intros K. apply used_snoc. now left. }
        rewrite HU. destruct (fget_cases (r_tabs (state (a ++ ENew s :: c)) s) d0 n0 k dir name) as [(-> & -> & _)|[_ ->]]; [|split; assumption]. now destruct (He2 k).
      + assert (HU : used (c ++ [e]) s f <-> used c s f).
        { split; [|intros K; apply used_snoc; now left]. apply used_unchanged. intros d1 n1 z -> Hz.
          destruct (inv_run major files Hn (a ++ ENew s :: c)) as [_ I2].
          destruct (I2 s d1 n1 f z ltac:(apply in_or_app; right; now left) Hz) as [sl E].
          pose proof (L _ _ _ E) as Lx. destruct sl as [cc|h y|m]; cbn in Lx.
          - destruct (Hc d1 n1 eq_refl cc E).
          - destruct Lx as [Hh Hu']. destruct (Hn _ _ _ _ _ _ Hz Hh) as [<- _]. now left.
          - right. now exists m. }
        rewrite HU. split; assumption. }
  destruct K as [K1 K2]. unfold call. split.
  - intros H. rewrite (K1 H). now eexists.
  - intros H1 H2. rewrite (K2 H1 H2). now eexists _, _.
Qed.
End Exact.
