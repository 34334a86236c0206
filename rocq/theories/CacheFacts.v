(** * CacheFacts: proofs about Cache.v. *)
From Verif Require Import PyBase DictFacts StrFacts Cache SpecCache.
Local Open Scope string_scope.
Local Open Scope list_scope.

(** ** tables *)
Lemma fget_fput {A} (t : table_ A) d n a d' n' :
  fget (fput t d n a) d' n' = if (str_eqb d' d && str_eqb n' n)%bool then Some a else fget t d' n'.
Proof.
  unfold fget, fput. rewrite dget_dset. cbn [key_eqb]. destruct (str_eqb d' d) eqn:E; cbn [andb]; [|reflexivity].
  apply str_eqb_eq in E as ->. rewrite dget_dset. cbn [key_eqb]. destruct (str_eqb n' n); [reflexivity|]. now destruct (dget t (KS d)).
Qed.
Lemma fget_fput_same {A} (t : table_ A) d n a : fget (fput t d n a) d n = Some a.
Proof. rewrite fget_fput, !str_eqb_refl. reflexivity. Qed.

(** ** the names offered *)
Lemma ends_with_iff suf s : ends_with suf s = true <-> exists b, s = b ++ suf.
Proof.
  unfold ends_with. rewrite prefixb_app. split.
  - intros [r Hr]. exists (rev r). rewrite <- (rev_involutive s), Hr, rev_app_distr, rev_involutive. reflexivity.
  - intros [b ->]. exists (rev b). apply rev_app_distr.
Qed.
Lemma ends_with_not suf s : ends_with suf s = false <-> forall b, s <> b ++ suf.
Proof.
  rewrite <- not_true_iff_false, ends_with_iff. split; [intros H b E; apply H; now exists b|intros H [b E]; now apply (H b)].
Qed.
Lemma prefixb_not p s : prefixb p s = false <-> forall b, s <> p ++ b.
Proof.
  rewrite <- not_true_iff_false, prefixb_app. split; [intros H b E; apply H; now exists b|intros H [b E]; now apply (H b)].
Qed.
Lemma used_iff major f : used_file major f = true <-> is_module major f.
Proof.
  unfold used_file, is_module. rewrite !andb_true_iff, !negb_true_iff, ends_with_iff, prefixb_not, ends_with_not, str_eqb_neq. tauto.
Qed.
Lemma public_iff f n : In n (public f) <-> In n (pf_defs f) /\ forall b, n <> $"_" ++ b.
Proof. unfold public. rewrite filter_In, negb_true_iff, prefixb_not. reflexivity. Qed.
Lemma mapped_iff f def name : mapped f def = name <-> dget (pf_map f) (KS def) = Some name \/ (dget (pf_map f) (KS def) = None /\ name = def).
Proof.
  unfold mapped. destruct (dget (pf_map f) (KS def)) as [m|]; split.
  - intros ->. now left.
  - intros [H|[H _]]; congruence.
  - intros ->. right. now split.
  - intros [H|[_ ->]]; congruence.
Qed.
Lemma offers_iff major files dir name f def : offers major files dir name f def <->
  In f (filter (used_file major) files) /\ pf_dir f = dir /\ In def (public f) /\ mapped f def = name.
Proof. unfold offers. rewrite filter_In, used_iff, public_iff, mapped_iff. tauto. Qed.

(** ** scanning *)
Lemma scan_file_get f dir name : forall ns t,
  let t' := fold_left (fun t n => fput t (pf_dir f) (mapped f n) (mkC f (mapped f n))) ns t in
  (pf_dir f = dir /\ (exists n, In n ns /\ mapped f n = name) -> fget t' dir name = Some (mkC f name)) /\
  (~ (pf_dir f = dir /\ exists n, In n ns /\ mapped f n = name) -> fget t' dir name = fget t dir name).
Proof.
  induction ns as [|n ns IH]; intros t; cbn [fold_left]; cbn zeta.
  - split; [intros (_ & n & [] & _)|reflexivity].
  - specialize (IH (fput t (pf_dir f) (mapped f n) (mkC f (mapped f n)))). cbn zeta in IH. destruct IH as [I1 I2].
    assert (D : {pf_dir f = dir /\ exists m, In m ns /\ mapped f m = name} + {~ (pf_dir f = dir /\ exists m, In m ns /\ mapped f m = name)}).
    { destruct (list_eq_dec Ascii.ascii_dec (pf_dir f) dir); [|right; tauto].
      destruct (in_dec (list_eq_dec Ascii.ascii_dec) name (map (mapped f) ns)) as [Hi|Hi].
      - left. split; [assumption|]. apply in_map_iff in Hi as (m & E & Hm). now exists m.
      - right. intros [_ (m & Hm & E)]. apply Hi. apply in_map_iff. now exists m. }
    split.
    + intros (Ed & m & Hm & Em). destruct D as [D|D]; [now apply I1|]. rewrite I2 by exact D. destruct Hm as [<-|Hm].
      * subst. apply fget_fput_same.
      * exfalso. apply D. split; [exact Ed|now exists m].
    + intros H. rewrite I2.
      * rewrite fget_fput. destruct (str_eqb dir (pf_dir f) && str_eqb name (mapped f n))%bool eqn:E; [|reflexivity].
        apply andb_true_iff in E as [E1 E2]. apply str_eqb_eq in E1, E2. exfalso. apply H. split; [congruence|]. exists n. split; [now left|congruence].
      * intros (Ed & m & Hm & Em). apply H. split; [exact Ed|]. exists m. split; [now right|exact Em].
Qed.
(** the last module that offers a name wins *)
Lemma scan_get_aux fs dir name : forall t,
  (forall c, fget (fold_left scan_file fs t) dir name = Some c ->
     fget t dir name = Some c \/ exists f def, In f fs /\ pf_dir f = dir /\ In def (public f) /\ mapped f def = name /\ c = mkC f name) /\
  (forall f def, In f fs -> pf_dir f = dir -> In def (public f) -> mapped f def = name -> exists c, fget (fold_left scan_file fs t) dir name = Some c) /\
  (forall c, fget t dir name = Some c -> exists c, fget (fold_left scan_file fs t) dir name = Some c).
Proof.
  induction fs as [|f fs IH]; intros t; cbn [fold_left].
  - split; [now left|]. split; [intros f def []|]. intros c H. now exists c.
  - destruct (IH (scan_file t f)) as (I1 & I2 & I3). destruct (scan_file_get f dir name (public f) t) as [S1 S2].
    change (fold_left (fun t n => fput t (pf_dir f) (mapped f n) (mkC f (mapped f n))) (public f) t) with (scan_file t f) in *.
    assert (D : {pf_dir f = dir /\ exists m, In m (public f) /\ mapped f m = name} + {~ (pf_dir f = dir /\ exists m, In m (public f) /\ mapped f m = name)}).
    { destruct (list_eq_dec Ascii.ascii_dec (pf_dir f) dir); [|right; tauto].
      destruct (in_dec (list_eq_dec Ascii.ascii_dec) name (map (mapped f) (public f))) as [Hi|Hi].
      - left. split; [assumption|]. apply in_map_iff in Hi as (m & E & Hm). now exists m.
      - right. intros [_ (m & Hm & E)]. apply Hi. apply in_map_iff. now exists m. }
    split; [|split].
    + intros c Hc. destruct (I1 c Hc) as [Hc'|(g & def & Hg & Hr)].
      * destruct D as [D|D].
        -- right. rewrite (S1 D) in Hc'. injection Hc' as <-. destruct D as [D1 (m & D2 & D3)]. exists f, m. split; [now left|auto].
        -- left. now rewrite (S2 D) in Hc'.
      * right. exists g, def. split; [now right|exact Hr].
    + intros g def [<-|Hg] E1 E2 E3; [|now apply (I2 g def)]. apply (I3 (mkC f name)). apply S1. split; [exact E1|now exists def].
    + intros c Hc. destruct D as [D|D]; [apply (I3 (mkC f name)); now apply S1|]. apply (I3 c). now rewrite S2.
Qed.
Theorem scan_offers major files dir name : no_clash major files ->
  forall c, fget (scan major files) dir name = Some c <-> exists f def, offers major files dir name f def /\ c = mkC f name.
Proof.
  intros Hn c. destruct (scan_get_aux (filter (used_file major) files) dir name []) as (I1 & I2 & _). fold (scan major files) in *. split.
  - intros H. destruct (I1 c H) as [K|(f & def & H1 & H2 & H3 & H4 & ->)]; [discriminate|]. exists f, def. split; [|reflexivity]. apply offers_iff. auto.
  - intros (f & def & Ho & ->). pose proof Ho as Ho'. apply offers_iff in Ho' as (H1 & H2 & H3 & H4). destruct (I2 f def H1 H2 H3 H4) as [c Hc].
    destruct (I1 c Hc) as [K|(g & def' & K1 & K2 & K3 & K4 & ->)]; [discriminate|]. assert (offers major files dir name g def') by (apply offers_iff; auto).
    destruct (Hn _ _ _ _ _ _ Ho H) as [-> _]. exact Hc.
Qed.

(** ** the cache *)
Section CacheHistory.
Variables (major : nat -> nat) (version : nat -> str) (contents : str -> list pyfile).
Definition sound_dict (d : ttpdict) : Prop := forall v, t_version d = Some v -> t_funs d = scan (t_major d) (contents v).
Definition sound_cache (c : cachefile) : Prop :=
  match c with CAbsent | CBroken => True | CHolds (PDict d) => sound_dict d | CHolds POther => False end.
Definition own (p : nat) : table_ cached := scan (major p) (contents (version p)).
Definition sound_proc (p : nat) (s : pstate) : Prop :=
  match s with
  | PStart | PDead => True
  | PReady t o => t = own p /\ match o with Some d => sound_dict d | None => True end
  | PWriting t d => t = own p /\ sound_dict d
  | PDone t => t = own p
  | PFailed => False
  end.
Lemma startup_sound p c : sound_cache c -> exists t o, startup (major p) (version p) (contents (version p)) c = Ok (t, o) /\ sound_proc p (PReady t o).
Proof.
  intros H. destruct c as [| |[d|]]; cbn [startup]; [| | |destruct H].
  - eexists _, _. split; [reflexivity|]. split; [reflexivity|]. intros v K. discriminate.
  - eexists _, _. split; [reflexivity|]. split; [reflexivity|]. intros v K. discriminate.
  - destruct (Nat.eqb (t_major d) (major p) && same_version (t_version d) (version p))%bool eqn:E.
    + apply andb_true_iff in E as [E1 E2]. apply Nat.eqb_eq in E1. destruct (t_version d) as [v|] eqn:Ev; [|discriminate]. cbn [same_version] in E2. apply str_eqb_eq in E2 as ->.
      eexists _, _. split; [reflexivity|]. split; [|exact I]. unfold own. rewrite <- E1. now apply H.
    + eexists _, _. split; [reflexivity|]. split; [reflexivity|]. intros v K. cbn in K. injection K as <-. reflexivity.
Qed.
Lemma set_proc_sound w p s : (forall q, sound_proc q (w_procs w q)) -> sound_proc p s -> forall q, sound_proc q (set_proc w p s q).
Proof. intros H Hs q. unfold set_proc. destruct (Nat.eqb q p) eqn:E; [apply Nat.eqb_eq in E as ->; exact Hs|apply H]. Qed.
Definition sound (w : world) : Prop := sound_cache (w_cache w) /\ forall p, sound_proc p (w_procs w p).
Theorem cache_step w w' : sound w -> cstep major version contents w w' -> sound w'.
Proof.
  intros [Hc Hp] H. destruct H as [w p t o E S|w p e E S|w p t E|w p t d E|w p t d E|w p t d E|w p t d E|w p t d E|w p|w]; unfold sound; cbn [w_cache w_procs].
  - split; [exact Hc|]. apply set_proc_sound; [exact Hp|]. destruct (startup_sound p (w_cache w) Hc) as (t' & o' & E' & K). congruence.
  - exfalso. destruct (startup_sound p (w_cache w) Hc) as (t' & o' & E' & K). congruence.
  - split; [exact Hc|]. apply set_proc_sound; [exact Hp|]. specialize (Hp p). rewrite E in Hp. apply Hp.
  - split; [exact I|]. apply set_proc_sound; [exact Hp|]. specialize (Hp p). rewrite E in Hp. exact Hp.
  - split; [exact Hc|]. apply set_proc_sound; [exact Hp|]. specialize (Hp p). rewrite E in Hp. apply Hp.
  - specialize (Hp p) as Hpp. rewrite E in Hpp. destruct Hpp as [H1 H2]. split; [exact H2|]. apply set_proc_sound; [exact Hp|exact H1].
  - split; [exact I|]. apply set_proc_sound; [exact Hp|]. specialize (Hp p). rewrite E in Hp. apply Hp.
  - split; [exact I|exact Hp].
  - split; [exact Hc|]. apply set_proc_sound; [exact Hp|exact I].
  - split; [exact I|exact Hp].
Qed.
Theorem cache_history c w : c = CAbsent \/ c = CBroken -> csteps major version contents (mkW c (fun _ => PStart)) w ->
  forall p, match w_procs w p with
            | PReady t _ | PWriting t _ | PDone t => t = scan (major p) (contents (version p))
            | PFailed => False
            | PStart | PDead => True
            end.
Proof.
  intros Hc H. assert (S : sound w).
  { remember (mkW c (fun _ => PStart)) as w0 eqn:E. induction H as [w|w1 w2 w3 _ IH K]; [|eapply cache_step; [now apply IH|exact K]].
    subst. split; [destruct Hc as [-> | ->]; exact I|intros p; exact I]. }
  intros p. destruct S as [_ S]. specialize (S p). destruct (w_procs w p); cbn in S; tauto.
Qed.
End CacheHistory.

(** ** calls *)
Lemma rt_run_app t es1 es2 : forall r, fst (rt_run t r (es1 ++ es2)) = fst (rt_run t (fst (rt_run t r es1)) es2).
Proof.
  induction es1 as [|e es1 IH]; intros r; [reflexivity|]. cbn [app rt_run]. destruct (rt_step t r e) as [r1 o1]. specialize (IH r1).
  destruct (rt_run t r1 (es1 ++ es2)) as [r2 o2]. destruct (rt_run t r1 es1) as [r3 o3]. cbn [fst] in *. now rewrite IH.
Qed.
Lemma rt_run_snoc t es e r : fst (rt_run t r (es ++ [e])) = fst (rt_step t (fst (rt_run t r es)) e).
Proof. rewrite rt_run_app. cbn [rt_run]. now destruct (rt_step t (fst (rt_run t r es)) e). Qed.
Lemma as_slots_get t dir name : fget (as_slots t) dir name = option_map Lazy (fget t dir name).
Proof.
  unfold fget, as_slots. induction t as [|[k d] t IH]; [reflexivity|]. cbn [map dget fst snd]. destruct (key_eqb (KS dir) k); [|exact IH].
  clear. induction d as [|[k' c] d IH]; [reflexivity|]. cbn [map dget fst snd]. destruct (key_eqb (KS name) k'); [reflexivity|exact IH].
Qed.
Lemma set_tab_same r s t : set_tab r s t s = t.
Proof. unfold set_tab. now rewrite Nat.eqb_refl. Qed.
Lemma set_tab_other r s t q : q <> s -> set_tab r s t q = r_tabs r q.
Proof. intros H. unfold set_tab. apply Nat.eqb_neq in H. now rewrite H. Qed.
Lemma load_get f dir name : forall ns (t : table_ slot),
  let t' := fold_left (fun t n => fput t (pf_dir f) (mapped f n) (Real f n)) ns t in
  (exists def, pf_dir f = dir /\ In def ns /\ mapped f def = name /\ fget t' dir name = Some (Real f def)) \/
  (~ (exists def, pf_dir f = dir /\ In def ns /\ mapped f def = name) /\ fget t' dir name = fget t dir name).
Proof.
  induction ns as [|n ns IH]; intros t; cbn [fold_left]; cbn zeta.
  - right. split; [intros (d & _ & [] & _)|reflexivity].
  - destruct (IH (fput t (pf_dir f) (mapped f n) (Real f n))) as [(def & H1 & H2 & H3 & H4)|[H1 H2]]; cbn zeta in *.
    + left. exists def. split; [exact H1|]. split; [now right|now split].
    + rewrite fget_fput in H2. destruct (str_eqb dir (pf_dir f) && str_eqb name (mapped f n))%bool eqn:E.
      * apply andb_true_iff in E as [E1 E2]. apply str_eqb_eq in E1, E2. left. exists n. split; [congruence|]. split; [now left|]. split; congruence.
      * right. split; [|exact H2]. intros (def & K1 & [<-|K2] & K3).
        -- subst. rewrite !str_eqb_refl in E. discriminate.
        -- apply H1. now exists def.
Qed.

Section Calls.
Variables (major : nat) (files : list pyfile).
Hypothesis Hn : no_clash major files.
Local Notation off := (offers major files).
Local Notation state es := (fst (rt_run (scan major files) rt_init es)).

Lemma load_offers f dir name (t : table_ slot) : In f (filter (used_file major) files) ->
  (exists def, off dir name f def /\ fget (load_module t f) dir name = Some (Real f def)) \/
  (~ (exists def, off dir name f def) /\ fget (load_module t f) dir name = fget t dir name).
Proof using.
  clear Hn. intros Hf. destruct (load_get f dir name (public f) t) as [(def & H1 & H2 & H3 & H4)|[H1 H2]].
  - left. exists def. split; [apply offers_iff; auto|exact H4].
  - right. split; [|exact H2]. intros (def & K). apply offers_iff in K as (_ & K1 & K2 & K3). apply H1. now exists def.
Qed.
Lemma off_file dir name f def : off dir name f def -> In f (filter (used_file major) files).
Proof using. clear Hn. intros H. now apply offers_iff in H. Qed.

(** every slot holds what is offered under its name, or what the user put there *)
Definition slot_ok (es : list rt_event) (s : nat) (dir name : str) (sl : slot) : Prop :=
  match sl with
  | Lazy c => exists f def, off dir name f def /\ c = mkC f name
  | Real f def => off dir name f def
  | Custom n => In (EAdd s dir name n) es
  end.
Definition inv (es : list rt_event) (r : runtime) : Prop :=
  (forall s dir name sl, fget (r_tabs r s) dir name = Some sl -> slot_ok es s dir name sl) /\
  (forall s dir name f def, In (ENew s) es -> off dir name f def -> exists sl, fget (r_tabs r s) dir name = Some sl).
Lemma slot_ok_mono es e s dir name sl : slot_ok es s dir name sl -> slot_ok (es ++ [e]) s dir name sl.
Proof using. clear Hn. destruct sl; cbn; auto. intros H. apply in_or_app. now left. Qed.
Lemma scan_slot es s dir name sl : fget (as_slots (scan major files)) dir name = Some sl -> slot_ok es s dir name sl.
Proof.
  rewrite as_slots_get. intros H. destruct (fget (scan major files) dir name) as [c|] eqn:E; [|discriminate]. cbn in H. injection H as <-. cbn.
  now apply (scan_offers major files dir name Hn) in E.
Qed.
Lemma new_in (es : list rt_event) e s : In (ENew s) (es ++ [e]) -> (forall q, e <> ENew q) -> In (ENew s) es.
Proof using. clear Hn. intros H He. apply in_app_or in H as [H|[H|[]]]; [exact H|]. now destruct (He s). Qed.
Lemma inv_step es r e : inv es r -> inv (es ++ [e]) (fst (rt_step (scan major files) r e)).
Proof.
  intros [I1 I2]. destruct e as [q|q d0 n0|q d0 n0 k]; cbn [rt_step].
  - cbn [fst new_parser r_tabs]. split.
    + intros s dir name sl H. cbn [r_tabs new_parser] in H. destruct (Nat.eq_dec s q) as [->|Hs]; [rewrite set_tab_same in H; eapply scan_slot, H|].
      rewrite set_tab_other in H by exact Hs. apply slot_ok_mono. now apply I1.
    + intros s dir name f def Hs Ho. cbn [r_tabs new_parser]. destruct (Nat.eq_dec s q) as [->|Hq].
      * rewrite set_tab_same, as_slots_get. assert (fget (scan major files) dir name = Some (mkC f name)) as -> by (apply (scan_offers major files dir name Hn); now exists f, def).
        now eexists.
      * rewrite set_tab_other by exact Hq. apply (I2 s dir name f def); [|exact Ho]. apply in_app_or in Hs as [Hs|[Hs|[]]]; [exact Hs|]. congruence.
  - assert (K : forall r', r' = r -> inv (es ++ [ECall q d0 n0]) r').
    { intros r' ->. split; [intros s dir name sl H; apply slot_ok_mono; now apply I1|]. intros s dir name f def Hs. apply I2. eapply new_in; [exact Hs|discriminate]. }
    unfold call. destruct (fget (r_tabs r q) d0 n0) as [[c|f d|n]|] eqn:E; cbn [fst]; try now apply K.
    destruct (I1 _ _ _ _ E) as (f & def & Ho & ->). cbn [c_file c_name]. cbn [r_tabs]. rewrite set_tab_same. pose proof (off_file _ _ _ _ Ho) as Hf.
    assert (L : inv (es ++ [ECall q d0 n0]) (mkRt (set_tab r q (load_module (r_tabs r q) f)) (dset (r_bind r) (module_key f) q))).
    { split.
      - intros s dir name sl H. cbn [r_tabs] in H. destruct (Nat.eq_dec s q) as [->|Hs].
        + rewrite set_tab_same in H. destruct (load_offers f dir name (r_tabs r q) Hf) as [(d & K1 & K2)|[_ K2]]; rewrite K2 in H.
          * injection H as <-. exact K1.
          * apply slot_ok_mono. now apply I1.
        + rewrite set_tab_other in H by exact Hs. apply slot_ok_mono. now apply I1.
      - intros s dir name g d Hs Hg. cbn [r_tabs]. apply new_in in Hs; [|discriminate]. destruct (Nat.eq_dec s q) as [->|Hq].
        + rewrite set_tab_same. destruct (load_offers f dir name (r_tabs r q) Hf) as [(x & _ & K2)|[_ K2]]; rewrite K2; [now eexists|]. now apply (I2 q dir name g d).
        + rewrite set_tab_other by exact Hq. now apply (I2 s dir name g d). }
    destruct (fget (load_module (r_tabs r q) f) (pf_dir f) n0) as [[c|g d|n]|]; cbn [fst]; try exact L; now apply K.
  - unfold add_function. destruct (dget (r_tabs r q) (KS d0)) as [sc|] eqn:E; cbn [fst].
    + split.
      * intros s dir name sl H. cbn [r_tabs] in H. destruct (Nat.eq_dec s q) as [->|Hs].
        -- rewrite set_tab_same, fget_fput in H. destruct (str_eqb dir d0 && str_eqb name n0)%bool eqn:Ed.
           ++ injection H as <-. apply andb_true_iff in Ed as [E1 E2]. apply str_eqb_eq in E1, E2. subst. cbn. apply in_or_app. right. now left.
           ++ apply slot_ok_mono. now apply I1.
        -- rewrite set_tab_other in H by exact Hs. apply slot_ok_mono. now apply I1.
      * intros s dir name g d Hs Hg. cbn [r_tabs]. apply new_in in Hs; [|discriminate]. destruct (Nat.eq_dec s q) as [->|Hq].
        -- rewrite set_tab_same, fget_fput. destruct (str_eqb dir d0 && str_eqb name n0)%bool; [now eexists|]. now apply (I2 q dir name g d).
        -- rewrite set_tab_other by exact Hq. now apply (I2 s dir name g d).
    + split; [intros s dir name sl H; apply slot_ok_mono; now apply I1|]. intros s dir name f def Hs. apply I2. eapply new_in; [exact Hs|discriminate].
Qed.
Lemma inv_run es : inv es (state es).
Proof.
  induction es as [|e es IH] using rev_ind.
  - split; [intros s dir name sl H; discriminate|intros s dir name f def []].
  - rewrite rt_run_snoc. now apply inv_step.
Qed.
(** a function that was not replaced is the one offered *)
Theorem call_offered es s dir name f def :
  In (ENew s) es -> off dir name f def -> (forall n, ~ In (EAdd s dir name n) es) ->
  exists env r', call (state es) s dir name = Ok (CallReal f def env, r').
Proof.
  intros Hs Ho Ha. destruct (inv_run es) as [I1 I2]. destruct (I2 s dir name f def Hs Ho) as [sl E]. pose proof (I1 _ _ _ _ E) as K.
  unfold call. rewrite E. destruct sl as [c|g d|n].
  - destruct K as (g & d & Hg & ->). destruct (Hn _ _ _ _ _ _ Ho Hg) as [<- <-]. cbn [c_file c_name r_tabs r_bind]. rewrite set_tab_same.
    destruct (load_offers f (pf_dir f) name (r_tabs (state es) s) (off_file _ _ _ _ Ho)) as [(x & K1 & K2)|[K1 _]].
    + rewrite K2. apply offers_iff in Ho as Ho'. destruct Ho' as (_ & Hd & _). rewrite Hd in K1. destruct (Hn _ _ _ _ _ _ Ho K1) as [_ <-]. now eexists _, _.
    + exfalso. apply K1. exists def. apply offers_iff in Ho as Ho'. destruct Ho' as (_ & Hd & _). now rewrite Hd.
  - destruct (Hn _ _ _ _ _ _ Ho K) as [<- <-]. now eexists _, _.
  - exfalso. now apply (Ha n).
Qed.
Theorem call_unknown es s dir name :
  (forall f def, ~ off dir name f def) -> (forall n, ~ In (EAdd s dir name n) es) -> call (state es) s dir name = Raise KeyError.
Proof.
  intros Ho Ha. destruct (inv_run es) as [I1 _]. unfold call. destruct (fget (r_tabs (state es) s) dir name) as [sl|] eqn:E; [|reflexivity].
  exfalso. pose proof (I1 _ _ _ _ E) as K. destruct sl as [c|g d|n]; cbn in K; [destruct K as (f & def & K & _); now apply (Ho f def)|now apply (Ho g d)|now apply (Ha n)].
Qed.

(** ** the user's functions *)
Definition quiet (s : nat) (dir name : str) (e : rt_event) : Prop := e <> ENew s /\ forall n, e <> EAdd s dir name n.
(** a custom function stays while no module it shares its name with is loaded *)
Lemma custom_stays es e s dir name n :
  quiet s dir name e ->
  (forall f def c d0 n0, off dir name f def -> fget (r_tabs (state es) s) d0 n0 = Some (Lazy c) -> c_file c <> f) ->
  fget (r_tabs (state es) s) dir name = Some (Custom n) ->
  fget (r_tabs (fst (rt_step (scan major files) (state es) e)) s) dir name = Some (Custom n).
Proof.
  intros [Q1 Q2] Hl H. destruct (inv_run es) as [I1 _]. set (r := state es) in *. destruct e as [q|q d0 n0|q d0 n0 k]; cbn [rt_step].
  - cbn [fst new_parser r_tabs]. rewrite set_tab_other; [exact H|congruence].
  - unfold call. destruct (fget (r_tabs r q) d0 n0) as [[c|f d|m]|] eqn:E; cbn [fst]; try exact H.
    destruct (I1 _ _ _ _ E) as (f & def & Ho & ->). cbn [c_file c_name r_tabs]. rewrite set_tab_same.
    assert (L : fget (set_tab r q (load_module (r_tabs r q) f) s) dir name = Some (Custom n)).
    { destruct (Nat.eq_dec s q) as [->|Hs]; [|now rewrite set_tab_other]. rewrite set_tab_same.
      destruct (load_offers f dir name (r_tabs r q) (off_file _ _ _ _ Ho)) as [(x & K1 & _)|[_ K2]]; [|congruence].
      exfalso. exact (Hl f x (mkC f n0) d0 n0 K1 E eq_refl). }
    destruct (fget (load_module (r_tabs r q) f) (pf_dir f) n0) as [[c|g d|m]|]; cbn [fst r_tabs]; auto.
  - unfold add_function. destruct (dget (r_tabs r q) (KS d0)) as [sc|]; cbn [fst]; [|exact H]. cbn [r_tabs].
    destruct (Nat.eq_dec s q) as [->|Hs]; [|now rewrite set_tab_other]. rewrite set_tab_same, fget_fput.
    destruct (str_eqb dir d0 && str_eqb name n0)%bool eqn:Ed; [|exact H]. apply andb_true_iff in Ed as [E1 E2]. apply str_eqb_eq in E1, E2. subst. now destruct (Q2 k).
Qed.
Lemma add_sets es s dir name n : (exists f def name', off dir name' f def) -> In (ENew s) es ->
  fget (r_tabs (state (es ++ [EAdd s dir name n])) s) dir name = Some (Custom n).
Proof.
  intros (f & def & name' & Ho) Hs. rewrite rt_run_snoc. cbn [rt_step]. unfold add_function. destruct (inv_run es) as [_ I2].
  destruct (I2 s dir name' f def Hs Ho) as [sl E]. unfold fget in E. destruct (dget (r_tabs (state es) s) (KS dir)) as [sc|]; [|discriminate].
  cbn [fst r_tabs]. rewrite set_tab_same. apply fget_fput_same.
Qed.
(** no module offers the name: the custom function stays *)
Theorem custom_kept_new es es' s dir name n :
  (exists f def name', off dir name' f def) -> In (ENew s) es -> (forall f def, ~ off dir name f def) ->
  Forall (quiet s dir name) es' ->
  exists r', call (state (es ++ [EAdd s dir name n] ++ es')) s dir name = Ok (CallCustom n, r').
Proof.
  intros Hd Hs Ho Hq. rewrite app_assoc. assert (K : fget (r_tabs (state ((es ++ [EAdd s dir name n]) ++ es')) s) dir name = Some (Custom n)).
  { induction es' as [|e es' IH] using rev_ind; [rewrite app_nil_r; now apply add_sets|]. apply Forall_app in Hq as [Hq He]. inversion He; subst.
    rewrite app_assoc, rt_run_snoc. apply custom_stays; [assumption| |now apply IH]. intros f def c d0 n0 K. now destruct (Ho f def). }
  unfold call. rewrite K. now eexists.
Qed.
(** the module was loaded by this parser before: the custom function stays *)
Definition loaded (r : runtime) (s : nat) (f : pyfile) : Prop := forall d0 n0 c, fget (r_tabs r s) d0 n0 = Some (Lazy c) -> c_file c <> f.
Lemma loaded_step es e s f : e <> ENew s -> loaded (state es) s f -> loaded (fst (rt_step (scan major files) (state es) e)) s f.
Proof.
  intros Q1 Hl. destruct (inv_run es) as [I1 _]. set (r := state es) in *. destruct e as [q|q d0 n0|q d0 n0 k]; cbn [rt_step].
  - cbn [fst]. intros d1 n1 c. unfold new_parser. cbn [r_tabs]. rewrite set_tab_other by congruence. apply Hl.
  - unfold call. destruct (fget (r_tabs r q) d0 n0) as [[c|g d|m]|] eqn:E; cbn [fst]; try exact Hl.
    destruct (I1 _ _ _ _ E) as (g & def & Ho & ->). cbn [c_file c_name r_tabs]. rewrite set_tab_same.
    assert (L : loaded (mkRt (set_tab r q (load_module (r_tabs r q) g)) (dset (r_bind r) (module_key g) q)) s f).
    { intros d1 n1 c. cbn [r_tabs]. destruct (Nat.eq_dec s q) as [->|Hs]; [|rewrite set_tab_other by exact Hs; apply Hl]. rewrite set_tab_same.
      destruct (load_offers g d1 n1 (r_tabs r q) (off_file _ _ _ _ Ho)) as [(x & _ & K2)|[_ K2]]; rewrite K2; [discriminate|apply Hl]. }
    destruct (fget (load_module (r_tabs r q) g) (pf_dir g) n0) as [[c|h d|m]|]; cbn [fst]; auto.
  - unfold add_function. destruct (dget (r_tabs r q) (KS d0)) as [sc|]; cbn [fst]; [|exact Hl]. intros d1 n1 c. cbn [r_tabs].
    destruct (Nat.eq_dec s q) as [->|Hs]; [|rewrite set_tab_other by exact Hs; apply Hl]. rewrite set_tab_same, fget_fput.
    destruct (str_eqb d1 d0 && str_eqb n1 n0)%bool; [discriminate|apply Hl].
Qed.
Lemma load_loaded es s f (t' : table_ slot) b : In f (filter (used_file major) files) -> t' = load_module (r_tabs (state es) s) f ->
  loaded (mkRt (set_tab (state es) s t') b) s f.
Proof.
  intros Hf -> d1 n1 c. cbn [r_tabs]. rewrite set_tab_same. destruct (load_offers f d1 n1 (r_tabs (state es) s) Hf) as [(x & _ & K2)|[K1 K2]]; rewrite K2; [discriminate|].
  intros Hc Hff. destruct (inv_run es) as [I1 _]. destruct (I1 _ _ _ _ Hc) as (h & y & Hh & ->). cbn in Hff. subst h. apply K1. now exists y.
Qed.
(** a module one of whose functions is in place is loaded *)
Lemma real_loaded es s d0 n0 f d : fget (r_tabs (state es) s) d0 n0 = Some (Real f d) -> loaded (state es) s f.
Proof.
  revert s d0 n0 f d. induction es as [|e es IH] using rev_ind; intros s d0 n0 f d; [discriminate|]. rewrite rt_run_snoc.
  destruct (inv_run es) as [I1 _]. destruct e as [q|q d1 n1|q d1 n1 k]; cbn [rt_step].
  - cbn [fst]. unfold new_parser. cbn [r_tabs]. destruct (Nat.eq_dec s q) as [->|Hs].
    + rewrite set_tab_same, as_slots_get. destruct (fget (scan major files) d0 n0); discriminate.
    + rewrite set_tab_other by exact Hs. intros H d2 n2 c. cbn [r_tabs]. rewrite set_tab_other by exact Hs. exact (IH s d0 n0 f d H d2 n2 c).
  - unfold call. destruct (fget (r_tabs (state es) q) d1 n1) as [[c|g x|m]|] eqn:E; cbn [fst]; try apply IH.
    destruct (I1 _ _ _ _ E) as (g & def & Ho & ->). cbn [c_file c_name r_tabs]. rewrite set_tab_same.
    assert (L : fget (set_tab (state es) q (load_module (r_tabs (state es) q) g) s) d0 n0 = Some (Real f d) ->
      loaded (mkRt (set_tab (state es) q (load_module (r_tabs (state es) q) g)) (dset (r_bind (state es)) (module_key g) q)) s f).
    { destruct (Nat.eq_dec s q) as [->|Hs].
      - rewrite set_tab_same. destruct (load_offers g d0 n0 (r_tabs (state es) q) (off_file _ _ _ _ Ho)) as [(x & _ & K2)|[_ K2]]; rewrite K2; intros H.
        + injection H as <- <-. apply load_loaded; [exact (off_file _ _ _ _ Ho)|reflexivity].
        + intros d2 n2 c. cbn [r_tabs]. rewrite set_tab_same. destruct (load_offers g d2 n2 (r_tabs (state es) q) (off_file _ _ _ _ Ho)) as [(y & _ & K3)|[_ K3]]; rewrite K3; [discriminate|].
          exact (IH q d0 n0 f d H d2 n2 c).
      - rewrite set_tab_other by exact Hs. intros H d2 n2 c. cbn [r_tabs]. rewrite set_tab_other by exact Hs. exact (IH s d0 n0 f d H d2 n2 c). }
    destruct (fget (load_module (r_tabs (state es) q) g) (pf_dir g) n1) as [[c|h x|m]|]; cbn [fst r_tabs]; auto; apply IH.
  - unfold add_function. destruct (dget (r_tabs (state es) q) (KS d1)) as [sc|]; cbn [fst]; [|apply IH]. cbn [r_tabs].
    destruct (Nat.eq_dec s q) as [->|Hs].
    + rewrite set_tab_same, fget_fput. destruct (str_eqb d0 d1 && str_eqb n0 n1)%bool; [discriminate|]. intros H d2 n2 c. cbn [r_tabs]. rewrite set_tab_same, fget_fput.
      destruct (str_eqb d2 d1 && str_eqb n2 n1)%bool; [discriminate|]. exact (IH q d0 n0 f d H d2 n2 c).
    + rewrite set_tab_other by exact Hs. intros H d2 n2 c. cbn [r_tabs]. rewrite set_tab_other by exact Hs. exact (IH s d0 n0 f d H d2 n2 c).
Qed.
Lemma call_loads es s dir name f def : In (ENew s) es -> off dir name f def -> (forall n, ~ In (EAdd s dir name n) es) ->
  loaded (state (es ++ [ECall s dir name])) s f.
Proof.
  intros Hs Ho Ha. rewrite rt_run_snoc. destruct (inv_run es) as [I1 I2]. destruct (I2 s dir name f def Hs Ho) as [sl E]. pose proof (I1 _ _ _ _ E) as K. destruct sl as [c|g d|n].
  - destruct K as (g & d & Hg & ->). destruct (Hn _ _ _ _ _ _ Ho Hg) as [<- <-]. cbn [rt_step]. unfold call. rewrite E. cbn [c_file c_name r_tabs]. rewrite set_tab_same.
    destruct (load_offers f (pf_dir f) name (r_tabs (state es) s) (off_file _ _ _ _ Ho)) as [(x & K1 & K2)|[K1 _]].
    + rewrite K2. cbn [fst]. apply load_loaded; [exact (off_file _ _ _ _ Ho)|reflexivity].
    + exfalso. apply K1. exists def. apply offers_iff in Ho as Ho'. destruct Ho' as (_ & Hd & _). now rewrite Hd.
  - destruct (Hn _ _ _ _ _ _ Ho K) as [<- <-]. cbn [rt_step]. unfold call. rewrite E. cbn [fst]. exact (real_loaded es s dir name f def E).
  - exfalso. now apply (Ha n).
Qed.
(** a custom function that replaces one of a module the parser has used already stays *)
Theorem custom_kept_loaded es0 es1 es2 s dir name n f def dir0 name0 def0 :
  In (ENew s) es0 -> off dir0 name0 f def0 -> (forall n, ~ In (EAdd s dir0 name0 n) es0) -> off dir name f def ->
  ~ In (ENew s) es1 -> Forall (quiet s dir name) es2 ->
  exists r', call (state (es0 ++ [ECall s dir0 name0] ++ es1 ++ [EAdd s dir name n] ++ es2)) s dir name = Ok (CallCustom n, r').
Proof.
  intros Hs H0 Ha Ho H1 H2. set (E0 := es0 ++ [ECall s dir0 name0]).
  assert (L0 : loaded (state E0) s f) by (now apply (call_loads es0 s dir0 name0 f def0)).
  assert (L1 : forall es', ~ In (ENew s) es' -> loaded (state (E0 ++ es')) s f).
  { induction es' as [|e es' IH] using rev_ind; intros Hin; [now rewrite app_nil_r|]. rewrite app_assoc, rt_run_snoc. apply loaded_step.
    - intros ->. apply Hin, in_or_app. right. now left.
    - apply IH. intros K. apply Hin, in_or_app. now left. }
  replace (es0 ++ [ECall s dir0 name0] ++ es1 ++ [EAdd s dir name n] ++ es2) with (((E0 ++ es1) ++ [EAdd s dir name n]) ++ es2) by (subst E0; now rewrite <- !app_assoc).
  assert (K : fget (r_tabs (state (((E0 ++ es1) ++ [EAdd s dir name n]) ++ es2)) s) dir name = Some (Custom n)).
  { induction es2 as [|e es2 IH] using rev_ind.
    - rewrite app_nil_r. apply add_sets; [now exists f, def, name|]. apply in_or_app. left. subst E0. apply in_or_app. now left.
    - apply Forall_app in H2 as [H2 He]. inversion He; subst. rewrite app_assoc, rt_run_snoc. apply custom_stays; [assumption| |now apply IH].
      intros g d c d1 n1 Hg Hc. destruct (Hn _ _ _ _ _ _ Ho Hg) as [<- _]. revert d1 n1 c Hc. fold (loaded (state (((E0 ++ es1) ++ [EAdd s dir name n]) ++ es2)) s f).
      rewrite <- !app_assoc. rewrite app_assoc. rewrite <- app_assoc. apply (L1 (es1 ++ [EAdd s dir name n] ++ es2)). intros K. apply in_app_or in K as [K|K]; [contradiction|].
      apply in_app_or in K as [[K|[]]|K]; [discriminate|]. rewrite Forall_forall in H2. now destruct (H2 _ K). }
  unfold call. rewrite K. now eexists.
Qed.
End Calls.
