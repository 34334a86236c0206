(** * ParserFacts2: order, windows, defaults, end lines, independence of inputs. *)
From Verif Require Import PyBase DictFacts Results MatchFuncs Parser SpecParser ParserFacts.
From Coq Require Import Sorting.Sorted Sorting.Permutation.

(** ** the values of one line *)
Lemma line_values_none (spec : list (str * var_spec)) temp : (forall n d, In (n, d) temp -> exists k gs, assoc n spec = Some (k, gs)) ->
  line_values spec temp = None <->
  exists n d k gs, In (n, d) temp /\ assoc n spec = Some (k, gs) /\ through gs d = None.
Proof.
  induction temp as [|[n d] temp IH]; intros H.
  - split; [discriminate|]. intros (n & d & k & gs & [] & _).
  - destruct (H n d (or_introl eq_refl)) as (k & gs & Hs). cbn [line_values]. rewrite Hs.
    assert (H' : forall n d, In (n, d) temp -> exists k gs, assoc n spec = Some (k, gs)) by (intros; eapply H; right; eauto).
    specialize (IH H'). destruct (through gs d) as [v|] eqn:E.
    + destruct (line_values spec temp) as [l|].
      * split; [discriminate|]. intros (n' & d' & k' & gs' & [Hi|Hi] & A & B).
        -- injection Hi as <- <-. rewrite Hs in A. injection A as <- <-. congruence.
        -- assert (Some l = None) by (apply IH; eauto 8). discriminate.
      * split; [|reflexivity]. intros _. destruct (proj1 IH eq_refl) as (n' & d' & k' & gs' & A & B). exists n', d', k', gs'. split; [now right|exact B].
    + split; [|reflexivity]. intros _. exists n, d, k, gs. split; [now left|auto].
Qed.
Lemma line_values_In spec temp : forall l, line_values spec temp = Some l -> forall n d, In (n, d) temp ->
  exists k gs v, assoc n spec = Some (k, gs) /\ through gs d = Some v /\ In (k, v) l.
Proof.
  induction temp as [|[n0 d0] temp IH]; intros l Hl n d Hi; [contradiction|]. cbn [line_values] in Hl.
  destruct (assoc n0 spec) as [[k gs]|] eqn:E; [|discriminate]. destruct (through gs d0) as [v|] eqn:Et; [|discriminate].
  destruct (line_values spec temp) as [l'|]; [|discriminate]. injection Hl as <-. destruct Hi as [Hi|Hi].
  - injection Hi as <- <-. exists k, gs, v. split; [exact E|]. split; [exact Et|]. now left.
  - destruct (IH l' eq_refl n d Hi) as (k' & gs' & v' & A & B & C). exists k', gs', v'. split; [exact A|]. split; [exact B|]. now right.
Qed.
Lemma dset_fresh (d : dict) k v : ~ In k (dkeys d) -> dset d k v = d ++ [(k, v)].
Proof.
  induction d as [|[k' v'] d IH]; intros H; [reflexivity|]. cbn [dset]. destruct (key_eqb_spec k k') as [->|Hk].
  - exfalso. apply H. now left.
  - cbn [app]. rewrite IH; [reflexivity|]. intros Hi. apply H. now right.
Qed.
Lemma dupdate_fresh (l : dict) : forall d, NoDup (dkeys d ++ dkeys l) -> dupdate d l = d ++ l.
Proof.
  induction l as [|[k v] l IH]; intros d H; [now rewrite app_nil_r|]. rewrite dupdate_cons. cbn [dkeys map fst] in H.
  assert (Hk : ~ In k (dkeys d)). { apply NoDup_remove_2 in H. intros Hi. apply H. apply in_or_app. now left. }
  rewrite (dset_fresh d k v Hk). rewrite IH; [now rewrite <- app_assoc|]. unfold dkeys in *. rewrite map_app. cbn [map fst].
  rewrite <- app_assoc. exact H.
Qed.

Section PF2.
Variable F : Type.
Notation found := (list (Z * list (item F))).

Theorem line_result R start env rs m spec :
  vars_are (p_vars F R) spec (temp_of F R m) ->
  let pos := (start + Z.of_nat (pm_start m))%Z in
  check_one F R start (env, rs) m =
  Ok (env, match line_values spec (temp_of F R m) with
           | Some l => add_at F pos (p_re F R, Some (dupdate [] l)) rs
           | None => if is_start (r_action F (p_re F R)) then add_at F pos (p_re F R, None) rs else rs
           end).
Proof.
  intros H pos. unfold check_one. rewrite (run_vars_plain _ _ _ H). cbn [rbind].
  destruct (line_values spec (temp_of F R m)); [reflexivity|]. now destruct (is_start _).
Qed.

(** ** positions are distinct keys *)
Definition keys (rs : found) : list Z := map fst rs.
Lemma add_at_keys p x rs : keys (add_at F p x rs) = if has_key F p rs then keys rs else keys rs ++ [p].
Proof.
  induction rs as [|[q l] rs IH]; [reflexivity|]. cbn [add_at has_key existsb fst]. destruct (Z.eqb_spec p q) as [->|H]; [reflexivity|].
  cbn [orb keys map fst]. unfold keys in IH. rewrite IH. unfold has_key. now destruct (existsb _ rs).
Qed.
Lemma has_key_In p (rs : found) : has_key F p rs = true <-> In p (keys rs).
Proof.
  unfold has_key, keys. rewrite existsb_exists, in_map_iff. split.
  - intros ([q l] & Hi & He). apply Z.eqb_eq in He. exists (q, l). auto.
  - intros ([q l] & <- & Hi). exists (q, l). split; [exact Hi|]. apply Z.eqb_refl.
Qed.
Lemma NoDup_snoc {A} (l : list A) x : NoDup l -> ~ In x l -> NoDup (l ++ [x]).
Proof.
  intros Hl Hx. rewrite <- (rev_involutive (l ++ [x])), rev_app_distr. apply NoDup_rev. cbn. constructor.
  - now rewrite <- in_rev.
  - now apply NoDup_rev.
Qed.
Lemma add_at_nodup p x rs : NoDup (keys rs) -> NoDup (keys (add_at F p x rs)).
Proof.
  intros H. rewrite add_at_keys. destruct (has_key F p rs) eqn:E; [exact H|]. apply NoDup_snoc; [exact H|].
  rewrite <- has_key_In. congruence.
Qed.
Lemma check_one_nodup R start st m st' : check_one F R start st m = Ok st' -> NoDup (keys (snd st)) -> NoDup (keys (snd st')).
Proof.
  unfold check_one. destruct st as [env rs]. destruct (run_vars _ _ env []) as [[env' r]|e]; cbn [rbind]; [|discriminate].
  intros H Hn. destruct r as [d|]; [|destruct (is_start _)]; injection H as <-; cbn [snd] in *; auto using add_at_nodup.
Qed.
Lemma rfold_inv {A B} (f : A -> B -> res A) (P : A -> Prop) (l : list B) :
  (forall a b a', In b l -> f a b = Ok a' -> P a -> P a') -> forall a a', rfold f l a = Ok a' -> P a -> P a'.
Proof.
  induction l as [|b l IH]; intros H a a' Hr HP; [injection Hr as <-; exact HP|]. cbn [rfold] in Hr.
  destruct (f a b) as [a1|] eqn:E; cbn [rbind] in Hr; [|discriminate].
  eapply IH; [intros; eapply H; eauto; now right|exact Hr|]. eapply H; eauto. now left.
Qed.
Lemma check_matches_nodup R start ms st st' : check_matches F R ms start st = Ok st' -> NoDup (keys (snd st)) -> NoDup (keys (snd st')).
Proof.
  unfold check_matches. apply (rfold_inv _ (fun st => NoDup (keys (snd st)))).
  intros a b a' _ H. eapply check_one_nodup, H.
Qed.

(** the first free key *)
Lemma free_key_free n : forall k (rs : found) used,
  NoDup used -> incl used (keys rs) -> Forall (fun u => (u < k)%Z) used -> length (keys rs) < n + length used ->
  ~ In (free_key F n k rs) (keys rs).
Proof.
  induction n as [|n IH]; intros k rs used Hn Hi Hk Hl.
  - exfalso. pose proof (NoDup_incl_length Hn Hi). simpl in Hl. lia.
  - cbn [free_key]. destruct (has_key F k rs) eqn:E; [|rewrite <- has_key_In; congruence].
    apply (IH (k + 1)%Z rs (k :: used)).
    + constructor; [|exact Hn]. intros Hx. rewrite Forall_forall in Hk. specialize (Hk k Hx). lia.
    + intros x [<-|Hx]; [now apply has_key_In|now apply Hi].
    + constructor; [lia|]. eapply Forall_impl; [|exact Hk]. intros; simpl in *; lia.
    + simpl. lia.
Qed.
Lemma free_key_min n : forall k (rs : found) z, (k <= z < free_key F n k rs)%Z -> In z (keys rs).
Proof.
  induction n as [|n IH]; intros k rs z; cbn [free_key]; [lia|]. destruct (has_key F k rs) eqn:E; [|lia].
  intros H. destruct (Z.eq_dec z k) as [->|Hz]; [now apply has_key_In|]. apply (IH (k + 1)%Z rs z). lia.
Qed.
Lemma place_default_free (rs : found) : ~ In (free_key F (S (length rs)) default_key rs) (keys rs).
Proof.
  apply free_key_free with (used := []); [constructor|intros x []|constructor|]. unfold keys. rewrite map_length. simpl. lia.
Qed.
Lemma place_default_nodup g starts (rs : found) : NoDup (keys rs) -> NoDup (keys (place_default F g starts rs)).
Proof.
  intros H. unfold place_default, keys. rewrite map_app. cbn [map fst]. apply NoDup_snoc; [exact H|]. apply place_default_free.
Qed.
Lemma nodup_map_filter {A B} (f : A -> B) p l : NoDup (map f l) -> NoDup (map f (filter p l)).
Proof.
  induction l as [|x l IH]; intros H; [constructor|]. inversion H; subst. cbn [filter]. destruct (p x); [|auto].
  cbn [map]. constructor; [|auto]. intros Hi. apply H2. apply in_map_iff in Hi as (y & Hy & Hf). apply filter_In in Hf as [Hf _].
  rewrite <- Hy. now apply in_map.
Qed.
Lemma cleanup_nodup g stop (rs : found) : NoDup (keys rs) -> NoDup (keys (cleanup F g stop rs)).
Proof.
  intros H. unfold cleanup, keys. apply nodup_map_filter. rewrite map_map. cbn [fst]. exact H.
Qed.

Lemma run_re_nodup text G : forall st start stop st', run_re F text G st start stop = Ok st' ->
  NoDup (keys (snd st)) -> NoDup (keys (snd st')).
Proof.
  induction G as [g a b c d cs IH] using (pgroup_ind' F). intros st start stop st' H Hn. rewrite run_re_eq in H.
  destruct (rfold (do_start F text start stop) a _) as [acc|] eqn:EA; cbn [rbind] in H; [|discriminate].
  assert (HA : NoDup (keys (snd (sa_st F acc)))).
  { refine (rfold_inv _ (fun x => NoDup (keys (snd (sa_st F x)))) a _ _ _ EA Hn).
    intros x R x' _ Hx Hp. unfold do_start in Hx. destruct (p_find F R _) as [|m ms]; [injection Hx as <-; exact Hp|].
    destruct (check_matches F R _ start _) as [s1|] eqn:E; cbn [rbind] in Hx; [|discriminate].
    injection Hx as <-. cbn [sa_st]. eapply check_matches_nodup; eauto. }
  destruct (sa_found F acc); cbn [negb] in H.
  - destruct (rfold _ b _) as [[e stB]|] eqn:EB; cbn [rbind] in H; [|discriminate].
    assert (HB : NoDup (keys (snd stB))).
    { change stB with (snd (e, stB)). refine (rfold_inv _ (fun x => NoDup (keys (snd (snd x)))) b _ _ _ EB HA).
      intros x R x' _ Hx Hp. unfold do_end in Hx. destruct (p_find F R _) as [|m ms]; [injection Hx as <-; exact Hp|].
      destruct (check_matches F R _ _ _) as [s1|] eqn:E; cbn [rbind] in Hx; [|discriminate].
      injection Hx as <-. cbn [snd]. eapply check_matches_nodup; eauto. }
    destruct (rfold _ c _) as [stC|] eqn:EC; cbn [rbind] in H; [|discriminate].
    assert (HC : NoDup (keys (snd stC))).
    { refine (rfold_inv _ (fun x => NoDup (keys (snd x))) c _ _ _ EC _).
      - intros x R x' _ Hx Hp. eapply check_matches_nodup; eauto.
      - destruct (Z.eqb e (-1)); [exact HB|]. cbn [snd]. now apply cleanup_nodup. }
    clear -IH H HC. revert stC H HC. induction cs as [|x cs IHc]; intros s H Hs; [injection H as <-; exact Hs|].
    inversion IH as [|? ? Hx Hcs]; subst. cbn [kids_all] in H. destruct (run_re F text x s _ _) as [s1|] eqn:E; cbn [rbind] in H; [|discriminate].
    exact (IHc Hcs s1 H (Hx _ _ _ _ E Hs)).
  - assert (HD : NoDup (keys (snd (if d then (fst (sa_st F acc), place_default F g a (snd (sa_st F acc))) else sa_st F acc)))).
    { destruct d; [|exact HA]. now apply place_default_nodup. }
    revert H HD. generalize (if d then (fst (sa_st F acc), place_default F g a (snd (sa_st F acc))) else sa_st F acc).
    clear -IH. induction cs as [|x cs IHc]; intros s H Hs; [injection H as <-; exact Hs|].
    inversion IH as [|? ? Hx Hcs]; subst. cbn [kids_def] in H. destruct (_ || _)%bool.
    + destruct (run_re F text x s _ _) as [s1|] eqn:E; cbn [rbind] in H; [|discriminate]. exact (IHc Hcs s1 H (Hx _ _ _ _ E Hs)).
    + exact (IHc Hcs s H Hs).
Qed.

(** ** sorting *)
Lemma insert_perm x (l : found) : Permutation (x :: l) (insert_found F x l).
Proof.
  induction l as [|y l IH]; [reflexivity|]. cbn [insert_found]. destruct (Z.leb _ _); [reflexivity|].
  rewrite perm_swap. now constructor.
Qed.
Lemma sort_perm (l : found) : Permutation l (sort_found F l).
Proof.
  induction l as [|x l IH]; [reflexivity|]. cbn [sort_found fold_right]. rewrite <- insert_perm. now constructor.
Qed.
Definition le_pos (a b : Z * list (item F)) : Prop := (fst a <= fst b)%Z.
Lemma insert_sorted x (l : found) : StronglySorted le_pos l -> StronglySorted le_pos (insert_found F x l).
Proof.
  induction l as [|y l IH]; intros H; [repeat constructor|]. cbn [insert_found]. pose proof H as H0.
  apply StronglySorted_inv in H as [Hl Hy]. destruct (Z.leb_spec (fst x) (fst y)) as [Hle|Hlt].
  - constructor; [exact H0|]. constructor; [exact Hle|]. eapply Forall_impl; [|exact Hy]. unfold le_pos. intros; lia.
  - constructor; [now apply IH|]. rewrite Forall_forall in Hy |- *. intros z Hz.
    apply (Permutation_in _ (Permutation_sym (insert_perm x l))) in Hz as [<-|Hz]; [unfold le_pos; lia|now apply Hy].
Qed.
Lemma sort_sorted (l : found) : StronglySorted le_pos (sort_found F l).
Proof. induction l as [|x l IH]; [constructor|]. cbn [sort_found fold_right]. now apply insert_sorted. Qed.

Definition lt_pos (a b : Z * list (item F)) : Prop := (fst a < fst b)%Z.
Lemma strict (l : found) : NoDup (map fst l) -> StronglySorted le_pos l -> StronglySorted lt_pos l.
Proof.
  induction l as [|x l IH]; intros Hn Hs; [constructor|]. inversion Hn; subst. apply StronglySorted_inv in Hs as [Hs Hx].
  constructor; [now apply IH|]. rewrite Forall_forall in Hx |- *. intros y Hy. specialize (Hx y Hy).
  unfold le_pos, lt_pos in *. assert (fst x <> fst y). { intros E. apply H1. rewrite E. now apply in_map. } lia.
Qed.

Theorem text_order text G env env' rs : run_re F text G (env, []) 0 (-1) = Ok (env', rs) ->
  exists sorted, raw_of F rs = map snd sorted /\ Permutation rs sorted /\ StronglySorted lt_pos sorted.
Proof.
  intros H. exists (sort_found F rs). split; [reflexivity|]. split; [apply sort_perm|].
  apply strict; [|apply sort_sorted]. eapply Permutation_NoDup; [apply Permutation_map, sort_perm|].
  apply (run_re_nodup _ _ _ _ _ _ H). constructor.
Qed.

(** no candidate set is empty *)
Definition full (rs : found) : Prop := Forall (fun e => snd e <> []) rs.

(** ** where a group's matches are *)
Definition pos_or_default (lo : Z) (q : Z) (y : item F) : Prop := (lo <= q)%Z \/ (is_default F y /\ (default_key <= q)%Z).

Lemma start_dec text (G : pgroup F) start stop :
  (exists p, start_at F text G start stop p) \/ forall p, ~ start_at F text G start stop p.
Proof.
  destruct G as [g a b c d cs]. unfold start_at. cbn [starts_of]. induction a as [|R l IH].
  - right. intros p (R & m & [] & _).
  - destruct IH as [(p & R0 & m & HR & Hm)|IH]; [left; exists p, R0, m; split; [now right|exact Hm]|].
    destruct (p_find F R (slice text start stop)) as [|m ms] eqn:E.
    + right. intros p (R0 & m & [<-|HR] & Hm & Hp); [rewrite E in Hm; contradiction|]. apply (IH p). exists R0, m. auto.
    + left. exists (start + Z.of_nat (pm_start m))%Z, R, m. split; [now left|]. rewrite E. split; [now left|reflexivity].
Qed.

Theorem nothing_before_start text G start stop st st' :
  tree_ok F G -> (0 <= start <= stop_pos text stop)%Z ->
  run_re F text G st start stop = Ok st' ->
  (exists p, start_at F text G start stop p) ->
  exists first, start_at F text G start stop first /\
    (forall p, start_at F text G start stop p -> (first <= p)%Z) /\
    forall q y, at_pos (snd st') q y -> at_pos (snd st) q y \/ (first <= q)%Z \/ (is_default F y /\ (default_key <= q)%Z).
Proof.
  destruct G as [g a b c d cs]. intros Hok Hw H Hs.
  destruct (tree_ok_inv F _ _ _ _ _ _ Hok) as (Ha & Hb & Hc & Hcs).
  destruct (run_re_start F text g a b c d cs st start stop st' Hok Hw H Hs) as (s & Hf & stA & e & stB & stop1 & stC & H1 & (acc & _ & _ & _ & H2) & _ & H4 & H5 & H6 & H7).
  exists (start + s)%Z. destruct Hf as [(R0 & m0 & HR0 & Hm0 & Hs0) Hmin]. split; [|split].
  - exists R0, m0. split; [exact HR0|]. split; [exact Hm0|]. now rewrite Hs0.
  - intros p (R & m & HR & Hm & ->). cbn [starts_of] in HR. specialize (Hmin R m HR Hm). lia.
  - assert (Hw' : (0 <= start + s <= stop_pos text stop)%Z) by lia.
    assert (HN : new_in F (pos_or_default (start + s)) (snd st) (snd st')).
    { eapply new_in_trans; [eapply new_in_weaken; [|exact H1]|].
      { intros q y (R & HR & m & Hm & -> & _). left. specialize (Hmin R m HR Hm). lia. }
      eapply new_in_trans.
      { destruct (ends_loop F text (start + s) stop (sa_se F acc) b _ _ Hb H2) as (E1 & _). cbn [snd] in E1.
        eapply new_in_weaken; [|exact E1]. intros q y (R & HR & m & Hm & -> & _). left. lia. }
      eapply new_in_trans with (b := snd (if Z.eqb e (-1) then stB else (fst stB, cleanup F (g_id F g) stop1 (snd stB)))).
      { destruct (Z.eqb e (-1)); [apply new_in_refl|]. intros q y Hy. left. eapply cleanup_at, Hy. }
      eapply new_in_trans.
      { eapply new_in_weaken; [|exact (normals_loop F text (start + s) stop1 c Hc _ _ H6)].
        intros q y (R & HR & m & Hm & -> & _). left. lia. }
      eapply new_in_weaken with (P := within F (start + s) (stop_pos text stop1)); [|eapply kids_all_within; [|exact H7]].
      { intros q y [Hq|Hq]; [left; lia|now right]. }
      rewrite Forall_forall in Hcs |- *. intros x Hx s1 s2 Hr. exact (run_re_within F text x (Hcs x Hx) _ _ _ _ H4 Hr). }
    exact HN.
Qed.

Theorem no_start_no_match text g a b c cs start stop st :
  tree_ok F (PG F g a b c false cs) -> a <> [] -> Forall (fun x => pg_default F x = false) cs ->
  (forall p, ~ start_at F text (PG F g a b c false cs) start stop p) ->
  run_re F text (PG F g a b c false cs) st start stop = Ok st.
Proof.
  intros Hok Ha Hcs Hno. destruct (tree_ok_inv F _ _ _ _ _ _ Hok) as (HA & _).
  rewrite (run_re_no_start F text g a b c false cs st start stop HA Hno).
  destruct a; [congruence|]. cbn [no_starts]. clear -Hcs. induction Hcs as [|x cs Hx Hcs IH]; [reflexivity|].
  cbn [kids_def orb]. rewrite Hx. exact IH.
Qed.

(** ** groups of defaults *)
Theorem default_record text g a b c cs start stop st :
  tree_ok F (PG F g a b c true cs) -> a <> [] -> Forall (fun x => pg_default F x = false) cs ->
  (forall p, ~ start_at F text (PG F g a b c true cs) start stop p) ->
  exists key, ((default_key <= key)%Z /\ forall z, (default_key <= z < key)%Z -> In z (map fst (snd st))) /\ ~ In key (map fst (snd st)) /\
  run_re F text (PG F g a b c true cs) st start stop =
  Ok (fst st, snd st ++ [(key, [(default_re F g a, Some [])])]).
Proof.
  intros Hok Ha Hcs Hno. destruct (tree_ok_inv F _ _ _ _ _ _ Hok) as (HA & _).
  exists (free_key F (S (length (snd st))) default_key (snd st)). split; [split; [apply free_key_ge|apply free_key_min]|]. split; [apply place_default_free|].
  rewrite (run_re_no_start F text g a b c true cs st start stop HA Hno).
  destruct a; [congruence|]. cbn [no_starts]. unfold place_default. generalize (fst st, snd st ++ [(free_key F (S (length (snd st))) default_key (snd st), [(default_re F g (p :: a), Some [])])]).
  clear -Hcs. induction Hcs as [|x cs Hx Hcs IH]; intros s; [reflexivity|].
  cbn [kids_def orb]. rewrite Hx. apply IH.
Qed.

Lemma sorted_split k (l : found) : StronglySorted lt_pos l ->
  exists l1 l2, l = l1 ++ l2 /\ Forall (fun e => (fst e < k)%Z) l1 /\ Forall (fun e => (k <= fst e)%Z) l2.
Proof.
  induction l as [|x l IH]; intros H; [exists [], []; repeat constructor|]. apply StronglySorted_inv in H as [H Hx].
  destruct (Z.ltb_spec (fst x) k) as [Hlt|Hge].
  - destruct (IH H) as (l1 & l2 & -> & H1 & H2). exists (x :: l1), l2. split; [reflexivity|]. split; [constructor; auto|exact H2].
  - exists [], (x :: l). split; [reflexivity|]. split; [constructor|]. constructor; [exact Hge|].
    eapply Forall_impl; [|exact Hx]. unfold lt_pos. intros; simpl in *; lia.
Qed.

Theorem defaults_last text G env env' rs : tree_ok F G -> (1 <= length text)%nat -> (Z.of_nat (length text) <= default_key)%Z ->
  run_re F text G (env, []) 0 (-1) = Ok (env', rs) ->
  exists matched defaults,
    raw_of F rs = matched ++ defaults /\
    Forall (Forall (fun y => is_default F y)) defaults /\
    Forall (Forall (fun y => exists p, (0 <= p < Z.of_nat (length text))%Z /\ at_pos rs p y)) matched.
Proof.
  intros Hok H1 H2 H. destruct (text_order text G env env' rs H) as (l & -> & Hp & Hs).
  destruct (sorted_split default_key l Hs) as (l1 & l2 & -> & Hl1 & Hl2).
  exists (map snd l1), (map snd l2). split; [apply map_app|].
  assert (Hstop : stop_pos text (-1) = (Z.of_nat (length text) - 1)%Z) by (unfold stop_pos; simpl; lia).
  assert (HW : forall q y, at_pos rs q y -> within F 0 (stop_pos text (-1)) q y).
  { intros q y Hy. assert (Hw : (0 <= 0 <= stop_pos text (-1))%Z) by lia.
    destruct (run_re_within F text G Hok 0%Z (-1)%Z _ _ Hw H q y Hy) as [(l & [] & _)|Hw']. exact Hw'. }
  assert (Hin : forall e, In e (l1 ++ l2) -> In e rs) by (intros e He; eapply Permutation_in; [symmetry; exact Hp|exact He]).
  split; rewrite Forall_map; apply Forall_forall; intros [p l] He; apply Forall_forall; intros y Hy; cbn [snd] in Hy.
  - rewrite Forall_forall in Hl2. specialize (Hl2 _ He). cbn [fst] in Hl2.
    destruct (HW p y) as [Hq|[Hq _]]; [|lia|exact Hq]. exists l. split; [apply Hin, in_or_app; now right|exact Hy].
  - rewrite Forall_forall in Hl1. specialize (Hl1 _ He). cbn [fst] in Hl1.
    assert (Hat : at_pos rs p y) by (exists l; split; [apply Hin, in_or_app; now left|exact Hy]).
    exists p. split; [|exact Hat]. destruct (HW p y Hat) as [Hq|[_ Hq]]; lia.
Qed.

(** ** end lines *)
Lemma remove_iter_one {A} (p : A -> bool) (l : list A) : length (filter p l) <= 1 -> forall x, In x (remove_iter p l) -> p x = false.
Proof.
  induction l as [l IH] using (well_founded_induction (Wf_nat.well_founded_ltof _ (@length A))). intros Hl x Hx.
  destruct l as [|y t]; [contradiction|]. cbn [remove_iter] in Hx. cbn [filter] in Hl. destruct (p y) eqn:Ey.
  - assert (Hf : filter p t = []) by (destruct (filter p t); [reflexivity|simpl in Hl; lia]).
    destruct t as [|z t]; [contradiction|]. destruct Hx as [<-|Hx].
    + cbn [filter] in Hf. destruct (p z); [discriminate|reflexivity].
    + apply (IH t); [unfold Wf_nat.ltof; simpl; lia| |exact Hx]. cbn [filter] in Hf. destruct (p z); [discriminate|]. rewrite Hf. simpl. lia.
  - destruct Hx as [<-|Hx]; [exact Ey|]. apply (IH t); [unfold Wf_nat.ltof; simpl; lia|exact Hl|exact Hx].
Qed.

Lemma add_at_elsewhere p x (rs : found) q l : In (q, l) (add_at F p x rs) -> q <> p -> In (q, l) rs.
Proof.
  induction rs as [|[r k] rs IH]; intros H Hq.
  - destruct H as [H|[]]. injection H as <- <-. congruence.
  - cbn [add_at] in H. destruct (Z.eqb_spec p r) as [->|Hp].
    + destruct H as [H|H]; [injection H as <- <-; congruence|now right].
    + destruct H as [H|H]; [now left|right; auto].
Qed.
Lemma check_one_elsewhere R start st m st' q l : check_one F R start st m = Ok st' ->
  In (q, l) (snd st') -> q <> (start + Z.of_nat (pm_start m))%Z -> In (q, l) (snd st).
Proof.
  unfold check_one. destruct st as [env rs]. destruct (run_vars _ _ env []) as [[env' r]|e]; cbn [rbind]; [|discriminate].
  intros H Hi Hq. destruct r as [d|]; [|destruct (is_start _)]; injection H as <-; cbn [snd] in *; eauto using add_at_elsewhere.
Qed.
Lemma check_matches_elsewhere R start ms : forall st st' q l, check_matches F R ms start st = Ok st' ->
  In (q, l) (snd st') -> (forall m, In m ms -> q <> (start + Z.of_nat (pm_start m))%Z) -> In (q, l) (snd st).
Proof.
  unfold check_matches. induction ms as [|m ms IH]; intros st st' q l H Hi Hq; [injection H as <-; exact Hi|].
  cbn [rfold] in H. destruct (check_one F R start st m) as [s1|] eqn:E; cbn [rbind] in H; [|discriminate].
  eapply check_one_elsewhere; [exact E| |apply Hq; now left]. eapply IH; [exact H|exact Hi|]. intros; apply Hq; now right.
Qed.

Definition single (rs : found) : Prop := Forall (fun e => length (snd e) <= 1) rs.
Lemma add_at_fresh p x (rs : found) : ~ In p (keys rs) -> add_at F p x rs = rs ++ [(p, [x])].
Proof.
  induction rs as [|[q l] rs IH]; intros H; [reflexivity|]. cbn [add_at]. destruct (Z.eqb_spec p q) as [->|Hp].
  - exfalso. apply H. now left.
  - cbn [app]. rewrite IH; [reflexivity|]. intros Hi. apply H. now right.
Qed.
Lemma check_matches_single R start ms : forall st st', check_matches F R ms start st = Ok st' ->
  NoDup (map (pos_of start) ms) -> (forall m, In m ms -> ~ In (pos_of start m) (keys (snd st))) -> single (snd st) ->
  single (snd st') /\ incl (keys (snd st')) (keys (snd st) ++ map (pos_of start) ms).
Proof.
  unfold check_matches. induction ms as [|m ms IH]; intros st st' H Hn Hd Hs.
  - injection H as <-. split; [exact Hs|]. intros x Hx. apply in_or_app. now left.
  - cbn [rfold] in H. destruct (check_one F R start st m) as [s1|] eqn:E; cbn [rbind] in H; [|discriminate].
    inversion Hn as [|? ? Hm Hn']; subst.
    assert (H1 : single (snd s1) /\ incl (keys (snd s1)) (keys (snd st) ++ [pos_of start m])).
    { unfold check_one in E. destruct st as [env rs]. cbn [snd] in *. destruct (run_vars _ _ env []) as [[env' r]|e]; cbn [rbind] in E; [|discriminate].
      assert (HA : forall x, single (add_at F (pos_of start m) x rs) /\ incl (keys (add_at F (pos_of start m) x rs)) (keys rs ++ [pos_of start m])).
      { intros x. rewrite add_at_fresh by (apply Hd; now left). split.
        - apply Forall_app. split; [exact Hs|]. constructor; [simpl; lia|constructor].
        - unfold keys. rewrite map_app. apply incl_refl. }
      destruct r as [d|]; [|destruct (is_start _)]; injection E as <-; cbn [snd]; try apply HA.
      split; [exact Hs|]. intros x Hx. apply in_or_app. now left. }
    destruct H1 as [H1 H2]. destruct (IH _ _ H Hn') as [H3 H4].
    + intros m' Hm' Hi. apply H2, in_app_or in Hi as [Hi|[Hi|[]]].
      * apply (Hd m'); [now right|exact Hi].
      * apply Hm. rewrite Hi. now apply in_map.
    + exact H1.
    + split; [exact H3|]. intros x Hx. apply H4, in_app_or in Hx as [Hx|Hx].
      * apply H2, in_app_or in Hx as [Hx|[<-|[]]]; apply in_or_app; [now left|right; now left].
      * apply in_or_app. right. now right.
Qed.
Lemma NoDup_app {A} (l k : list A) : NoDup (l ++ k) -> NoDup l /\ NoDup k /\ forall x, In x l -> ~ In x k.
Proof.
  induction l as [|x l IH]; intros H; [repeat split; [constructor|exact H|intros x []]|].
  inversion H as [|? ? Hx Hl]; subst. destruct (IH Hl) as (H1 & H2 & H3). split; [|split; [exact H2|]].
  - constructor; [|exact H1]. intros Hi. apply Hx, in_or_app. now left.
  - intros y [<-|Hy] Hk; [apply Hx, in_or_app; now right|exact (H3 y Hy Hk)].
Qed.
Lemma starts_single text start stop : forall a acc acc',
  rfold (do_start F text start stop) a acc = Ok acc' ->
  NoDup (starts_pos F text start stop a) -> (forall p, In p (starts_pos F text start stop a) -> ~ In p (keys (snd (sa_st F acc)))) ->
  single (snd (sa_st F acc)) -> single (snd (sa_st F acc')).
Proof.
  induction a as [|R a IH]; intros acc acc' H Hn Hd Hs; [injection H as <-; exact Hs|].
  cbn [rfold] in H. unfold do_start in H at 1. unfold starts_pos in Hn, Hd. cbn [flat_map] in Hn, Hd.
  apply NoDup_app in Hn as (Hn1 & Hn2 & Hn3).
  destruct (p_find F R (slice text start stop)) as [|m ms] eqn:E.
  - cbn [rbind] in H. eapply IH; [exact H|exact Hn2| |exact Hs]. intros p Hp. apply Hd. exact Hp.
  - destruct (check_matches F R (m :: ms) start (sa_st F acc)) as [s1|] eqn:EC; cbn [rbind] in H; [|discriminate].
    destruct (check_matches_single _ _ _ _ _ EC Hn1) as [H1 H2].
    + intros m' Hm'. apply Hd. apply in_or_app. left. now apply in_map.
    + exact Hs.
    + eapply IH; [exact H|exact Hn2| |exact H1]. cbn [sa_st]. intros p Hp Hi. apply H2, in_app_or in Hi as [Hi|Hi].
      * revert Hi. apply Hd, in_or_app. now right.
      * exact (Hn3 p Hi Hp).
Qed.

Theorem after_end_discarded text G env env' rs :
  tree_ok F G -> (1 <= length text)%nat ->
  run_re F text G (env, []) 0 (-1) = Ok (env', rs) ->
  NoDup (starts_pos F text 0 (-1) (starts_of F G)) ->
  forall first R0 m0, is_first F text G 0 (-1) first ->
  In R0 (ends_of F G) -> In m0 (p_find F R0 (slice text first (-1))) -> pm_start m0 < pm_end m0 ->
  (forall R m, In R (starts_of F G) -> r_isline F (p_re F R) = false -> In m (p_find F R (slice text 0 (-1))) -> pm_end m < pm_end m0) ->
  exists last_end,
    (exists R m, In R (ends_of F G) /\ In m (p_find F R (slice text first (-1))) /\ last_end = (first + Z.of_nat (pm_end m))%Z) /\
    (forall R m, In R (ends_of F G) -> In m (p_find F R (slice text first (-1))) -> (first + Z.of_nat (pm_end m) <= last_end)%Z) /\
    forall q y, at_pos rs q y -> of_gid F (g_id F (pg_group F G)) y = true -> (q <= last_end)%Z \/ (is_default F y /\ (default_key <= q)%Z).
Proof.
  destruct G as [g a b c d cs]. cbn [starts_of ends_of pg_group]. intros Hok Hlen H Hnd first R0 m0 [Hfirst Hmin] HR0 Hm0 Hne Hlast.
  destruct (tree_ok_inv F _ _ _ _ _ _ Hok) as (Ha & Hb & Hc & Hcs).
  assert (Hw : (0 <= 0 <= stop_pos text (-1))%Z) by (unfold stop_pos; simpl; lia).
  destruct (run_re_start F text g a b c d cs _ 0 (-1) _ Hok Hw H (ex_intro _ first Hfirst))
    as (s & Hf & stA & e & stB & stop1 & stC & H1 & (acc & EA & EAst & Hse & H2) & Hstop & H4 & H5 & H6 & H7).
  assert (Hs1 : (0 + s = first)%Z).
  { destruct Hf as [(R & m & HR & Hm & Hs) Hf]. destruct Hfirst as (R' & m' & HR' & Hm' & Hp).
    specialize (Hf R' m' HR' Hm'). assert ((first <= 0 + s)%Z) by (apply Hmin; exists R, m; rewrite Hs; auto). lia. }
  rewrite Hs1 in *.
  destruct (ends_loop F text first (-1) (sa_se F acc) b _ _ Hb H2) as (E1 & E2 & E3 & E4). cbn [fst snd] in *.
  assert (Hse0 : (sa_se F acc < Z.of_nat (pm_end m0))%Z).
  { apply Hse; [lia|]. intros R m HR Hl Hm. specialize (Hlast R m HR Hl Hm). lia. }
  pose proof (E4 R0 m0 HR0 Hm0 Hse0) as He0.
  destruct E2 as [E2|(E2 & R1 & m1 & HR1 & Hm1 & He)]; [lia|].
  destruct (Z.eqb_spec e (-1)) as [Hx|Hx]; [lia|]. subst stop1.
  exists (first + e)%Z. split; [exists R1, m1; rewrite He; auto|]. split.
  { intros R m HR Hm. destruct (Z.le_gt_cases (Z.of_nat (pm_end m)) (sa_se F acc)); [lia|]. specialize (E4 R m HR Hm). lia. }
  assert (Hend : stop_pos text (first + e) = (first + e)%Z) by (apply stop_pos_nonneg; lia).
  (* what remains of this group after the clean up *)
  assert (HC : forall q y, at_pos (cleanup F (g_id F g) (first + e) (snd stB)) q y -> of_gid F (g_id F g) y = true -> (q <= first + e)%Z).
  { intros q y (l & Hl & Hy) Hg. unfold cleanup in Hl. apply filter_In in Hl as [Hl _]. apply in_map_iff in Hl as ([p k] & Hpk & Hk).
    cbn [fst snd] in Hpk. injection Hpk as -> <-. destruct (Z.le_gt_cases q (first + e)) as [Hq|Hq]; [exact Hq|exfalso].
    assert (HkA : In (q, k) (snd stA)).
    { assert (HE : forall b', (forall R, In R b' -> In R b) -> forall x x', rfold (do_end F text first (-1) (sa_se F acc)) b' x = Ok x' -> In (q, k) (snd (snd x')) -> In (q, k) (snd (snd x))).
      { induction b' as [|R b' IHb]; intros Hsub x x' Hx' Hi; [injection Hx' as <-; exact Hi|]. cbn [rfold] in Hx'. unfold do_end in Hx' at 1.
        destruct (p_find F R (slice text first (-1))) as [|m ms] eqn:EF; [cbn [rbind] in Hx'; eapply IHb; eauto; intros; apply Hsub; now right|].
        destruct (check_matches F R (m :: ms) first (snd x)) as [s1|] eqn:EC; cbn [rbind] in Hx'; [|discriminate].
        eapply check_matches_elsewhere; [exact EC| |].
        - eapply IHb in Hx'; [exact Hx'| |exact Hi]. intros; apply Hsub; now right.
        - intros m' Hm' Hq'. assert (HRb : In R b) by (apply Hsub; now left). rewrite <- EF in Hm'.
          assert ((Z.of_nat (pm_end m') <= e)%Z).
          { destruct (Z.le_gt_cases (Z.of_nat (pm_end m')) (sa_se F acc)); [lia|]. specialize (E4 R m' HRb Hm'). lia. }
          rewrite Forall_forall in Hb. destruct (Hb R HRb (slice text first (-1))) as [HF _]. rewrite Forall_forall in HF.
          specialize (HF m' Hm'). lia. }
      apply (HE b (fun R h => h) _ _ H2). exact Hk. }
    assert (Hsing : length k <= 1).
    { assert (HS : single (snd (sa_st F acc))).
      { eapply starts_single; [exact EA|exact Hnd|intros p _ []|constructor]. }
      rewrite EAst in HS. unfold single in HS. rewrite Forall_forall in HS. exact (HS _ HkA). }
    assert (Hy' : (of_gid F (g_id F g) y && Z.ltb (first + e) q)%bool = false).
    { eapply (remove_iter_one (fun x => (of_gid F (g_id F g) x && Z.ltb (first + e) q)%bool) k); [|exact Hy].
      etransitivity; [|exact Hsing]. clear. induction k as [|x k IH]; [simpl; lia|]. cbn [filter]. destruct (_ && _)%bool; simpl; lia. }
    rewrite Hg in Hy'. cbn [andb] in Hy'. apply Z.ltb_ge in Hy'. lia. }
  intros q y Hq Hg.
  assert (HN : new_in F (within F first (first + e)) (cleanup F (g_id F g) (first + e) (snd stB)) rs).
  { rewrite Hend in H4. eapply new_in_trans.
    - eapply new_in_weaken; [|exact (normals_loop F text first (first + e) c Hc _ _ H6)].
      intros q' y' (R & HR & Hfr). rewrite <- Hend. rewrite Forall_forall in Hc.
      eapply from_within; [apply Hc, HR|rewrite Hend; lia|exact Hfr].
    - rewrite <- Hend. change rs with (snd (env', rs)). eapply kids_all_within; [|exact H7]. rewrite Forall_forall in Hcs |- *.
      intros x Hx' s1 s2 Hr. eapply (run_re_within F text x (Hcs x Hx')); [|exact Hr]. rewrite Hend. lia. }
  destruct (HN q y Hq) as [Hq'|[Hq'|Hq']]; [left; eapply HC; eauto|left; lia|now right].
Qed.

(** ** exactly which matches are collected *)
Section Exact.
Variable spec : pregex F -> list (str * var_spec).
Definition plain_re (R : pregex F) : Prop :=
  forall w m, In m (p_find F R w) -> vars_are (p_vars F R) (spec R) (temp_of F R m).

Lemma check_one_exact R start env rs m : vars_are (p_vars F R) (spec R) (temp_of F R m) -> exists rs',
  check_one F R start (env, rs) m = Ok (env, rs') /\
  forall q y, at_pos rs' q y <-> at_pos rs q y \/ (q = (start + Z.of_nat (pm_start m))%Z /\ item_of F spec R m = Some y).
Proof.
  intros H. rewrite (line_result R start env rs m (spec R) H). unfold item_of.
  eexists. split; [reflexivity|]. intros q y.
  destruct (line_values (spec R) (temp_of F R m)) as [l|].
  - rewrite add_at_at. split; [intros [[-> ->]|?]; auto|intros [?|[-> Hy]]; auto]. injection Hy as <-. auto.
  - destruct (is_start _).
    + rewrite add_at_at. split; [intros [[-> ->]|?]; auto|intros [?|[-> Hy]]; auto]. injection Hy as <-. auto.
    + split; [auto|]. intros [?|[_ Hy]]; [assumption|discriminate].
Qed.
Lemma check_matches_exact R start ms : (forall m, In m ms -> vars_are (p_vars F R) (spec R) (temp_of F R m)) -> forall env rs, exists rs',
  check_matches F R ms start (env, rs) = Ok (env, rs') /\
  forall q y, at_pos rs' q y <-> at_pos rs q y \/
    exists m, In m ms /\ q = (start + Z.of_nat (pm_start m))%Z /\ item_of F spec R m = Some y.
Proof.
  intros H. unfold check_matches. induction ms as [|m ms IH]; intros env rs.
  - exists rs. split; [reflexivity|]. intros q y. split; [auto|]. intros [?|(m & [] & _)]. assumption.
  - destruct (check_one_exact R start env rs m (H m (or_introl eq_refl))) as (r1 & E1 & H1). destruct (IH (fun m' h => H m' (or_intror h)) env r1) as (r2 & E2 & H2).
    exists r2. cbn [rfold]. rewrite E1. cbn [rbind]. split; [exact E2|]. intros q y. rewrite H2, H1. split.
    + intros [[?|[? ?]]|(m' & ? & ?)]; [now left|right; exists m; split; [now left|auto]|right; exists m'; split; [now right|auto]].
    + intros [?|(m' & [<-|?] & ?)]; [left; now left|left; now right|right; eauto].
Qed.

Lemma starts_exact text start stop a : Forall plain_re a -> forall acc env rs, sa_st F acc = (env, rs) -> exists acc' rs',
  rfold (do_start F text start stop) a acc = Ok acc' /\ sa_st F acc' = (env, rs') /\
  forall q y, at_pos rs' q y <-> at_pos rs q y \/
    exists R m, In R a /\ In m (p_find F R (slice text start stop)) /\ q = (start + Z.of_nat (pm_start m))%Z /\ item_of F spec R m = Some y.
Proof.
  induction 1 as [|R a HR Ha IH]; intros acc env rs Hacc.
  - exists acc, rs. split; [reflexivity|]. split; [exact Hacc|]. intros q y. split; [auto|]. intros [?|(R & m & [] & _)]. assumption.
  - cbn [rfold]. unfold do_start at 1. destruct (p_find F R (slice text start stop)) as [|m ms] eqn:E.
    + cbn [rbind]. destruct (IH acc env rs Hacc) as (acc' & rs' & H1 & H2 & H3). exists acc', rs'. split; [exact H1|]. split; [exact H2|].
      intros q y. rewrite H3. split; (intros [?|(R' & m' & HR' & Hm' & ?)]; [now left|right; exists R', m']).
      * split; [now right|auto].
      * destruct HR' as [<-|HR']; [rewrite E in Hm'; contradiction|auto].
    + rewrite Hacc. pose proof (HR (slice text start stop)) as HRm. rewrite E in HRm.
      destruct (check_matches_exact R start (m :: ms) HRm env rs) as (r1 & E1 & H1). rewrite E1. cbn [rbind].
      match goal with |- context [rfold _ a ?acc1] => destruct (IH acc1 env r1 eq_refl) as (acc' & rs' & H3 & H4 & H5) end.
      exists acc', rs'. split; [exact H3|]. split; [exact H4|]. intros q y. rewrite H5, H1. split.
      * intros [[?|(m' & Hm' & ?)]|(R' & m' & HR' & ?)]; [now left| |].
        -- right. exists R, m'. split; [now left|]. rewrite E. auto.
        -- right. exists R', m'. split; [now right|auto].
      * intros [?|(R' & m' & [<-|HR'] & Hm' & ?)]; [left; now left| |right; exists R', m'; auto].
        left. right. rewrite E in Hm'. eauto.
Qed.
Lemma normals_exact text start stop c : Forall plain_re c -> forall env rs, exists rs',
  rfold (fun st R => check_matches F R (p_find F R (slice text start stop)) start st) c (env, rs) = Ok (env, rs') /\
  forall q y, at_pos rs' q y <-> at_pos rs q y \/
    exists R m, In R c /\ In m (p_find F R (slice text start stop)) /\ q = (start + Z.of_nat (pm_start m))%Z /\ item_of F spec R m = Some y.
Proof.
  induction 1 as [|R c HR Hc IH]; intros env rs.
  - exists rs. split; [reflexivity|]. intros q y. split; [auto|]. intros [?|(R & m & [] & _)]. assumption.
  - cbn [rfold]. destruct (check_matches_exact R start (p_find F R (slice text start stop)) (HR (slice text start stop)) env rs) as (r1 & E1 & H1). rewrite E1. cbn [rbind].
    destruct (IH env r1) as (rs' & H3 & H5). exists rs'. split; [exact H3|]. intros q y. rewrite H5, H1. split.
    + intros [[?|(m' & Hm' & ?)]|(R' & m' & HR' & ?)]; [now left| |].
      * right. exists R, m'. split; [now left|]. auto.
      * right. exists R', m'. split; [now right|auto].
    + intros [?|(R' & m' & [<-|HR'] & Hm' & ?)]; [left; now left| |right; exists R', m'; auto].
      left. right. eauto.
Qed.

Lemma simple_kids g a b c d cs : simple_tree F (PG F g a b c d cs) -> b = [] /\ d = false /\ Forall (simple_tree F) cs.
Proof.
  cbn [simple_tree]. intros (H1 & H2 & H3). repeat split; auto.
  clear -H3. induction cs as [|x cs IH]; [constructor|]. destruct H3 as [H H3]. constructor; auto.
Qed.
Lemma simple_default G : simple_tree F G -> pg_default F G = false.
Proof. destruct G as [g a b c d cs]. intros H. now apply simple_kids in H as (_ & -> & _). Qed.

Theorem run_re_exact text G : tree_ok F G -> simple_tree F G -> Forall plain_re (regexes F G) ->
  forall env rs start stop, (0 <= start <= stop_pos text stop)%Z -> exists rs',
  run_re F text G (env, rs) start stop = Ok (env, rs') /\
  forall q y, at_pos rs' q y <-> at_pos rs q y \/ contributes F spec text G start stop q y.
Proof.
  induction G as [g a b c d cs IH] using (pgroup_ind' F). intros Hok Hsim Hpl env rs start stop Hw.
  destruct (tree_ok_inv F _ _ _ _ _ _ Hok) as (Ha & Hb & Hc & Hcs).
  destruct (simple_kids _ _ _ _ _ _ Hsim) as (-> & -> & Hsk).
  cbn [regexes app] in Hpl. apply Forall_app in Hpl as [Hpa Hpl]. apply Forall_app in Hpl as [Hpc Hpk].
  assert (Hkids : forall start' stop', (0 <= start' <= stop_pos text stop')%Z -> forall cs', (forall x, In x cs' -> In x cs) -> forall env rs,
    exists rs', kids_all F text start' stop' cs' (env, rs) = Ok (env, rs') /\
    forall q y, at_pos rs' q y <-> at_pos rs q y \/ exists x, In x cs' /\ contributes F spec text x start' stop' q y).
  { intros start' stop' Hw'. induction cs' as [|x cs' IHc]; intros Hsub env' r.
    - exists r. split; [reflexivity|]. intros q y. split; [auto|]. intros [?|(x & [] & _)]. assumption.
    - cbn [kids_all]. assert (Hx : In x cs) by (apply Hsub; now left). rewrite Forall_forall in IH, Hcs, Hsk.
      assert (Hpx : Forall plain_re (regexes F x)).
      { apply Forall_forall. intros R HR. rewrite Forall_forall in Hpk. apply Hpk. apply in_flat_map. eauto. }
      destruct (IH x Hx (Hcs x Hx) (Hsk x Hx) Hpx env' r start' stop' Hw') as (r1 & E1 & H1). rewrite E1. cbn [rbind].
      destruct (IHc (fun z hz => Hsub z (or_intror hz)) env' r1) as (r2 & E2 & H2). exists r2. split; [exact E2|].
      intros q y. rewrite H2, H1. split.
      + intros [[?|?]|(z & ? & ?)]; [now left|right; exists x; split; [now left|assumption]|right; exists z; split; [now right|assumption]].
      + intros [?|(z & [<-|?] & ?)]; [left; now left|left; now right|right; eauto]. }
  destruct (start_dec text (PG F g a [] c false cs) start stop) as [Hs|Hno].
  - destruct (starts_exact text start stop a Hpa {| sa_found := false; sa_s := 0; sa_se := 0; sa_st := (env, rs) |} env rs eq_refl)
      as (acc & r1 & EA & Est & H1).
    pose proof (starts_loop F text start stop a [] _ _ Ha EA) as HL. cbn [sa_found sa_s sa_st app] in HL.
    specialize (HL (conj eq_refl (Forall_nil _))). destruct HL as (HL1 & _ & _).
    destruct (sa_found F acc) eqn:Ef.
    2: { exfalso. destruct HL1 as [_ HL1]. destruct Hs as (p & R & m & HR & Hm & _). cbn [starts_of] in HR.
         rewrite Forall_forall in HL1. rewrite (HL1 R HR) in Hm. contradiction. }
    assert (Hfirst : is_first F text (PG F g a [] c false cs) start stop (start + sa_s F acc)).
    { destruct HL1 as [(R & m & HR & Hm & HE) Hmin]. split.
      - exists R, m. split; [exact HR|]. split; [exact Hm|]. now rewrite HE.
      - intros p (R' & m' & HR' & Hm' & ->). cbn [starts_of] in HR'. specialize (Hmin R' m' HR' Hm'). lia. }
    assert (Hws : (0 <= start + sa_s F acc <= stop_pos text stop)%Z).
    { destruct HL1 as [(R & m & HR & Hm & ->) _]. rewrite Forall_forall in Ha.
      destruct (find_bound F R text start stop m (Ha R HR) Hw Hm). lia. }
    rewrite run_re_eq, EA. cbn [rbind]. rewrite Ef. cbn [negb rfold rbind Z.eqb Pos.eqb]. rewrite Est.
    destruct (normals_exact text (start + sa_s F acc) stop c Hpc env r1) as (r2 & E2 & H2). rewrite E2. cbn [rbind].
    destruct (Hkids (start + sa_s F acc)%Z stop Hws cs (fun x h => h) env r2) as (r3 & E3 & H3). rewrite E3.
    exists r3. split; [reflexivity|]. intros q y. rewrite H3, H2, H1. split.
    + intros [[[?|(R & m & A & B & -> & D)]|(R & m & A & B & -> & D)]|(x & A & B)]; [now left|right..].
      * exact (c_start F spec text (PG F g a [] c false cs) start stop R m y A B D).
      * exact (c_normal F spec text (PG F g a [] c false cs) start stop _ R m y Hfirst A B D).
      * exact (c_child F spec text (PG F g a [] c false cs) start stop _ x q y Hfirst A B).
    + intros [?|HC]; [left; left; now left|].
      assert (Huniq : forall p, is_first F text (PG F g a [] c false cs) start stop p -> p = (start + sa_s F acc)%Z).
      { intros p [Hp Hp']. destruct Hfirst as [Hq Hq']. specialize (Hp' _ Hq). specialize (Hq' _ Hp). lia. }
      inversion HC as [G' ? ? R m y' A B D|G' ? ? p R m y' A B D D'|G' ? ? p x ? y' A B D|G' ? ? x ? y' A B D]; subst.
      * left. left. right. exists R, m. auto.
      * left. right. exists R, m. rewrite (Huniq p A) in *. auto.
      * right. exists x. rewrite (Huniq p A) in *. auto.
      * exfalso. destruct Hs as (p & R & m & HR & _). rewrite A in HR. contradiction.
  - rewrite (run_re_no_start F text g a [] c false cs _ start stop Ha Hno).
    assert (HCinv : forall q y, contributes F spec text (PG F g a [] c false cs) start stop q y ->
       a = [] /\ exists x, In x cs /\ contributes F spec text x start stop q y).
    { intros q y HC.
      inversion HC as [G' ? ? R m y' A B D|G' ? ? p R m y' A B D D'|G' ? ? p x ? y' A B D|G' ? ? x ? y' A B D]; subst.
      - exfalso. apply (Hno (start + Z.of_nat (pm_start m))%Z). exists R, m. auto.
      - exfalso. apply (Hno p). apply A.
      - exfalso. apply (Hno p). apply A.
      - split; [exact A|eauto]. }
    destruct a as [|R a].
    + cbn [no_starts]. destruct (Hkids start stop Hw cs (fun x h => h) env rs) as (r & E & HR).
      exists r. split.
      * rewrite <- E. generalize (env, rs). clear. induction cs as [|x cs IH]; intros s; [reflexivity|].
        cbn [kids_def kids_all orb]. destruct (run_re F text x s start stop); cbn [rbind]; [apply IH|reflexivity].
      * intros q y. rewrite HR. split; (intros [?|HC]; [now left|right]).
        -- destruct HC as (x & A & B). exact (c_pass F spec text (PG F g [] [] c false cs) start stop x q y eq_refl A B).
        -- now apply HCinv.
    + exists rs. split.
      * cbn [no_starts]. generalize (env, rs). clear -Hsk. induction Hsk as [|x cs Hx Hcs IH]; intros s; [reflexivity|].
        cbn [kids_def orb]. rewrite (simple_default x Hx). apply IH.
      * intros q y. split; [auto|]. intros [?|HC]; [assumption|]. destruct (HCinv q y HC). discriminate.
Qed.
End Exact.

(** ** inputs do not influence each other *)
Lemma group_runs_twice f h (g : group F) : group_runs F (fun id _ => f id) (group_runs F h g) = group_runs F (fun id _ => f id) g.
Proof. reflexivity. Qed.
Lemma regex_runs_twice f h (R : pregex F) : regex_runs F (fun id _ => f id) (regex_runs F h R) = regex_runs F (fun id _ => f id) R.
Proof. reflexivity. Qed.
Lemma tree_runs_twice f h (G : pgroup F) : tree_runs F (fun id _ => f id) (tree_runs F h G) = tree_runs F (fun id _ => f id) G.
Proof.
  induction G as [g a b c d cs IH] using (pgroup_ind' F). cbn [tree_runs]. rewrite !map_map.
  f_equal. apply map_ext_in. rewrite Forall_forall in IH. exact IH.
Qed.

Variable runf : F -> fstate -> res (fstate * bool).
Variable k2i : bool.
(** a history of inputs, results threaded through *)
Definition run_input orig vfs defaults v2r (st : pstate F * val) (data : str) : res (pstate F * val) :=
  process F runf k2i orig vfs defaults v2r (fst st) data (snd st).

Lemma process_groups orig vfs defaults v2r st data main st' v :
  process F runf k2i orig vfs defaults v2r st data main = Ok (st', v) ->
  exists h, ps_groups F st' = groups_runs F h (groups_runs F (fun id _ => defaults id) (ps_groups F st)).
Proof.
  unfold process. destruct (parse _ _ _ _ _ _ _ _) as [[env1 [e w]]|]; cbn [rbind]; [|discriminate].
  intros H. injection H as <- _. cbn [ps_groups]. eauto.
Qed.
Lemma process_indep orig vfs defaults v2r st1 st2 data main :
  ps_gvars F st1 = ps_gvars F st2 ->
  groups_runs F (fun id _ => defaults id) (ps_groups F st1) = groups_runs F (fun id _ => defaults id) (ps_groups F st2) ->
  process F runf k2i orig vfs defaults v2r st1 data main = process F runf k2i orig vfs defaults v2r st2 data main.
Proof. intros H1 H2. unfold process. now rewrite H1, H2. Qed.

Theorem inputs_isolated orig vfs defaults v2r st0 main0 history st main data m :
  rfold (run_input orig vfs defaults v2r) history (st0, main0) = Ok (st, main) ->
  process F runf k2i orig vfs defaults v2r st data m =
  process F runf k2i orig vfs defaults v2r {| ps_vars := []; ps_gvars := ps_gvars F st; ps_groups := ps_groups F st0 |} data m.
Proof.
  intros H. apply process_indep; [reflexivity|]. cbn [ps_groups].
  change st with (fst (st, main)). refine (rfold_inv _ (fun x => groups_runs F (fun id _ => defaults id) (ps_groups F (fst x)) = groups_runs F (fun id _ => defaults id) (ps_groups F st0)) history _ _ _ H eq_refl).
  intros [s v] d [s' v'] _ Hs Hp. cbn [fst] in *. unfold run_input in Hs. cbn [fst snd] in Hs.
  apply process_groups in Hs as (h & Hh). rewrite Hh, <- Hp. unfold groups_runs. rewrite !map_map. apply map_ext.
  intros [G o]. cbn [fst snd]. now rewrite !tree_runs_twice.
Qed.
End PF2.
