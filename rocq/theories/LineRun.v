(** * LineRun: a group whose regexes match whole lines. *)
From Coq Require Import Lia Sorting.Sorted Sorting.Permutation.
From Verif Require Import PyBase DictFacts StrFacts Regex Results MatchFuncs Parser ParserFacts ParserFacts2 MachineFacts FindLines.
Local Open Scope list_scope.

Section L.
Variable F : Type.
Notation found := (list (Z * list (item F))).

(** ** lookup by position *)
Fixpoint cands (q : Z) (rs : found) : list (item F) :=
  match rs with [] => [] | (p, l) :: t => if Z.eqb q p then l else cands q t end.
Lemma cands_add q p x rs : cands q (add_at F p x rs) = cands q rs ++ (if Z.eqb q p then [x] else []).
Proof.
  induction rs as [|[r l] rs IH]; cbn [add_at cands].
  - destruct (Z.eqb q p); reflexivity.
  - destruct (Z.eqb_spec p r) as [->|Hp]; cbn [cands].
    + destruct (Z.eqb q r); [reflexivity|]. now rewrite app_nil_r.
    + destruct (Z.eqb_spec q r) as [->|Hq]; [|exact IH]. destruct (Z.eqb_spec r p); [congruence|]. now rewrite app_nil_r.
Qed.
Lemma cands_notin q (rs : found) : ~ In q (map fst rs) -> cands q rs = [].
Proof. induction rs as [|[p l] rs IH]; intros H; [reflexivity|]. cbn [cands]. destruct (Z.eqb_spec q p) as [->|Hq]; [exfalso; apply H; now left|]. apply IH. intros K. apply H. now right. Qed.
Lemma cands_In q l (rs : found) : NoDup (map fst rs) -> full F rs -> In (q, l) rs <-> l <> [] /\ cands q rs = l.
Proof.
  induction rs as [|[p k] rs IH]; intros Hn Hf; cbn [cands].
  - split; [intros []|]. intros [H <-]. congruence.
  - inversion Hn as [|? ? H1 H2]; subst. inversion Hf as [|? ? H3 H4]; subst. cbn [fst snd] in *. split.
    + intros [E|H]; [injection E as -> ->; rewrite Z.eqb_refl; auto|]. destruct (Z.eqb_spec q p) as [->|Hq]; [|now apply IH]. exfalso. apply H1. change p with (fst (p, l)). now apply in_map.
    + intros [Hl E]. destruct (Z.eqb_spec q p) as [->|Hq]; [left; congruence|]. right. now apply IH.
Qed.
Lemma full_add p x (rs : found) : full F rs -> full F (add_at F p x rs).
Proof.
  induction 1 as [|[q l] rs H1 H2 IH]; cbn [add_at]; [repeat constructor; discriminate|]. destruct (Z.eqb p q); constructor; auto. cbn [snd] in *. destruct l; discriminate.
Qed.
(** sorted by position, the same content: the same list *)
Lemma sorted_same (l k : found) : StronglySorted (lt_pos F) l -> StronglySorted (lt_pos F) k -> (forall x, In x l <-> In x k) -> l = k.
Proof.
  revert k. induction l as [|x l IH]; intros k Hl Hk H.
  - destruct k as [|y k]; [reflexivity|]. destruct (proj2 (H y) (or_introl eq_refl)).
  - destruct k as [|y k]; [destruct (proj1 (H x) (or_introl eq_refl))|]. apply StronglySorted_inv in Hl as [Hl Hx]. apply StronglySorted_inv in Hk as [Hk Hy]. rewrite Forall_forall in Hx, Hy.
    assert (E : x = y).
    { destruct (proj1 (H x) (or_introl eq_refl)) as [E|Hi]; [auto|]. destruct (proj2 (H y) (or_introl eq_refl)) as [E|Hj]; [auto|]. apply Hx in Hj. apply Hy in Hi. unfold lt_pos in *. lia. }
    subst y. f_equal. apply IH; [assumption..|]. intros z. split; intros Hz.
    + destruct (proj1 (H z) (or_intror Hz)) as [E|Hi]; [|exact Hi]. subst z. apply Hx in Hz. unfold lt_pos in Hz. lia.
    + destruct (proj2 (H z) (or_intror Hz)) as [E|Hi]; [|exact Hi]. subst z. apply Hy in Hz. unfold lt_pos in Hz. lia.
Qed.
Lemma raw_same (rs E : found) : NoDup (map fst rs) -> full F rs -> StronglySorted (lt_pos F) E -> full F E -> (forall q, cands q rs = cands q E) -> raw_of F rs = map snd E.
Proof.
  intros Hn Hf Hs HfE H. unfold raw_of. f_equal.
  assert (HnE : NoDup (map fst E)).
  { clear - Hs. induction Hs as [|[p l] E _ IH Hp]; [constructor|]. cbn [map fst]. constructor; [|exact IH]. intros Hi. apply in_map_iff in Hi as ([q k] & E1 & Hi). cbn [fst] in E1. subst q. rewrite Forall_forall in Hp. apply Hp in Hi. unfold lt_pos in Hi. cbn in Hi. lia. }
  apply sorted_same; [apply strict; [|apply sort_sorted]; eapply Permutation_NoDup; [apply Permutation_map, sort_perm|exact Hn]|exact Hs|].
  intros [q l]. rewrite (cands_In q l E HnE HfE), <- H, <- (cands_In q l rs Hn Hf).
  split; intros K; [exact (Permutation_in _ (Permutation_sym (sort_perm F rs)) K)|exact (Permutation_in _ (sort_perm F rs) K)].
Qed.

(** ** matches by line *)
Fixpoint hits (f : str -> option dict) (ls : list str) (p : Z) : list (Z * dict) :=
  match ls with
  | [] => []
  | l :: t => match f l with Some d => [(p, d)] | None => [] end ++ hits f t (p + 1 + Z.of_nat (length l))%Z
  end.
Definition put_hits (rd : redict F) (start : Z) (hs : list (Z * dict)) (rs : found) : found :=
  fold_left (fun rs pd => add_at F (start + fst pd) (rd, Some (snd pd)) rs) hs rs.
(** [R] matches the lines [f] accepts, and nothing else *)
Definition by_lines (R : pregex F) (f : str -> option dict) : Prop :=
  forall ls, Forall (lacks nl) ls ->
    map (fun m => Z.of_nat (pm_start m)) (p_find F R (stacked ls)) = map fst (hits f ls 0) /\
    forall start env rs, check_matches F R (p_find F R (stacked ls)) start (env, rs) = Ok (env, put_hits (p_re F R) start (hits f ls 0) rs).

Lemma hits_shift f ls : forall p q, hits f ls (p + q)%Z = map (fun pd => (p + fst pd, snd pd)%Z) (hits f ls q).
Proof.
  induction ls as [|l ls IH]; intros p q; [reflexivity|]. cbn [hits]. rewrite map_app, <- IH. replace (p + q + 1 + Z.of_nat (length l))%Z with (p + (q + 1 + Z.of_nat (length l)))%Z by lia. now destruct (f l).
Qed.
Lemma put_shift rd start hs : forall rs, put_hits rd 0 (map (fun pd => (start + fst pd, snd pd)%Z) hs) rs = put_hits rd start hs rs.
Proof. induction hs as [|h hs IH]; intros rs; [reflexivity|]. cbn [map]. unfold put_hits in *. cbn [fold_left fst snd]. apply IH. Qed.
Lemma put_at rd start f ls rs : put_hits rd start (hits f ls 0) rs = put_hits rd 0 (hits f ls start) rs.
Proof. rewrite <- (Z.add_0_r start) at 2. rewrite hits_shift. now rewrite put_shift. Qed.
Lemma put_full rd s hs : forall rs, full F rs -> full F (put_hits rd s hs rs).
Proof. induction hs as [|h hs IH]; intros rs H; [exact H|]. unfold put_hits in *. cbn [fold_left]. now apply IH, full_add. Qed.
Lemma put_nodup rd s hs : forall rs, NoDup (map fst rs) -> NoDup (map fst (put_hits rd s hs rs)).
Proof. induction hs as [|h hs IH]; intros rs H; [exact H|]. unfold put_hits in *. cbn [fold_left]. apply IH. now apply add_at_nodup. Qed.
Lemma cands_put rd q hs : forall rs, cands q (put_hits rd 0 hs rs) = cands q rs ++ flat_map (fun pd => if Z.eqb q (fst pd) then [(rd, Some (snd pd))] else []) hs.
Proof.
  induction hs as [|[p d] hs IH]; intros rs; [cbn; now rewrite app_nil_r|]. unfold put_hits in *. cbn [fold_left fst snd flat_map]. rewrite IH, cands_add, <- app_assoc. now rewrite Z.add_0_l.
Qed.

(** ** the lines with their positions *)
Fixpoint placed (ls : list str) (p : Z) : list (Z * str) :=
  match ls with [] => [] | l :: t => (p, l) :: placed t (p + 1 + Z.of_nat (length l))%Z end.
Lemma placed_ge ls : forall p, Forall (fun x => (p <= fst x)%Z) (placed ls p).
Proof.
  induction ls as [|l ls IH]; intros p; cbn [placed]; constructor; [cbn; lia|]. eapply Forall_impl; [|apply IH]. cbn. intros x Hx. lia.
Qed.
Lemma hits_ge f ls : forall p, Forall (fun x => (p <= fst x)%Z) (hits f ls p).
Proof.
  induction ls as [|l ls IH]; intros p; cbn [hits]; [constructor|]. apply Forall_app. split; [destruct (f l); repeat constructor; cbn; lia|]. eapply Forall_impl; [|apply IH]. cbn. intros x Hx. lia.
Qed.
Lemma hits_below f ls p q (rd : redict F) : (q < p)%Z -> flat_map (fun pd => if Z.eqb q (fst pd) then [(rd, Some (snd pd))] else []) (hits f ls p) = [].
Proof.
  intros H. pose proof (hits_ge f ls p) as G. induction G as [|[r d] l Hr _ IH]; [reflexivity|]. cbn [flat_map fst] in *. rewrite IH. destruct (Z.eqb_spec q r); [lia|reflexivity].
Qed.
(** the items a line gives *)
Definition items_of (fs : list (redict F * (str -> option dict))) (l : str) : list (item F) :=
  flat_map (fun rf => match snd rf l with Some d => [(fst rf, Some d)] | None => [] end) fs.
Definition expected (fs : list (redict F * (str -> option dict))) (ls : list str) (p : Z) : found :=
  filter (fun e => nonempty_l (snd e)) (map (fun pl => (fst pl, items_of fs (snd pl))) (placed ls p)).
Lemma expected_full fs ls p : full F (expected fs ls p).
Proof. apply Forall_forall. intros e H. apply filter_In in H as [_ H]. intros E. rewrite E in H. discriminate. Qed.
Lemma expected_ge fs ls p : Forall (fun x => (p <= fst x)%Z) (expected fs ls p).
Proof.
  apply Forall_forall. intros e H. apply filter_In in H as [H _]. apply in_map_iff in H as (x & <- & H). cbn [fst]. pose proof (placed_ge ls p) as G. rewrite Forall_forall in G. now apply G.
Qed.
Lemma expected_cons fs l ls p : expected fs (l :: ls) p = (if nonempty_l (items_of fs l) then [(p, items_of fs l)] else []) ++ expected fs ls (p + 1 + Z.of_nat (length l))%Z.
Proof. unfold expected. cbn [placed map filter fst snd]. now destruct (nonempty_l _). Qed.
Lemma expected_sorted fs ls : forall p, StronglySorted (lt_pos F) (expected fs ls p).
Proof.
  induction ls as [|l ls IH]; intros p; [constructor|]. rewrite expected_cons. destruct (nonempty_l _); [|apply IH]. cbn [app]. constructor; [apply IH|].
  eapply Forall_impl; [|apply expected_ge]. cbn. intros e He. unfold lt_pos. cbn. lia.
Qed.
Lemma expected_snd fs ls : forall p, map snd (expected fs ls p) = filter nonempty_l (map (items_of fs) ls).
Proof. induction ls as [|l ls IH]; intros p; [reflexivity|]. rewrite expected_cons, map_app, IH. cbn [map filter]. now destruct (nonempty_l _). Qed.
Lemma cands_app q (a b : found) : ~ In q (map fst a) -> cands q (a ++ b) = cands q b.
Proof. induction a as [|[p l] a IH]; intros H; [reflexivity|]. cbn [app cands]. destruct (Z.eqb_spec q p) as [->|Hq]; [exfalso; apply H; now left|]. apply IH. intros K. apply H. now right. Qed.
Lemma flat_nil {A B} (l : list A) (h : A -> list B) : (forall x, In x l -> h x = []) -> flat_map h l = [].
Proof. induction l as [|x l IH]; intros H; [reflexivity|]. cbn [flat_map]. rewrite H by (now left). apply IH. intros y Hy. apply H. now right. Qed.
Lemma cands_expected fs q ls : forall p,
  cands q (expected fs ls p) = flat_map (fun rf => flat_map (fun pd => if Z.eqb q (fst pd) then [(fst rf, Some (snd pd))] else []) (hits (snd rf) ls p)) fs.
Proof.
  induction ls as [|l ls IH]; intros p.
  - cbn [expected placed map filter cands hits flat_map]. symmetry. now apply flat_nil.
  - rewrite expected_cons. set (p' := (p + 1 + Z.of_nat (length l))%Z) in *. destruct (Z.eqb_spec q p) as [->|Hq].
    + assert (Hlt : (p < p')%Z) by (unfold p'; lia).
      assert (E : flat_map (fun rf => flat_map (fun pd => if Z.eqb p (fst pd) then [(fst rf, Some (snd pd))] else []) (hits (snd rf) (l :: ls) p)) fs = items_of fs l).
      { unfold items_of. apply flat_map_ext. intros [rd f]. cbn [fst snd hits]. fold p'. rewrite flat_map_app, (hits_below f ls p' p rd Hlt), app_nil_r. destruct (f l); [|reflexivity]. cbn [flat_map fst snd app]. now rewrite Z.eqb_refl. }
      rewrite E. destruct (items_of fs l) as [|x xs] eqn:Ei; cbn [nonempty_l app].
      * apply cands_notin. intros Hi. apply in_map_iff in Hi as (e & E1 & He). pose proof (expected_ge fs ls p') as G. rewrite Forall_forall in G. apply G in He. lia.
      * cbn [cands]. now rewrite Z.eqb_refl.
    + rewrite cands_app. 2:{ destruct (nonempty_l _); [|intros []]. intros [K|[]]. cbn in K. congruence. }
      rewrite IH. apply flat_map_ext. intros [rd f]. cbn [fst snd hits]. fold p'. rewrite flat_map_app. destruct (f l); [|reflexivity]. cbn [flat_map fst snd app]. destruct (Z.eqb_spec q p); [congruence|reflexivity].
Qed.

(** ** the lines from the first one that starts the group *)
Fixpoint window (f : str -> option dict) (ls : list str) (p : Z) : option (Z * list str) :=
  match ls with
  | [] => None
  | l :: t => match f l with Some _ => Some (p, ls) | None => window f t (p + 1 + Z.of_nat (length l))%Z end
  end.
Lemma window_none f ls : forall p, window f ls p = None -> hits f ls p = [].
Proof. induction ls as [|l ls IH]; intros p H; [reflexivity|]. cbn [window hits] in *. destruct (f l); [discriminate|]. exact (IH _ H). Qed.
Lemma window_some f ls : forall p s lw, window f ls p = Some (s, lw) ->
  hits f ls p = hits f lw s /\ (exists d t, hits f lw s = (s, d) :: t) /\ exists pre, ls = pre ++ lw /\ s = (p + Z.of_nat (length (flat_map (fun l => nl :: l) pre)))%Z /\ Forall (fun l => f l = None) pre.
Proof.
  induction ls as [|l ls IH]; intros p s lw H; [discriminate|]. cbn [window] in H. destruct (f l) as [d|] eqn:El.
  - injection H as <- <-. split; [reflexivity|]. split; [cbn [hits]; rewrite El; cbn [app]; eauto|]. exists []. cbn. split; [reflexivity|]. split; [lia|constructor].
  - apply IH in H as (H1 & H2 & pre & -> & -> & H3). split; [cbn [hits]; rewrite El; exact H1|]. split; [exact H2|]. exists (l :: pre). split; [reflexivity|]. split; [|now constructor].
    cbn [flat_map length app]. rewrite app_length. lia.
Qed.

(** ** the text that is searched *)
Lemma slice_all d : slice (datatext d) 0 (-1) = stacked (split [nl] d).
Proof.
  rewrite stacked_split. unfold slice, datatext. cbn [Z.ltb Z.compare]. rewrite Z.sub_0_r. change (Z.to_nat 0) with 0. cbn [skipn].
  replace (Z.to_nat _) with (length (nl :: d ++ [nl])) by (cbn [length]; rewrite !app_length; cbn [length]; lia).
  replace (nl :: d ++ [nl; nl]) with ((nl :: d ++ [nl]) ++ [nl]) by (cbn [app]; now rewrite <- app_assoc). rewrite firstn_app, Nat.sub_diag, firstn_all. cbn [firstn]. apply app_nil_r.
Qed.
Lemma slice_from d s pre lw : split [nl] d = pre ++ lw -> s = Z.of_nat (length (flat_map (fun l => nl :: l) pre)) -> slice (datatext d) s (-1) = stacked lw.
Proof.
  intros E ->. assert (Ed : datatext d = flat_map (fun l => nl :: l) pre ++ stacked lw ++ [nl]).
  { assert (K : nl :: d ++ [nl] = flat_map (fun l => nl :: l) pre ++ stacked lw) by (rewrite <- stacked_split, E; unfold stacked; now rewrite flat_map_app, <- app_assoc).
    unfold datatext. replace (nl :: d ++ [nl; nl]) with ((nl :: d ++ [nl]) ++ [nl]) by (cbn [app]; now rewrite <- app_assoc). rewrite K. now rewrite <- app_assoc. }
  unfold slice. rewrite Ed. cbn [Z.ltb Z.compare]. rewrite Nat2Z.id, skipn_app, Nat.sub_diag, skipn_all. cbn [skipn app].
  replace (Z.to_nat _) with (length (stacked lw)) by (rewrite !app_length; cbn [length]; lia). rewrite firstn_app, Nat.sub_diag, firstn_all. cbn [firstn]. apply app_nil_r.
Qed.

(** ** running the group *)
Lemma normals_loop text start env lw : Forall (lacks nl) lw -> slice text start (-1) = stacked lw -> forall Rs fs, Forall2 by_lines Rs fs -> forall rs,
  rfold (fun st R => check_matches F R (p_find F R (slice text start (-1))) start st) Rs (env, rs) =
  Ok (env, fold_left (fun rs rf => put_hits (fst rf) 0 (hits (snd rf) lw start) rs) (combine (map (p_re F) Rs) fs) rs).
Proof.
  intros Hl Hs. induction 1 as [|R f Rs fs HR _ IH]; intros rs; [reflexivity|]. cbn [rfold map combine fold_left]. rewrite Hs. destruct (HR lw Hl) as [_ H]. rewrite H. cbn [rbind]. rewrite put_at. cbn [fst snd]. now rewrite <- IH, Hs.
Qed.
Lemma cands_fold q lw start : forall l rs, cands q (fold_left (fun rs rf => put_hits (fst rf) 0 (hits (snd rf) lw start) rs) l rs) =
  cands q rs ++ flat_map (fun rf => flat_map (fun pd => if Z.eqb q (fst pd) then [(fst rf, Some (snd pd))] else []) (hits (snd rf) lw start)) l.
Proof. induction l as [|[rd f] l IH]; intros rs; [cbn; now rewrite app_nil_r|]. cbn [fold_left flat_map fst snd]. rewrite IH, cands_put. now rewrite <- app_assoc. Qed.
Lemma fold_ok lw start : forall l rs, NoDup (map fst rs) -> full F rs -> let rs' := fold_left (fun rs rf => put_hits (fst rf) 0 (hits (snd rf) lw start) rs) l rs in NoDup (map fst rs') /\ full F rs'.
Proof. induction l as [|rf l IH]; intros rs H1 H2; [auto|]. cbn [fold_left]. apply IH; [now apply put_nodup|now apply put_full]. Qed.
Lemma split_lacks_nl d : Forall (lacks nl) (split [nl] d).
Proof. apply split_pieces. Qed.

Theorem run_lines g R f Rs fs d env : by_lines R f -> Forall2 by_lines Rs fs ->
  exists rs, run_re F (datatext d) (PG F g [R] [] Rs false []) (env, []) 0 (-1) = Ok (env, rs) /\
  match window f (split [nl] d) 0 with
  | None => rs = []
  | Some (_, lw) => rs <> [] /\ raw_of F rs = filter nonempty_l (map (items_of (combine (map (p_re F) (R :: Rs)) (f :: fs))) lw)
  end.
Proof.
  intros HR HRs. set (ls := split [nl] d). assert (Hls : Forall (lacks nl) ls) by apply split_lacks_nl. rewrite run_re_eq. cbn [rfold].
  destruct (HR ls Hls) as [Hp Hc]. unfold do_start. rewrite slice_all. fold ls.
  destruct (window f ls 0) as [[s lw]|] eqn:Ew.
  - apply window_some in Ew as (E1 & (d0 & t0 & E2) & pre & E3 & E4 & _). rewrite Z.add_0_l in E4.
    assert (Hlw : Forall (lacks nl) lw) by (rewrite E3 in Hls; now apply Forall_app in Hls as [_ Hls]).
    destruct (p_find F R (stacked ls)) as [|m ms] eqn:Em; [rewrite E1, E2 in Hp; discriminate|]. cbn [sa_st fst snd]. rewrite Hc. cbn [rbind sa_st fst snd].
    cbn [sa_found sa_s negb orb]. rewrite Bool.orb_true_r. rewrite E1, E2 in Hp. cbn [map fst] in Hp. injection Hp as Hm _. rewrite Hm, Z.add_0_l. cbn [rbind fst snd negb sa_found Z.eqb Pos.eqb kids_all].
    rewrite (normals_loop (datatext d) s env lw Hlw (slice_from d s pre lw E3 E4) Rs fs HRs). cbn [rbind]. rewrite E1.
    change (put_hits (p_re F R) 0 (hits f lw s) []) with (put_hits (fst (p_re F R, f)) 0 (hits (snd (p_re F R, f)) lw s) []).
    change (fold_left (fun rs rf => put_hits (fst rf) 0 (hits (snd rf) lw s) rs) (combine (map (p_re F) Rs) fs) (put_hits (fst (p_re F R, f)) 0 (hits (snd (p_re F R, f)) lw s) []))
      with (fold_left (fun rs rf => put_hits (fst rf) 0 (hits (snd rf) lw s) rs) (combine (map (p_re F) (R :: Rs)) (f :: fs)) []).
    eexists. split; [reflexivity|]. set (l := combine (map (p_re F) (R :: Rs)) (f :: fs)). set (rs := fold_left _ l []).
    destruct (fold_ok lw s l [] (NoDup_nil _) (Forall_nil _)) as [H1 H2]. fold rs in H1, H2. split.
    + intros E. assert (K : cands s rs = []) by (now rewrite E). unfold rs in K. rewrite cands_fold in K. unfold l in K. cbn [map combine flat_map fst snd cands app] in K. rewrite E2 in K. cbn [flat_map fst] in K. rewrite Z.eqb_refl in K. discriminate.
    + rewrite <- (expected_snd l lw s). apply raw_same; [exact H1|exact H2|apply expected_sorted|apply expected_full|]. intros q. unfold rs. rewrite cands_fold, cands_expected. reflexivity.
  - apply window_none in Ew. rewrite Ew in Hp. destruct (p_find F R (stacked ls)) as [|m ms]; [|discriminate]. cbn [rbind sa_found negb sa_st fst snd]. exists []. auto.
Qed.
End L.
