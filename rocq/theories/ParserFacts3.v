(** * ParserFacts3: defaults after matches, the record of defaults, variables of an input. *)
From Verif Require Import PyBase DictFacts Tree Results SpecTree ResultsFacts PathFacts SpecRecords MachineFacts RunFacts MatchFuncs
  Parser SpecParser ParserFacts ParserFacts2.
From Coq Require Import Sorting.Sorted Sorting.Permutation.

Section PF3.
Variable F : Type.
Notation found := (list (Z * list (item F))).

Lemma tree_ok_sub G : tree_ok F G -> Forall (fun R => finder_ok (p_find F R)) (starts_of F G) /\
  Forall (fun R => finder_ok (p_find F R)) (normals_of F G) /\ Forall (tree_ok F) (children_of F G).
Proof. destruct G as [g a b c d cs]. intros H. destruct (tree_ok_inv F _ _ _ _ _ _ H) as (? & _ & ? & ?). auto. Qed.

Lemma contributes_bound spec text G start stop q y : contributes F spec text G start stop q y ->
  tree_ok F G -> (0 <= start <= stop_pos text stop)%Z -> (start <= q <= stop_pos text stop)%Z.
Proof.
  assert (HF : forall G start stop p, tree_ok F G -> (0 <= start <= stop_pos text stop)%Z -> is_first F text G start stop p -> (start <= p <= stop_pos text stop)%Z).
  { intros G' start' stop' p Hok Hw [(R & m & HR & Hm & ->) _]. apply tree_ok_sub in Hok as (Ha & _). rewrite Forall_forall in Ha.
    destruct (find_bound F R text start' stop' m (Ha R HR) Hw Hm). lia. }
  induction 1 as [G start stop R m y HR Hm Hy|G start stop p R m y Hf HR Hm Hy|G start stop p c q y Hf Hc HC IH|G start stop c q y Ha Hc HC IH];
    intros Hok Hw; pose proof (tree_ok_sub _ Hok) as (H1 & H2 & H3).
  - rewrite Forall_forall in H1. destruct (find_bound F R text start stop m (H1 R HR) Hw Hm). lia.
  - specialize (HF _ _ _ _ Hok Hw Hf). rewrite Forall_forall in H2.
    assert (Hw' : (0 <= p <= stop_pos text stop)%Z) by lia.
    destruct (find_bound F R text p stop m (H2 R HR) Hw' Hm). lia.
  - specialize (HF _ _ _ _ Hok Hw Hf). rewrite Forall_forall in H3. assert (Hw' : (0 <= p <= stop_pos text stop)%Z) by lia.
    specialize (IH (H3 c Hc) Hw'). lia.
  - rewrite Forall_forall in H3. specialize (IH (H3 c Hc) Hw). lia.
Qed.

Lemma insert_before x y (l : found) : (fst x < fst y)%Z -> insert_found F x (l ++ [y]) = insert_found F x l ++ [y].
Proof.
  intros H. induction l as [|z l IH]; cbn [app insert_found].
  - destruct (Z.leb_spec (fst x) (fst y)); [reflexivity|lia].
  - destruct (Z.leb (fst x) (fst z)); [reflexivity|]. rewrite IH. reflexivity.
Qed.
Lemma sort_snoc (l : found) y : Forall (fun x => (fst x < fst y)%Z) l -> sort_found F (l ++ [y]) = sort_found F l ++ [y].
Proof.
  induction 1 as [|x l Hx Hl IH]; [reflexivity|]. cbn [app sort_found fold_right]. unfold sort_found in IH. rewrite IH.
  now apply insert_before.
Qed.

(** every candidate list collected is non-empty *)
Lemma add_at_full p x (rs : found) : Forall (fun e => snd e <> []) rs -> Forall (fun e => snd e <> []) (add_at F p x rs).
Proof.
  induction 1 as [|[q l] rs Hl Hrs IH]; [repeat constructor; cbn; congruence|]. cbn [add_at]. destruct (Z.eqb p q); constructor; auto.
  cbn [snd] in *. destruct l; cbn; congruence.
Qed.

Theorem default_after_matches spec text g A B env :
  tree_ok F A -> simple_tree F A -> Forall (plain_re F spec) (regexes F A) ->
  tree_ok F B -> pg_default F B = true -> starts_of F B <> [] -> Forall (fun x => pg_default F x = false) (children_of F B) ->
  (forall p, ~ start_at F text B 0 (-1) p) ->
  (1 <= length text)%nat -> (Z.of_nat (length text) <= default_key)%Z ->
  exists rsA rs, run_re F text A (env, []) 0 (-1) = Ok (env, rsA) /\
    run_re F text (PG F g [] [] [] false [A; B]) (env, []) 0 (-1) = Ok (env, rs) /\
    raw_of F rs = raw_of F rsA ++ [[(default_re F (pg_group F B) (starts_of F B), Some [])]].
Proof.
  intros HokA HsA HpA HokB HdB HaB HkB HnoB Hl1 Hl2.
  assert (Hw : (0 <= 0 <= stop_pos text (-1))%Z) by (unfold stop_pos; simpl; lia).
  assert (Hstop : stop_pos text (-1) = (Z.of_nat (length text) - 1)%Z) by (unfold stop_pos; simpl; lia).
  destruct (run_re_exact F spec text A HokA HsA HpA env [] 0%Z (-1)%Z Hw) as (rsA & EA & HA).
  destruct B as [gb a b c d cs]. cbn [pg_default starts_of children_of pg_group] in *. subst d.
  destruct (default_record F text gb a b c cs 0 (-1) (env, rsA) HokB HaB HkB HnoB) as (key & Hk1 & Hk2 & EB).
  exists rsA, (rsA ++ [(key, [(default_re F gb a, Some [])])]). split; [exact EA|]. split.
  - rewrite run_re_eq. cbn [rfold rbind sa_found sa_s sa_st negb no_starts kids_def orb Z.add]. rewrite EA. cbn [rbind].
    rewrite EB. reflexivity.
  - unfold raw_of. rewrite sort_snoc; [now rewrite map_app|].
    apply Forall_forall. intros [q l] Hq. cbn [fst].
    assert (Hl : l <> []).
    { assert (HF : Forall (fun e : Z * list (item F) => snd e <> []) rsA).
      { clear -EA HsA HpA. revert EA.
        assert (HG : forall G, simple_tree F G -> forall st start stop st', run_re F text G st start stop = Ok st' ->
           Forall (fun e : Z * list (item F) => snd e <> []) (snd st) -> Forall (fun e : Z * list (item F) => snd e <> []) (snd st')).
        { assert (HM : forall R ms start st st', check_matches F R ms start st = Ok st' ->
             Forall (fun e : Z * list (item F) => snd e <> []) (snd st) -> Forall (fun e : Z * list (item F) => snd e <> []) (snd st')).
          { intros R ms start st st' H. unfold check_matches in H. refine (rfold_inv _ (fun st => Forall (fun e : Z * list (item F) => snd e <> []) (snd st)) ms _ _ _ H).
            intros [e r] m st1 _ H1 Hf. unfold check_one in H1. destruct (run_vars _ _ e []) as [[e' o]|]; cbn [rbind] in H1; [|discriminate].
            destruct o; [|destruct (is_start _)]; injection H1 as <-; cbn [snd] in *; auto using add_at_full. }
          induction G as [g0 a0 b0 c0 d0 cs0 IH] using (pgroup_ind' F). intros Hs st start stop st' H Hn. rewrite run_re_eq in H.
          apply simple_kids in Hs as (-> & -> & Hks).
          destruct (rfold (do_start F text start stop) a0 _) as [acc|] eqn:EA; cbn [rbind] in H; [|discriminate].
          assert (HA : Forall (fun e : Z * list (item F) => snd e <> []) (snd (sa_st F acc))).
          { refine (rfold_inv _ (fun x => Forall (fun e : Z * list (item F) => snd e <> []) (snd (sa_st F x))) a0 _ _ _ EA Hn).
            intros x R x' _ Hx Hp. unfold do_start in Hx. destruct (p_find F R _) as [|m ms]; [injection Hx as <-; exact Hp|].
            destruct (check_matches F R _ start _) as [s1|] eqn:E; cbn [rbind] in Hx; [|discriminate].
            injection Hx as <-. cbn [sa_st]. eapply HM; eauto. }
          destruct (sa_found F acc); cbn [negb] in H.
          - cbn [rfold rbind Z.eqb Pos.eqb] in H.
            destruct (rfold _ c0 _) as [stC|] eqn:EC; cbn [rbind] in H; [|discriminate].
            assert (HC : Forall (fun e : Z * list (item F) => snd e <> []) (snd stC)).
            { refine (rfold_inv _ (fun x => Forall (fun e : Z * list (item F) => snd e <> []) (snd x)) c0 _ _ _ EC HA).
              intros x R x' _ Hx Hp. eapply HM; eauto. }
            clear -IH H HC Hks. revert stC H HC. induction cs0 as [|x cs IHc]; intros s H Hs; [injection H as <-; exact Hs|].
            inversion IH as [|? ? Hx Hcs]; subst. inversion Hks; subst. cbn [kids_all] in H. destruct (run_re F text x s _ _) as [s1|] eqn:E; cbn [rbind] in H; [|discriminate].
            apply (IHc Hcs H3 s1 H). exact (Hx H2 _ _ _ _ E Hs).
          - revert H HA. generalize (sa_st F acc). clear -IH Hks. induction cs0 as [|x cs IHc]; intros s H Hs; [injection H as <-; exact Hs|].
            inversion IH as [|? ? Hx Hcs]; subst. inversion Hks; subst. cbn [kids_def] in H. destruct (_ || _)%bool.
            + destruct (run_re F text x s _ _) as [s1|] eqn:E; cbn [rbind] in H; [|discriminate]. apply (IHc Hcs H3 s1 H). exact (Hx H2 _ _ _ _ E Hs).
            + cbn [rbind] in H. exact (IHc Hcs H3 s H Hs). }
        intros EA. change rsA with (snd (env, rsA)). eapply HG; [exact HsA|exact EA|constructor]. }
      rewrite Forall_forall in HF. exact (HF _ Hq). }
    destruct l as [|y l]; [congruence|].
    assert (Hat : at_pos rsA q y) by (exists (y :: l); split; [exact Hq|now left]).
    apply HA in Hat as [(? & [] & _)|HC]. pose proof (contributes_bound _ _ _ _ _ _ _ HC HokA Hw). lia.
Qed.

(** ** the record of a group that never matched *)
Lemma update_runs_keys data : forall runs, map fst (update_runs data runs) = map fst runs.
Proof.
  unfold update_runs. induction data as [|kv data IH]; intros runs; [reflexivity|]. cbn [fold_left]. rewrite IH.
  rewrite map_map. apply map_ext. intros [k v]. cbn [fst snd]. now destruct (py_eq v _).
Qed.
Variable runf : F -> fstate -> res (fstate * bool).
Variable k2i : bool.

Theorem default_saved text g a b c env main :
  tree_ok F (PG F g a b c true []) -> a <> [] ->
  (forall R, In R a -> r_group F (p_re F R) = g /\ r_action F (p_re F R) = AStart) ->
  static_path (g_path F g) -> g_path F g <> [] -> g_funcs F g = [] -> g_parent F g = None -> dwf (g_runs F g) ->
  (forall p, ~ start_at F text (PG F g a b c true []) 0 (-1) p) ->
  exists content,
    (do r <- parse F runf k2i text [(PG F g a b c true [], None)] [] env main; Ok (snd (snd r)))
    = save_cur k2i false main (map split_stars (g_path F g)) (VDict content) /\
    forall k, dget content k = dget (update_runs (m_vars env) (update_runs (m_gvars env) (g_runs F g))) k.
Proof.
  intros Hok Ha Hre Hst Hne Hfs Hpar Hwf Hno.
  destruct (default_record F text g a b c [] 0 (-1) (env, []) Hok Ha (Forall_nil _) Hno) as (key & _ & _ & E).
  cbn [fst snd app] in E.
  set (fresh := update_runs (m_vars env) (update_runs (m_gvars env) (g_runs F g))).
  set (g' := {| g_id := g_id F g; g_parent := g_parent F g; g_path := g_path F g; g_runs := fresh; g_funcs := g_funcs F g |}).
  assert (Hwf' : dwf (g_runs F g')).
  { cbn [g_runs g']. unfold dwf, dkeys, fresh. rewrite !update_runs_keys. exact Hwf. }
  set (x := set_runs F (fun runs => update_runs (m_vars env) (update_runs (m_gvars env) runs)) (default_re F g a, Some [])).
  assert (Hx : of_group F g' x /\ r_action F (fst x) = AStart /\ snd x = Some []).
  { destruct a as [|R a]; [congruence|]. destruct (Hre R (or_introl eq_refl)) as [H1 H2].
    unfold x, of_group. cbn [default_re set_runs fst snd r_action r_group]. rewrite H1, H2. repeat split; congruence. }
  destruct Hx as (Hx1 & Hx2 & Hx3).
  destruct (run_content F runf k2i g' Hst Hne Hfs Hpar Hwf' {| e_vars := m_vars env; e_gvars := m_gvars env |} x [] [] [] main Hx1 Hx2 Hx3 (Forall2_nil _) (NoDup_nil _) (Forall_nil _))
    as (content & H1 & H2).
  exists content. split.
  - cbn [g_path g'] in H1. rewrite <- H1. unfold parse. cbn [map fst snd run_all]. rewrite E. cbn [rbind snd fst combine flat_map app raw_of sort_found fold_right insert_found map].
    fold x. unfold results_of.
    destruct (make_results F runf k2i _ [] [[[x]]] main) as [s|e]; reflexivity.
  - intros k. rewrite H2. reflexivity.
Qed.

(** ** the variables an input starts with *)
Fixpoint computed (vfs : list (key * (str -> option val))) (text : str) (k : key) : option val :=
  match vfs with
  | [] => None
  | (k', f) :: t => if key_eqb k k' then (match f text with Some v => if truthy v then Some v else None | None => None end)
                    else computed t text k
  end.
Theorem vars_of_input vfs : NoDup (map fst vfs) -> forall orig text k,
  dget (set_vars orig vfs text) k = match computed vfs text k with Some v => Some v | None => dget orig k end.
Proof.
  unfold set_vars. induction vfs as [|[k' f] vfs IH]; intros Hn orig text k; [reflexivity|].
  inversion Hn as [|? ? Hk Hn']; subst. cbn [fold_left fst snd computed]. rewrite IH by exact Hn'.
  destruct (key_eqb_spec k k') as [->|Hne].
  - assert (computed vfs text k' = None) as ->.
    { clear -Hk. induction vfs as [|[k2 f2] vfs IH]; [reflexivity|]. cbn [computed]. destruct (key_eqb_spec k' k2) as [->|].
      - exfalso. apply Hk. now left.
      - apply IH. intros Hi. apply Hk. now right. }
    destruct (f text) as [v|]; [|reflexivity]. destruct (truthy v); [|reflexivity]. apply dget_dset_same.
  - destruct (computed vfs text k); [reflexivity|]. destruct (f text) as [v|]; [|reflexivity].
    destruct (truthy v); [|reflexivity]. apply dget_dset_other. congruence.
Qed.
End PF3.
