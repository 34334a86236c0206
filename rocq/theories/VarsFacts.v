(** * VarsFacts: saving variables before the groups. *)
From Coq Require Import Lia Sorting.Sorted Sorting.Permutation.
From Verif Require Import PyBase DictFacts StrFacts Tree Results Template Files Load Session SessionFacts SpecTree ResultsFacts PathFacts MachineFacts SpecProgram ChainFacts PlainTop SpecVars.
Local Open Scope string_scope.
Local Open Scope list_scope.

Lemma leb_lt a : forall b, str_leb a b = true <-> str_lt a b \/ a = b.
Proof.
  induction a as [|x a IH]; intros [|y b]; cbn [str_leb].
  - split; [now right|reflexivity].
  - split; [intros _; left; constructor|reflexivity].
  - split; [discriminate|]. intros [H|H]; [inversion H|discriminate].
  - destruct (N.ltb_spec (code x) (code y)) as [H|H]; [split; [intros _; left; now constructor|reflexivity]|].
    destruct (N.ltb_spec (code y) (code x)) as [H'|H'].
    + split; [discriminate|]. intros [K|K]; [inversion K; subst; lia|injection K as <- <-; lia].
    + assert (E : code x = code y) by lia. assert (x = y) by (rewrite <- (ascii_N_embedding x), <- (ascii_N_embedding y); unfold code in E; now rewrite E). subst y.
      rewrite IH. split; [intros [K|K]; [left; now constructor|right; now subst]|]. intros [K|K]; [inversion K; subst; [lia|now left]|right; congruence].
Qed.
Lemma leb_total a b : str_leb a b = false -> str_lt b a.
Proof.
  revert b; induction a as [|x a IH]; intros [|y b]; cbn [str_leb]; try discriminate; [intros _; constructor|].
  destruct (N.ltb_spec (code x) (code y)) as [H|H]; [discriminate|]. destruct (N.ltb_spec (code y) (code x)) as [H'|H']; [intros _; now constructor|].
  assert (E : code x = code y) by lia. assert (x = y) by (rewrite <- (ascii_N_embedding x), <- (ascii_N_embedding y); unfold code in E; now rewrite E). subst y. intros K. apply lt_tail. now apply IH.
Qed.
Lemma lt_trans' a b c : str_lt a b -> str_lt b c -> str_lt a c.
Proof.
  intros H. revert c. induction H as [x t|x y s t Hxy|x s t H IH]; intros c K; inversion K; subst; try (constructor; lia || assumption); try now constructor.
  apply lt_tail. now apply IH.
Qed.
Lemma lt_irrefl a : ~ str_lt a a.
Proof. induction a as [|x a IH]; intros H; inversion H; subst; [lia|now apply IH]. Qed.
Lemma insert_perm x l : Permutation (x :: l) (insert_path x l).
Proof. induction l as [|y l IH]; cbn [insert_path]; [reflexivity|]. destruct (str_leb _ _); [reflexivity|]. rewrite perm_swap. now constructor. Qed.
Lemma sort_paths_perm l : Permutation l (sort_paths l).
Proof. induction l as [|x l IH]; [reflexivity|]. cbn [sort_paths fold_right]. rewrite <- insert_perm. now constructor. Qed.
Lemma insert_sorted x l : ~ In (fst x) (map fst l) -> StronglySorted str_lt (map fst l) -> StronglySorted str_lt (map fst (insert_path x l)).
Proof.
  induction l as [|y l IH]; intros Hn S; cbn [insert_path map]; [repeat constructor|]. cbn [map] in S, Hn. apply StronglySorted_inv in S as [S1 S2]. destruct (str_leb (fst x) (fst y)) eqn:E.
  - apply leb_lt in E as [E|E]; [|exfalso; apply Hn; now left]. cbn [map]. constructor; [now constructor|]. constructor; [exact E|]. rewrite Forall_forall in *. intros z Hz. exact (lt_trans' _ _ _ E (S2 _ Hz)).
  - apply leb_total in E. cbn [map]. constructor; [apply IH; [intros K; apply Hn; now right|exact S1]|]. rewrite Forall_forall in *. intros z Hz.
    apply (Permutation_in z (Permutation_map fst (Permutation_sym (insert_perm x l)))) in Hz. cbn [map] in Hz. destruct Hz as [<-|Hz]; [exact E|now apply S2].
Qed.
Lemma sort_paths_sorted l : NoDup (map fst l) -> StronglySorted str_lt (map fst (sort_paths l)).
Proof.
  induction l as [|x l IH]; intros H; [constructor|]. cbn [sort_paths fold_right]. cbn [map] in H. inversion H as [|? ? Hn Hd]; subst. apply insert_sorted; [|now apply IH]. intros K. apply Hn. exact (Permutation_in _ (Permutation_map fst (Permutation_sym (sort_paths_perm l))) K).
Qed.
Definition nonnil (pn : str * list str) : bool := match fst pn with [] => false | _ => true end.
Lemma filter_perm {A} (f : A -> bool) l l' : Permutation l l' -> Permutation (filter f l) (filter f l').
Proof. induction 1 as [|x l l' _ IH|x y l|l l' l'' _ IH1 _ IH2]; cbn [filter]; [reflexivity|destruct (f x); [now constructor|exact IH]|destruct (f x), (f y); try reflexivity; apply perm_swap|now transitivity (filter f l')]. Qed.
Lemma filter_sorted (f : str * list str -> bool) l : StronglySorted str_lt (map fst l) -> StronglySorted str_lt (map fst (filter f l)).
Proof.
  induction l as [|x l IH]; intros S; [constructor|]. cbn [map] in S. apply StronglySorted_inv in S as [S1 S2]. cbn [filter]. destruct (f x); [|now apply IH]. cbn [map]. constructor; [now apply IH|].
  rewrite Forall_forall in *. intros z Hz. apply S2. apply in_map_iff in Hz as (y & <- & Hy). apply filter_In in Hy as [Hy _]. now apply in_map.
Qed.
Lemma ascending_sort v2r : NoDup (map fst v2r) -> ascending v2r (filter nonnil (sort_paths v2r)).
Proof. intros H. split; [apply filter_perm, sort_paths_perm|apply filter_sorted, sort_paths_sorted; exact H]. Qed.
(** there is only one ascending order *)
Lemma sorted_unique : forall (l l' : list (str * list str)), Permutation l l' -> StronglySorted str_lt (map fst l) -> StronglySorted str_lt (map fst l') -> l = l'.
Proof.
  induction l as [|x l IH]; intros l' P S S'; [now apply Permutation_nil in P|]. destruct l' as [|y l']; [now apply Permutation_sym, Permutation_nil in P|].
  cbn [map] in S, S'. apply StronglySorted_inv in S as [S1 S2]. apply StronglySorted_inv in S' as [S1' S2']. rewrite Forall_forall in *.
  assert (x = y). { assert (Hx : In x (y :: l')) by (apply (Permutation_in x P); now left). destruct Hx as [Hx|Hx]; [now symmetry|]. assert (Hy : In y (x :: l)) by (apply (Permutation_in y (Permutation_sym P)); now left). destruct Hy as [Hy|Hy]; [exact Hy|].
    exfalso. apply (lt_irrefl (fst x)). exact (lt_trans' _ _ _ (S2 _ (in_map fst _ _ Hy)) (S2' _ (in_map fst _ _ Hx))). }
  subst y. f_equal. apply IH; [now apply Permutation_cons_inv in P|exact S1|exact S1'].
Qed.
Lemma ascending_unique v2r a b : ascending v2r a -> ascending v2r b -> a = b.
Proof. intros [P S] [P' S']. apply sorted_unique; [|exact S|exact S']. exact (Permutation_trans (Permutation_sym P) P'). Qed.
(** the values *)
Lemma firsts_snoc l n : firsts (l ++ [n]) = if in_dec (list_eq_dec ascii_dec) n l then firsts l else firsts l ++ [n].
Proof.
  unfold firsts. rewrite rev_app_distr. cbn [rev app nodup]. destruct (in_dec (list_eq_dec ascii_dec) n (rev l)) as [K|K], (in_dec (list_eq_dec ascii_dec) n l) as [K'|K']; try reflexivity; exfalso; [apply K'; now apply in_rev|apply K; now apply -> in_rev].
Qed.
Lemma values_get vars l n : dget (values_of vars l) (KS n) = if in_dec (list_eq_dec ascii_dec) n l then dget vars (KS n) else None.
Proof.
  unfold values_of. assert (G : forall l, dget (flat_map (fun n => match dget vars (KS n) with Some v => [(KS n, v)] | None => [] end) l) (KS n) = if in_dec (list_eq_dec ascii_dec) n l then dget vars (KS n) else None).
  { clear l. induction l as [|m l IH]; [reflexivity|]. cbn [flat_map]. destruct (list_eq_dec ascii_dec m n) as [->|E].
    - destruct (in_dec _ n (n :: l)) as [_|K]; [|exfalso; apply K; now left]. destruct (dget vars (KS n)) as [v|] eqn:Ev; [cbn [app dget]; now rewrite key_eqb_refl|].
      cbn [app]. rewrite IH. destruct (in_dec _ n l); [reflexivity|reflexivity].
    - assert (R : (if in_dec (list_eq_dec ascii_dec) n (m :: l) then dget vars (KS n) else None) = (if in_dec (list_eq_dec ascii_dec) n l then dget vars (KS n) else None)).
      { destruct (in_dec _ n (m :: l)) as [K|K], (in_dec _ n l) as [K'|K']; try reflexivity; exfalso; [destruct K; auto|apply K; now right]. }
      rewrite R, <- IH. destruct (dget vars (KS m)) as [v|]; [|reflexivity]. cbn [app dget]. destruct (key_eqb (KS n) (KS m)) eqn:Ek; [apply key_eqb_eq in Ek; congruence|reflexivity]. }
  rewrite G. unfold firsts. destruct (in_dec _ n (rev _)) as [K|K], (in_dec _ n l) as [K'|K']; try reflexivity; exfalso.
  - apply in_rev, nodup_In, in_rev in K. now apply K'.
  - apply K. apply -> in_rev. apply nodup_In. now apply -> in_rev.
Qed.
Lemma collect_snoc vars l n : collect_vars vars (l ++ [n]) = match dget vars (KS n) with Some v => dset (collect_vars vars l) (KS n) v | None => collect_vars vars l end.
Proof. unfold collect_vars. now rewrite fold_left_app. Qed.
Lemma collect_values vars l : collect_vars vars l = values_of vars l.
Proof.
  induction l as [|n l IH] using rev_ind; [reflexivity|]. rewrite collect_snoc, IH. pose proof (values_get vars l n) as G. unfold values_of at 2 3. rewrite firsts_snoc.
  destruct (in_dec _ n l) as [K|K].
  - destruct (dget vars (KS n)) as [v|]; [|reflexivity]. now apply dset_same.
  - rewrite flat_map_app. cbn [flat_map]. fold (values_of vars l). destruct (dget vars (KS n)) as [v|]; [|now rewrite app_nil_r]. now apply dset_fresh.
Qed.
(** ** the machine *)
Definition items_of_path (p : str) : list (str * nat) := map split_stars (map strip (split $"." p)).
Definition static (p : str) : Prop := static_path (map strip (split $"." p)).
Section M.
Variables (F : Type) (runf : F -> fstate -> res (fstate * bool)) (k2i : bool).
Definition saved (vars : dict) (E : val) (pn : str * list str) : res val := save_cur k2i false E (items_of_path (fst pn)) (VDict (values_of vars (snd pn))).
Lemma items_ne p : items_of_path p <> [].
Proof. unfold items_of_path. destruct (split $"." p) eqn:E; [now apply split_ne in E|discriminate]. Qed.
Lemma save_static (s : rstate F) p ns : static p -> p <> [] -> save_var_path F k2i s (p, ns) = do v <- saved (e_vars (s_env F s)) (s_results F s) (p, ns); Ok (with_results F s v).
Proof.
  intros Hs Hp. unfold save_var_path. destruct p as [|c p]; [now destruct Hp|]. rewrite form_path_static by exact Hs. cbn [rbind]. rewrite collect_values. unfold saved. cbn [fst snd].
  pose proof (items_ne (c :: p)) as Hn. fold (items_of_path (c :: p)) . destruct (items_of_path (c :: p)) as [|i is]; [now destruct Hn|]. cbn [s_results]. destruct (save_cur _ _ _ _ _); reflexivity.
Qed.
Lemma save_all_paths l : forall s : rstate F, Forall (fun pn => fst pn <> [] -> static (fst pn)) l ->
  rfold (save_var_path F k2i) l s = do v <- rfold (saved (e_vars (s_env F s))) (filter nonnil l) (s_results F s); Ok (with_results F s v).
Proof.
  induction l as [|[p ns] l IH]; intros s H; cbn [rfold filter].
  - cbn [rbind]. now destruct s.
  - inversion H as [|? ? H1 H2]; subst. cbn [fst] in H1. destruct p as [|c p].
    + cbn [nonnil fst]. cbn [save_var_path rbind]. now apply IH.
    + unfold nonnil at 1. cbn [fst rfold]. rewrite save_static by (discriminate || (apply H1; discriminate)). destruct (saved _ _ _) as [v|]; [|reflexivity]. cbn [rbind]. rewrite IH by exact H2. reflexivity.
Qed.
Theorem vars_first e v2r raw main ps : raw <> [] -> Forall (fun pn => fst pn <> [] -> static (fst pn)) v2r -> NoDup (map fst v2r) -> ascending v2r ps ->
  make_results F runf k2i e v2r raw main = do v <- rfold (saved (e_vars e)) ps main; make_results F runf k2i e [] raw v.
Proof.
  intros Hr Hs Hd Ha. rewrite (ascending_unique _ _ _ Ha (ascending_sort v2r Hd)). unfold make_results. destruct raw as [|r raw]; [now destruct Hr|]. unfold save_vars.
  rewrite save_all_paths. 2: { apply (Permutation_Forall (sort_paths_perm v2r)). exact Hs. }
  cbn [init_state s_env s_results]. destruct (rfold (saved (e_vars e)) _ main) as [v|]; [|reflexivity]. reflexivity.
Qed.
Theorem vars_no_match e v2r main : exists s, make_results F runf k2i e v2r [] main = Ok s /\ s_results F s = main /\ s_env F s = e.
Proof. exists (init_state F e main). split; [|now split]. unfold make_results. cbn [rbind run_groups rfold]. now apply flush_norec. Qed.
(** paths of one key each *)
Lemma one_item p : group_name p -> static p /\ items_of_path p = [(p, 0)].
Proof.
  intros H. assert (E : map strip (split $"." p) = [p]).
  { destruct H as (_ & _ & Hw). change $"." with ["."%char]. rewrite split_lacks. 2: { intros K. rewrite Forall_forall in Hw. apply Hw in K. discriminate K. }
    cbn [map]. f_equal. apply strip_id. apply (Forall_impl (P := fun c => is_word c = true)); [|exact Hw]. intros c Hc. now apply PlainLine.word_not_space. }
  unfold static, items_of_path. rewrite E. split; [now apply name_static|now apply name_stars].
Qed.
Lemma saved_fresh vars d p ns : group_name p -> dget d (KS p) = None -> saved vars (VDict d) (p, ns) = Ok (VDict (d ++ [(KS p, VDict (values_of vars ns))])).
Proof.
  intros Hp Hd. unfold saved. cbn [fst snd]. rewrite (proj2 (one_item p Hp)). change [(p, 0)] with ([] ++ [(p, 0)]).
  rewrite (save_missing k2i [] p 0 [] (VDict d) [] d (values_of vars ns)); [reflexivity|now apply name_plain|exists [], [], (VDict d); split; [apply reach_here|]; split; [apply enter_here|reflexivity]|exact Hd|].
  unfold dwf, values_of. assert (N : NoDup (firsts ns)) by (unfold firsts; apply NoDup_rev, NoDup_nodup). clear - N. induction (firsts ns) as [|n l IH]; [constructor|]. inversion N as [|? ? H1 H2]; subst. cbn [flat_map]. destruct (dget vars (KS n)) as [v|]; [|now apply IH].
  cbn [app dkeys map fst]. constructor; [|now apply IH]. intros K. apply H1. apply in_map_iff in K as ([k w] & E & K). cbn [fst] in E. subst k. apply in_flat_map in K as (m & Hm & K). destruct (dget vars (KS m)); [|destruct K]. destruct K as [K|[]]. congruence.
Qed.
Lemma saved_each vars ps : forall d, Forall (fun pn => group_name (fst pn)) ps -> NoDup (map fst ps) -> (forall p, In p (map fst ps) -> dget d (KS p) = None) ->
  rfold (saved vars) ps (VDict d) = Ok (VDict (d ++ map (fun pn => (KS (fst pn), VDict (values_of vars (snd pn)))) ps)).
Proof.
  induction ps as [|[p ns] ps IH]; intros d Hg Hd Hf; cbn [rfold map]; [now rewrite app_nil_r|]. inversion Hg as [|? ? Hg1 Hg2]; subst. cbn [map fst] in Hd. inversion Hd as [|? ? Hd1 Hd2]; subst. cbn [fst] in Hg1.
  rewrite saved_fresh; [|exact Hg1|apply Hf; now left]. cbn [rbind]. rewrite IH; [now rewrite <- app_assoc|exact Hg2|exact Hd2|].
  intros q Hq. rewrite dget_app2. rewrite (Hf q) by now right. cbn [dget]. destruct (key_eqb (KS q) (KS p)) eqn:E; [|reflexivity]. apply key_eqb_eq in E. injection E as ->. contradiction.
Qed.
Theorem vars_first_keys e v2r raw d ps : raw <> [] -> Forall (fun pn => group_name (fst pn)) v2r -> NoDup (map fst v2r) -> ascending v2r ps -> (forall p, In p (map fst v2r) -> dget d (KS p) = None) ->
  make_results F runf k2i e v2r raw (VDict d) = make_results F runf k2i e [] raw (VDict (d ++ map (fun pn => (KS (fst pn), VDict (values_of (e_vars e) (snd pn)))) ps)).
Proof.
  intros Hr Hg Hd Ha Hf. rewrite (vars_first e v2r raw _ ps Hr); [|apply (Forall_impl _ (fun pn H _ => proj1 (one_item _ H))); exact Hg|exact Hd|exact Ha].
  destruct Ha as [P S]. assert (Ef : filter (fun pn : str * list str => match fst pn with [] => false | _ => true end) v2r = v2r).
  { clear - Hg. induction Hg as [|[p ns] l Hp _ IH]; [reflexivity|]. cbn [filter fst]. destruct Hp as (_ & (c & t & E & _) & _). cbn [fst] in E. rewrite E. now rewrite IH. }
  rewrite Ef in P. rewrite saved_each; [reflexivity|exact (Permutation_Forall P Hg)|exact (Permutation_NoDup (Permutation_map fst P) Hd)|].
  intros p Hp. apply Hf. exact (Permutation_in _ (Permutation_map fst (Permutation_sym P)) Hp).
Qed.
End M.
(** ** what the vars tags give *)
Definition keys_at (l : list (str * list str)) (p : str) : list str := match aget l p with Some ks => ks | None => [] end.
Lemma add_path_get p ks l q : keys_at (add_path p ks l) q = keys_at l q ++ (if str_eqb q p then ks else []).
Proof.
  unfold keys_at. induction l as [|[r old] l IH]; cbn [add_path aget].
  - destruct ks as [|k ks]; cbn [aget]; [now destruct (str_eqb q p)|]. now destruct (str_eqb q p).
  - destruct (str_eqb p r) eqn:E; cbn [aget].
    + apply str_eqb_eq in E. subst r. destruct (str_eqb q p); [reflexivity|now rewrite app_nil_r].
    + destruct (str_eqb q r) eqn:E2; [|exact IH]. apply str_eqb_eq in E2. subst r. destruct (str_eqb q p) eqn:E3; [|now rewrite app_nil_r]. apply str_eqb_eq in E3. subst q. now rewrite str_eqb_refl in E.
Qed.
Lemma add_path_in p ks l q : In q (map fst (add_path p ks l)) <-> In q (map fst l) \/ q = p /\ ks <> [].
Proof.
  induction l as [|[r old] l IH]; cbn [add_path map fst].
  - destruct ks as [|k ks]; cbn [map fst In].
    + split; [intros []|]. intros [[]|[_ K]]. now destruct K.
    + split; [intros [<-|[]]; right; split; [reflexivity|discriminate]|]. intros [[]|[-> _]]. now left.
  - destruct (str_eqb p r) eqn:E; cbn [map fst In].
    + apply str_eqb_eq in E. subst r. split; [tauto|]. intros [H|[-> _]]; [exact H|now left].
    + rewrite IH. tauto.
Qed.
Lemma add_path_nodup p ks l : NoDup (map fst l) -> NoDup (map fst (add_path p ks l)).
Proof.
  induction l as [|[r old] l IH]; intros H; cbn [add_path]; [destruct ks; repeat constructor; intros []|]. cbn [map fst] in H. inversion H as [|? ? H1 H2]; subst. destruct (str_eqb p r) eqn:E; cbn [map fst]; [exact H|].
  constructor; [|now apply IH]. intros K. apply add_path_in in K as [K|[-> _]]; [contradiction|]. now rewrite str_eqb_refl in E.
Qed.
(** the tags in their order: the variables, and the path *)
Section L.
Variable w : world.
Definition tag_vars (e : elem) (d : list (str * val)) : Prop := load_struct w (e_text e) (e_attrs e) = Ok (Some (VDict (map (fun nv => (KS (fst nv), snd nv)) d))).
Lemma str_keys_map (d : list (str * val)) : str_keys (map (fun nv => (KS (fst nv), snd nv)) d) = Ok (map fst d).
Proof. unfold str_keys. induction d as [|[n v] d IH]; [reflexivity|]. cbn [map rmap fst]. now rewrite IH. Qed.
Definition named_keys (p : str) (eds : list (elem * list (str * val))) : list str := flat_map (fun ed => match attr (e_attrs (fst ed)) $"name" with Some q => if str_eqb q p then map fst (snd ed) else [] | None => [] end) eds.
Theorem vars_tags eds : Forall (fun ed => tag_vars (fst ed) (snd ed)) eds -> forall vars v2r, NoDup (map fst v2r) -> exists v2r', 
  rfold (parse_vars w) (map fst eds) (vars, v2r) = Ok (fold_left (fun vs ed => dupdate vs (map (fun nv => (KS (fst nv), snd nv)) (snd ed))) eds vars, v2r') /\
  NoDup (map fst v2r') /\ (forall p, In p (map fst v2r') <-> In p (map fst v2r) \/ named_keys p eds <> []) /\ forall p, keys_at v2r' p = keys_at v2r p ++ named_keys p eds.
Proof.
  induction 1 as [|[e d] eds He _ IH]; intros vars v2r Hn; cbn [map rfold fold_left fst snd].
  - exists v2r. split; [reflexivity|]. split; [exact Hn|]. split; [intros p; split; [now left|intros [K|K]; [exact K|now destruct K]]|]. intros p. cbn [named_keys flat_map]. now rewrite app_nil_r.
  - cbn [fst snd] in He. unfold parse_vars at 1. rewrite He. cbn [rbind]. rewrite str_keys_map. cbn [rbind]. unfold named_keys. cbn [flat_map fst snd]. fold (named_keys). destruct (attr (e_attrs e) $"name") as [q|]; cbn [rbind].
    + destruct (IH (dupdate vars (map (fun nv => (KS (fst nv), snd nv)) d)) (add_path q (map fst d) v2r) (add_path_nodup _ _ _ Hn)) as (v2r' & E & H1 & H2 & H3). exists v2r'. split; [exact E|]. split; [exact H1|]. split.
      * intros p. rewrite H2, add_path_in. fold (named_keys p eds). destruct (str_eqb q p) eqn:Eq.
        -- apply str_eqb_eq in Eq. subst q. split; [intros [[K|[_ K]]|K]; [now left|right; intros K2; apply app_eq_nil in K2; tauto|right; intros K2; apply app_eq_nil in K2; tauto]|].
           intros [K|K]; [tauto|]. destruct (map fst d) as [|x l]; [right; exact K|left; right; split; [reflexivity|discriminate]].
        -- apply str_eqb_neq in Eq. cbn [app]. split; [intros [[K|[K _]]|K]; [now left|congruence|now right]|tauto].
      * intros p. rewrite H3, add_path_get, <- app_assoc. fold (named_keys p eds). f_equal. destruct (str_eqb q p) eqn:Eq, (str_eqb p q) eqn:Eq2; try reflexivity; [apply str_eqb_eq in Eq; subst; now rewrite str_eqb_refl in Eq2|apply str_eqb_eq in Eq2; subst; now rewrite str_eqb_refl in Eq].
    + destruct (IH (dupdate vars (map (fun nv => (KS (fst nv), snd nv)) d)) v2r Hn) as (v2r' & E & H1 & H2 & H3). exists v2r'. split; [exact E|]. split; [exact H1|]. cbn [app]. split; [exact H2|exact H3].
Qed.
End L.
Section P.
Variables (F : Type) (runf : F -> fstate -> res (fstate * bool)) (k2i : bool).
Theorem no_match_no_vars text Gs v2r env0 main env1 l :
  Parser.run_all F text (map (fun x => (fst x, match snd x with Some _ => true | None => false end)) Gs) env0 = Ok (env1, l) -> Forall (fun x => fst x = []) l ->
  Parser.parse F runf k2i text Gs v2r env0 main = Ok (env1, ({| e_vars := MatchFuncs.m_vars env1; e_gvars := MatchFuncs.m_gvars env1 |}, main)).
Proof.
  intros E H. unfold Parser.parse. rewrite E. cbn [rbind].
  match goal with |- context [flat_map ?f l] => replace (flat_map f l) with (@nil (list (list (item F)))) end.
  2: { clear - H. induction H as [|[rs own] l Hx _ IH]; [reflexivity|]. cbn [fst] in Hx. subst rs. cbn [flat_map fst snd]. rewrite <- IH. now destruct own. }
  match goal with |- context [flat_map ?f (combine l Gs)] => replace (flat_map f (combine l Gs)) with (@nil (list (list (item F)) * (val -> res val))) end.
  2: { clear - H. revert Gs. induction H as [|[rs own] l Hx _ IH]; intros [|[G o] Gs]; try reflexivity. cbn [fst] in Hx. subst rs. cbn [combine flat_map fst snd]. rewrite <- IH. now destruct o. }
  destruct (vars_no_match F runf k2i {| e_vars := MatchFuncs.m_vars env1; e_gvars := MatchFuncs.m_gvars env1 |} v2r main) as (s & -> & <- & <-). reflexivity.
Qed.
End P.
