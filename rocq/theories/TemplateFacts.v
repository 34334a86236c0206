(** * TemplateFacts: groups built from a template *)
From Verif Require Import PyBase DictFacts StrFacts Regex Results Template SpecTemplate SessionFacts.
Local Open Scope string_scope.
Local Open Scope list_scope.

(** ** lines *)
Section Lines.
Variable names_of : str -> list str.

Lemma role_total table tail i r : exists k, has_role table tail i r k.
Proof.
  destruct (rl_action r) eqn:E; try (exists EndLine; exact E);
  (destruct tail; [exists NormalLine; cbn; rewrite E; split; [discriminate|now left]|]);
  (destruct i; [exists StartLine; cbn; rewrite E; repeat split; [discriminate|now left]|]);
  (destruct table; [exists StartLine; cbn; rewrite E; repeat split; [discriminate|right; now left]|]);
  try (exists StartLine; cbn; rewrite E; repeat split; [discriminate|right; right; reflexivity]);
  exists NormalLine; cbn; rewrite E; (split; [discriminate|right; auto]).
Qed.
Lemma role_unique table tail i r k k' : has_role table tail i r k -> has_role table tail i r k' -> k = k'.
Proof.
  destruct k, k'; cbn; try reflexivity; try (intros; exfalso; tauto).
  - intros (_ & Ht & H) (_ & [H'|(H1 & H2 & H3)]); [congruence|]. destruct H as [H|[H|H]]; congruence.
  - intros (_ & [H'|(H1 & H2 & H3)]) (_ & Ht & H); [congruence|]. destruct H as [H|[H|H]]; congruence.
Qed.

Definition role_of (table tail : bool) (i : nat) (r : rline) : role :=
  if is_end (rl_action r) then EndLine else if tail then NormalLine
  else if Nat.eqb i 0 then StartLine else if table then StartLine else if is_start (rl_action r) then StartLine else NormalLine.
Lemma role_of_spec table tail i r : has_role table tail i r (role_of table tail i r).
Proof.
  unfold role_of. destruct (is_end (rl_action r)) eqn:E; [cbn; now destruct (rl_action r)|].
  assert (Hn : rl_action r <> AEnd) by (intros H; rewrite H in E; discriminate).
  destruct tail; [split; [exact Hn|now left]|]. destruct (Nat.eqb_spec i 0); [repeat split; auto|].
  destruct table; [repeat split; auto|]. destruct (is_start (rl_action r)) eqn:Es; [repeat split; auto|]. split; [exact Hn|right; auto].
Qed.
Lemma role_dec table tail i r k : has_role table tail i r k <-> role_of table tail i r = k.
Proof.
  split; [intros H; eapply role_unique; [apply role_of_spec|exact H]|intros <-; apply role_of_spec].
Qed.

Definition role_eqb (a b : role) : bool :=
  match a, b with StartLine, StartLine | EndLine, EndLine | NormalLine, NormalLine => true | _, _ => false end.
Lemma role_eqb_spec a b : role_eqb a b = true <-> a = b.
Proof. destruct a, b; cbn; split; congruence. Qed.
Definition select (table : bool) (k : role) (l : list (bool * nat * rline)) : list rline :=
  map snd (filter (fun x => role_eqb (role_of table (fst (fst x)) (snd (fst x)) (snd x)) k) l).
Lemma select_spec table k l : forall l', with_role table k l l' <-> l' = select table k l.
Proof.
  unfold select. induction l as [|[[tail i] r] l IH]; intros l'; cbn [filter map fst snd].
  - split; [intros H; now inversion H|intros ->; constructor].
  - destruct (role_eqb (role_of table tail i r) k) eqn:E; cbn [map snd].
    + apply role_eqb_spec, role_dec in E. split.
      * intros H; inversion H; subst; [f_equal; now apply IH|contradiction].
      * intros ->. constructor; [exact E|now apply IH].
    + assert (Hn : ~ has_role table tail i r k) by (intros H; apply role_dec, role_eqb_spec in H; congruence). split.
      * intros H; inversion H; subst; [contradiction|now apply IH].
      * intros H. apply wr_out; [exact Hn|now apply IH].
Qed.
Lemma select_app table k a b : select table k (a ++ b) = select table k a ++ select table k b.
Proof. unfold select. now rewrite filter_app, map_app. Qed.

Lemma as_start_spec r : made_start r (as_start r).
Proof. unfold made_start, as_start. destruct (is_start (rl_action r)) eqn:E; cbn; auto. Qed.
Lemma as_start_id r : is_start (rl_action r) = true -> as_start r = r.
Proof. unfold as_start. now intros ->. Qed.

Lemma classify_select method tail rs : forall i L,
  classify method tail i rs L =
  {| l_start := l_start L ++ map as_start (select (str_eqb method $"table") StartLine (numbered tail i rs));
     l_end := l_end L ++ select (str_eqb method $"table") EndLine (numbered tail i rs);
     l_re := l_re L ++ select (str_eqb method $"table") NormalLine (numbered tail i rs) |}.
Proof.
  induction rs as [|r rs IH]; intros i L; cbn [classify numbered].
  - unfold select. cbn. rewrite !app_nil_r. now destruct L.
  - rewrite IH. change ((tail, i, r) :: numbered tail (S i) rs) with ([(tail, i, r)] ++ numbered tail (S i) rs). rewrite !select_app, map_app.
    unfold classify1, select at 4 6 8. cbn [filter fst snd]. unfold role_of at 1 2 3.
    destruct (is_end (rl_action r)); [cbn; now rewrite <- app_assoc|]. destruct tail; [cbn; now rewrite <- app_assoc|].
    destruct (Nat.eqb i 0); [cbn; now rewrite <- app_assoc|]. destruct (str_eqb method $"table"); [cbn; now rewrite <- app_assoc|].
    destruct (is_start (rl_action r)) eqn:E; cbn; [|now rewrite <- app_assoc]. rewrite (as_start_id r E). now rewrite <- app_assoc.
Qed.

Lemma strip_nil s : strip s = [] -> Forall (fun c => is_space c = true) s.
Proof.
  unfold strip, lstrip, rstrip, rstrip_p. intros H.
  assert (L : forall s, lstrip_p is_space s = [] -> Forall (fun c => is_space c = true) s).
  { induction s0 as [|c s0 IH]; cbn; [constructor|]. destruct (is_space c) eqn:E; [|discriminate]. intros K. constructor; auto. }
  apply L in H. 
  assert (K : forall s, exists a, s = a ++ lstrip_p is_space s /\ Forall (fun c => is_space c = true) a).
  { induction s0 as [|c s0 (a & IH1 & IH2)]; cbn; [exists []; now split|]. destruct (is_space c) eqn:E; [|exists []; now split].
    exists (c :: a). split; [cbn; now rewrite <- IH1|now constructor]. }
  destruct (K (rev s)) as (a & E & Ha). apply (f_equal (@rev ascii)) in E. rewrite rev_involutive, rev_app_distr in E. rewrite E.
  apply Forall_app. split; [exact H|]. now apply Forall_rev.
Qed.
Lemma blank_strip s : Forall (fun c => is_space c = true) s -> strip s = [].
Proof.
  intros H. unfold strip, lstrip, rstrip, rstrip_p.
  assert (L : forall s, Forall (fun c => is_space c = true) s -> lstrip_p is_space s = []).
  { induction 1 as [|c s0 Hc _ IH]; cbn; [reflexivity|]. now rewrite Hc. }
  rewrite (L (rev s)); [reflexivity|]. now apply Forall_rev.
Qed.
Lemma split_go_Forall (P : ascii -> Prop) sep s : forall acc k, Forall P s -> Forall P acc -> Forall (Forall P) (split_go sep s acc k).
Proof.
  induction s as [|c s IH]; intros acc k Hs Ha; cbn [split_go].
  - constructor; [now apply Forall_rev|constructor].
  - inversion Hs; subst. destruct k; [|now apply IH]. destruct (prefixb sep (c :: s)).
    + constructor; [now apply Forall_rev|]. apply IH; [assumption|constructor].
    + apply IH; [assumption|]. now constructor.
Qed.
Lemma splitlines_In s l : In l (splitlines s) -> In l (split [nl] s).
Proof.
  unfold splitlines. rewrite (in_rev (split [nl] s)). destruct (rev (split [nl] s)) as [|[|c x] r]; intros H.
  - destruct H.
  - right. now apply in_rev.
  - now apply in_rev.
Qed.
Lemma blank_lines s : strip s = [] -> compile_lines names_of s = [].
Proof.
  intros H. unfold compile_lines, used_lines. assert (E : filter (fun l => (negb (match strip l with [] => true | _ => false end) && negb (prefixb $"##" (lstrip l)))%bool) (splitlines s) = []).
  { apply strip_nil in H. assert (K : forall l, In l (splitlines s) -> strip l = []).
    { intros l Hl. apply splitlines_In in Hl. apply blank_strip.
      assert (HF := split_go_Forall _ [nl] s [] 0 H (Forall_nil _)). rewrite Forall_forall in HF. now apply HF. }
    induction (splitlines s) as [|l ls IH]; [reflexivity|]. cbn [filter]. rewrite (K l (or_introl eq_refl)). cbn. apply IH. intros; apply K; now right. }
  now rewrite E.
Qed.

Lemma build_lists pc top path idx par e :
  gr_lists (build names_of pc top path idx par e) =
  {| l_start := map as_start (select (str_eqb (gr_method (build names_of pc top path idx par e)) $"table") StartLine (all_lines names_of e));
     l_end := select (str_eqb (gr_method (build names_of pc top path idx par e)) $"table") EndLine (all_lines names_of e);
     l_re := select (str_eqb (gr_method (build names_of pc top path idx par e)) $"table") NormalLine (all_lines names_of e) |}.
Proof.
  destruct e as [tag attrs text cs tl]. cbn [build gr_lists gr_method]. set (m := ga_method (attributes pc top path idx attrs)).
  unfold all_lines. cbn [e_text e_children].
  assert (K : forall cs L, fold_left (fun L c => match strip (e_tail c) with [] => L | _ => get_regexes names_of m true (e_tail c) L end) cs L =
    {| l_start := l_start L ++ map as_start (select (str_eqb m $"table") StartLine (concat (map (fun c => numbered true 0 (compile_lines names_of (e_tail c))) cs)));
       l_end := l_end L ++ select (str_eqb m $"table") EndLine (concat (map (fun c => numbered true 0 (compile_lines names_of (e_tail c))) cs));
       l_re := l_re L ++ select (str_eqb m $"table") NormalLine (concat (map (fun c => numbered true 0 (compile_lines names_of (e_tail c))) cs)) |}).
  { clear. induction cs as [|c cs IH]; intros L; cbn [fold_left map concat].
    - cbn. rewrite !app_nil_r. now destruct L.
    - rewrite IH. clear IH. rewrite !select_app, map_app.
      assert (E : (match strip (e_tail c) with [] => L | _ => get_regexes names_of m true (e_tail c) L end) = get_regexes names_of m true (e_tail c) L).
      { destruct (strip (e_tail c)) eqn:Es; [|reflexivity]. unfold get_regexes. now rewrite (blank_lines _ Es). }
      rewrite E. unfold get_regexes. rewrite classify_select. cbn [l_start l_end l_re]. now rewrite <- !app_assoc. }
  rewrite K. unfold get_regexes. rewrite classify_select. cbn [l_start l_end l_re app]. now rewrite !select_app, map_app.
Qed.

(** ** paths *)
Lemma fold_attrs_other pc top idx l : forall a, filter (fun kv => str_eqb (lower (fst kv)) $"name") l = [] ->
  ga_path (fold_left (one_attr pc top idx) l a) = ga_path a /\ ga_name (fold_left (one_attr pc top idx) l a) = ga_name a /\
  ga_id (fold_left (one_attr pc top idx) l a) = ga_id a.
Proof.
  induction l as [|kv l IH]; intros a H; [auto|]. cbn [filter] in H. destruct (str_eqb (lower (fst kv)) $"name") eqn:E; [discriminate|].
  cbn [fold_left]. destruct (IH (one_attr pc top idx a kv) H) as (H1 & H2 & H3). rewrite H1, H2, H3. clear - E. unfold one_attr. rewrite E.
  destruct (str_eqb (lower (fst kv)) $"method"); [auto|]. destruct (str_eqb (lower (fst kv)) $"input"); [destruct top; auto|].
  destruct (str_eqb (lower (fst kv)) $"output"); [destruct top; auto|]. auto.
Qed.
Lemma one_attr_name pc top idx a kv : str_eqb (lower (fst kv)) $"name" = true ->
  let p := extract_name pc (ga_path a) (snd kv) in
  ga_path (one_attr pc top idx a kv) = p /\ ga_name (one_attr pc top idx a kv) = join $"." p /\ ga_id (one_attr pc top idx a kv) = Some (join $"." p, idx).
Proof.
  intros E. unfold one_attr. destruct (str_eqb_spec (lower (fst kv)) $"name") as [E'|]; [|discriminate]. rewrite E'.
  replace (str_eqb $"name" $"method") with false by reflexivity. replace (str_eqb $"name" $"input") with false by reflexivity.
  replace (str_eqb $"name" $"output") with false by reflexivity. auto.
Qed.

Lemma join_nil_segs l : l <> [] -> join $"." l = [] -> l = [[]].
Proof. destruct l as [|x [|y l]]; [congruence|cbn; congruence|]. cbn. destruct x; discriminate. Qed.
Lemma split_nil_inv sep s : sep <> [] -> split sep s = [[]] -> s = [].
Proof. intros Hs H. rewrite <- (join_split sep s Hs), H. reflexivity. Qed.

Lemma extract_ne pc path o : pc <> [] -> lstrip_p slash o <> [] -> join $"." (extract_name pc path o) <> [].
Proof.
  intros Hpc Ho. unfold extract_name. destruct (prefixb $"/" o) eqn:E.
  - destruct (in_strs _ _).
    + destruct (split pc (lstrip_p (is_c "/"%char) o)) eqn:Es; cbn; discriminate.
    + destruct (str_eqb o $"/"); [discriminate|]. intros H. apply join_nil_segs in H; [|apply split_ne]. apply split_nil_inv in H; [|exact Hpc]. now apply Ho.
  - intros H. apply join_nil_segs in H; [|intros K; apply app_eq_nil in K as [_ K]; now apply split_ne in K].
    assert (o <> []) by (intros ->; now apply Ho). assert (K := split_ne pc o).
    destruct path as [|x path]; [cbn in H; now apply split_nil_inv in H|]. cbn in H. injection H as _ H. apply app_eq_nil in H as [_ H]. contradiction.
Qed.

(** the path of one group from its parent's *)
Definition own_path (pc : str) (top : bool) (path : list str) (e : elem) : list str :=
  match name_of e with
  | Some n => extract_name pc path n
  | None => if top then [anon_path] else path
  end.
Lemma attributes_path pc top path idx e : pc <> [] -> good_name e ->
  ga_path (attributes pc top path idx (e_attrs e)) = own_path pc top path e /\
  ga_id (attributes pc top path idx (e_attrs e)) =
    Some (join $"." (own_path pc top path e) ++ match name_of e with Some _ => [] | None => $"._anonymous_" end, idx).
Proof.
  intros Hpc Hg. unfold attributes, own_path, name_of. unfold good_name, name_attrs in *.
  set (a0 := {| ga_path := path; ga_name := []; ga_id := None; ga_method := $"group"; ga_in := []; ga_out := [] |}).
  destruct Hg as [Hn|(n & Hn & Hs)].
  - rewrite Hn. apply map_eq_nil in Hn. destruct (fold_attrs_other pc top idx (e_attrs e) a0 Hn) as (H1 & H2 & H3).
    unfold anonymous_path. rewrite H2. cbn [ga_name a0 ga_path ga_id]. split; now rewrite H1.
  - rewrite Hn. destruct (filter _ (e_attrs e)) as [|kv [|kv2 r]] eqn:Ef; try discriminate. cbn in Hn. injection Hn as Hn. subst n.
    assert (exists l1 l2, e_attrs e = l1 ++ kv :: l2 /\ filter (fun kv => str_eqb (lower (fst kv)) $"name") l1 = [] /\
      filter (fun kv => str_eqb (lower (fst kv)) $"name") l2 = [] /\ str_eqb (lower (fst kv)) $"name" = true) as (l1 & l2 & -> & F1 & F2 & Fk).
    { clear - Ef. induction (e_attrs e) as [|x l IH]; [discriminate|]. cbn [filter] in Ef. destruct (str_eqb (lower (fst x)) $"name") eqn:E.
      - injection Ef as -> Ef. exists [], l. auto.
      - destruct (IH Ef) as (l1 & l2 & -> & F1 & F2 & Fk). exists (x :: l1), l2. cbn [app filter]. rewrite E. auto. }
    rewrite fold_left_app. cbn [fold_left]. destruct (fold_attrs_other pc top idx l1 a0 F1) as (P1 & _ & _).
    destruct (one_attr_name pc top idx (fold_left (one_attr pc top idx) l1 a0) kv Fk) as (Q1 & Q2 & Q3).
    destruct (fold_attrs_other pc top idx l2 (one_attr pc top idx (fold_left (one_attr pc top idx) l1 a0) kv) F2) as (R1 & R2 & R3).
    rewrite P1 in *. cbn [ga_path a0] in *. unfold anonymous_path. rewrite R2, Q2.
    assert (K := extract_ne pc path (snd kv) Hpc Hs). destruct (join $"." (extract_name pc path (snd kv))) eqn:Ej; [contradiction|].
    split; [now rewrite R1, Q1|]. rewrite R3, Q3. cbn [map]. now rewrite app_nil_r, ?Ej.
Qed.

Lemma build_path pc top path idx par e : pc <> [] -> good_name e -> gr_path (build names_of pc top path idx par e) = own_path pc top path e.
Proof. intros Hpc Hg. destruct (attributes_path pc top path idx e Hpc Hg) as [H _]. destruct e. cbn in *. exact H. Qed.
Lemma build_id pc top path idx par e : pc <> [] -> good_name e -> gr_id (build names_of pc top path idx par e) =
  (join $"." (own_path pc top path e) ++ match name_of e with Some _ => [] | None => $"._anonymous_" end, idx).
Proof. intros Hpc Hg. destruct (attributes_path pc top path idx e Hpc Hg) as [_ H]. destruct e. cbn [build gr_id e_attrs] in *. now rewrite H. Qed.
Lemma build_parent pc top path idx par e : gr_parent (build names_of pc top path idx par e) = par.
Proof. destruct e. reflexivity. Qed.
Lemma ga_id_some pc top path idx l : ga_name (fold_left (one_attr pc top idx) l {| ga_path := path; ga_name := []; ga_id := None; ga_method := $"group"; ga_in := []; ga_out := [] |}) <> [] ->
  exists n, ga_id (fold_left (one_attr pc top idx) l {| ga_path := path; ga_name := []; ga_id := None; ga_method := $"group"; ga_in := []; ga_out := [] |}) = Some (n, idx).
Proof.
  assert (K : forall l a, (ga_name a <> [] -> exists n, ga_id a = Some (n, idx)) -> ga_name (fold_left (one_attr pc top idx) l a) <> [] ->
    exists n, ga_id (fold_left (one_attr pc top idx) l a) = Some (n, idx)).
  { clear. induction l as [|kv l IH]; intros a Ha; cbn [fold_left]; [exact Ha|]. apply IH. clear IH. intros H. unfold one_attr in *.
    destruct (str_eqb (lower (fst kv)) $"method"); [auto|]. destruct (str_eqb (lower (fst kv)) $"input"); [destruct top; auto|].
    destruct (str_eqb (lower (fst kv)) $"output"); [destruct top; auto|]. destruct (str_eqb (lower (fst kv)) $"name"); [cbn; eauto|auto]. }
  apply K. cbn. congruence.
Qed.
Lemma build_index pc top path idx par e : snd (gr_id (build names_of pc top path idx par e)) = idx.
Proof.
  destruct e as [tag attrs text cs tl]. cbn [build gr_id]. unfold attributes, anonymous_path.
  destruct (ga_name _) eqn:E; [reflexivity|].
  destruct (ga_id_some pc top path idx attrs) as [n Hn]; [congruence|]. now rewrite Hn.
Qed.

(** children *)
Fixpoint build_kids (pc : str) (path : list str) (par : gid) (i : nat) (cs : list elem) : list grp :=
  match cs with [] => [] | c :: cs => build names_of pc false path i (Some par) c :: build_kids pc path par (S i) cs end.
Lemma build_children pc top path idx par e :
  gr_children (build names_of pc top path idx par e) =
  build_kids pc (gr_path (build names_of pc top path idx par e)) (gr_id (build names_of pc top path idx par e)) 0 (e_children e).
Proof.
  destruct e as [tag attrs text cs tl]. cbn [build gr_children gr_path gr_id e_children].
  set (id := match ga_id (attributes pc top path idx attrs) with Some i => i | None => ([], 0) end). generalize 0.
  induction cs as [|c cs IH]; intros i; [reflexivity|]. cbn [build_kids]. f_equal. apply IH.
Qed.
Lemma kids_nth pc path par cs : forall i j c, nth_error cs j = Some c ->
  nth_error (build_kids pc path par i cs) j = Some (build names_of pc false path (i + j) (Some par) c).
Proof.
  induction cs as [|x cs IH]; intros i [|j] c H; try discriminate; cbn in *.
  - injection H as ->. now rewrite Nat.add_0_r.
  - rewrite (IH (S i) j c H). now rewrite Nat.add_succ_r.
Qed.
Lemma kids_length pc path par cs : forall i, length (build_kids pc path par i cs) = length cs.
Proof. induction cs; intros i; cbn; auto. Qed.

Lemma at_defined pc : forall p top path idx par e,
  (exists g, grp_at p (build names_of pc top path idx par e) = Some g) <-> (exists l, line_to p e = Some l).
Proof.
  induction p as [|i p IH]; intros top path idx par e; cbn [grp_at line_to]; [split; eauto|].
  rewrite build_children. destruct (nth_error (e_children e) i) as [c|] eqn:E.
  - rewrite (kids_nth _ _ _ _ _ _ _ E). rewrite IH. destruct (line_to p c); split; intros [? H]; eauto; discriminate.
  - assert (En : nth_error (build_kids pc (gr_path (build names_of pc top path idx par e)) (gr_id (build names_of pc top path idx par e)) 0 (e_children e)) i = None).
    { apply nth_error_None. rewrite kids_length. now apply nth_error_None. }
    rewrite En. split; intros [? H]; discriminate.
Qed.

Fixpoint fold_path (pc : str) (top : bool) (path : list str) (es : list elem) : list str :=
  match es with [] => path | e :: es => fold_path pc false (own_path pc top path e) es end.
Lemma at_path pc : pc <> [] -> forall p top path idx par e g l, Forall good_name l ->
  grp_at p (build names_of pc top path idx par e) = Some g -> line_to p e = Some l -> gr_path g = fold_path pc top path l.
Proof.
  intros Hpc. induction p as [|i p IH]; intros top path idx par e g l Hg H Hl; cbn [grp_at line_to] in *.
  - injection H as <-. injection Hl as <-. inversion Hg; subst. cbn. now apply build_path.
  - rewrite build_children in H. destruct (nth_error (e_children e) i) as [c|] eqn:E; [|discriminate].
    rewrite (kids_nth _ _ _ _ _ _ _ E) in H. destruct (line_to p c) as [l'|] eqn:El; [|discriminate]. injection Hl as <-. inversion Hg; subst.
    cbn [fold_path]. rewrite <- (build_path pc top path idx par e) by assumption. eapply IH; eassumption.
Qed.
Lemma last_shift {A} (p : list A) i d : last (i :: p) d = last p i.
Proof. revert i d. induction p as [|n p IH]; intros i d; [reflexivity|]. change (last (i :: n :: p) d) with (last (n :: p) d). now rewrite !IH. Qed.
Lemma line_to_ne p c : line_to p c <> Some [].
Proof. destruct p; cbn; [discriminate|]. destruct (nth_error _ _) as [d|]; [|discriminate]. destruct (line_to _ d); discriminate. Qed.
(** the identifier of the group at a position: its path, and its place among its siblings *)
Lemma at_id pc : pc <> [] -> forall p top path idx par e g l x, Forall good_name (l ++ [x]) ->
  grp_at p (build names_of pc top path idx par e) = Some g -> line_to p e = Some (l ++ [x]) ->
  gr_id g = (join $"." (gr_path g) ++ match name_of x with Some _ => [] | None => $"._anonymous_" end, last p idx).
Proof.
  intros Hpc. induction p as [|i p IH]; intros top path idx par e g l x Hg H Hl; cbn [grp_at line_to] in *.
  - injection H as <-. injection Hl as Hl. destruct l as [|y [|z l]]; try discriminate. injection Hl as <-. inversion Hg; subst.
    rewrite build_path, build_id by assumption. reflexivity.
  - rewrite build_children in H. destruct (nth_error (e_children e) i) as [c|] eqn:E; [|discriminate].
    rewrite (kids_nth _ _ _ _ _ _ _ E) in H. destruct (line_to p c) as [l'|] eqn:El; [|discriminate]. injection Hl as Hl.
    destruct l as [|y l]; cbn [app] in *; [injection Hl as _ ->; now apply line_to_ne in El|].
    injection Hl as <- ->. inversion Hg; subst. rewrite (IH _ _ _ _ _ _ _ _ H3 H El). cbn [Nat.add]. now rewrite (last_shift p i idx).
Qed.
Lemma at_parent pc : forall p i top path idx par e g g', grp_at p (build names_of pc top path idx par e) = Some g ->
  nth_error (gr_children g) i = Some g' -> gr_parent g' = Some (gr_id g) /\ snd (gr_id g') = i.
Proof.
  assert (K : forall top path idx par e i g', nth_error (gr_children (build names_of pc top path idx par e)) i = Some g' ->
    gr_parent g' = Some (gr_id (build names_of pc top path idx par e)) /\ snd (gr_id g') = i).
  { intros top path idx par e i g' H. rewrite build_children in H.
    destruct (nth_error (e_children e) i) as [c|] eqn:E.
    - rewrite (kids_nth _ _ _ _ _ _ _ E) in H. injection H as <-. rewrite build_parent, build_index. auto.
    - exfalso. apply nth_error_None in E. assert (nth_error (build_kids pc (gr_path (build names_of pc top path idx par e)) (gr_id (build names_of pc top path idx par e)) 0 (e_children e)) i <> None) as Hn by congruence.
      apply nth_error_Some in Hn. rewrite kids_length in Hn. lia. }
  induction p as [|j p IH]; intros i top path idx par e g g' H Hi; cbn [grp_at] in H.
  - injection H as <-. now apply K.
  - rewrite build_children in H. destruct (nth_error _ j) as [c|] eqn:E; [|discriminate].
    destruct (nth_error (e_children e) j) as [ce|] eqn:Ec.
    + rewrite (kids_nth _ _ _ _ _ _ _ Ec) in E. injection E as <-. eapply IH; eassumption.
    + apply nth_error_None in Ec. assert (nth_error (build_kids pc (gr_path (build names_of pc top path idx par e)) (gr_id (build names_of pc top path idx par e)) 0 (e_children e)) j <> None) as Hn by congruence.
      apply nth_error_Some in Hn. rewrite kids_length in Hn. lia.
Qed.

(** from steps to the whole line *)
Lemma not_abs_own pc path e : ~ absolute e -> own_path pc false path e = path ++ segments pc e.
Proof.
  unfold absolute, own_path, segments. destruct (name_of e) as [n|]; [|intros _; now rewrite app_nil_r].
  intros H. unfold extract_name. destruct n as [|c n]; [reflexivity|]. destruct (prefixb $"/" (c :: n)) eqn:E.
  - exfalso. apply H. exists n. change (prefixb $"/" (c :: n)) with (if Ascii.eqb "/" c then true else false) in E. destruct (Ascii.eqb_spec "/" c) as [<-|]; [reflexivity|discriminate].
  - assert (Ec : slash c = false) by (change (prefixb $"/" (c :: n)) with (if Ascii.eqb "/" c then true else false) in E; unfold slash, is_c; destruct (Ascii.eqb "/" c); [discriminate|reflexivity]).
    cbn [lstrip_p]. now rewrite Ec.
Qed.
Lemma fold_rel pc es : Forall (fun e => ~ absolute e) es -> forall path, fold_path pc false path es = path ++ concat (map (segments pc) es).
Proof.
  induction 1 as [|e es He _ IH]; intros path; cbn [fold_path map concat]; [now rewrite app_nil_r|].
  rewrite (not_abs_own pc path e He), IH. now rewrite app_assoc.
Qed.
Lemma abs_own pc top path e : absolute e -> good_name e -> ~ In $"_anonymous_" path -> own_path pc top path e = segments pc e.
Proof.
  intros [n Hn] Hg Ha. unfold own_path, segments, extract_name. rewrite Hn. cbn [prefixb].
  replace (prefixb $"/" ("/"%char :: n)) with true by reflexivity.
  destruct (in_strs $"_anonymous_" path) eqn:E; [apply in_strs_In in E; contradiction|].
  destruct (str_eqb_spec ("/"%char :: n) $"/") as [Ee|]; [|reflexivity]. exfalso.
  destruct Hg as [Hg|(m & Hm & Hs)]; unfold name_of in Hn; [rewrite Hg in Hn; discriminate|]. rewrite Hm in Hn. injection Hn as ->.
  rewrite Ee in Hs. now apply Hs.
Qed.
Lemma fold_no_anon pc es : Forall good_name es -> (forall e, In e es -> ~ In $"_anonymous_" (segments pc e)) -> forall top path,
  ~ In $"_anonymous_" path -> ~ In $"_anonymous_" (fold_path pc top path es).
Proof.
  induction 1 as [|e es He _ IH]; intros Hs top path Hp; [exact Hp|]. cbn [fold_path]. apply IH; [intros; apply Hs; now right|].
  assert (Hse := Hs e (or_introl eq_refl)).
  destruct (name_of e) as [n|] eqn:En.
  - destruct n as [|c n]; [|destruct (Ascii.eqb_spec c "/") as [->|Hc]].
    + unfold own_path. rewrite En. unfold extract_name. cbn [prefixb]. replace (prefixb $"/" []) with false by reflexivity.
      intros H. apply in_app_or in H as [H|H]; [contradiction|]. apply Hse. unfold segments. now rewrite En.
    + rewrite abs_own; [exact Hse|now exists n|exact He|exact Hp].
    + unfold own_path. rewrite En. unfold extract_name.
      replace (prefixb $"/" (c :: n)) with false by (change (prefixb $"/" (c :: n)) with (if Ascii.eqb "/" c then true else false); destruct (Ascii.eqb_spec "/" c) as [E|_]; [now symmetry in E|reflexivity]).
      intros H. apply in_app_or in H as [H|H]; [contradiction|]. apply Hse. unfold segments. rewrite En. cbn [lstrip_p].
      replace (slash c) with false by (unfold slash, is_c; destruct (Ascii.eqb_spec "/" c) as [E|_]; [now symmetry in E|reflexivity]). exact H.
  - unfold own_path. rewrite En. destruct top; [|exact Hp]. intros [H|[]]. discriminate.
Qed.
Lemma fold_path_app pc a : forall top path b, b <> [] -> a <> [] -> fold_path pc top path (a ++ b) = fold_path pc false (fold_path pc top path a) b.
Proof.
  induction a as [|e a IH]; intros top path b Hb Ha; [congruence|]. cbn [app fold_path]. destruct a as [|e' a]; [reflexivity|]. apply IH; [exact Hb|discriminate].
Qed.
End Lines.
