(** * MadeFacts3: proofs for C123, the group. *)
From Coq Require Import Lia.
From Verif Require Import PyBase DictFacts StrFacts Regex FormRegex Results Template Attributes MatchVar Compile SpecGroups GroupAttrs XmlFacts SpecVariable VariableFacts VariableFacts2 SpecMade MadeFacts MadeFacts2.
Local Open Scope string_scope.
Local Open Scope list_scope.

Lemma start_eq x y : with_start x y <-> y = start_of x.
Proof.
  unfold with_start, start_of. destruct x as [x1 x2 x3 x4 x5], y as [y1 y2 y3 y4 y5]. cbn [x_text x_re x_vars x_action x_isline]. split.
  - intros (-> & -> & -> & -> & ->). now destruct (is_start x4).
  - intros E. destruct (is_start x4) eqn:Es; injection E as -> -> -> -> ->; cbn [x_text x_re x_vars x_action x_isline]; repeat split.
Qed.
Lemma starts_eq l m : Forall2 with_start l m <-> m = map start_of l.
Proof.
  split.
  - induction 1 as [|x y l m H _ IH]; [reflexivity|]. apply start_eq in H. cbn [map]. now rewrite H, IH.
  - intros ->. induction l as [|x l IH]; cbn [map]; constructor; [now apply start_eq|exact IH].
Qed.
Definition from {A} (k : nat) (l : list A) : list (nat * A) := combine (seq k (length l)) l.
Definition ends (x : crex) : bool := is_end (x_action x).
Definition normal (tb : bool) (ix : nat * crex) : bool := (negb (is_end (x_action (snd ix))) && negb (starts tb ix))%bool.
Lemma ends_1 x : ends x = is_end (x_action x). Proof. reflexivity. Qed.
Lemma starts_1 tb k x : starts tb (k, x) = (negb (is_end (x_action x)) && (Nat.eqb k 0 || tb || is_start (x_action x)))%bool. Proof. reflexivity. Qed.
Lemma normal_1 tb k x : normal tb (k, x) = (negb (is_end (x_action x)) && negb (starts tb (k, x)))%bool. Proof. reflexivity. Qed.
Lemma place_text m xs : forall k s, place_all m false k xs s =
  {| gs_start := gs_start s ++ map start_of (map snd (filter (starts (str_eqb m $"table")) (from k xs)));
     gs_end := gs_end s ++ filter ends xs; gs_re := gs_re s ++ map snd (filter (normal (str_eqb m $"table")) (from k xs));
     gs_defaults := gs_defaults s; gs_hasdef := gs_hasdef s |}.
Proof.
  induction xs as [|x xs IH]; intros k s; [cbn; rewrite !app_nil_r; now destruct s|]. cbn [place_all]. rewrite IH. unfold from. cbn [length seq combine filter]. fold (from (S k) xs). rewrite normal_1, starts_1, ends_1. unfold place.
  destruct (is_end (x_action x)) eqn:Ee; cbn [negb andb].
  - cbn [put_end gs_start gs_end gs_re gs_defaults gs_hasdef]. now rewrite <- app_assoc.
  - destruct (Nat.eqb k 0) eqn:Ek; cbn [orb negb].
    + cbn [put_start gs_start gs_end gs_re gs_defaults gs_hasdef map snd]. now rewrite <- app_assoc.
    + destruct (str_eqb m $"table") eqn:Et; cbn [orb negb].
      * cbn [put_start gs_start gs_end gs_re gs_defaults gs_hasdef map snd]. now rewrite <- app_assoc.
      * destruct (is_start (x_action x)) eqn:Es; cbn [orb negb].
        -- cbn [put_start gs_start gs_end gs_re gs_defaults gs_hasdef map snd]. rewrite <- app_assoc. cbn [app]. unfold start_of at 2. now rewrite Es.
        -- cbn [put_re gs_start gs_end gs_re gs_defaults gs_hasdef map snd]. now rewrite <- app_assoc.
Qed.
Lemma place_tail m xs : forall k s, place_all m true k xs s =
  {| gs_start := gs_start s; gs_end := gs_end s ++ filter ends xs; gs_re := gs_re s ++ filter (fun x => negb (ends x)) xs; gs_defaults := gs_defaults s; gs_hasdef := gs_hasdef s |}.
Proof.
  induction xs as [|x xs IH]; intros k s; [cbn; rewrite !app_nil_r; now destruct s|]. cbn [place_all filter]. rewrite IH, ends_1. unfold place. destruct (is_end (x_action x)); cbn [negb put_end put_re gs_start gs_end gs_re gs_defaults gs_hasdef]; now rewrite <- app_assoc.
Qed.

Section G.
Variables (vars : dict) (names : list str) (pc : str).
Definition is_dict (default : option val) : bool := match default with Some (VDict _) => true | _ => false end.
Definition only (default : option val) (st : list crex) (d : dict) : bool := ((is_dict default && is_nil st) || existsb (has_default_var d) st)%bool.
Lemma settle_eq default s : settle_defaults default s =
  {| gs_start := gs_start s; gs_end := gs_end s; gs_re := gs_re s; gs_defaults := add_dict default (gs_defaults s);
     gs_hasdef := (gs_hasdef s || only default (gs_start s) (add_dict default (gs_defaults s)))%bool |}.
Proof.
  unfold settle_defaults, only, add_dict, is_dict. destruct default as [[]|]; cbn [gs_start gs_end gs_re gs_defaults gs_hasdef andb orb]; try reflexivity. destruct (is_nil (gs_start s)); cbn [orb]; [|reflexivity]. now rewrite Bool.orb_true_r.
Qed.
Lemma only_grows default st d d' : (forall k, dget d k <> None -> dget d' k <> None) -> only default st d = true -> only default st d' = true.
Proof.
  intros H. unfold only. rewrite !Bool.orb_true_iff. intros [K|K]; [now left|right]. apply existsb_exists in K as (x & Hx & K). apply existsb_exists. exists x. split; [exact Hx|]. unfold has_default_var in *. apply existsb_exists in K as (nv & Hn & K). apply existsb_exists. exists nv. split; [exact Hn|].
  unfold dmem in *. specialize (H (KS (fst nv))). destruct (dget d (KS (fst nv))); [|discriminate]. destruct (dget d' (KS (fst nv))); [reflexivity|]. now destruct H.
Qed.
Lemma only_iff default s : only default (gs_start s) (gs_defaults s) = true <-> default_only default s.
Proof.
  unfold only, default_only. rewrite Bool.orb_true_iff, Bool.andb_true_iff. split.
  - intros [[K1 K2]|K].
    + left. split; [now destruct (gs_start s)|]. destruct default as [[]|]; try discriminate. now eexists.
    + right. apply existsb_exists in K as (x & Hx & K). unfold has_default_var in K. apply existsb_exists in K as ([n v] & Hn & K). exists x, n, v. split; [exact Hx|]. split; [exact Hn|]. unfold dmem in K. cbn [fst] in K. intros E. now rewrite E in K.
  - intros [[K1 (e & ->)]|(x & n & v & Hx & Hn & K)].
    + left. now rewrite K1.
    + right. apply existsb_exists. exists x. split; [exact Hx|]. unfold has_default_var. apply existsb_exists. exists (n, v). split; [exact Hn|]. unfold dmem. cbn [fst]. now destruct (dget (gs_defaults s) (KS n)).
Qed.
Lemma tails_exact default m ts : forall s s', gs_hasdef s = only default (gs_start s) (gs_defaults s) ->
  rfold (fun s t => regexes vars default m true t s) ts s = Ok s' <->
  exists ms xss, parts_give vars default ts (gs_defaults s) ms xss (gs_defaults s') /\ gs_start s' = gs_start s /\ gs_end s' = gs_end s ++ filter ends (concat xss) /\
    gs_re s' = gs_re s ++ filter (fun x => negb (ends x)) (concat xss) /\ gs_hasdef s' = only default (gs_start s') (gs_defaults s').
Proof.
  induction ts as [|t ts IH]; intros s s' Hs; cbn [rfold].
  - split.
    + intros E. injection E as <-. exists [], []. split; [constructor|]. cbn. rewrite !app_nil_r. now repeat split.
    + intros (ms & xss & H & E1 & E2 & E3 & E4). inversion H; subst. cbn in *. rewrite app_nil_r in *. f_equal. destruct s, s'. cbn in *. congruence.
  - unfold regexes at 1. rewrite used_lines_eq. set (g := default_text default).
    assert (Step : forall xs d1, (exists ms, lines_give vars g (concat (map use1 (splitlines t))) (gs_defaults s) ms xs d1) ->
      let s1 := settle_defaults default (place_all m true 0 xs {| gs_start := gs_start s; gs_end := gs_end s; gs_re := gs_re s; gs_defaults := d1; gs_hasdef := gs_hasdef s |}) in
      gs_start s1 = gs_start s /\ gs_end s1 = gs_end s ++ filter ends xs /\ gs_re s1 = gs_re s ++ filter (fun x => negb (ends x)) xs /\ gs_defaults s1 = add_dict default d1 /\ gs_hasdef s1 = only default (gs_start s1) (gs_defaults s1)).
    { intros xs d1 (ms & Hm) s1. unfold s1. rewrite place_tail, settle_eq. cbn [gs_start gs_end gs_re gs_defaults gs_hasdef]. repeat split. rewrite Hs. destruct (only default (gs_start s) (gs_defaults s)) eqn:E; [|reflexivity]. cbn [orb]. symmetry. eapply only_grows; [|exact E]. intros k Hk. apply add_dict_keeps. eapply grown_keeps; [eapply lines_grown; exact Hm|exact Hk]. }
    split.
    + destruct (Compile.compile_lines vars g (concat (map use1 (splitlines t))) (gs_defaults s)) as [[xs d1]|] eqn:E; [|discriminate]. cbn [rbind]. apply lines_exact in E. destruct (Step xs d1 E) as (S1 & S2 & S3 & S4 & S5). destruct E as (ms & Hm).
      set (s1 := settle_defaults default _) in *. intros E. apply (IH s1 s' S5) in E as (ms' & xss & H & E1 & E2 & E3 & E4). rewrite S1, S2, S3, S4 in *. exists (ms ++ ms'), (xs :: xss). split; [|split; [exact E1|]].
      * eapply pg_more; [now apply gdefault_eq|now apply used_all|exact Hm|exact H].
      * cbn [concat]. rewrite !filter_app, !app_assoc. now repeat split.
    + intros (ms & xss & H & E1 & E2 & E3 & E4). inversion H as [|o ? lss ? ? ms1 xs d1 ms2 xss' ? Ho Hu Hl Hp]; subst. apply gdefault_eq in Ho. apply used_all in Hu. subst o lss.
      assert (E : Compile.compile_lines vars g (concat (map use1 (splitlines t))) (gs_defaults s) = Ok (xs, d1)) by (apply lines_exact; now exists ms1). rewrite E. cbn [rbind].
      destruct (Step xs d1 (ex_intro _ ms1 Hl)) as (S1 & S2 & S3 & S4 & S5). set (s1 := settle_defaults default _) in *. apply (IH s1 s' S5). exists ms2, xss'. rewrite S1, S2, S3, S4. split; [exact Hp|]. split; [exact E1|]. cbn [concat] in E2, E3. rewrite filter_app in E2, E3. rewrite E2, E3, <- !app_assoc. now repeat split.
Qed.
(** the loop over the children *)
Section K.
Variables (f : nat -> elem -> res cgroup) (gt : str -> gstate -> res gstate).
Fixpoint kids_go (i : nat) (cs : list elem) (s : gstate) : res (list cgroup * gstate) :=
  match cs with
  | [] => Ok ([], s)
  | c :: cs => do k <- f i c; do s1 <- with_text (e_tail c) (fun tail s => match strip tail with [] => Ok s | _ => gt tail s end) s; do (ks, s2) <- kids_go (S i) cs s1; Ok (k :: ks, s2)
  end.
Lemma kids_exact cs : forall i s ks s', kids_go i cs s = Ok (ks, s') <->
  Forall2 (fun ic k => f (fst ic) (snd ic) = Ok k) (from i cs) ks /\ Forall (fun c => e_tail c <> []) cs /\ rfold (fun s t => gt t s) (filter (fun t => negb (blank t)) (map e_tail cs)) s = Ok s'.
Proof.
  induction cs as [|c cs IH]; intros i s ks s'; cbn [kids_go].
  - split.
    + intros E. injection E as <- <-. split; [constructor|]. split; [constructor|reflexivity].
    + intros (H1 & _ & H3). inversion H1; subst. cbn in H3. congruence.
  - unfold from. cbn [length seq combine map filter]. fold (from (S i) cs). split.
    + destruct (f i c) as [k|] eqn:Ef; [|discriminate]. cbn [rbind]. unfold with_text, blank at 1. destruct (e_tail c) as [|a tl] eqn:Et; [discriminate|].
      set (tail := a :: tl) in *. intros E. destruct (strip tail) eqn:Es.
      * cbn [rbind negb] in *. destruct (kids_go (S i) cs s) as [[ks2 s2]|] eqn:Ek; [|discriminate]. cbn [rbind] in E. injection E as <- <-. apply IH in Ek as (H1 & H2 & H3). split; [now constructor|]. split; [|exact H3]. constructor; [now rewrite Et|exact H2].
      * cbn [negb rfold]. destruct (gt tail s) as [s1|]; [|discriminate]. cbn [rbind] in *. destruct (kids_go (S i) cs s1) as [[ks2 s2]|] eqn:Ek; [|discriminate]. cbn [rbind] in E. injection E as <- <-. apply IH in Ek as (H1 & H2 & H3). split; [now constructor|]. split; [|exact H3]. constructor; [now rewrite Et|exact H2].
    + intros (H1 & H2 & H3). inversion H1 as [|? k ? ks2 Hk Hks]; subst. inversion H2 as [|? ? Ht Hts]; subst. cbn [fst snd] in Hk. rewrite Hk. cbn [rbind]. unfold with_text. destruct (e_tail c) as [|a tl] eqn:Et; [congruence|]. set (tail := a :: tl) in *. unfold blank in H3 at 1. destruct (strip tail) eqn:Es.
      * cbn [rbind negb] in *. assert (E : kids_go (S i) cs s = Ok (ks2, s')) by (apply IH; now repeat split). now rewrite E.
      * cbn [negb rfold] in H3. destruct (gt tail s) as [s1|] eqn:Eg; [|discriminate]. cbn [rbind] in *. assert (E : kids_go (S i) cs s1 = Ok (ks2, s')) by (apply IH; now repeat split). now rewrite E.
Qed.
End K.
Lemma id_exists pc' top path idx l : exists i, ga_id (attributes pc' top path idx l) = Some i.
Proof. unfold attributes, anonymous_path. rewrite attrs_after. unfold after. cbn [ga_path ga_name ga_id ga_method ga_in ga_out]. destruct (given l $"name"); [eexists; reflexivity|]. destruct (join _ _); eexists; reflexivity. Qed.
Lemma group_step top path idx par tag attrs text cs tail g :
  compile_group vars names pc top path idx par (Elem tag attrs text cs tail) = Ok g <->
  exists fss default a id ms first others s kids,
    Forall2 (adds vars names top) attrs fss /\ default = match last_given attrs (t_ "default") with Some o => Some (variable_or_text vars o) | None => None end /\
    a = attributes pc top path idx attrs /\ ga_id a = Some id /\ text <> [] /\ Forall (fun c => e_tail c <> []) cs /\
    parts_give vars default (text :: filter (fun t => negb (blank t)) (map e_tail cs)) [] ms (first :: others) (gs_defaults s) /\
    lists_made (str_eqb (ga_method a) (t_ "table")) first others s /\ (gs_hasdef s = true <-> default_only default s) /\
    Forall2 (fun ic k => compile_group vars names pc false (ga_path a) (fst ic) (Some id) (snd ic) = Ok k) (numbered cs) kids /\
    g = CG id par (ga_path a) a (concat fss) s kids.
Proof.
  cbn [compile_group]. set (a := attributes pc top path idx attrs). destruct (id_exists pc top path idx attrs) as [id Hid]. fold a in Hid. rewrite Hid.
  assert (Text : forall default s1, regexes vars default (ga_method a) false text {| gs_start := []; gs_end := []; gs_re := []; gs_defaults := []; gs_hasdef := false |} = Ok s1 <->
    exists ms xs d1, lines_give vars (default_text default) (concat (map use1 (splitlines text))) [] ms xs d1 /\
      gs_start s1 = map start_of (map snd (filter (starts (str_eqb (ga_method a) $"table")) (from 0 xs))) /\ gs_end s1 = filter ends xs /\ gs_re s1 = map snd (filter (normal (str_eqb (ga_method a) $"table")) (from 0 xs)) /\
      gs_defaults s1 = add_dict default d1 /\ gs_hasdef s1 = only default (gs_start s1) (gs_defaults s1)).
  { intros default s1. unfold regexes. rewrite used_lines_eq. cbn [gs_defaults gs_start gs_end gs_re gs_hasdef]. split.
    - destruct (Compile.compile_lines _ _ _ _) as [[xs d1]|] eqn:E; [|discriminate]. cbn [rbind]. rewrite place_text, settle_eq. cbn [gs_start gs_end gs_re gs_defaults gs_hasdef app orb]. intros K. injection K as <-. apply lines_exact in E as (ms & Hm). exists ms, xs, d1. cbn [gs_start gs_end gs_re gs_defaults gs_hasdef]. now repeat split.
    - intros (ms & xs & d1 & Hm & E1 & E2 & E3 & E4 & E5). assert (E : Compile.compile_lines vars (default_text default) (concat (map use1 (splitlines text))) [] = Ok (xs, d1)) by (apply lines_exact; now exists ms). rewrite E. cbn [rbind]. rewrite place_text, settle_eq. cbn [gs_start gs_end gs_re gs_defaults gs_hasdef app orb].
      f_equal. destruct s1 as [q1 q2 q3 q4 q5]. cbn [gs_start gs_end gs_re gs_defaults gs_hasdef] in *. subst. reflexivity. }
  set (kid := fun i c => compile_group vars names pc false (ga_path a) i (Some id) c). split.
  - destruct (func_attributes vars names top attrs) as [fa|] eqn:Ef; [|discriminate]. cbn [rbind]. intros E. unfold with_text at 1 in E. destruct text as [|c0 text0] eqn:Etx; [discriminate|]. rewrite <- Etx in *.
    destruct (regexes vars (fa_default fa) (ga_method a) false text _) as [s0|] eqn:E0; [|discriminate]. cbn [rbind] in E.
    match type of E with (do (_, _) <- ?m; _) = _ => change m with (kids_go kid (fun t => regexes vars (fa_default fa) (ga_method a) true t) 0 cs s0) in E end.
    destruct (kids_go _ _ 0 cs s0) as [[kids s]|] eqn:Ek; [|discriminate]. cbn [rbind] in E. injection E as <-. apply kids_exact in Ek as (H1 & H2 & H3).
    unfold func_attributes in Ef. apply (proj1 (functions_exact _ _ _ _ _ _)) in Ef as (fss & Hf & ->). cbn [fa_default fa_funcs app] in *. set (default := match last_given attrs $"default" with Some o => Some (variable_or_text vars o) | None => None end) in *.
    apply Text in E0 as (ms & xs & d1 & Hm & T1 & T2 & T3 & T4 & T5). apply (tails_exact default (ga_method a) _ s0 s T5) in H3 as (ms' & xss & P1 & P2 & P3 & P4 & P5). rewrite T4 in P1.
    exists fss, default, a, id, (ms ++ ms'), xs, xss, s, kids. split; [exact Hf|]. split; [reflexivity|]. split; [reflexivity|]. split; [exact Hid|]. split; [rewrite Etx; discriminate|]. split; [exact H2|].
    split; [eapply pg_more; [now apply gdefault_eq|now apply used_all|exact Hm|exact P1]|]. split; [|split; [|split; [exact H1|reflexivity]]].
    + split; [apply starts_eq; now rewrite P2, T1|]. cbn [concat]. split; [rewrite P3, T2; now rewrite filter_app|]. rewrite P4, T3. reflexivity.
    + rewrite P5. apply only_iff.
  - intros (fss & default & a' & id' & ms & first & others & s & kids & Hf & Hd & Ha & Hid' & Htx & H2 & HP & (L1 & L2 & L3) & Hh & H1 & ->). fold a in Ha. subst a'. assert (id' = id) by congruence. subst id'.
    assert (Ef : func_attributes vars names top attrs = Ok {| fa_default := default; fa_funcs := concat fss |}) by (apply (proj2 (functions_exact _ _ _ _ _ _)); exists fss; cbn [fa_default fa_funcs app]; split; [exact Hf|now rewrite Hd]). rewrite Ef. cbn [rbind fa_default fa_funcs].
    inversion HP as [|o ? lss ? ? ms1 xs d1 ms2 xss' ? Ho Hu Hl Hp E1 E2 E3 E4]. clear HP. subst xs xss'. apply gdefault_eq in Ho. apply used_all in Hu. subst o lss.
    set (s0 := {| gs_start := map start_of (map snd (filter (starts (str_eqb (ga_method a) $"table")) (from 0 first))); gs_end := filter ends first; gs_re := map snd (filter (normal (str_eqb (ga_method a) $"table")) (from 0 first));
      gs_defaults := add_dict default d1; gs_hasdef := only default (map start_of (map snd (filter (starts (str_eqb (ga_method a) $"table")) (from 0 first)))) (add_dict default d1) |}).
    assert (E0 : regexes vars default (ga_method a) false text {| gs_start := []; gs_end := []; gs_re := []; gs_defaults := []; gs_hasdef := false |} = Ok s0) by (apply Text; exists ms1, first, d1; now repeat split).
    assert (E5 : rfold (fun s t => regexes vars default (ga_method a) true t s) (filter (fun t => negb (blank t)) (map e_tail cs)) s0 = Ok s).
    { apply tails_exact; [reflexivity|]. exists ms2, others. apply starts_eq in L1. split; [exact Hp|]. split; [exact L1|]. cbn [concat] in L2. rewrite filter_app in L2. split; [exact L2|]. split; [exact L3|]. apply Bool.eq_iff_eq_true. rewrite Hh. symmetry. apply only_iff. }
    unfold with_text at 1. destruct text as [|c00 text00] eqn:Etx; [congruence|]. rewrite <- Etx in *. rewrite E0. cbn [rbind].
    match goal with |- (do (_, _) <- ?m; _) = _ => change m with (kids_go kid (fun t => regexes vars default (ga_method a) true t) 0 cs s0) end.
    assert (Ek : kids_go kid (fun t => regexes vars default (ga_method a) true t) 0 cs s0 = Ok (kids, s)) by (apply kids_exact; split; [exact H1|]; split; [exact H2|exact E5]). now rewrite Ek.
Qed.
Theorem group_exact e : forall top path idx par g, compile_group vars names pc top path idx par e = Ok g <-> group_from vars names pc top path idx par e g.
Proof.
  induction e as [tag attrs text cs tail IH] using elem_ind2. intros top path idx par g. rewrite group_step.
  assert (Kids : forall p i kids, Forall2 (fun ic k => compile_group vars names pc false p (fst ic) i (snd ic) = Ok k) (numbered cs) kids <-> Forall2 (fun ic k => group_from vars names pc false p (fst ic) i (snd ic) k) (numbered cs) kids).
  { intros p i. unfold numbered. generalize 0 as n. induction IH as [|c cs Hc _ IHc]; intros n kids; cbn [length seq combine]; [split; intros H; inversion H; constructor|]. split; intros H; inversion H; subst; constructor; try (apply (IHc (S n)); assumption); cbn [fst snd] in *; now apply Hc. }
  split.
  - intros (fss & default & a & id & ms & first & others & s & kids & H1 & H2 & H3 & H4 & H5 & H6 & H7 & H8 & H9 & H10 & ->). eapply gm; try eassumption; [reflexivity|]. now apply Kids.
  - intros H. inversion H as [? ? ? ? ? ? ? ? ? fss default a id ms first others d s kids H1 H2 H3 H4 H5 H6 H7 H8 H9 H10 H11]; subst. exists fss, (match last_given attrs (t_ "default") with Some o => Some (variable_or_text vars o) | None => None end), (attributes pc top path idx attrs), id, ms, first, others, s, kids. repeat (split; [first [assumption|reflexivity]|]). split; [now apply Kids|reflexivity].
Qed.
Theorem groups_exact es gs : compile_all vars names pc 0 es = Ok gs <-> Forall2 (fun ie g => group_from vars names pc true [] (fst ie) None (snd ie) g) (numbered es) gs.
Proof.
  unfold numbered. generalize 0 as n. revert gs. induction es as [|e es IH]; intros gs n; cbn [compile_all length seq combine].
  - split; [intros E; injection E as <-; constructor|intros H; now inversion H].
  - split.
    + destruct (compile_group _ _ _ _ _ _ _ e) as [g|] eqn:E; [|discriminate]. cbn [rbind]. destruct (compile_all _ _ _ (S n) es) as [l|] eqn:El; [|discriminate]. cbn [rbind]. intros K. injection K as <-. constructor; [now apply group_exact in E|now apply IH].
    + intros H. inversion H as [|? g ? l Hg Hl]; subst. cbn [fst snd] in Hg. apply group_exact in Hg. rewrite Hg. cbn [rbind]. apply IH in Hl. now rewrite Hl.
Qed.
End G.
