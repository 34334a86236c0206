(** * Properties_Parser: C17-C22, C73 - from text to match events.

    [check_one], [run_re], [raw_of], [parse], [process] model
    /repo/ttp/ttp.py 2350-2656 (Parser.v); the vocabulary is SpecParser.v.
    Regular expressions ([p_find]) and match functions are arbitrary. *)
From Verif Require Import PyBase DictFacts Tree Results SpecTree ResultsFacts PathFacts SpecRecords MachineFacts RunFacts
  MatchFuncs Parser SpecParser ParserFacts ParserFacts2 ParserFacts3 DefaultExact Properties_Save Properties_Machine.
From Coq Require Import Sorting.Sorted Sorting.Permutation.
Local Open Scope string_scope.
Local Open Scope list_scope.

(** ** concrete material: a regex that looks for a literal, and optionally
    captures the character after it *)
Fixpoint find_lit (lit : str) (cap : option str) (i : nat) (s : str) : list pmatch :=
  match s with
  | [] => []
  | c :: t =>
      (if (str_eqb (firstn (length lit) s) lit && Nat.ltb (length lit) (length s))%bool
       then [{| pm_start := i; pm_end := S (i + length lit); pm_text := firstn (S (length lit)) s;
                pm_groups := match cap with Some n => [(n, VStr (firstn 1 (skipn (length lit) s)))] | None => [] end |}]
       else []) ++ find_lit lit cap (S i) t
  end.
Lemma find_lit_ok lit cap : finder_ok (find_lit lit cap 0).
Proof.
  assert (H : forall s i, Forall (fun m => i <= pm_start m /\ pm_end m = S (pm_start m + length lit) /\ pm_end m <= i + length s) (find_lit lit cap i s) /\
    StronglySorted (fun a b => pm_start a <= pm_start b /\ pm_end a <= pm_end b) (find_lit lit cap i s)).
  { induction s as [|c s IH]; intros i; [split; constructor|]. cbn [find_lit]. destruct (IH (S i)) as [H1 H2].
    assert (H1' : Forall (fun m => i <= pm_start m /\ pm_end m = S (pm_start m + length lit) /\ pm_end m <= i + length (c :: s)) (find_lit lit cap (S i) s)).
    { eapply Forall_impl; [|exact H1]. cbn. intros; lia. }
    destruct (_ && _)%bool eqn:E; [|now split]. apply andb_prop in E as [_ E]. apply Nat.ltb_lt in E.
    cbn [app]. split; [constructor; [cbn [pm_start pm_end]; lia|exact H1']|].
    constructor; [exact H2|]. eapply Forall_impl; [|exact H1]. cbn. intros; lia. }
  intros s. destruct (H s 0) as [H1 H2]. split; [|exact H2]. eapply Forall_impl; [|exact H1]. cbn. intros; lia.
Qed.

Definition NL : string := String (Ascii.ascii_of_nat 10) EmptyString.
Definition xlit (lit : string) : str := nl :: $lit.
Definition mkre (rd : redict nat) (lit : string) (cap : option string) (vars : list (str * pvar)) : pregex nat :=
  {| p_re := rd; p_find := find_lit (xlit lit) (option_map (fun n => $n) cap) 0; p_vars := vars |}.
Definition var_ (n : string) (fs : list mfunc) : str * pvar := ($n, {| pv_orig := KS ($n); pv_funcs := fs |}).
Definition func_ (g : val -> val * mflag) : mfunc :=
  {| mf_call := fun e d => Ok (e, g d); mf_attr := fun d => Raise AttributeError |}.
Definition menv0 : menv := {| m_vars := []; m_gvars := [] |}.
Definition text_ (ls : list string) : str := nl :: flat_map (fun l => $l ++ [nl]) ls.

(** ** C17: the function chain of a variable *)
Theorem C17_chain_in_order : forall a b env d nf,
  run_chain (a ++ b) env d nf =
  do (env', o) <- run_chain a env d nf;
  match o with None => Ok (env', None) | Some (d', nf') => run_chain b env' d' nf' end.
Proof. exact run_chain_app. Qed.
Print Assumptions C17_chain_in_order.
Theorem C17_first_false_stops : forall f fs env d nf env' d',
  run_func f env d = Ok (env', (d', FBool false)) -> run_chain (f :: fs) env d nf = Ok (env', None).
Proof. intros f fs env d nf env' d' H. cbn [run_chain]. rewrite H. reflexivity. Qed.
Print Assumptions C17_first_false_stops.
Theorem C17_value : forall fs gs, Forall2 pure_func fs gs -> forall env d nf,
  run_chain fs env d nf =
  Ok (env, match through gs d with Some v => Some (v, fold_left dupdate (new_fields gs d) nf) | None => None end).
Proof. exact run_chain_pure. Qed.
Print Assumptions C17_value.
(** the whole line: recorded with its values; dropped, or kept as a rejected
    start, as soon as one variable is rejected *)
Theorem C17_line : forall F (R : pregex F) start env rs m spec,
  vars_are (p_vars F R) spec (temp_of F R m) ->
  let pos := (start + Z.of_nat (pm_start m))%Z in
  check_one F R start (env, rs) m =
  Ok (env, match line_values spec (temp_of F R m) with
           | Some l => add_at F pos (p_re F R, Some (dupdate [] l)) rs
           | None => if is_start (r_action F (p_re F R)) then add_at F pos (p_re F R, None) rs else rs
           end).
Proof. exact line_result. Qed.
Print Assumptions C17_line.
Theorem C17_rejected_iff : forall (spec : list (str * var_spec)) temp,
  (forall n d, In (n, d) temp -> exists k gs, assoc n spec = Some (k, gs)) ->
  line_values spec temp = None <->
  exists n d k gs, In (n, d) temp /\ assoc n spec = Some (k, gs) /\ through gs d = None.
Proof. exact line_values_none. Qed.
Print Assumptions C17_rejected_iff.
Theorem C17_values_independent : forall spec temp l, line_values spec temp = Some l -> NoDup (map fst l) ->
  dupdate [] l = l /\
  forall n d, In (n, d) temp -> exists k gs v, assoc n spec = Some (k, gs) /\ through gs d = Some v /\ dget l k = Some v.
Proof.
  intros spec temp l Hl Hn. split; [now apply (dupdate_fresh l [])|].
  intros n d Hi. destruct (line_values_In spec temp l Hl n d Hi) as (k & gs & v & A & B & C).
  exists k, gs, v. split; [exact A|]. split; [exact B|]. now apply In_dget.
Qed.
Print Assumptions C17_values_independent.
Example C17_ex :
  let up := func_ (fun d => match d with VStr s => (VStr (s ++ s), FNone) | _ => (d, FNone) end) in
  let no_z := func_ (fun d => match d with VStr s => (d, FBool (negb (str_eqb s ($"zz")))) | _ => (d, FNone) end) in
  let R := mkre (xre AStart gi) "s" (Some "v") [var_ "v" [up; no_z]] in
  let ms := p_find nat R (text_ ["sa"; "x"; "sz"]) in
  check_matches nat R ms 0 (menv0, []) =
  Ok (menv0, [(0%Z, [(xre AStart gi, Some (r_ [("v", s_ "aa")]))]); (5%Z, [(xre AStart gi, None)])]) /\
  check_matches nat (mkre (xre AAdd gi) "s" (Some "v") [var_ "v" [up; no_z]]) ms 0 (menv0, []) =
  Ok (menv0, [(0%Z, [(xre AAdd gi, Some (r_ [("v", s_ "aa")]))])]).
Proof. vm_compute. split; reflexivity. Qed.

(** ** C18: results are processed in text order *)
Theorem C18_text_order : forall F text G env env' rs, run_re F text G (env, []) 0 (-1) = Ok (env', rs) ->
  exists sorted, raw_of F rs = map snd sorted /\ Permutation rs sorted /\
    StronglySorted (fun a b => (fst a < fst b)%Z) sorted.
Proof. exact text_order. Qed.
Print Assumptions C18_text_order.
(** what is collected: exactly the template's matches, each at its position *)
Theorem C18_all_matches : forall F spec text (G : pgroup F),
  tree_ok F G -> simple_tree F G -> Forall (plain_re F spec) (regexes F G) ->
  forall env rs start stop, (0 <= start <= stop_pos text stop)%Z -> exists rs',
  run_re F text G (env, rs) start stop = Ok (env, rs') /\
  forall q y, at_pos rs' q y <-> at_pos rs q y \/ contributes F spec text G start stop q y.
Proof. exact run_re_exact. Qed.
Print Assumptions C18_all_matches.
Definition gchild : group nat := xgroup "interfaces*.ip" (Some "interfaces*") ["interfaces*"; "ip"] [] [].
Definition xtree : pgroup nat :=
  PG nat gi [mkre (xre AStart gi) "s" (Some "v") [var_ "v" []]] []
    [mkre (xre AAdd gi) "d" (Some "w") [var_ "w" []]; mkre (xre AAdd gi) "i" (Some "u") [var_ "u" []]] false
    [PG nat gchild [mkre (xre AStart gchild) "i" (Some "v") [var_ "v" []]] [] [] false []].
Example C18_ex :
  (do (_, rs) <- run_re nat (text_ ["d0"; "sa"; "i1"; "d2"; "sb"; "i3"; ""]) xtree (menv0, []) 0 (-1); Ok (raw_of nat rs)) =
  Ok [[xit AStart gi (r_ [("v", s_ "a")])];
      [xit AAdd gi (r_ [("u", s_ "1")]); xit AStart gchild (r_ [("v", s_ "1")])];
      [xit AAdd gi (r_ [("w", s_ "2")])];
      [xit AStart gi (r_ [("v", s_ "b")])];
      [xit AAdd gi (r_ [("u", s_ "3")]); xit AStart gchild (r_ [("v", s_ "3")])]].
Proof. vm_compute. reflexivity. Qed.
Example C18_hyps : tree_ok nat xtree /\ simple_tree nat xtree.
Proof.
  split.
  - unfold tree_ok, xtree. cbn [regexes app flat_map]. repeat constructor; apply find_lit_ok.
  - cbn. tauto.
Qed.

(** ** C19: nothing before the first start line *)
Theorem C19_after_first_start : forall F text (G : pgroup F) start stop st st',
  tree_ok F G -> (0 <= start <= stop_pos text stop)%Z ->
  run_re F text G st start stop = Ok st' ->
  (exists p, start_at F text G start stop p) ->
  exists first, start_at F text G start stop first /\
    (forall p, start_at F text G start stop p -> (first <= p)%Z) /\
    forall q y, at_pos (snd st') q y -> at_pos (snd st) q y \/ (first <= q)%Z \/ (is_default F y /\ (default_key <= q)%Z).
Proof. exact nothing_before_start. Qed.
Print Assumptions C19_after_first_start.
Theorem C19_no_start : forall F text (g : group F) a b c cs start stop st,
  tree_ok F (PG F g a b c false cs) -> a <> [] -> Forall (fun x => pg_default F x = false) cs ->
  (forall p, ~ start_at F text (PG F g a b c false cs) start stop p) ->
  run_re F text (PG F g a b c false cs) st start stop = Ok st.
Proof. exact no_start_no_match. Qed.
Print Assumptions C19_no_start.
Example C19_ex :
  run_re nat (text_ ["d0"; "i1"; "d2"]) xtree (menv0, []) 0 (-1) = Ok (menv0, []) /\
  (exists p, start_at nat (text_ ["d0"; "sa"; "i1"; ""]) xtree 0 (-1) p).
Proof.
  split; [vm_compute; reflexivity|]. exists 3%Z.
  exists (mkre (xre AStart gi) "s" (Some "v") [var_ "v" []]),
    {| pm_start := 3; pm_end := 6; pm_text := nl :: $"sa"; pm_groups := [($"v", s_ "a")] |}.
  split; [now left|]. split; [|reflexivity]. vm_compute. now left.
Qed.

(** ** C20: records of defaults *)
Theorem C20_one_default_record : forall F text (g : group F) a b c cs start stop st,
  tree_ok F (PG F g a b c true cs) -> a <> [] -> Forall (fun x => pg_default F x = false) cs ->
  (forall p, ~ start_at F text (PG F g a b c true cs) start stop p) ->
  exists key, ((default_key <= key)%Z /\ forall z, (default_key <= z < key)%Z -> In z (map fst (snd st))) /\ ~ In key (map fst (snd st)) /\
  run_re F text (PG F g a b c true cs) st start stop =
  Ok (fst st, snd st ++ [(key, [(default_re F g a, Some [])])]).
Proof. exact default_record. Qed.
Print Assumptions C20_one_default_record.
(** for texts of at most ten million characters *)
Theorem C20_defaults_last : forall F text (G : pgroup F) env env' rs,
  tree_ok F G -> (1 <= length text)%nat -> (Z.of_nat (length text) <= 10000000)%Z ->
  run_re F text G (env, []) 0 (-1) = Ok (env', rs) ->
  exists matched defaults,
    raw_of F rs = matched ++ defaults /\
    Forall (Forall (fun y => is_default F y)) defaults /\
    Forall (Forall (fun y => exists p, (0 <= p < Z.of_nat (length text))%Z /\ at_pos rs p y)) matched.
Proof. exact defaults_last. Qed.
Print Assumptions C20_defaults_last.

(** the full claim, for two sibling groups: [A] matched, [B] did not; proved for
    texts of at most ten million characters, false for longer ones *)
Definition default_comes_last (bound : str -> Prop) : Prop := forall F spec text (g : group F) A B env,
  tree_ok F A -> simple_tree F A -> Forall (plain_re F spec) (regexes F A) ->
  tree_ok F B -> pg_default F B = true -> starts_of F B <> [] -> Forall (fun x => pg_default F x = false) (children_of F B) ->
  (forall p, ~ start_at F text B 0 (-1) p) ->
  (1 <= length text)%nat -> bound text ->
  exists rsA rs, run_re F text A (env, []) 0 (-1) = Ok (env, rsA) /\
    run_re F text (PG F g [] [] [] false [A; B]) (env, []) 0 (-1) = Ok (env, rs) /\
    raw_of F rs = raw_of F rsA ++ [[(default_re F (pg_group F B) (starts_of F B), Some [])]].
Theorem C20_default_after_matches : default_comes_last (fun text => (Z.of_nat (length text) <= 10000000)%Z).
Proof. exact default_after_matches. Qed.
Print Assumptions C20_default_after_matches.

(** ** C73: for texts of any length the record of defaults stands among the matched records at the place of
    its number, which is the first free one from ten million on; matches are numbered by where they start *)
Theorem C73_place : forall F text (g : group F) A B env env' rsA,
  tree_ok F B -> pg_default F B = true -> starts_of F B <> [] -> Forall (fun x => pg_default F x = false) (children_of F B) ->
  (forall p, ~ start_at F text B 0 (-1) p) ->
  run_re F text A (env, []) 0 (-1) = Ok (env', rsA) ->
  exists rs key before after, ((10000000 <= key)%Z /\ forall z, (10000000 <= z < key)%Z -> In z (map fst rsA)) /\
    run_re F text (PG F g [] [] [] false [A; B]) (env, []) 0 (-1) = Ok (env', rs) /\
    sort_found F rsA = before ++ after /\
    Forall (fun e => (fst e < key)%Z) before /\ Forall (fun e => (key < fst e)%Z) after /\
    raw_of F rs = map snd before ++ [(default_re F (pg_group F B) (starts_of F B), Some [])] :: map snd after.
Proof. exact default_among. Qed.
Print Assumptions C73_place.

(** a regex whose only match is the empty one at the end of its window *)
Definition at_end (s : str) : list pmatch := [{| pm_start := length s; pm_end := length s; pm_text := []; pm_groups := [($"v", s_ "a")] |}].
Theorem C73_limits : ~ default_comes_last (fun _ => True).
Proof.
  intros H.
  set (R := {| p_re := xre AStart gi; p_find := at_end; p_vars := [var_ "v" []] |} : pregex nat).
  set (N := {| p_re := xre AStart gchild; p_find := fun _ => []; p_vars := [] |} : pregex nat).
  set (A := PG nat gi [R] [] [] false []). set (B := PG nat gchild [N] [] [] true []).
  pose (text := repeat nl (N.to_nat 10000002)).
  assert (Hlen : Z.of_nat (length text) = 10000002%Z) by (unfold text; rewrite repeat_length; lia).
  assert (Hsl : length (slice text 0 (-1)) = N.to_nat 10000001).
  { unfold slice. rewrite Hlen. rewrite firstn_length, skipn_length. cbn [Z.ltb Z.compare].
    assert (length text = N.to_nat 10000002) as -> by lia. lia. }
  clearbody text.
  destruct (H nat (fun _ => [($"v", (KS ($"v"), []))]) text gi A B menv0) as (rsA & rs & EA & E & Hraw).
  - unfold tree_ok. cbn [regexes A app flat_map]. constructor; [|constructor]. intros s. cbn [p_find R at_end]. split.
    + constructor; [cbn; lia|constructor].
    + repeat constructor.
  - cbn. tauto.
  - cbn [regexes A app flat_map]. constructor; [|constructor]. intros w m Hm n d Hi. cbn [p_find R] in Hm. destruct Hm as [<-|[]].
    destruct Hi as [Hi|[]]. injection Hi as <- <-. exists {| pv_orig := KS ($"v"); pv_funcs := [] |}, (KS ($"v")), [].
    split; [reflexivity|]. split; [reflexivity|]. split; [reflexivity|constructor].
  - unfold tree_ok. cbn [regexes B app flat_map]. constructor; [|constructor]. intros s. split; constructor.
  - reflexivity.
  - cbn. congruence.
  - constructor.
  - intros p (R' & m & [<-|[]] & Hm & _). exact Hm.
  - lia.
  - exact I.
  - assert (EA' : run_re nat text A (menv0, []) 0 (-1) = Ok (menv0, [(10000001%Z, [(xre AStart gi, Some (r_ [("v", s_ "a")]))])])).
    { unfold A. rewrite run_re_eq. cbn [rfold rbind]. unfold Parser.do_start. cbn [p_find R]. unfold at_end at 1. cbn [sa_found sa_s sa_se sa_st].
      rewrite Hsl. cbv beta iota zeta. cbn [last pm_start pm_end]. unfold check_matches. cbn [rfold]. unfold check_one, temp_of.
      cbn [pm_groups p_vars R run_vars assoc var_ fst snd]. change (str_eqb ($"v") ($"v")) with true. cbv iota. cbn [snd var_ pv_funcs run_chain rbind pv_orig dset p_re add_at pm_start].
      cbn [negb rfold rbind Z.eqb Pos.eqb kids_all sa_found sa_st]. assert ((0 + Z.of_nat (N.to_nat 10000001))%Z = 10000001%Z) as -> by lia. reflexivity. }
    rewrite EA' in EA. assert (rsA = [(10000001%Z, [(xre AStart gi, Some (r_ [("v", s_ "a")]))])]) as -> by congruence.
    rewrite run_re_eq in E. cbn [rfold rbind sa_found sa_s sa_st negb no_starts kids_def orb Z.add] in E. rewrite EA' in E. cbn [rbind] in E.
    unfold B in E. rewrite run_re_eq in E. cbn [rfold rbind] in E. unfold Parser.do_start in E. cbn [p_find N sa_found sa_s sa_st negb no_starts kids_def rbind snd fst] in E.
    match type of E with Ok (_, ?r) = _ => assert (Hrs : rs = r) by congruence end.
    rewrite Hrs in Hraw. vm_compute in Hraw. discriminate.
Qed.
Print Assumptions C73_limits.

Theorem C20_defaults_saved : forall F runf k2i text (g : group F) a b c env main,
  tree_ok F (PG F g a b c true []) -> a <> [] ->
  (forall R, In R a -> r_group F (p_re F R) = g /\ r_action F (p_re F R) = AStart) ->
  static_path (g_path F g) -> g_path F g <> [] -> g_funcs F g = [] -> g_parent F g = None -> dwf (g_runs F g) ->
  (forall p, ~ start_at F text (PG F g a b c true []) 0 (-1) p) ->
  exists content,
    (do r <- parse F runf k2i text [(PG F g a b c true [], None)] [] env main; Ok (snd (snd r)))
    = save_cur k2i false main (map split_stars (g_path F g)) (VDict content) /\
    forall k, dget content k = dget (update_runs (m_vars env) (update_runs (m_gvars env) (g_runs F g))) k.
Proof. intros F runf k2i. exact (default_saved F runf k2i). Qed.
Print Assumptions C20_defaults_saved.
Example C20_ex :
  let gd := xgroup "x" None ["x"] (r_ [("v", s_ "none")]) [] in
  let G := PG nat gd [mkre (xre AStart gd) "s" (Some "v") [var_ "v" []]] [] [] true [] in
  tree_ok nat G /\ (forall p, ~ start_at nat (text_ ["ab"; "c"]) G 0 (-1) p) /\
  (do r <- parse nat xrun true (text_ ["ab"; "c"]) [(G, None)] [] menv0 (VDict []); Ok (snd (snd r)))
  = Ok (d_ [("x", d_ [("v", s_ "none")])]).
Proof.
  split; [|split].
  - unfold tree_ok. cbn [regexes app flat_map]. repeat constructor; apply find_lit_ok.
  - intros p (R & m & [<-|[]] & Hm & _). vm_compute in Hm. exact Hm.
  - vm_compute. reflexivity.
Qed.



(** ** C21: matches after the last end line *)
(** the claim: [m0] is the last match of an end line and comes after all start
    lines (other than _line_ ones); then nothing of the group lies beyond it.
    [side] is an additional condition; [lim] is [<] for the claim as stated, [<=]
    tolerates a match on the line right after the end line. *)
Definition nothing_after_end (lim : Z -> Z -> Prop) (side : forall F, str -> pgroup F -> pmatch -> Prop) : Prop :=
  forall F text (G : pgroup F) env env' rs,
  tree_ok F G -> (1 <= length text)%nat ->
  run_re F text G (env, []) 0 (-1) = Ok (env', rs) ->
  forall first R0 m0, is_first F text G 0 (-1) first ->
  In R0 (ends_of F G) -> In m0 (p_find F R0 (slice text first (-1))) -> pm_start m0 < pm_end m0 ->
  (forall R m, In R (ends_of F G) -> In m (p_find F R (slice text first (-1))) -> pm_end m <= pm_end m0) ->
  (forall R m, In R (starts_of F G) -> r_isline F (p_re F R) = false -> In m (p_find F R (slice text 0 (-1))) ->
     (Z.of_nat (pm_end m) <= first + Z.of_nat (pm_start m0))%Z) ->
  side F text G m0 ->
  forall q y, at_pos rs q y -> of_gid F (g_id F (pg_group F G)) y = true ->
  lim q (first + Z.of_nat (pm_end m0))%Z \/ (is_default F y /\ (default_key <= q)%Z).
(** two start lines never match at the same place *)
Definition starts_apart : forall F, str -> pgroup F -> pmatch -> Prop :=
  fun F text G _ => NoDup (starts_pos F text 0 (-1) (starts_of F G)).
(** the end line, counted from the first start line, ends further than every
    start line, counted from the beginning of the text *)
Definition end_far : forall F, str -> pgroup F -> pmatch -> Prop := fun F text G m0 =>
  forall R m, In R (starts_of F G) -> r_isline F (p_re F R) = false -> In m (p_find F R (slice text 0 (-1))) -> pm_end m < pm_end m0.

Theorem C21_after_end : nothing_after_end Z.le (fun F text G m0 => starts_apart F text G m0 /\ end_far F text G m0).
Proof.
  intros F text G env env' rs Hok Hl H first R0 m0 Hf HR0 Hm0 Hne Hlast _ [Hnd Hfar] q y Hq Hg.
  destruct (after_end_discarded F text G env env' rs Hok Hl H Hnd first R0 m0 Hf HR0 Hm0 Hne Hfar) as (le & (R & m & HR & Hm & ->) & _ & HD).
  destruct (HD q y Hq Hg) as [HD'|HD']; [left|now right]. specialize (Hlast R m HR Hm). lia.
Qed.
Print Assumptions C21_after_end.

Definition gline (a : action) (g : group nat) : redict nat := {| r_action := a; r_isline := true; r_group := g; r_joins := [] |}.
Definition endtree (s : redict nat) (more : list (pregex nat)) : pgroup nat :=
  PG nat gi (mkre s "s" (Some "v") [var_ "v" []] :: more) [mkre (xre AEnd gi) "e" None []]
    [mkre (xre AAdd gi) "d" (Some "w") [var_ "w" []]] false [].
Lemma endtree_ok s more : Forall (fun R => finder_ok (p_find nat R)) more -> tree_ok nat (endtree s more).
Proof.
  intros H. unfold tree_ok, endtree. cbn [regexes]. constructor; [apply find_lit_ok|]. rewrite !Forall_app. repeat split; auto.
  - constructor; [apply find_lit_ok|constructor].
  - constructor; [apply find_lit_ok|constructor].
  - constructor.
Qed.
(** a matched line after the end line survives when the first start line is far
    from the beginning of the text *)
Theorem C21_limits_offset : ~ nothing_after_end Z.le starts_apart.
Proof.
  intros H.
  pose (text := text_ ["abcdefghijklmnop"; "sa"; "e1"; "xx"; "d2"; ""]).
  pose (G := endtree (xre AStart gi) []).
  destruct (run_re nat text G (menv0, []) 0 (-1)) as [[env' rs]|e] eqn:E; [|vm_compute in E; discriminate].
  assert (Hq : at_pos rs 26 (xre AAdd gi, Some (r_ [("w", s_ "2")]))).
  { vm_compute in E. assert (Hr : rs = snd (env', rs)) by reflexivity. injection E as _ <-.
    eexists. split; [right; right; left; reflexivity|]. now left. }
  assert (Hfirst : is_first nat text G 0 (-1) 17).
  { split.
    - eexists _, _. split; [now left|]. split; [vm_compute; now left|reflexivity].
    - intros p (R & m & [<-|[]] & Hm & ->). vm_compute in Hm. destruct Hm as [<-|[]]. vm_compute. congruence. }
  set (m0 := {| pm_start := 3; pm_end := 6; pm_text := nl :: $"e1"; pm_groups := [] |}).
  destruct (H nat text G menv0 env' rs (endtree_ok _ _ (Forall_nil _)) ltac:(vm_compute; lia) E 17%Z
    (mkre (xre AEnd gi) "e" None []) m0 Hfirst) with (q := 26%Z) (y := (xre AAdd gi, Some (r_ [("w", s_ "2")]))) as [Hc|[Hc _]].
  - now left.
  - vm_compute. now left.
  - cbn. lia.
  - intros R m [<-|[]] Hm. vm_compute in Hm. destruct Hm as [<-|[]]. cbn. lia.
  - intros R m [<-|[]] _ Hm. vm_compute in Hm. destruct Hm as [<-|[]]. vm_compute. congruence.
  - unfold starts_apart. vm_compute. repeat constructor; intros [].
  - exact Hq.
  - reflexivity.
  - vm_compute in Hc. congruence.
  - discriminate.
Qed.
Print Assumptions C21_limits_offset.
(** of two _line_ start matches at the same place after the end line, one survives *)
Theorem C21_limits_same_place : ~ nothing_after_end Z.le end_far.
Proof.
  intros H.
  pose (text := text_ ["sa"; "e1"; "xx"; "sb"; ""]).
  pose (G := endtree (gline AStart gi) [mkre (gline AStart gi) "s" (Some "v") [var_ "v" []]]).
  destruct (run_re nat text G (menv0, []) 0 (-1)) as [[env' rs]|e] eqn:E; [|vm_compute in E; discriminate].
  assert (Hq : at_pos rs 9 (gline AStart gi, Some (r_ [("v", s_ "b")]))).
  { vm_compute in E. injection E as _ <-. eexists. split; [right; left; reflexivity|]. now left. }
  assert (Hfirst : is_first nat text G 0 (-1) 0).
  { split.
    - eexists _, _. split; [now left|]. split; [vm_compute; now left|reflexivity].
    - intros p (R & m & [<-|[<-|[]]] & Hm & ->); vm_compute in Hm; destruct Hm as [<-|[<-|[]]]; vm_compute; congruence. }
  set (m0 := {| pm_start := 3; pm_end := 6; pm_text := nl :: $"e1"; pm_groups := [] |}).
  destruct (H nat text G menv0 env' rs ltac:(apply endtree_ok; constructor; [apply find_lit_ok|constructor]) ltac:(vm_compute; lia) E 0%Z
    (mkre (xre AEnd gi) "e" None []) m0 Hfirst) with (q := 9%Z) (y := (gline AStart gi, Some (r_ [("v", s_ "b")]))) as [Hc|[Hc _]].
  - now left.
  - vm_compute. now left.
  - cbn. lia.
  - intros R m [<-|[]] Hm. vm_compute in Hm. destruct Hm as [<-|[]]. cbn. lia.
  - intros R m [<-|[<-|[]]] Hl; discriminate Hl.
  - intros R m [<-|[<-|[]]] Hl; discriminate Hl.
  - exact Hq.
  - reflexivity.
  - vm_compute in Hc. congruence.
  - discriminate.
Qed.
Print Assumptions C21_limits_same_place.
(** and the line right after the end line is kept *)
Theorem C21_limits_next_line : ~ nothing_after_end Z.lt (fun F text G m0 => starts_apart F text G m0 /\ end_far F text G m0).
Proof.
  intros H.
  pose (text := text_ ["sa"; "e1"; "sb"; ""]).
  pose (G := endtree (gline AStart gi) []).
  destruct (run_re nat text G (menv0, []) 0 (-1)) as [[env' rs]|e] eqn:E; [|vm_compute in E; discriminate].
  assert (Hq : at_pos rs 6 (gline AStart gi, Some (r_ [("v", s_ "b")]))).
  { vm_compute in E. injection E as _ <-. eexists. split; [right; left; reflexivity|]. now left. }
  assert (Hfirst : is_first nat text G 0 (-1) 0).
  { split.
    - eexists _, _. split; [now left|]. split; [vm_compute; now left|reflexivity].
    - intros p (R & m & [<-|[]] & Hm & ->); vm_compute in Hm; destruct Hm as [<-|[<-|[]]]; vm_compute; congruence. }
  set (m0 := {| pm_start := 3; pm_end := 6; pm_text := nl :: $"e1"; pm_groups := [] |}).
  destruct (H nat text G menv0 env' rs (endtree_ok _ _ (Forall_nil _)) ltac:(vm_compute; lia) E 0%Z
    (mkre (xre AEnd gi) "e" None []) m0 Hfirst) with (q := 6%Z) (y := (gline AStart gi, Some (r_ [("v", s_ "b")]))) as [Hc|[Hc _]].
  - now left.
  - vm_compute. now left.
  - cbn. lia.
  - intros R m [<-|[]] Hm. vm_compute in Hm. destruct Hm as [<-|[]]. cbn. lia.
  - intros R m [<-|[]] Hl; discriminate Hl.
  - split; [|intros R m [<-|[]] Hl; discriminate Hl].
    unfold starts_apart. vm_compute. repeat constructor; simpl; intuition discriminate.
  - exact Hq.
  - reflexivity.
  - vm_compute in Hc. congruence.
  - discriminate.
Qed.
Print Assumptions C21_limits_next_line.
(** a case: the second record after the end line is gone *)
Example C21_ex :
  let text := text_ ["sa"; "d1"; "e1"; "xx"; "sb"; "d2"; ""] in
  let G := endtree (gline AStart gi) [] in
  starts_apart nat text G {| pm_start := 6; pm_end := 9; pm_text := []; pm_groups := [] |} /\
  end_far nat text G {| pm_start := 6; pm_end := 9; pm_text := []; pm_groups := [] |} /\
  (do (_, rs) <- run_re nat text G (menv0, []) 0 (-1); Ok (map (fun e => (fst e, map snd (snd e))) rs)) =
  Ok [(0%Z, [Some (r_ [("v", s_ "a")])]); (6%Z, [Some []]); (3%Z, [Some (r_ [("w", s_ "1")])])].
Proof.
  split; [|split].
  - unfold starts_apart. vm_compute. repeat constructor; simpl; intuition discriminate.
  - intros R m [<-|[]] Hl; discriminate Hl.
  - vm_compute. reflexivity.
Qed.

(** ** C22: inputs do not influence each other *)
Theorem C22_inputs_isolated : forall F runf k2i orig vfs defaults v2r st0 main0 history st main data m,
  rfold (run_input F runf k2i orig vfs defaults v2r) history (st0, main0) = Ok (st, main) ->
  process F runf k2i orig vfs defaults v2r st data m =
  process F runf k2i orig vfs defaults v2r {| ps_vars := []; ps_gvars := ps_gvars F st; ps_groups := ps_groups F st0 |} data m.
Proof. exact inputs_isolated. Qed.
Print Assumptions C22_inputs_isolated.
Theorem C22_variables_of_an_input : forall vfs, NoDup (map fst vfs) -> forall orig text k,
  dget (set_vars orig vfs text) k = match computed vfs text k with Some v => Some v | None => dget orig k end.
Proof. exact vars_of_input. Qed.
Print Assumptions C22_variables_of_an_input.
(** a match function that stores its value in a template variable, and one that
    reads it: the second input does not see what the first one stored *)
Definition set_x : mfunc := {| mf_call := fun e d => Ok ({| m_vars := dset (m_vars e) (KS ($"x")) d; m_gvars := m_gvars e |}, (d, FNone));
                               mf_attr := fun _ => Raise AttributeError |}.
Definition get_x : mfunc := {| mf_call := fun e d => Ok (e, (match dget (m_vars e) (KS ($"x")) with Some v => v | None => d end, FNone));
                               mf_attr := fun _ => Raise AttributeError |}.
Example C22_ex :
  let gd := xgroup "g*" None ["g*"] [] [] in
  let G := PG nat gd [mkre (xre AStart gd) "s" (Some "v") [var_ "v" [set_x]]; mkre (xre AStart gd) "r" (Some "w") [var_ "w" [get_x]]] [] [] false [] in
  let st := {| ps_vars := []; ps_gvars := []; ps_groups := [(G, None)] |} in
  match rfold (run_input nat xrun true (r_ [("x", s_ "0")]) [] (fun _ => []) []) [tl (text_ ["sa"; "rb"]); tl (text_ ["rb"])] (st, VDict []) with
  | Ok (_, v) => Some v
  | Raise _ => None
  end = Some (d_ [("g", VList [d_ [("v", s_ "a")]; d_ [("w", s_ "a")]; d_ [("w", s_ "0")]])]).
Proof. vm_compute. reflexivity. Qed.
