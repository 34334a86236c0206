(** * PlainResult: the results of a template of plain lines. *)
From Coq Require Import Lia.
From Verif Require Import PyBase DictFacts StrFacts SessionFacts Xml XmlFacts LoadFacts Regex SpecRegex RegexFacts Results Template Attributes FormRegex SpecLine MatchVar MatchFuncs GroupFuncs Parser ParserFacts ParserFacts2 SpecTree SpecRecords
  PathFacts MachineFacts RunFacts Compile CompileFacts FindLines OutputFacts EscapeFacts LineFacts FuncTable Session Files Inputs Load Run SpecForm SpecProgram PlainLine LineRun PlainRun PlainProgram PlainCompile QuietFacts.
Local Open Scope string_scope.
Local Open Scope list_scope.

Lemma f2_len A B (P : A -> B -> Prop) l l' : Forall2 P l l' -> length l = length l'.
Proof. induction 1; cbn; congruence. Qed.
(** ** the group object *)
Definition compiled (t : tline) (x : crex) : Prop :=
  exists ast l, line_expr t ast /\ x = {| x_text := plain_text_of t; x_re := ast; x_vars := l; x_action := AAdd; x_isline := false |} /\
  forall n, In n (tl_names t) -> exists o, assoc n l = Some o /\ vo_orig o = n /\ v_funcs (vo_st o) = [].
Lemma lines_compiled vars ts : Forall tline_ok ts -> exists xs, compile_lines vars None (map source ts) [] = Ok (xs, []) /\ Forall2 compiled ts xs.
Proof.
  induction 1 as [|t ts Ht _ (xs & E & IH)]; [exists []; split; [reflexivity|constructor]|]. destruct (plain_compile vars t [] Ht) as (ast & l & He & Ec & Hl).
  cbn [map compile_lines]. rewrite Ec. cbn [rbind]. rewrite E. cbn [rbind]. eexists. split; [reflexivity|]. constructor; [|exact IH]. exists ast, l. auto.
Qed.
Lemma place_rest method xs : str_eqb method $"table" = false -> Forall (fun x => x_action x = AAdd) xs -> forall i s,
  place_all method false (S i) xs s = {| gs_start := gs_start s; gs_end := gs_end s; gs_re := gs_re s ++ xs; gs_defaults := gs_defaults s; gs_hasdef := gs_hasdef s |}.
Proof.
  intros Hm. induction 1 as [|x xs Hx _ IH]; intros i s; [cbn [place_all]; rewrite app_nil_r; now destruct s|]. cbn [place_all]. rewrite IH. unfold place. rewrite Hx, Hm. cbn [is_end Nat.eqb is_start put_re gs_start gs_end gs_re gs_defaults gs_hasdef]. now rewrite <- app_assoc.
Qed.
Definition starting (x : crex) : crex := {| x_text := x_text x; x_re := x_re x; x_vars := x_vars x; x_action := AStart; x_isline := x_isline x |}.
Theorem group_compiled vars gn pathchar top path idx parent tag attrs tail first others :
  tline_ok first -> Forall tline_ok others ->
  func_attributes vars gn top attrs = Ok {| fa_default := None; fa_funcs := [] |} ->
  let a := attributes pathchar top path idx attrs in str_eqb (ga_method a) $"table" = false ->
  exists x0 xs, compiled first x0 /\ Forall2 compiled others xs /\
  compile_group vars gn pathchar top path idx parent (Elem tag attrs (stacked (map source (first :: others))) [] tail) =
    Ok (CG (match ga_id a with Some i => i | None => ([], 0) end) parent (ga_path a) a [] {| gs_start := [starting x0]; gs_end := []; gs_re := xs; gs_defaults := []; gs_hasdef := false |} []).
Proof.
  intros Hf Ho Ha a Hm. assert (H : Forall tline_ok (first :: others)) by (now constructor). destruct (lines_compiled vars _ H) as (l & E & Hl). inversion Hl as [|? x0 ? xs Hx0 Hxs]; subst.
  exists x0, xs. split; [exact Hx0|]. split; [exact Hxs|]. cbn [compile_group]. rewrite Ha. cbn [rbind fa_default fa_funcs]. fold a.
  unfold with_text. destruct (stacked_nl (map source (first :: others))) as (u & Eu). rewrite Eu. rewrite <- Eu. unfold regexes. rewrite (used_sources _ H). cbn [default_text gs_defaults]. rewrite E. cbn [rbind].
  assert (Hact : Forall (fun x => x_action x = AAdd) xs). { clear - Hxs. induction Hxs as [|t x ts xs (ast & l & _ & -> & _) _ IH]; constructor; [reflexivity|exact IH]. }
  assert (Ex0 : x_action x0 = AAdd) by (destruct Hx0 as (ast & l & _ & -> & _); reflexivity).
  cbn [place_all gs_start gs_end gs_re gs_hasdef]. rewrite (place_rest _ xs Hm Hact). unfold place. rewrite Ex0. cbn [is_end Nat.eqb]. unfold start_of. rewrite Ex0. cbn [is_start put_start gs_start gs_end gs_re gs_defaults gs_hasdef app].
  unfold settle_defaults. cbn [gs_start gs_end gs_re gs_defaults gs_hasdef existsb]. fold (starting x0).
  assert (Eh : has_default_var [] (starting x0) = false). { unfold has_default_var. clear. induction (x_vars (starting x0)) as [|nv l IH]; [reflexivity|]. exact IH. }
  rewrite Eh. reflexivity.
Qed.

(** ** its results *)
Definition named_group (path : list str) (funcs : list attribute) (id : gid) : group attribute :=
  {| g_id := id; g_parent := None; g_path := path; g_runs := []; g_funcs := funcs |}.
(** what the lines of the data are *)
Definition plain_event (first : tline) (others : list tline) (f0 : str -> option dict) (fs : list (str -> option dict)) : Prop :=
  (forall s d, lacks nl s -> f0 s = Some d <-> exists c, line_fits first s c /\ d = values c) /\
  Forall2 (fun t f => forall s d, lacks nl s -> f s = Some d <-> exists c, line_fits t s c /\ d = values c) others fs.
Lemma decide_none t (f : str -> option dict) s : (forall d, f s = Some d <-> exists c, line_fits t s c /\ d = values c) -> f s = None <-> forall c, ~ line_fits t s c.
Proof.
  intros H. split.
  - intros E c K. assert (Q : f s = Some (values c)) by (apply H; eauto). congruence.
  - intros K. destruct (f s) as [d|] eqn:E; [|reflexivity]. destruct (proj1 (H d) eq_refl) as (c & Q & _). now apply K in Q.
Qed.
Lemma event_is first others f0 (rest : list (redict attribute * (str -> option dict))) s : plain_event first others f0 (map snd rest) -> lacks nl s -> line_event first others s (event_of attribute f0 rest s).
Proof.
  intros [H0 Hr] Hs. unfold event_of. pose proof (H0 s) as D0. destruct (f0 s) as [d|] eqn:E.
  - destruct (proj1 (D0 d Hs) eq_refl) as (c & Hc & ->). now apply le_start.
  - assert (N0 : forall c, ~ line_fits first s c) by (apply (decide_none first f0 s); [intros d; now apply H0|exact E]).
    remember (map snd rest) as fs. clear Heqfs rest.
    assert (G : match first_value fs s with
                | Some d => exists before t after c, others = before ++ t :: after /\ Forall (fun t => forall c, ~ line_fits t s c) before /\ line_fits t s c /\ d = values c
                | None => Forall (fun t => forall c, ~ line_fits t s c) others end).
    { clear - Hr Hs. induction Hr as [|t f ts fs Hf _ IH]; cbn [first_value]; [constructor|]. destruct (f s) as [d|] eqn:E.
      - apply (proj1 (Hf s d Hs)) in E as (c & Hc & ->). exists [], t, ts, c. split; [reflexivity|]. split; [constructor|]. auto.
      - assert (N : forall c, ~ line_fits t s c) by (apply (decide_none t f s); [intros d; now apply Hf|exact E]). destruct (first_value fs s) as [d|].
        + destruct IH as (b & t' & a & c & -> & H1 & H2 & H3). exists (t :: b), t', a, c. split; [reflexivity|]. split; [now constructor|]. auto.
        + now constructor. }
    destruct (first_value fs s) as [d|]; [|now apply le_none]. destruct G as (b & t & a & c & Eo & H1 & H2 & ->). exact (le_add first others s b t a c Eo N0 H1 H2).
Qed.
Lemma runs_empty data : update_runs data [] = [].
Proof. unfold update_runs. assert (G : forall data (rs : dict), rs = [] -> fold_left (fun rs kv => map (fun d => if py_eq (snd d) (key_val (fst kv)) then (fst d, snd kv) else d) rs) data rs = []); [|now apply G].
  clear. induction data as [|kv data IH]; intros rs ->; [reflexivity|]. cbn [fold_left]. now apply IH. Qed.
Lemma set_runs_same (f : dict -> dict) (x : item attribute) : f (g_runs _ (r_group _ (fst x))) = g_runs _ (r_group _ (fst x)) -> set_runs attribute f x = x.
Proof. destruct x as [[a b [i p q r fs] j] d]. cbn. intros ->. reflexivity. Qed.

Lemma match_wf t ast s s' c : tline_ok t -> line_expr t ast -> rmatch ast (nl :: s ++ [nl]) = Some (s', c) -> dwf (values c) /\ values c <> [].
Proof.
  intros Ht He Er. assert (K : exists l, line_fits t l c).
  { destruct (le_lines t ast He _ _ _ Er) as (w & Ew & Hw & u & [->| ->]); rewrite Ew in Er.
    - exists w. apply (le_match t ast He w u c Hw). eauto.
    - exists (w ++ [chr 13]). apply (le_match t ast He (w ++ [chr 13]) u c); [intros K; apply in_app_or in K as [K|[K|[]]]; [now apply Hw|discriminate]|]. rewrite <- app_assoc. eauto. }
  destruct K as (l & K). apply fits_line_names in K. destruct Ht as (Hne & _ & HN & _). split; [apply values_wf; now rewrite K|]. intros E. unfold values in E. destruct c; [|discriminate]. unfold tl_names in K. now destruct (tl_vars t).
Qed.
Section P.
Variable mf : attribute -> mfunc.
Variable runf : attribute -> fstate -> res (fstate * bool).
Variable k2i : bool.
Variables (first : tline) (others : list tline).
Hypothesis Hf : tline_ok first.
Hypothesis Ho : Forall tline_ok others.
Variables (id : gid) (path : list str) (a : gattrs) (x0 : crex) (xs : list crex).
Hypothesis Hx0 : compiled first x0.
Hypothesis Hxs : Forall2 compiled others xs.
Variable name : str.
Hypothesis Hstatic : static_path path.
Hypothesis Hpath : map split_stars path = [(name, 0)].
Hypothesis Hplain : plain k2i [(name, 0)].
Let G : pgroup attribute := to_pgroup mf (CG id None path a [] {| gs_start := [starting x0]; gs_end := []; gs_re := xs; gs_defaults := []; gs_hasdef := false |} []).
Let g : group attribute := named_group path [] id.
Lemma rest_lines : Forall tline_ok others -> exists fs, Forall2 (by_lines attribute) (map (to_pregex mf g) xs) fs /\
  Forall2 (fun t f => forall s d, lacks nl s -> f s = Some d <-> exists c, line_fits t s c /\ d = values c) others fs /\
  (forall f s d, In f fs -> f s = Some d -> dwf d /\ d <> []).
Proof using Hxs a path id mf g x0.
  pose proof Hxs as HX. clear - HX. induction HX as [|t x ts ys (ast & l & He & -> & Hl) _ IH]; intros Ho0.
  { exists []. split; [constructor|]. split; [constructor|]. intros f s d []. }
  inversion Ho0 as [|? ? Ht Hts]; subst. destruct (IH Hts) as (fs & H1 & H2 & H3).
  exists (accept ast :: fs). split; [|split].
  - cbn [map]. constructor; [|exact H1]. exact (line_by_lines mf g t ast l AAdd Ht He Hl).
  - constructor; [|exact H2]. intros s d Hs. exact (accept_fits t ast He s d Hs).
  - intros f s d [<-|Hi] E; [|exact (H3 f s d Hi E)]. unfold accept in E. destruct (rmatch ast _) as [[s' c]|] eqn:Er; [|discriminate]. injection E as <-.
    exact (match_wf t ast s s' c Ht He Er).
Qed.
(** the first line alone *)
Lemma first_lines : exists f0, by_lines attribute (to_pregex mf g (starting x0)) f0 /\ (forall s d, lacks nl s -> f0 s = Some d <-> exists c, line_fits first s c /\ d = values c) /\ (forall s d, f0 s = Some d -> dwf d /\ d <> []).
Proof using Hf Hx0 a first g id mf path x0 xs.
  destruct Hx0 as (ast & l & He & -> & Hl). exists (accept ast). split; [|split].
  - exact (line_by_lines mf g first ast l AStart Hf He Hl).
  - intros s d Hs. exact (accept_fits first ast He s d Hs).
  - intros s d E. unfold accept in E. destruct (rmatch ast _) as [[s' c]|] eqn:Er; [|discriminate]. injection E as <-. exact (match_wf first ast s s' c Hf He Er).
Qed.
Theorem plain_parse d vars gvars : exists e es, Forall2 (line_event first others) (split [nl] d) es /\ e_gvars e = gvars /\
  Parser.parse attribute runf k2i (datatext d) [(G, None)] [] {| m_vars := vars; m_gvars := gvars |} (VDict []) = Ok ({| m_vars := vars; m_gvars := gvars |}, (e, named name (records (events es) None true))).
Proof using Hf Ho Hx0 Hxs Hstatic Hpath Hplain.
  destruct first_lines as (f0 & B0 & F0 & W0). destruct (rest_lines Ho) as (fs & Bs & Fs & Ws).
  set (rds := map (p_re attribute) (map (to_pregex mf g) xs)). set (rest := combine rds fs).
  assert (El : length rds = length fs) by (unfold rds; rewrite map_length; exact (f2_len _ _ _ _ _ Bs)).
  assert (Er : map snd rest = fs). { unfold rest. clear - El. revert fs El. induction rds as [|r rds IH]; intros [|f fs] El; try discriminate; [reflexivity|]. cbn [combine map snd]. f_equal. apply IH. now injection El. }
  set (es := map (event_of attribute f0 rest) (split [nl] d)).
  assert (Hes : Forall2 (line_event first others) (split [nl] d) es).
  { pose proof (split_lacks_nl d) as K. unfold es. clear - F0 Fs Er K. induction K as [|s ls Hs _ IH]; [constructor|]. constructor; [|exact IH]. apply event_is; [|exact Hs]. split; [exact F0|]. now rewrite Er. }
  assert (H0 : r_group _ (p_re _ (to_pregex mf g (starting x0))) = g /\ r_action _ (p_re _ (to_pregex mf g (starting x0))) = AStart /\ r_isline _ (p_re _ (to_pregex mf g (starting x0))) = false).
  { split; [reflexivity|]. split; [reflexivity|]. destruct Hx0 as (ast & l & _ & -> & _). reflexivity. }
  assert (Hrest : Forall (fun rf : redict attribute * (str -> option dict) => r_group _ (fst rf) = g /\ r_action _ (fst rf) = AAdd /\ r_isline _ (fst rf) = false) rest).
  { apply Forall_forall. intros [rd f] Hi. apply in_combine_l in Hi. unfold rds in Hi. rewrite map_map in Hi. apply in_map_iff in Hi as (x & <- & Hi). cbn [fst]. split; [reflexivity|].
    assert (K : exists t, compiled t x). { clear - Hxs Hi. pose proof Hxs as HX. clear Hxs. induction HX as [|t y ts ys Hy _ IH]; [destruct Hi|]. destruct Hi as [->|Hi]; eauto. }
    destruct K as (t & ast & l & _ & -> & _). split; reflexivity. }
  destruct (run_lines attribute g (to_pregex mf g (starting x0)) f0 (map (to_pregex mf g) xs) fs d {| m_vars := vars; m_gvars := gvars |} B0 Bs) as (rs & Erun & Hrs).
  unfold Parser.parse. cbn [map fst snd run_all].
  change (run_re attribute (datatext d) G) with (run_re attribute (datatext d) (PG attribute g [to_pregex mf g (starting x0)] [] (map (to_pregex mf g) xs) false [])).
  rewrite Erun. cbn [rbind combine flat_map fst snd app].
  set (fresh := fun runs => update_runs vars (update_runs gvars runs)).
  assert (Hcook : forall raw : list (list (item attribute)), Forall (Forall (fun x => r_group _ (fst x) = g)) raw -> map (map (set_runs attribute fresh)) raw = raw).
  { intros raw Hraw. rewrite <- (map_id raw) at 2. apply map_ext_in. intros c Hc. rewrite Forall_forall in Hraw. specialize (Hraw c Hc). rewrite <- (map_id c) at 2. apply map_ext_in. intros x Hx. rewrite Forall_forall in Hraw. specialize (Hraw x Hx).
    apply set_runs_same. rewrite Hraw. unfold fresh. cbn [g named_group g_runs]. now rewrite !runs_empty. }
  destruct (window f0 (split [nl] d) 0) as [[pos lw]|] eqn:Ew.
  - destruct Hrs as [Hne Hraw]. assert (Efs : combine (map (p_re attribute) (to_pregex mf g (starting x0) :: map (to_pregex mf g) xs)) (f0 :: fs) = (p_re _ (to_pregex mf g (starting x0)), f0) :: rest) by reflexivity.
    rewrite Efs in Hraw.
    assert (Hgrp : Forall (Forall (fun x => r_group _ (fst x) = g)) (raw_of attribute rs)).
    { rewrite Hraw. eapply Forall_impl; [|exact (all_good attribute g _ f0 rest H0 Hrest lw)]. intros c (x & l & -> & Hx & Hl & _). constructor; [destruct Hx as [Hx|Hx]; apply Hx|]. eapply Forall_impl; [|exact Hl]. intros y Hy. apply Hy. }
    destruct rs as [|r rs]; [congruence|]. cbn [m_vars m_gvars]. fold fresh. rewrite (Hcook _ Hgrp), Hraw.
    destruct (lines_result attribute g (p_re _ (to_pregex mf g (starting x0))) f0 rest H0 Hrest runf k2i Hstatic) with (name := name) (e := {| e_vars := vars; e_gvars := gvars |}) (ls := split [nl] d) (lw := lw) (p := 0%Z) (pos := pos) as (s & Es & Rs).
    + cbn [g named_group g_path]. intros E. rewrite E in Hpath. discriminate.
    + reflexivity.
    + reflexivity.
    + reflexivity.
    + intros s dd f Hi E. rewrite Er in Hi. destruct Hi as [<-|Hi]; [now apply (W0 s)|now apply (Ws f s)].
    + exact Hpath.
    + exact Hplain.
    + exact Ew.
    + rewrite app_nil_r, Es. cbn [rbind]. exists (s_env _ s), es. split; [exact Hes|]. split; [|now rewrite Rs].
      change gvars with (e_gvars {| e_vars := vars; e_gvars := gvars |}). apply (make_results_quiet attribute runf k2i _ _ _ _ _) in Es; [exact Es|]. constructor; [|constructor]. rewrite <- Hraw. eapply Forall_impl; [|exact Hgrp]. intros c Hc. eapply Forall_impl; [|exact Hc]. intros x Hx. unfold quiet_item. rewrite Hx. constructor.
  - subst rs. cbn [app]. unfold make_results. cbn [rbind run_groups rfold]. rewrite flush_norec by reflexivity. cbn [rbind init_state s_results s_env].
    exists {| e_vars := vars; e_gvars := gvars |}, es. split; [exact Hes|]. split; [reflexivity|]. repeat f_equal. unfold es. rewrite (no_start attribute f0 rest); [reflexivity|]. now apply (window_none_all f0 _ 0).
Qed.
End P.
