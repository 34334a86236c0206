(** * Properties_Output: C56, C58-C61, C93-C96 - outputs.

    [table path missing key strict headers data], [traverse strict path data],
    [dict_to_list key data] (result, data afterwards), [is_equal load data] and [output_run] are the
    models (Outputs.v) of the table formatter, the output functions traverse, dict_to_list and is_equal
    and of running an <output> tag.  The vocabulary of the statements is in SpecOutput.v. *)
From Coq Require Import Sorting.Sorted.
From Verif Require Import PyBase DictFacts Results Outputs SpecOutput PyEqFacts OutputFacts Properties_Save.
Local Open Scope string_scope.
Local Open Scope list_scope.

(** ** C56 *)
(** the records are those selected by path and key, one row each; every row has a cell per header *)
Theorem C56_rows : forall path missing key_name strict headers data hs rows,
  table path missing key_name strict headers data = Ok (hs, rows) ->
  exists recss, Forall2 (fun datum recs => exists sel, selects strict path datum sel /\ records_of key_name sel recs) (table_source data) recss /\
    Forall2 (fun it row => exists d, it = VDict d /\ (dwf d -> row_of missing hs d row)) (concat recss) rows /\
    (headers <> [] -> hs = headers) /\
    (headers = [] -> StronglySorted key_before hs /\ forall k, In k hs <-> exists d, In (VDict d) (concat recss) /\ In k (dkeys d)).
Proof. exact table_ok. Qed.
Print Assumptions C56_rows.
(** and there is a table whenever the selected records are dictionaries with string keys *)
Theorem C56_total : forall path missing key_name strict headers data recss,
  Forall2 (fun datum recs => exists sel, selects strict path datum sel /\ records_of key_name sel recs) (table_source data) recss ->
  Forall str_record (concat recss) ->
  exists hs rows, table path missing key_name strict headers data = Ok (hs, rows) /\ length rows = length (concat recss).
Proof. exact table_total. Qed.
Print Assumptions C56_total.
Example C56_ex :
  let data := VList [d_ [("intf", VList [d_ [("b", s_ "1"); ("a", s_ "2")]; d_ [("c", s_ "3")]])]; d_ [("other", s_ "x")]] in
  table [$"intf"] (s_ "") [] false [] data =
    Ok ([KS $"a"; KS $"b"; KS $"c"], [[s_ "2"; s_ "1"; s_ ""]; [s_ ""; s_ ""; s_ "3"]]).
Proof. vm_compute. reflexivity. Qed.
Example C56_key_ex :
  table [] (s_ "-") $"name" true [KS $"name"; KS $"ip"; KS $"name"] (d_ [("Gi1", d_ [("ip", s_ "1.1.1.1")]); ("Gi2", d_ [])]) =
    Ok ([KS $"name"; KS $"ip"; KS $"name"], [[s_ "Gi1"; s_ "1.1.1.1"; s_ "-"]; [s_ "Gi2"; s_ "-"; s_ "-"]]).
Proof. vm_compute. reflexivity. Qed.

(** ** C58 *)
Theorem C58_selects : forall strict path v w, traverse strict path v = Ok w <-> selects strict path v w.
Proof. intros. apply traverse_selects. Qed.
Print Assumptions C58_selects.
Example C58_ex :
  selects false [$"a"; $"b"] (VList [d_ [("a", d_ [("b", s_ "1")])]; d_ [("z", s_ "2")]]) (VList [s_ "1"; VDict []]) /\
  traverse false [$"a"; $"b"] (VList [d_ [("a", d_ [("b", s_ "1")])]; d_ [("z", s_ "2")]]) = Ok (VList [s_ "1"; VDict []]).
Proof. split; [apply C58_selects|]; vm_compute; reflexivity. Qed.
(** what the path selects is unique *)
Theorem C58_unique : forall strict path v w w', selects strict path v w -> selects strict path v w' -> w = w'.
Proof. intros strict path v w w' H H'. apply traverse_selects in H, H'. congruence. Qed.
Print Assumptions C58_unique.

(** ** C93: without strict, selection never raises *)
Theorem C93_limits : ~ (forall path v, exists w, traverse false path v = Ok w).
Proof. intros H. destruct (H [$"a"; $"b"] (d_ [("a", s_ "x")])) as [w E]. vm_compute in E. discriminate. Qed.
Print Assumptions C93_limits.
(** it raises exactly when a dictionary among the data has something else than a dictionary in the path's way *)
Theorem C93_raises : forall path v,
  (traverse false path v = Raise AttributeError <-> obstructed path v) /\
  ((exists w, traverse false path v = Ok w) <-> ~ obstructed path v).
Proof.
  intros path v. split; [apply traverse_raises|]. rewrite <- traverse_raises. split.
  - intros [w E]. rewrite E. discriminate.
  - intros H. destruct (traverse false path v) as [w|e] eqn:E; [now exists w|]. exfalso. apply H. f_equal. eapply traverse_error, E.
Qed.
Print Assumptions C93_raises.
Example C93_ex : ~ obstructed [$"a"; $"b"] (VList [d_ [("a", d_ [])]; s_ "x"]) /\ obstructed [$"a"; $"b"] (VList [d_ [("a", s_ "x")]]).
Proof. split; [apply C93_raises; eexists|apply C93_raises]; vm_compute; reflexivity. Qed.

(** ** C59 *)
(** a dictionary of dictionaries becomes the list of its entries as records, in order *)
Theorem C59_dict : forall key_name d,
  Forall (fun kv => exists vd, snd kv = VDict vd) d ->
  exists rs, fst (dict_to_list key_name (VDict d)) = VList rs /\ Forall2 (entry_record key_name) d rs.
Proof. exact dict_to_list_dict. Qed.
Print Assumptions C59_dict.
(** a list is converted item by item *)
Theorem C59_list : forall key_name l, fst (dict_to_list key_name (VList l)) = VList (map (fun x => fst (dict_to_list key_name x)) l).
Proof. exact dict_to_list_each. Qed.
Print Assumptions C59_list.
(** with a path, what the path selects is converted *)
Theorem C59_path : forall key_name path strict v w,
  path <> [] -> selects strict path v w -> dict_to_list_at key_name path strict v = Ok (fst (dict_to_list key_name w)).
Proof.
  intros key_name path strict v w Hp H. apply traverse_selects in H. unfold dict_to_list_at. destruct path; [congruence|]. now rewrite H.
Qed.
Print Assumptions C59_path.
Example C59_ex :
  dict_to_list_at $"interface" [$"intf"] false (d_ [("intf", d_ [("Fa0", d_ [("admin", s_ "down")]); ("Ge0/1", d_ [("vlan", s_ "24")])])]) =
  Ok (VList [d_ [("admin", s_ "down"); ("interface", s_ "Fa0")]; d_ [("vlan", s_ "24"); ("interface", s_ "Ge0/1")]]).
Proof. vm_compute. reflexivity. Qed.

(** ** C94: what dict_to_list gives for a dictionary *)
(** the entries before the first one that is not a dictionary get the key ([marked]; in such an entry everything but a value
    under the key name stays, [entry_record]).  If all entries are dictionaries the result is the list of the entries,
    otherwise the dictionary itself *)
Theorem C94_dict : forall key_name d, exists d', marked key_name d d' /\
  (Forall (fun kv => exists vd, snd kv = VDict vd) d -> fst (dict_to_list key_name (VDict d)) = VList (map snd d')) /\
  (~ Forall (fun kv => exists vd, snd kv = VDict vd) d -> fst (dict_to_list key_name (VDict d)) = VDict d').
Proof.
  intros key_name d. cbn [dict_to_list]. destruct (dtl_marked key_name d [] []) as (d' & _ & M & E). exists d'. rewrite E.
  assert (K : forallb (fun kv : key * val => match snd kv with VDict _ => true | _ => false end) d = true <-> Forall (fun kv : key * val => exists vd, snd kv = VDict vd) d).
  { rewrite forallb_forall, Forall_forall. split; intros H kv Hk; specialize (H kv Hk); destruct (snd kv); try discriminate; eauto; destruct H as [? H]; discriminate. }
  split; [exact M|]. destruct (forallb _ d); cbn [app]; split; intros H; try reflexivity.
  - exfalso. apply H, K. reflexivity.
  - apply K in H. discriminate.
Qed.
Print Assumptions C94_dict.
(** a value that is neither a list nor a dictionary becomes the empty list *)
Theorem C94_other : forall key_name v, (forall l, v <> VList l) -> (forall d, v <> VDict d) -> fst (dict_to_list key_name v) = VList [].
Proof. intros key_name [| | |s|l|d|] H1 H2; try reflexivity; exfalso; [now apply (H1 l)|now apply (H2 d)]. Qed.
Print Assumptions C94_other.
Example C94_ex : fst (dict_to_list $"key" (d_ [("a", d_ []); ("b", s_ "x"); ("c", d_ [])])) = d_ [("a", d_ [("key", s_ "a")]); ("b", s_ "x"); ("c", d_ [])].
Proof. vm_compute. reflexivity. Qed.
(** so an entry that has the key already loses that value ... *)
Theorem C94_limits_lost : ~ (forall key_name d, Forall (fun kv => exists vd, snd kv = VDict vd) d ->
  exists rs, fst (dict_to_list key_name (VDict d)) = VList rs /\
    Forall2 (fun kv r => exists vd rd, snd kv = VDict vd /\ r = VDict rd /\ forall k v, dget vd k = Some v -> dget rd k = Some v) d rs).
Proof.
  intros H. destruct (H $"key" [(KS $"a", d_ [("key", s_ "1")])]) as (rs & E & F).
  - repeat (apply Forall_cons || apply Forall_nil). now eexists.
  - vm_compute in E. injection E as <-. inversion F as [|? ? ? ? (vd & rd & E1 & E2 & K) _]; subst. injection E1 as <-. injection E2 as <-.
    specialize (K (KS $"key") (s_ "1") eq_refl). vm_compute in K. discriminate.
Qed.
Print Assumptions C94_limits_lost.
(** ... and a dictionary that cannot be converted does not come back unchanged *)
Theorem C94_limits_unchanged : ~ (forall key_name d, ~ Forall (fun kv => exists vd, snd kv = VDict vd) d ->
  fst (dict_to_list key_name (VDict d)) = VDict d).
Proof.
  intros H. specialize (H $"key" [(KS $"a", d_ []); (KS $"b", s_ "x")]). assert (K : dict_to_list $"key" (VDict [(KS $"a", d_ []); (KS $"b", s_ "x")]) = (d_ [("a", d_ [("key", s_ "a")]); ("b", s_ "x")], d_ [("a", d_ [("key", s_ "a")]); ("b", s_ "x")])) by (vm_compute; reflexivity).
  rewrite K in H. cbn [fst] in H. assert (E : d_ [("a", d_ [("key", s_ "a")]); ("b", s_ "x")] = VDict [(KS $"a", d_ []); (KS $"b", s_ "x")]).
  { apply H. intros F. inversion F as [|? ? _ F']; subst. inversion F' as [|? ? [vd Hv] _]; subst. discriminate. }
  discriminate E.
Qed.
Print Assumptions C94_limits_unchanged.

(** ** C60 *)
(** when the condition is met: the functions in turn, the formatter on what they gave, then every supported
    returner in order on the formatted results.  The formatted results are returned if one of the returners
    (in this or an earlier run) is self, otherwise the data. *)
Theorem C60_runs : forall F runf format is_self Eff returner condition vars fs rs flag data x es fl,
  cond_holds condition vars = Ok true ->
  (output_run F runf format is_self Eff returner condition vars fs rs flag data = Ok (x, es, fl) <->
   exists results data' formatted, in_turn runf fs (data, data) (results, data') /\
     (match format with Some f => f results = Ok formatted | None => formatted = results end) /\
     es = flat_map (fun r => if is_self r then [] else match returner r with Some e => [e formatted] | None => [] end) rs /\
     fl = (flag || existsb is_self rs)%bool /\ x = (if fl then formatted else data')).
Proof. intros F runf format is_self Eff returner. exact (output_runs runf format is_self returner). Qed.
Print Assumptions C60_runs.
(** when it is not met nothing happens *)
Theorem C60_skipped : forall F runf format is_self Eff returner condition vars fs rs flag data,
  cond_holds condition vars = Ok false -> output_run F runf format is_self Eff returner condition vars fs rs flag data = Ok (data, [], flag).
Proof. intros F runf format is_self Eff returner. exact (output_skipped runf format is_self returner). Qed.
Print Assumptions C60_skipped.
(** the condition is met iff the variable has the wanted value; a variable that is not there counts as "_undef_" *)
Theorem C60_condition : forall n want vars b, cond_holds [VStr n; want] vars = Ok b <->
  (b = true <-> veq (match dget vars (KS n) with Some v => v | None => VStr $"_undef_" end) want).
Proof. exact cond_holds_iff. Qed.
Print Assumptions C60_condition.
(** functions that leave their argument alone: without the self returner the data come back unchanged *)
Theorem C60_data_kept : forall F runf format is_self Eff returner condition vars fs rs data x es fl,
  (forall f r d r' d', In f fs -> runf f r d = Ok (r', d') -> d' = d) -> existsb is_self rs = false ->
  output_run F runf format is_self Eff returner condition vars fs rs false data = Ok (x, es, fl) -> x = data.
Proof.
  intros F runf format is_self Eff returner condition vars fs rs data x es fl Hf Hs H.
  destruct (cond_holds condition vars) as [[|]|] eqn:Ec.
  - apply output_runs in H; [|exact Ec]. destruct H as (results & data' & formatted & T & _ & _ & -> & ->). rewrite Hs. cbn [orb].
    exact (in_turn_data runf fs Hf _ _ T).
  - rewrite output_skipped in H by exact Ec. congruence.
  - unfold output_run in H. rewrite Ec in H. discriminate.
Qed.
Print Assumptions C60_data_kept.
(** two functions, the formatter pairs, one returner prints *)
Definition xrunf (f : nat) (r d : val) : res (val * val) :=
  match f with 0 => Ok (VList [r; r], d) | 1 => Ok (d_ [("n", r)], d) | _ => Raise ValueError end.
Definition xout := output_run nat xrunf (Some (fun v => Ok (VList [v]))) (str_eqb $"self") (str * val)
  (fun r => if str_eqb r $"terminal" then Some (fun v => (r, v)) else if str_eqb r $"file" then Some (fun v => (r, v)) else None).
Example C60_ex :
  xout [s_ "v"; s_ "1"] [(KS $"v", s_ "1")] [0; 1] [$"file"; $"junk"; $"terminal"; $"self"] false (s_ "x") =
    Ok (VList [d_ [("n", VList [s_ "x"; s_ "x"])]], [($"file", VList [d_ [("n", VList [s_ "x"; s_ "x"])]]); ($"terminal", VList [d_ [("n", VList [s_ "x"; s_ "x"])]])], true) /\
  xout [s_ "v"; s_ "1"] [(KS $"v", s_ "2")] [0; 1] [$"file"; $"self"] false (s_ "x") = Ok (s_ "x", [], false) /\
  xout [s_ "v"; s_ "1"] [(KS $"v", s_ "1")] [0; 1] [$"file"] false (s_ "x") = Ok (s_ "x", [($"file", VList [d_ [("n", VList [s_ "x"; s_ "x"])]])], false).
Proof. vm_compute. repeat split. Qed.

(** ** C95: what dict_to_list does to the data it is given *)
(** the dictionaries that are converted are changed in place: their entries before the first one that is not a dictionary
    get the key; nothing else changes *)
Theorem C95_changed : forall key_name v, marks key_name v (snd (dict_to_list key_name v)).
Proof. exact dict_to_list_marks. Qed.
Print Assumptions C95_changed.
(** so an output with dict_to_list gives, without the self returner, the data so marked *)
Theorem C95_output : forall key_name data x es fl,
  output_run unit (fun _ r _ => Ok (dict_to_list key_name r)) None (str_eqb $"self") unit (fun _ => None) [] [] [tt] [$"terminal"] false data = Ok (x, es, fl) ->
  marks key_name data x.
Proof.
  intros key_name data x es fl H. apply output_runs in H; [|reflexivity]. destruct H as (results & data' & formatted & T & _ & _ & -> & ->).
  inversion T as [|? ? ? ? y ? E T']; subst. inversion T'; subst. cbn [existsb].
  replace ((false || (str_eqb $"self" $"terminal" || false))%bool) with false by reflexivity. injection E as E.
  assert (Ed : data' = snd (dict_to_list key_name data)) by (rewrite E; reflexivity). rewrite Ed. apply dict_to_list_marks.
Qed.
Print Assumptions C95_output.
(** nothing changes when the dictionary's first entry is not a dictionary *)
Theorem C95_kept : forall key_name k v d, (forall vd, v <> VDict vd) -> snd (dict_to_list key_name (VDict ((k, v) :: d))) = VDict ((k, v) :: d).
Proof. intros key_name k v d H. cbn [dict_to_list dtl_items]. destruct v; try reflexivity. exfalso. now apply (H d0). Qed.
Print Assumptions C95_kept.
Example C95_ex : snd (dict_to_list $"key" (VList [d_ [("a", s_ "1")]; d_ [("a", d_ []); ("b", s_ "x"); ("c", d_ [])]]))
  = VList [d_ [("a", s_ "1")]; d_ [("a", d_ [("key", s_ "a")]); ("b", s_ "x"); ("c", d_ [])]].
Proof. vm_compute. reflexivity. Qed.
(** so the results can change without the self returner *)
Theorem C95_limits : ~ (forall key_name data x es fl,
  output_run unit (fun _ r _ => Ok (dict_to_list key_name r)) None (str_eqb $"self") unit (fun _ => None) [] [] [tt] [$"terminal"] false data = Ok (x, es, fl) -> x = data).
Proof.
  intros H. specialize (H $"key" (d_ [("a", d_ [])]) (d_ [("a", d_ [("key", s_ "a")])]) [] false).
  assert (E : d_ [("a", d_ [("key", s_ "a")])] = d_ [("a", d_ [])]); [|discriminate E]. apply H. vm_compute. reflexivity.
Qed.
Print Assumptions C95_limits.

(** ** C61 *)
Theorem C61_is_equal : forall load data x, compared data x -> exists b, is_equal load data = Ok b /\ (b = true <-> veq x load).
Proof. exact is_equal_iff. Qed.
Print Assumptions C61_is_equal.
Example C61_ex :
  let a := d_ [("x", s_ "1"); ("y", VList [s_ "2"])] in let b := d_ [("y", VList [s_ "2"]); ("x", s_ "1")] in
  is_equal b a = Ok true /\ is_equal b (d_ [("_anonymous_", a)]) = Ok true /\ is_equal b (VList [a]) = Ok false.
Proof. vm_compute. repeat split. Qed.

(** ** C96: when is_equal gives a verdict, and about what *)
(** [compared data x] (SpecOutput.v): the value under "_anonymous_" of a dictionary that has one, else the results themselves -
    a dictionary, a list without the text "_anonymous_" as an item, or a text that does not contain it.
    A verdict is given exactly then; otherwise TypeError *)
Theorem C96_verdict : forall load data,
  ((exists b, is_equal load data = Ok b) <-> exists x, compared data x) /\
  ((forall b, is_equal load data <> Ok b) -> is_equal load data = Raise TypeError).
Proof.
  intros load data. destruct (is_equal_raises load data) as [[x Hx]|E].
  - destruct (is_equal_iff load data x Hx) as (b & E & _). split; [split; eauto|]. intros H. exfalso. now apply (H b).
  - split; [|auto]. split; [intros [b K]; congruence|]. intros [x Hx]. destruct (is_equal_iff load data x Hx) as (b & K & _). now exists b.
Qed.
Print Assumptions C96_verdict.
Theorem C96_one_value : forall data x y, compared data x -> compared data y -> x = y.
Proof. exact compared_fun. Qed.
Print Assumptions C96_one_value.
Example C96_ex : compared (d_ [("_anonymous_", s_ "1"); ("other", s_ "2")]) (s_ "1") /\ compared (VList [s_ "a"]) (VList [s_ "a"]) /\
  is_equal VNone VNone = Raise TypeError.
Proof. split; [now constructor|]. split; [|reflexivity]. constructor. intros [K|[]]. discriminate K. Qed.
(** so parts of the results can be ignored, and lists can fail *)
Theorem C96_limits_ignored : ~ (forall load data b, is_equal load data = Ok b -> (b = true <-> veq data load) \/ (exists x, data = VDict [(KS $"_anonymous_", x)])).
Proof.
  intros H. destruct (H (s_ "1") (d_ [("_anonymous_", s_ "1"); ("other", s_ "2")]) true) as [[K _]|[x K]].
  - vm_compute. reflexivity.
  - specialize (K eq_refl). inversion K. discriminate.
  - discriminate.
Qed.
Print Assumptions C96_limits_ignored.
Theorem C96_limits_raises : ~ (forall load l, exists b, is_equal load (VList l) = Ok b).
Proof. intros H. destruct (H VNone [s_ "_anonymous_"]) as [b E]. vm_compute in E. discriminate. Qed.
Print Assumptions C96_limits_raises.
