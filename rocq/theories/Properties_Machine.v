(** * Properties_Machine: C05-C10, C13-C16, C64, C65, C91, C92 - from match events to results.

    [make_results], [flush], [handle], [choose] model /repo/ttp/ttp.py 2694-3262
    (Results.v).  The specifications are SpecRecords.v, SpecChoice.v, SpecPath.v,
    SpecLeaves.v, SpecTree.v.  [F] and [runf] stand for arbitrary group functions. *)
From Verif Require Import PyBase SpecJoin DictFacts Regex Tree Results SpecTree ResultsFacts ResultsHist PathFacts EscapeFacts JoinFacts TailFacts
  SpecRecords MachineFacts MuteFacts SpecChoice ChooseFacts RunFacts MachineProps SpecPath PathDyn DynFlush MergeFacts
  SpecLeaves Conserve SpecMerge OverlayFacts SpecOpen OpenFacts Properties_Save.
Local Open Scope string_scope.
Local Open Scope list_scope.

(** ** concrete material for the examples: function [0] is "returns False" *)
Definition xrun (f : nat) (st : fstate) : res (fstate * bool) := Ok (st, negb (Nat.eqb f 0)).
Definition xgroup (name : string) (parent : option string) (path : list string) (runs : dict) (fs : list nat) : group nat :=
  {| g_id := ($name, 0); g_parent := option_map (fun p => ($p, 0)) parent; g_path := map (fun p => $p) path; g_runs := runs; g_funcs := fs |}.
Definition xre (a : action) (g : group nat) : redict nat := {| r_action := a; r_isline := false; r_group := g; r_joins := [] |}.
Definition xit (a : action) (g : group nat) (r : dict) : item nat := (xre a g, Some r).
Definition xrej (g : group nat) : item nat := (xre AStart g, None).
Definition xenv : env := {| e_vars := []; e_gvars := [] |}.
Definition run_ex (xs : list (item nat)) : res val :=
  results_of (make_results nat xrun true xenv [] [map (fun x => [x]) xs] (VDict [])).
Definition gi : group nat := xgroup "interfaces*" None ["interfaces*"] (r_ [("mtu", s_ "1500")]) [].

(** ** C05 *)
Theorem C05_first_match_wins : forall F runf k2i (g : group F),
  static_path (g_path F g) -> g_path F g <> [] -> g_funcs F g = [] -> g_parent F g = None -> dwf (g_runs F g) ->
  forall e start lines r0 rs main,
  of_group F g start -> r_action F (fst start) = AStart -> snd start = Some r0 ->
  Forall2 (fun x r => of_group F g x /\ r_action F (fst x) = AAdd /\ snd x = Some r) lines rs ->
  dwf r0 -> Forall dwf rs ->
  exists content,
    results_of (make_results F runf k2i e [] [map (fun x => [x]) (start :: lines)] main)
    = save_cur k2i false main (map split_stars (g_path F g)) (VDict content) /\
    forall k, dget content k = match first_wins (r0 :: rs) k with
                               | Some v => Some v
                               | None => dget (g_runs F g) k
                               end.
Proof. exact run_content. Qed.
Print Assumptions C05_first_match_wins.
Example C05_ex :
  run_ex [xit AStart gi (r_ [("name", s_ "Gi1")]); xit AAdd gi (r_ [("vlan", s_ "1"); ("name", s_ "X")]);
          xit AAdd gi (r_ [("vlan", s_ "2")])]
  = Ok (d_ [("interfaces", VList [d_ [("vlan", s_ "1"); ("name", s_ "Gi1"); ("mtu", s_ "1500")]])]).
Proof. vm_compute. reflexivity. Qed.

(** ** C06 *)
Theorem C06_muted : forall F runf k2i s rd css,
  let g := g_id F (r_group F rd) in
  Forall (fun c => c <> [] /\ Forall (fun x => restarts F g x = false) c) css ->
  final F runf k2i ([(rd, None)] :: css) s =
  final F runf k2i ([(rd, None)] :: filter (fun c => negb (forallb (muted_by F g) c)) css) s.
Proof. exact rejected_start_mutes. Qed.
Print Assumptions C06_muted.

Theorem C06_others_unaffected : forall F runf k2i s rd css,
  Forall (Forall (foreign F (g_id F (r_group F rd)))) css ->
  final F runf k2i ([(rd, None)] :: css) s = final F runf k2i css s.
Proof. exact rejected_start_isolated. Qed.
Print Assumptions C06_others_unaffected.
Example C06_ex :
  let gv := xgroup "vlans" None ["vlans*"] [] [] in
  let gc := xgroup "interfaces*.ip" (Some "interfaces*") ["interfaces*"; "ip"] [] [] in
  let css := [[xit AAdd gi (r_ [("vlan", s_ "7")])]; [xit AStart gc (r_ [("ip", s_ "1")])]; [xit AStart gv (r_ [("id", s_ "9")])]] in
  Forall (fun c => c <> [] /\ Forall (fun x => restarts nat ($"interfaces*", 0) x = false) c) css /\
  filter (fun c => negb (forallb (muted_by nat ($"interfaces*", 0)) c)) css = [[xit AStart gv (r_ [("id", s_ "9")])]] /\
  run_ex ([xit AStart gi (r_ [("name", s_ "a")]); xrej gi] ++ concat css)
  = Ok (d_ [("interfaces", VList [d_ [("name", s_ "a"); ("mtu", s_ "1500")]]); ("vlans", VList [d_ [("id", s_ "9")]])]).
Proof.
  split; [|split; vm_compute; reflexivity]. repeat constructor; discriminate.
Qed.

(** ** C07 *)
Theorem C07_end : forall F runf k2i s rd r css,
  let g := g_id F (r_group F rd) in
  r_action F rd = AEnd -> rc_path F (s_rec F s) = g_path F (r_group F rd) ->
  ~ In g (s_ended F s) -> (forall p, g_parent F (r_group F rd) = Some p -> ~ In p (s_ended F s)) ->
  Forall (fun c => c <> [] /\ Forall (fun x => restarts F g x = false) c) css ->
  (exists s1, step_item F runf k2i s [(rd, Some r)] = Ok s1 /\ s_rec F s1 = s_rec F s /\ s_results F s1 = s_results F s) /\
  final F runf k2i ([(rd, Some r)] :: css) s =
  final F runf k2i ([(rd, Some r)] :: filter (fun c => negb (forallb (muted_by F g) c)) css) s.
Proof. exact end_closes. Qed.
Print Assumptions C07_end.
Example C07_ex :
  run_ex [xit AStart gi (r_ [("name", s_ "a")]); xit AEnd gi []; xit AAdd gi (r_ [("vlan", s_ "7")]);
          xit AStart gi (r_ [("name", s_ "b")]); xit AAdd gi (r_ [("vlan", s_ "8")])]
  = Ok (d_ [("interfaces", VList [d_ [("name", s_ "a"); ("mtu", s_ "1500")]; d_ [("vlan", s_ "8"); ("name", s_ "b"); ("mtu", s_ "1500")]])]).
Proof. vm_compute. reflexivity. Qed.

(** ** C08 *)
(** functions that only transform the record: all of them in order, or nothing saved *)
Theorem C08_chain : forall F runf k2i app_ s,
  let r := s_rec F s in
  rc_mwl F r = false -> Forall (record_function F runf app_) (rc_funcs F r) -> static_path (rc_path F r) -> rc_path F r <> [] ->
  dwf (rc_defaults F r) ->
  results_of (flush F runf k2i s) =
  match apply_all F app_ (rc_funcs F r) (VDict (with_defaults (rc_result F r) (rc_defaults F r))) with
  | Some d => save_cur k2i false (s_results F s) (map split_stars (rc_path F r)) d
  | None => Ok (s_results F s)
  end.
Proof. exact function_chain. Qed.
Print Assumptions C08_chain.

(** arbitrary functions (they may change the path, the variables, the results):
    [chain] says which of them ran; False means the builder itself saves nothing *)
Theorem C08_false_discards : forall F runf k2i s st',
  rc_mwl F (s_rec F s) = false -> chain F runf (rc_funcs F (s_rec F s)) (fstart F s) st' false ->
  exists s', flush F runf k2i s = Ok s' /\ s_results F s' = fs_results st'.
Proof. exact chain_false_discards. Qed.
Print Assumptions C08_false_discards.
Theorem C08_true_saves : forall F runf k2i s st',
  rc_mwl F (s_rec F s) = false -> chain F runf (rc_funcs F (s_rec F s)) (fstart F s) st' true ->
  static_path (fs_path st') -> fs_path st' <> [] ->
  results_of (flush F runf k2i s) = save_cur k2i false (fs_results st') (map split_stars (fs_path st')) (fs_data st').
Proof. exact chain_true_saves. Qed.
Print Assumptions C08_true_saves.
Example C08_ex :
  let gf := xgroup "a*" None ["a*"] [] [1; 0; 1] in
  let gt := xgroup "b*" None ["b*"] [] [1; 1] in
  run_ex [xit AStart gf (r_ [("x", s_ "1")]); xit AStart gt (r_ [("x", s_ "2")])]
  = Ok (d_ [("b", VList [d_ [("x", s_ "2")]])]) /\
  Forall (record_function nat xrun (fun f d => if Nat.eqb f 0 then None else Some d)) [1; 0; 1].
Proof.
  split; [vm_compute; reflexivity|]. repeat constructor; intros [a b c d e f]; reflexivity.
Qed.

(** ** C09 *)
(** a record with a dynamic path: [resolve] (SpecPath.v) gives the path, the
    record without the values used as keys, and what is remembered for later *)
Theorem C09_flush : forall F runf k2i s ps,
  let r := s_rec F s in
  let record := with_defaults (rc_result F r) (rc_defaults F r) in
  rc_mwl F r = false -> rc_funcs F r = [] -> rc_path F r = map render ps -> Forall pspec_ok ps -> ps <> [] ->
  dwf (rc_defaults F r) ->
  clean_dict record -> clean_dict (s_cache F s) -> clean_dict (e_vars (s_env F s)) ->
  match resolve (e_vars (s_env F s)) ps record (s_cache F s) with
  | Raise e => flush F runf k2i s = Raise e
  | Ok (None, _, c) => exists s', flush F runf k2i s = Ok s' /\ s_results F s' = s_results F s /\ s_cache F s' = c
  | Ok (Some P, rec', c) =>
      match save_cur k2i false (s_results F s) P (VDict rec') with
      | Ok v => exists s', flush F runf k2i s = Ok s' /\ s_results F s' = v /\ s_cache F s' = c
      | Raise e => flush F runf k2i s = Raise e
      end
  end.
Proof. exact flush_dynamic. Qed.
Print Assumptions C09_flush.

(** the keys come from the record, else from what was remembered, else from the variables *)
Theorem C09_order : forall vars ps record seen P r c,
  NoDup (dyn_names ps) -> dwf record ->
  resolve vars ps record seen = Ok (Some P, r, c) ->
  Forall2 (fun p k => match p with
     | PStatic s n => k = (s, n)
     | PDyn pre _ m _ post n =>
         exists v, k = (pre ++ py_str v ++ post, n) /\
           (dget record (KS m) = Some v \/
            dget record (KS m) = None /\ dget seen (KS m) = Some v \/
            dget record (KS m) = None /\ dget seen (KS m) = None /\ dget vars (KS m) = Some v)
     end) ps P.
Proof. exact resolve_keys. Qed.
Print Assumptions C09_order.

(** what is remembered is the latest own value; the value is removed from the record *)
Theorem C09_remembered : forall vars ps record seen P r c,
  NoDup (dyn_names ps) -> dwf record ->
  resolve vars ps record seen = Ok (Some P, r, c) ->
  (forall m, dget c (KS m) = if in_strs m (dyn_names ps)
                            then match dget record (KS m) with Some v => Some v | None => dget seen (KS m) end
                            else dget seen (KS m)) /\
  (forall m, dget r (KS m) = if in_strs m (dyn_names ps) then None else dget record (KS m)).
Proof. exact resolve_seen. Qed.
Print Assumptions C09_remembered.

Theorem C09_unknown_discards : forall vars ps record seen m,
  In m (dyn_names ps) -> NoDup (dyn_names ps) -> dwf record ->
  dget record (KS m) = None -> dget seen (KS m) = None -> dget vars (KS m) = None ->
  forall P r c, resolve vars ps record seen <> Ok (Some P, r, c).
Proof. exact resolve_unknown. Qed.
Print Assumptions C09_unknown_discards.
Definition gd : group nat := xgroup "i" None ["i"; "{{ name }}"; "u*"] [] [].
Example C09_ex :
  run_ex [xit AStart gd (r_ [("x", s_ "0")]); xit AStart gd (r_ [("name", s_ "Gi1"); ("x", s_ "1")]); xit AStart gd (r_ [("x", s_ "2")]);
          xit AStart gd (r_ [("name", s_ "Gi2"); ("x", s_ "3")]); xit AStart gd (r_ [("x", s_ "4")])]
  = Ok (d_ [("i", d_ [("Gi1", d_ [("u", VList [d_ [("x", s_ "1")]; d_ [("x", s_ "2")]])]);
                      ("Gi2", d_ [("u", VList [d_ [("x", s_ "3")]; d_ [("x", s_ "4")]])])])]) /\
  map (fun p => $p) ["i"; "{{ name }}"; "u*"] = map render [PStatic $"i" 0; PDyn [] $" " $"name" $" " [] 0; PStatic $"u" 1].
Proof. split; vm_compute; reflexivity. Qed.

(** a remembered value that is not a string (e.g. after to_int) raises TypeError *)
Theorem C09_limits : exists xs, run_ex xs = Raise TypeError /\
  xs = [xit AStart gd (r_ [("name", VInt 10); ("x", s_ "1")]); xit AStart gd (r_ [("x", s_ "2")])].
Proof. eexists. split; [|reflexivity]. vm_compute. reflexivity. Qed.
Print Assumptions C09_limits.

(** ** C10 *)
(** the key is the matched value when no backslash is around *)
Theorem C10_verbatim : forall vars ps record seen,
  Forall pspec_ok ps -> clean_dict record -> clean_dict seen -> clean_dict vars ->
  form_path vars (map render ps) (VDict record) seen =
  match resolve vars ps record seen with
  | Ok (op, r, c) => Ok (op, VDict r, c)
  | Raise e => Raise e
  end.
Proof. intros vars ps. exact (form_path_resolve vars ps). Qed.
Print Assumptions C10_verbatim.
Example C10_ex : clean_dict (r_ [("name", s_ "Gi1/0.[x](y)+*?"); ("x", s_ "1")]).
Proof. repeat constructor. Qed.

(** any value: the record's own value is read as a replacement text ([writes], SpecPath.v) if it is one, and is used
    verbatim otherwise *)
Theorem C10_own : forall pre ws1 m ws2 post n vars path record seen v,
  pspec_ok (PDyn pre ws1 m ws2 post n) -> no_marker pre post -> dget record (KS m) = Some v ->
  exists k,
    (writes (placeholder ws1 m ws2) (py_str v) k \/
     (forall k', ~ writes (placeholder ws1 m ws2) (py_str v) k') /\ k = py_str v) /\
    form_path vars (render (PDyn pre ws1 m ws2 post n) :: path) (VDict record) seen =
    do (rest, r, c) <- form_path vars path (VDict (ddel record (KS m))) (dset seen (KS m) v);
    Ok (option_map (cons (pre ++ k ++ post, n)) rest, r, c).
Proof. intros. now apply own_value. Qed.
Print Assumptions C10_own.
(** a remembered value, or a variable: the same, but re.error if it is no replacement text *)
Theorem C10_borrowed : forall pre ws1 m ws2 post n vars path record seen s,
  pspec_ok (PDyn pre ws1 m ws2 post n) -> dget record (KS m) = None ->
  (dget seen (KS m) = Some (VStr s) \/ dget seen (KS m) = None /\ exists v, dget vars (KS m) = Some v /\ s = py_str v) ->
  (forall k, writes (placeholder ws1 m ws2) s k ->
     form_path vars (render (PDyn pre ws1 m ws2 post n) :: path) (VDict record) seen =
     do (rest, r, c) <- form_path vars path (VDict record) seen;
     Ok (option_map (cons (pre ++ k ++ post, n)) rest, r, c)) /\
  ((forall k, ~ writes (placeholder ws1 m ws2) s k) ->
     form_path vars (render (PDyn pre ws1 m ws2 post n) :: path) (VDict record) seen = Raise ReError).
Proof. intros. now apply borrowed_value. Qed.
Print Assumptions C10_borrowed.
(** a replacement text writes one text, and a text without backslashes itself *)
Theorem C10_one_key : forall whole v k k', writes whole v k -> writes whole v k' -> k = k'.
Proof. intros whole v k k' H. exact (writes_one whole v k H k'). Qed.
Print Assumptions C10_one_key.
Theorem C10_plain_key : forall whole v, no_backslash v = true -> writes whole v v.
Proof. exact writes_plain. Qed.
Print Assumptions C10_plain_key.
Example C10_own_ex :
  pspec_ok (PDyn $"vrf_" $" " $"name" $" " $"_x" 1) /\ no_marker $"vrf_" $"_x" /\
  writes [] $"a\tb\\c\-\075" (("a" :: chr 9 :: $"b\c\-=")%char) /\
  form_path [] [$"vrf_{{ name }}_x*"] (VDict (r_ [("name", VStr $"a\tb\\c\-\075")])) [] =
    Ok (Some [($"vrf_" ++ ("a" :: chr 9 :: $"b\c\-=")%char ++ $"_x", 1)], VDict [], r_ [("name", VStr $"a\tb\\c\-\075")]) /\
  (forall k, ~ writes [] $"C:\d" k) /\
  form_path [] [$"vrf_{{ name }}_x*"] (VDict (r_ [("name", VStr $"C:\d")])) [] =
    Ok (Some [($"vrf_C:\d_x", 1)], VDict [], r_ [("name", VStr $"C:\d")]).
Proof.
  split; [|split; [vm_compute; reflexivity|split; [|split; [vm_compute; reflexivity|split; [|vm_compute; reflexivity]]]]].
  - cbn. repeat (split; [first [reflexivity|discriminate]|]). intros t E.
    destruct t as [|? [|? [|]]]; cbn in E; discriminate.
  - apply wr_char; [discriminate|]. apply (wr_named [] "t"%char 9); [cbn; tauto|]. apply wr_char; [discriminate|].
    apply (wr_backslash [] $"c\-\075"). apply wr_char; [discriminate|]. apply (wr_other [] "-"%char); [discriminate|reflexivity|reflexivity|].
    apply (wr_0dd [] "7"%char "5"%char); [reflexivity|reflexivity|]. constructor.
  - intros k H. pose proof (template_writes 5 $"C:\d" ltac:(cbn; lia) []) as HT. vm_compute in HT. exact (proj2 HT k H).
Qed.

(** a backslash followed by [n] in the value becomes a line feed in the key *)
Theorem C10_limits : exists v k,
  run_ex [xit AStart (xgroup "i" None ["{{ name }}"] [] []) [(KS $"name", VStr v); (KS $"x", s_ "1")]]
  = Ok (VDict [(KS k, d_ [("x", s_ "1")])]) /\ k <> v.
Proof.
  exists $"dir\new", ($"dir" ++ [nl] ++ $"ew"). split; [vm_compute; reflexivity|]. vm_compute. discriminate.
Qed.
Print Assumptions C10_limits.

(** ... and a record that reuses the remembered value can raise re.error *)
Theorem C10_raises_limits : exists v,
  run_ex [xit AStart gd [(KS $"name", VStr v); (KS $"x", s_ "1")]; xit AStart gd (r_ [("x", s_ "2")])] = Raise ReError.
Proof. exists $"a\d". vm_compute. reflexivity. Qed.
Print Assumptions C10_raises_limits.

(** ** C13 *)
Theorem C13_strings : forall F runf k2i (g : group F),
  static_path (g_path F g) -> g_path F g <> [] -> g_funcs F g = [] -> g_parent F g = None -> dwf (g_runs F g) ->
  forall e start lines r0 k m ms jc main,
  r_group F (fst start) = g -> r_action F (fst start) = AStart -> snd start = Some r0 ->
  dget r0 k = Some (VStr m) -> join_lines F g k jc lines (map VStr ms) ->
  exists content,
    results_of (make_results F runf k2i e [] [map (fun x => [x]) (start :: lines)] main)
    = save_cur k2i false main (map split_stars (g_path F g)) (VDict content) /\
    dget content k = Some (VStr (join jc (m :: ms))) /\
    forall k', k' <> k -> dget content k' = match dget r0 k' with Some v => Some v | None => dget (g_runs F g) k' end.
Proof. exact MachineProps.joined_strings. Qed.
Print Assumptions C13_strings.
Theorem C13_strings_absent : forall F runf k2i (g : group F),
  static_path (g_path F g) -> g_path F g <> [] -> g_funcs F g = [] -> g_parent F g = None -> dwf (g_runs F g) ->
  forall e start lines r0 k m ms jc main,
  r_group F (fst start) = g -> r_action F (fst start) = AStart -> snd start = Some r0 ->
  dget r0 k = None -> join_lines F g k jc lines (map VStr (m :: ms)) ->
  exists content,
    results_of (make_results F runf k2i e [] [map (fun x => [x]) (start :: lines)] main)
    = save_cur k2i false main (map split_stars (g_path F g)) (VDict content) /\
    dget content k = Some (VStr (join jc (m :: ms))) /\
    forall k', k' <> k -> dget content k' = match dget r0 k' with Some v => Some v | None => dget (g_runs F g) k' end.
Proof. exact joined_strings_absent. Qed.
Print Assumptions C13_strings_absent.
Theorem C13_lists : forall F runf k2i (g : group F),
  static_path (g_path F g) -> g_path F g <> [] -> g_funcs F g = [] -> g_parent F g = None -> dwf (g_runs F g) ->
  forall e start lines r0 k l vs jc main,
  r_group F (fst start) = g -> r_action F (fst start) = AStart -> snd start = Some r0 ->
  dget r0 k = Some (VList l) -> join_lines F g k jc lines vs ->
  exists content,
    results_of (make_results F runf k2i e [] [map (fun x => [x]) (start :: lines)] main)
    = save_cur k2i false main (map split_stars (g_path F g)) (VDict content) /\
    dget content k = Some (VList (l ++ concat (map to_items vs))) /\
    forall k', k' <> k -> dget content k' = match dget r0 k' with Some v => Some v | None => dget (g_runs F g) k' end.
Proof. exact joined_lists. Qed.
Print Assumptions C13_lists.
Example C13_ex :
  let j := (fun v => ({| r_action := AJoin; r_isline := false; r_group := gi; r_joins := [(KS $"vlans", Some $",")] |}, Some [(KS $"vlans", v)]) : item nat) in
  run_ex [xit AStart gi (r_ [("name", s_ "a")]); j (s_ "1"); j (s_ "2"); j (s_ "3")]
  = Ok (d_ [("interfaces", VList [d_ [("name", s_ "a"); ("vlans", s_ "1,2,3"); ("mtu", s_ "1500")]])]) /\
  join_lines nat gi (KS $"vlans") $"," [j (s_ "1"); j (s_ "2")] (map VStr [$"1"; $"2"]).
Proof. split; [vm_compute; reflexivity|]. repeat constructor. Qed.
(** values of any kind: [joined] (SpecJoin.v) says what they are joined into; the start line's value comes first *)
Theorem C13_joined : forall F runf k2i (g : group F),
  static_path (g_path F g) -> g_path F g <> [] -> g_funcs F g = [] -> g_parent F g = None -> dwf (g_runs F g) ->
  forall e start lines r0 k vs jc main y,
  r_group F (fst start) = g -> r_action F (fst start) = AStart -> snd start = Some r0 ->
  join_lines F g k jc lines vs ->
  joined jc (match dget r0 k with Some v => [v] | None => [] end ++ vs) y ->
  match y with
  | None => results_of (make_results F runf k2i e [] [map (fun x => [x]) (start :: lines)] main) = Raise TypeError
  | Some x => exists content,
      results_of (make_results F runf k2i e [] [map (fun x => [x]) (start :: lines)] main)
      = save_cur k2i false main (map split_stars (g_path F g)) (VDict content) /\
      dget content k = Some x /\
      forall k', k' <> k -> dget content k' = match dget r0 k' with Some v => Some v | None => dget (g_runs F g) k' end
  end.
Proof. exact joined_all. Qed.
Print Assumptions C13_joined.
Theorem C13_total : forall sep v vs, exists x, joined sep (v :: vs) x.
Proof. exact joined_total. Qed.
Print Assumptions C13_total.
(** a string followed by a list *)
Theorem C13_limits : exists start j1,
  run_ex [xit AStart gi start; (xre AJoin gi, Some j1)] = Raise TypeError.
Proof. exists (r_ [("v", s_ "1")]), (r_ [("v", VList [s_ "2"])]). vm_compute. reflexivity. Qed.
Print Assumptions C13_limits.
Example C13_joined_ex :
  joined $"," [VInt 1; VInt 2; VList [VInt 3; VInt 4]] (Some (VList [VInt 1; VInt 2; VInt 3; VInt 4])) /\
  joined $"," [s_ "1"; s_ "2"; VInt 3] None /\
  run_ex [xit AStart gi (r_ [("v", VInt 1)]); (xre AJoin gi, Some (r_ [("v", VInt 2)])); (xre AJoin gi, Some (r_ [("v", VList [VInt 3; VInt 4])]))]
  = Ok (d_ [("interfaces", VList [d_ [("v", VList [VInt 1; VInt 2; VInt 3; VInt 4]); ("mtu", s_ "1500")]])]).
Proof.
  split; [|split; [|vm_compute; reflexivity]].
  - apply (joined_others $"," (VInt 1) (VInt 2) [VList [VInt 3; VInt 4]]); reflexivity.
  - apply (joined_fails $"," [$"1"; $"2"] (VInt 3) []); [discriminate|reflexivity].
Qed.

(** ** C14 *)
Theorem C14_tail_starts : forall F runf k2i s rd r,
  r_action F rd = AAdd -> ogid_in (g_parent F (r_group F rd)) (s_ended F s) = false ->
  gid_in (g_id F (r_group F rd)) (s_ended F s) = false ->
  rc_path F (s_rec F s) <> g_path F (r_group F rd) -> In (g_id F (r_group F rd)) (s_started F s) ->
  handle F runf k2i s (rd, Some r) =
  do s1 <- flush F runf k2i (set_started F s (trace F (s_started F s) (r_group F rd) (r_isline F rd)));
  Ok (set_rec F s1 {| rc_result := r; rc_path := g_path F (r_group F rd); rc_funcs := g_funcs F (r_group F rd);
                      rc_defaults := []; rc_gid := Some (g_id F (r_group F rd)); rc_mwl := true |}).
Proof. exact tail_starts. Qed.
Print Assumptions C14_tail_starts.

Theorem C14_into_list : forall F runf k2i s P a l d,
  let r := s_rec F s in
  static_path (rc_path F r) -> P = map split_stars (rc_path F r) -> P <> [] -> plain k2i P ->
  rc_funcs F r = [] -> rc_mwl F r = true -> rc_defaults F r = [] ->
  reaches (names P) (s_results F s) a (VList (l ++ [VDict d])) ->
  deep_wf (VDict d) -> dwf (rc_result F r) -> Forall (fun kv => is_dict (snd kv) = false) (rc_result F r) ->
  rc_result F r <> [] ->
  exists m, results_of (flush F runf k2i s) = Ok (upd_at a (fun _ => VList (l ++ [VDict m])) (s_results F s)) /\
    forall k, dget m k = match dget (rc_result F r) k with Some v => Some v | None => dget d k end.
Proof. exact merge_into_list. Qed.
Print Assumptions C14_into_list.
Theorem C14_into_dict : forall F runf k2i s P a d,
  let r := s_rec F s in
  static_path (rc_path F r) -> P = map split_stars (rc_path F r) -> P <> [] -> plain k2i P ->
  rc_funcs F r = [] -> rc_mwl F r = true -> rc_defaults F r = [] ->
  reaches (names P) (s_results F s) a (VDict d) ->
  deep_wf (VDict d) -> dwf (rc_result F r) -> Forall (fun kv => is_dict (snd kv) = false) (rc_result F r) ->
  exists m, results_of (flush F runf k2i s) = Ok (upd_at a (fun _ => VDict m) (s_results F s)) /\
    forall k, dget m k = match dget (rc_result F r) k with Some v => Some v | None => dget d k end.
Proof. exact merge_into_dict. Qed.
Print Assumptions C14_into_dict.
(** records with dictionaries in them: [overlay] (SpecMerge.v) says what the merged record is; a dictionary cannot be
    laid over a value that is not one: AttributeError *)
Theorem C14_nested_list : forall F runf k2i s P a l d,
  let r := s_rec F s in
  static_path (rc_path F r) -> P = map split_stars (rc_path F r) -> P <> [] -> plain k2i P ->
  rc_funcs F r = [] -> rc_mwl F r = true -> rc_defaults F r = [] ->
  reaches (names P) (s_results F s) a (VList (l ++ [VDict d])) ->
  deep_wf (VDict d) -> deep_wf (VDict (rc_result F r)) -> rc_result F r <> [] ->
  (exists m, results_of (flush F runf k2i s) = Ok (upd_at a (fun _ => VList (l ++ [VDict m])) (s_results F s)) /\
             overlay (VDict d) (VDict (rc_result F r)) (VDict m)) \/
  ((forall m, ~ overlay (VDict d) (VDict (rc_result F r)) m) /\ results_of (flush F runf k2i s) = Raise AttributeError).
Proof. exact tail_list. Qed.
Print Assumptions C14_nested_list.
Theorem C14_nested_dict : forall F runf k2i s P a d,
  let r := s_rec F s in
  static_path (rc_path F r) -> P = map split_stars (rc_path F r) -> P <> [] -> plain k2i P ->
  rc_funcs F r = [] -> rc_mwl F r = true -> rc_defaults F r = [] ->
  reaches (names P) (s_results F s) a (VDict d) ->
  deep_wf (VDict d) -> deep_wf (VDict (rc_result F r)) ->
  (exists m, results_of (flush F runf k2i s) = Ok (upd_at a (fun _ => VDict m) (s_results F s)) /\
             overlay (VDict d) (VDict (rc_result F r)) (VDict m)) \/
  ((forall m, ~ overlay (VDict d) (VDict (rc_result F r)) m) /\ results_of (flush F runf k2i s) = Raise AttributeError).
Proof. exact tail_dict. Qed.
Print Assumptions C14_nested_dict.
(** nothing saved for the group: an empty list raises, ... *)
Theorem C14_empty : forall F runf k2i s P a,
  let r := s_rec F s in
  static_path (rc_path F r) -> P = map split_stars (rc_path F r) -> P <> [] -> plain k2i P ->
  rc_mwl F r = true -> rc_defaults F r = [] ->
  reaches (names P) (s_results F s) a (VList []) -> results_of (flush F runf k2i s) = Raise IndexError.
Proof. exact tail_empty. Qed.
Print Assumptions C14_empty.
(** ... and so does a path to a list that does not exist yet; a missing path to a dictionary is created *)
Theorem C14_missing : forall F runf k2i s P Q n st R a d,
  let r := s_rec F s in
  static_path (rc_path F r) -> P = map split_stars (rc_path F r) -> P = Q ++ (n, st) :: R -> plain k2i P ->
  rc_funcs F r = [] -> rc_mwl F r = true -> rc_defaults F r = [] ->
  arrives (names Q) (s_results F s) a (VDict d) -> dget d (KS n) = None -> deep_wf (VDict (rc_result F r)) ->
  results_of (flush F runf k2i s)
  = if Nat.eqb (stars P) 1 then Raise IndexError else save_cur k2i false (s_results F s) P (VDict (rc_result F r)).
Proof. exact tail_missing. Qed.
Print Assumptions C14_missing.
Definition gc_ : group nat := xgroup "interfaces*.ip" (Some "interfaces*") ["interfaces*"; "ip"] [] [].
Example C14_ex :
  run_ex [xit AStart gi (r_ [("name", s_ "a")]); xit AStart gi (r_ [("name", s_ "b")]); xit AStart gc_ (r_ [("addr", s_ "1")]);
          xit AAdd gi (r_ [("descr", s_ "z")])]
  = Ok (d_ [("interfaces", VList [d_ [("name", s_ "a"); ("mtu", s_ "1500")];
              d_ [("name", s_ "b"); ("mtu", s_ "1500"); ("ip", d_ [("addr", s_ "1")]); ("descr", s_ "z")]])]).
Proof. vm_compute. reflexivity. Qed.

(** (1) if the group's own record was discarded by a function, a tail match crashes; *)
Theorem C14_limits : exists xs, run_ex xs = Raise IndexError /\
  Forall (fun x : item nat => snd x <> None) xs.
Proof.
  exists (let ga := xgroup "a*" None ["a*"] [] [0] in let gb := xgroup "a*.b" (Some "a*") ["a*"; "b*"] [] [0] in
    [xit AStart ga (r_ [("x", s_ "1")]); xit AStart gb (r_ [("y", s_ "2")]); xit AAdd ga (r_ [("t", s_ "3")])]).
  split; [vm_compute; reflexivity|]. repeat constructor; discriminate.
Qed.
Print Assumptions C14_limits.
(** (2) a tail value replaces the value matched earlier (elsewhere the first match wins) *)
Theorem C14_overrides_limits :
  run_ex [xit AStart gi (r_ [("name", s_ "b")]); xit AStart gc_ (r_ [("addr", s_ "1")]); xit AAdd gi (r_ [("name", s_ "z")])]
  = Ok (d_ [("interfaces", VList [d_ [("name", s_ "z"); ("mtu", s_ "1500"); ("ip", d_ [("addr", s_ "1")])]])]).
Proof. vm_compute. reflexivity. Qed.
Print Assumptions C14_overrides_limits.

(** ** C15 *)
Theorem C15_list_group : forall F runf k2i (g : group F),
  static_path (g_path F g) -> g_path F g <> [] -> g_funcs F g = [] -> g_parent F g = None -> dwf (g_runs F g) ->
  forall name e xs,
  map split_stars (g_path F g) = [(name, 1)] -> plain k2i [(name, 1)] ->
  Forall (of_group F g) xs -> Forall (item_wf F) xs -> no_early_end (map (ev_of F) xs) = true ->
  results_of (make_results F runf k2i e [] [map (fun x => [x]) xs] (VDict []))
  = Ok (VDict (match full_records F g xs with
               | [] => []
               | rs => [(KS name, VList (map VDict (filter nonempty rs)))]
               end)).
Proof. exact run_star. Qed.
Print Assumptions C15_list_group.
Theorem C15_plain_group : forall F runf k2i (g : group F),
  static_path (g_path F g) -> g_path F g <> [] -> g_funcs F g = [] -> g_parent F g = None -> dwf (g_runs F g) ->
  forall name e xs,
  map split_stars (g_path F g) = [(name, 0)] -> plain k2i [(name, 0)] ->
  Forall (of_group F g) xs -> Forall (item_wf F) xs -> no_early_end (map (ev_of F) xs) = true ->
  Forall (fun r => r <> []) (full_records F g xs) ->
  results_of (make_results F runf k2i e [] [map (fun x => [x]) xs] (VDict []))
  = Ok (VDict (match full_records F g xs with
               | [] => []
               | [r] => [(KS name, VDict r)]
               | rs => [(KS name, VList (map VDict rs))]
               end)).
Proof. exact run_plain. Qed.
Print Assumptions C15_plain_group.
Example C15_ex :
  let xs := [xit AStart gi (r_ [("name", s_ "a")]); xit AAdd gi (r_ [("d", s_ "1")]); xrej gi; xit AAdd gi (r_ [("d", s_ "2")]);
             xit AStart gi (r_ [("name", s_ "b")]); xit AEnd gi []; xit AAdd gi (r_ [("d", s_ "3")])] in
  full_records nat gi xs = [r_ [("d", s_ "1"); ("name", s_ "a"); ("mtu", s_ "1500")]; r_ [("name", s_ "b"); ("mtu", s_ "1500")]] /\
  map split_stars (g_path nat gi) = [($"interfaces", 1)] /\ no_early_end (map (ev_of nat) xs) = true /\
  Forall (of_group nat gi) xs.
Proof.
  repeat (split; [vm_compute; reflexivity|]). repeat constructor; discriminate.
Qed.

(** ** C16 *)
Theorem C16_choice : forall F s c, c <> [] -> exists x, choose F s c = Some x /\ best_choice F s c x.
Proof. exact choose_best. Qed.
Print Assumptions C16_choice.
Example C16_ex : choose nat (init_state nat xenv (VDict [])) [xit AAdd gi []; xit AStart gi (r_ [("a", s_ "1")]); xit AStart gc_ []]
  = Some (xit AStart gc_ []).
Proof. vm_compute. reflexivity. Qed.

(** ** C64 *)
(** whatever holds of every scalar other than None in the matches, defaults, template variables and the tree
    started from, holds of every scalar other than None that can be read in the results *)
Theorem C64_no_invention : forall (S : val -> Prop) k2i F runf,
  let S0 := fun v => v = VNone \/ S v in
  (forall f st st' b, fs_made S0 st -> runf f st = Ok (st', b) -> fs_made S0 st') ->
  forall e v2r raw main s',
  made_of S0 main -> dmade S0 (e_vars e) -> Forall (Forall (Forall (item_made S0 F))) raw ->
  make_results F runf k2i e v2r raw main = Ok s' ->
  forall a w, get_at a (s_results F s') = Some w -> scalar w = true -> w <> VNone -> S w.
Proof.
  intros S k2i F runf S0 Hf e v2r raw main s' H1 H2 H3 E a w Ha Hw Hn.
  assert (K := made_results S0 k2i (or_introl eq_refl) F runf Hf e v2r raw main s' H1 H2 H3 E).
  destruct (made_of_reads S0 _ K a w Ha Hw); [contradiction|assumption].
Qed.
Print Assumptions C64_no_invention.
(** [made_of] in terms of reads *)
Theorem C64_reads : forall S v, made_of S v -> forall a w, get_at a v = Some w -> scalar w = true -> S w.
Proof. exact made_of_reads. Qed.
Print Assumptions C64_reads.
Example C64_ex : (forall f st st' b, fs_made (fun v => v = VNone \/ In v [s_ "a"; s_ "1500"]) st -> xrun f st = Ok (st', b) -> fs_made (fun v => v = VNone \/ In v [s_ "a"; s_ "1500"]) st') /\
  item_made (fun v => v = VNone \/ In v [s_ "a"; s_ "1500"]) nat (xit AStart gi (r_ [("name", s_ "a")])).
Proof.
  split; [intros f st st' b H [= <- <-]; exact H|].
  repeat split; try (repeat constructor; cbn; tauto). intros H; discriminate H.
Qed.
(** None itself can be invented *)
Theorem C64_limits : exists r1 r2,
  let g := xgroup "a" None ["10"] [] [] in
  made_of (fun v => v = s_ "x") (VDict r1) /\ made_of (fun v => v = s_ "x") (VDict r2) /\
  run_ex [xit AStart g r1; xit AStart g r2] = Ok VNone.
Proof. exists (r_ [("x", s_ "x")]), (r_ [("y", s_ "x")]). repeat split; vm_compute; reflexivity. Qed.
Print Assumptions C64_limits.

(** ** C65 *)
(** a rejected start removes exactly the later matches of its group and of the groups directly inside: if each
    later candidate set is either theirs ([muted_by]) or nobody's of them ([foreign]) - matches of groups nested
    deeper are the latter - the outcome is that of the latter alone, as if the rejected line were not there *)
Theorem C65_exactly : forall F runf k2i s rd css,
  let g := g_id F (r_group F rd) in
  Forall (fun c => c <> [] /\ Forall (fun x => restarts F g x = false) c /\
                   (forallb (muted_by F g) c = true \/ Forall (foreign F g) c)) css ->
  final F runf k2i ([(rd, None)] :: css) s = final F runf k2i (filter (fun c => negb (forallb (muted_by F g) c)) css) s.
Proof.
  intros F runf k2i s rd css g H. rewrite rejected_start_mutes by (eapply Forall_impl; [|exact H]; cbn; tauto).
  apply rejected_start_isolated. rewrite Forall_forall in H |- *. intros c Hc. apply filter_In in Hc as [Hc Hm].
  destruct (H c Hc) as (_ & _ & [E|E]); [|exact E]. fold g in Hm. rewrite E in Hm. discriminate.
Qed.
Print Assumptions C65_exactly.
Example C65_ex :
  let ga := xgroup "a*" None ["a*"] [] [] in
  let gb := xgroup "a*.b*" (Some "a*") ["a*"; "b*"] [] [] in
  let gc := xgroup "a*.b*.c*" (Some "a*.b*") ["a*"; "b*"; "c*"] [] [] in
  let css := [[xit AStart gb (r_ [("b", s_ "2")])]; [xit AStart gc (r_ [("c", s_ "3")])]; [xit AAdd ga (r_ [("d", s_ "4")])]] in
  Forall (fun c => c <> [] /\ Forall (fun x => restarts nat ($"a*", 0) x = false) c /\
                   (forallb (muted_by nat ($"a*", 0)) c = true \/ Forall (foreign nat ($"a*", 0)) c)) css /\
  filter (fun c => negb (forallb (muted_by nat ($"a*", 0)) c)) css = [[xit AStart gc (r_ [("c", s_ "3")])]].
Proof.
  split; [|vm_compute; reflexivity]. constructor; [|constructor; [|constructor; [|constructor]]].
  - split; [discriminate|]. split; [repeat constructor|]. left. reflexivity.
  - split; [discriminate|]. split; [repeat constructor|]. right. constructor; [|constructor]. split; vm_compute; discriminate.
  - split; [discriminate|]. split; [repeat constructor|]. left. reflexivity.
Qed.
(** so a grandchild of the rejected group is saved *)
Theorem C65_limits : exists ga gb gc xs,
  g_parent nat gb = Some (g_id nat ga) /\ g_parent nat gc = Some (g_id nat gb) /\
  xs = [xit AStart ga (r_ [("a", s_ "1")]); xit AStart gb (r_ [("b", s_ "1")]); xrej ga;
        xit AStart gb (r_ [("b", s_ "2")]); xit AStart gc (r_ [("c", s_ "3")])] /\
  run_ex xs = Ok (d_ [("a", VList [d_ [("a", s_ "1"); ("b", VList [d_ [("b", s_ "1"); ("c", VList [d_ [("c", s_ "3")]])]])]])]).
Proof.
  exists (xgroup "a*" None ["a*"] [] []), (xgroup "a*.b*" (Some "a*") ["a*"; "b*"] [] []),
    (xgroup "a*.b*.c*" (Some "a*.b*") ["a*"; "b*"; "c*"] [] []). eexists.
  repeat (split; [reflexivity|]). vm_compute. reflexivity.
Qed.
Print Assumptions C65_limits.

(** ** C91 *)
(** what one match does to the open groups: nothing, or its group starts ([opens], SpecOpen.v) and becomes the current one *)
Theorem C91_step : forall F runf k2i s x s', handle F runf k2i s x = Ok s' ->
  let g := g_id F (r_group F (fst x)) in
  (begins F s x /\ opens (r_isline F (fst x)) g (g_parent F (r_group F (fst x))) (s_started F s) (s_started F s') /\ rc_gid F (s_rec F s') = Some g) \/
  (~ begins F s x /\ s_started F s' = s_started F s /\ rc_gid F (s_rec F s') = rc_gid F (s_rec F s)).
Proof. exact handle_open. Qed.
Print Assumptions C91_step.
(** [opens] says exactly which groups are open afterwards *)
Theorem C91_exact : forall isline g p st st1, opens isline g p st st1 -> forall st2, opens isline g p st st2 -> st1 = st2.
Proof. exact opens_fun. Qed.
Print Assumptions C91_exact.
(** so at any time the open groups are the current one, its parent, the parent's parent ... *)
Theorem C91_lineage : forall F runf k2i par css s0 s,
  s_started F s0 = [] -> rc_gid F (s_rec F s0) = None -> Forall (Forall (family F par)) css ->
  rfold (step_item F runf k2i) css s0 = Ok s ->
  lineage par (s_started F s) /\ hd_error (s_started F s) = rc_gid F (s_rec F s).
Proof.
  intros F runf k2i par css s0 s H1 H2 Hf H. apply (run_good F runf k2i par css s0 s); [|exact Hf|exact H].
  split; rewrite H1; [exact I|now rewrite H2].
Qed.
Print Assumptions C91_lineage.
(** and a line of any other group is dropped *)
Theorem C91_dropped : forall F runf k2i par css s0 s rd r h rest,
  s_started F s0 = [] -> rc_gid F (s_rec F s0) = None -> Forall (Forall (family F par)) css ->
  rfold (step_item F runf k2i) css s0 = Ok s ->
  (r_action F rd = AAdd \/ r_action F rd = AJoin) -> rc_path F (s_rec F s) <> g_path F (r_group F rd) ->
  rc_gid F (s_rec F s) = Some h -> ~ ancestor par (g_id F (r_group F rd)) h ->
  final F runf k2i (css ++ [[(rd, Some r)]] ++ rest) s0 = final F runf k2i (css ++ rest) s0.
Proof.
  intros F runf k2i par css s0 s rd r h rest H1 H2 Hf H Ha Hp Hh Hn. unfold final. rewrite !rfold_append, H. cbn [rbind rfold app].
  rewrite (step_single F runf k2i). rewrite (dropped F runf k2i par s rd r h); auto. now apply (C91_lineage F runf k2i par css s0).
Qed.
Print Assumptions C91_dropped.
Definition xpar (g : gid) : option gid :=
  if gid_eqb g ($"interfaces*.ip", 0) then Some ($"interfaces*", 0) else None.
Example C91_ex :
  let gv := xgroup "vlans" None ["vlans*"] [] [] in
  let css := [[xit AStart gi (r_ [("name", s_ "a")])]; [xit AStart gc_ (r_ [("addr", s_ "1")])]; [xit AStart gv (r_ [("id", s_ "1")])]] in
  Forall (Forall (family nat xpar)) css /\ ~ ancestor xpar (g_id nat gi) (g_id nat gv) /\
  match rfold (step_item nat xrun true) css (init_state nat xenv (VDict [])) with
  | Ok s => s_started nat s = [($"vlans", 0)] | Raise _ => False end /\
  run_ex (concat css ++ [xit AAdd gi (r_ [("descr", s_ "z")])]) = run_ex (concat css).
Proof.
  cbv zeta. split; [repeat constructor|]. split; [|split; vm_compute; reflexivity].
  intros H. inversion H as [E|? p E _]. vm_compute in E. discriminate.
Qed.

(** ** C92 *)
(** a normal line of a group whose record is not the current one: if the group is open the line becomes the group's
    current record (saved by merging, C14); otherwise nothing changes *)
Theorem C92_line : forall F runf k2i s rd r s',
  (r_action F rd = AAdd \/ r_action F rd = AJoin) -> rc_path F (s_rec F s) <> g_path F (r_group F rd) ->
  ~ In (g_id F (r_group F rd)) (s_ended F s) -> (forall p, g_parent F (r_group F rd) = Some p -> ~ In p (s_ended F s)) ->
  handle F runf k2i s (rd, Some r) = Ok s' ->
  (In (g_id F (r_group F rd)) (s_started F s) -> rc_gid F (s_rec F s') = Some (g_id F (r_group F rd)) /\ rc_result F (s_rec F s') = r) /\
  (~ In (g_id F (r_group F rd)) (s_started F s) -> s' = s).
Proof.
  intros F runf k2i s rd r s' Ha Hp He Hpe H.
  assert (E1 : ogid_in (g_parent F (r_group F rd)) (s_ended F s) = false).
  { destruct (g_parent F (r_group F rd)) as [p|]; [|reflexivity]. cbn [ogid_in]. apply Bool.not_true_is_false. intros K. apply gid_in_spec in K. eapply Hpe; eauto. }
  assert (E2 : gid_in (g_id F (r_group F rd)) (s_ended F s) = false).
  { apply Bool.not_true_is_false. intros K. apply gid_in_spec in K. contradiction. }
  unfold handle in H. rewrite E1, E2 in H. unfold dispatch in H.
  split; intros Hs.
  - apply gid_in_spec in Hs. destruct Ha as [Ea|Ea]; rewrite Ea in H; unfold do_add, do_join in H; rewrite Hs in H;
      (destruct (path_eqb_spec (rc_path F (s_rec F s)) (g_path F (r_group F rd))); [contradiction|]);
      unfold do_start in H; destruct (flush F runf k2i _) as [s1|]; try discriminate; cbn [rbind] in H;
      assert (H' := H); injection H' as <-; split; reflexivity.
  - assert (Hs' : gid_in (g_id F (r_group F rd)) (s_started F s) = false) by (apply Bool.not_true_is_false; intros K; apply gid_in_spec in K; contradiction).
    destruct Ha as [Ea|Ea]; rewrite Ea in H; unfold do_add, do_join in H; rewrite Hs' in H;
      (destruct (path_eqb_spec (rc_path F (s_rec F s)) (g_path F (r_group F rd))); [contradiction|]); congruence.
Qed.
Print Assumptions C92_line.
(** which groups are open when a group starts (other than by a [_line_] variable): that group, and those that were open
    from its parent outwards.  Nothing else changes what is open (C91_step) *)
Theorem C92_open : forall F runf k2i s x s', handle F runf k2i s x = Ok s' -> begins F s x -> r_isline F (fst x) = false ->
  forall g, In g (s_started F s') <->
    g = g_id F (r_group F (fst x)) \/
    exists a q b, g_parent F (r_group F (fst x)) = Some q /\ s_started F s = a ++ q :: b /\ ~ In q a /\ In g (q :: b).
Proof.
  intros F runf k2i s x s' H Hb El g. apply handle_open in H as [(_ & H & _)|(K & _)]; [|contradiction]. rewrite El in H.
  inversion H as [a q b Eq Na La E1 E2|st Ne Le E1 E2|t b Et]; subst; [| |discriminate].
  - split.
    + intros [<-|Hg]; [now left|right; exists a, q, b; auto].
    + intros [->|(a' & q' & b' & Eq' & E' & Na' & Hg)]; [now left|]. rewrite Eq in Eq'. injection Eq' as <-.
      enough (b' = b) by (subst; now right). clear - E' Na Na'. revert a' Na' E'. induction a as [|y a IH]; intros [|z a'] Na' E'; cbn [app] in E'.
      * congruence.
      * exfalso. apply Na'. injection E' as <- _. now left.
      * exfalso. apply Na. injection E' as -> _. now left.
      * injection E' as _ E'. apply (IH (fun K => Na (or_intror K)) a' (fun K => Na' (or_intror K)) E').
  - split; [intros [<-|[]]; now left|]. intros [->|(a' & q' & b' & Eq' & E' & _)]; [now left|]. exfalso. eapply Ne; [exact Eq'|]. rewrite E'. apply in_or_app. right. now left.
Qed.
Print Assumptions C92_open.
(** and by a [_line_] variable: nothing is closed unless nothing was open *)
Theorem C92_open_line : forall F runf k2i s x s', handle F runf k2i s x = Ok s' -> begins F s x -> r_isline F (fst x) = true ->
  s_started F s' = g_id F (r_group F (fst x)) :: s_started F s.
Proof.
  intros F runf k2i s x s' H Hb El. apply handle_open in H as [(_ & H & _)|(K & _)]; [|contradiction]. rewrite El in H.
  inversion H as [a q b Eq Na La E1 E2|st Ne Le E1 E2|t b Et]; subst.
  - rewrite (La eq_refl) in *. reflexivity.
  - now rewrite (Le eq_refl).
  - reflexivity.
Qed.
Print Assumptions C92_open_line.
(** one would expect that a line of a group the current record lies in continues that group's record.
    It does not: interface (sub (leaf), line, leaf, line) - the second line of the interface is lost *)
Definition gp_ : group nat := xgroup "p" None ["p"] [] [].
Definition gs_ : group nat := xgroup "p.c" (Some "p") ["p"; "c"] [] [].
Definition gl_ : group nat := xgroup "p.c.d" (Some "p.c") ["p"; "c"; "d*"] [] [].
Theorem C92_limits : ~ (forall par css s0 s rd r h,
  s_started nat s0 = [] -> rc_gid nat (s_rec nat s0) = None -> Forall (Forall (family nat par)) css ->
  Forall (Forall (fun x => snd x <> None /\ r_action nat (fst x) <> AEnd)) css ->
  rfold (step_item nat xrun true) css s0 = Ok s ->
  r_action nat rd = AAdd -> rc_gid nat (s_rec nat s) = Some h -> ancestor par (g_id nat (r_group nat rd)) h ->
  exists s', handle nat xrun true s (rd, Some r) = Ok s' /\ rc_gid nat (s_rec nat s') = Some (g_id nat (r_group nat rd))).
Proof.
  intros H.
  set (par := fun g => if gid_eqb g ($"p.c", 0) then Some ($"p", 0) else if gid_eqb g ($"p.c.d", 0) then Some ($"p.c", 0) else None).
  set (css := [[xit AStart gp_ (r_ [("name", s_ "1")])]; [xit AStart gs_ (r_ [("sub", s_ "A")])]; [xit AStart gl_ (r_ [("leaf", s_ "1")])];
               [xit AAdd gp_ (r_ [("descr", s_ "z")])]; [xit AStart gl_ (r_ [("leaf", s_ "2")])]]).
  specialize (H par css (init_state nat xenv (VDict []))).
  destruct (rfold (step_item nat xrun true) css (init_state nat xenv (VDict []))) as [s|] eqn:E; [|vm_compute in E; discriminate].
  destruct (H s (xre AAdd gp_) (r_ [("mtu", s_ "9")]) ($"p.c.d", 0)) as (s' & H1 & H2); try reflexivity.
  - repeat constructor.
  - repeat (apply Forall_cons || apply Forall_nil); split; discriminate.
  - vm_compute in E. injection E as <-. reflexivity.
  - eapply anc_up; [reflexivity|]. eapply anc_up; [reflexivity|]. apply anc_self.
  - vm_compute in E. injection E as <-. vm_compute in H1. injection H1 as <-. vm_compute in H2. discriminate.
Qed.
Print Assumptions C92_limits.
Example C92_ex :
  run_ex [xit AStart gp_ (r_ [("name", s_ "1")]); xit AStart gs_ (r_ [("sub", s_ "A")]); xit AStart gl_ (r_ [("leaf", s_ "1")]);
          xit AAdd gp_ (r_ [("descr", s_ "z")]); xit AStart gl_ (r_ [("leaf", s_ "2")]); xit AAdd gp_ (r_ [("mtu", s_ "9")])]
  = Ok (d_ [("p", d_ [("name", s_ "1"); ("c", d_ [("sub", s_ "A"); ("d", VList [d_ [("leaf", s_ "1")]; d_ [("leaf", s_ "2")]])]); ("descr", s_ "z")])]).
Proof. vm_compute. reflexivity. Qed.
