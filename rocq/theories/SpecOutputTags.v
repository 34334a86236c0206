(** * SpecOutputTags: output tags (specification for C130).

    An output tag is read as its attributes and its text say, and run: its condition, its functions, its formatter and its
    returners in this order. *)
From Coq Require Import Sorting.Sorted.
From Verif Require Import PyBase Regex Template Attributes MatchVar MatchFuncs Compile FuncTable Session Files Inputs JsonDump OutputTags PyEqFacts.
From Verif Require Import SpecVariable SpecAttr SpecText SpecCalls SpecFiles SpecInputs SpecOutput SpecJson.
Local Open Scope string_scope.
Local Open Scope list_scope.

(** ** reading *)
Definition dots (s : str) (l : list str) : Prop := exists ps, cut_at ["."%char] s ps /\ Forall2 (stripped true true white) ps l.
Definition output_words : list string := ["deepdiff"; "is_equal"; "macro"; "traverse"; "dict_to_list"; "validate"; "validate_yangson"].
Definition attribute_words : list string := ["name"; "returner"; "filename"; "format_attributes"; "path"; "headers"; "condition"; "functions"].
Definition text_values (l : list str) : val := VList (map VStr l).
(** the call "n(v)" *)
Definition called_with (n : str) (v : val) (a : attribute) : Prop := exists l, Forall2 item_means (items_of (n ++ t_ "(" ++ py_str v ++ t_ ")")) (a :: l).
(** what one attribute says: names for the output, attributes for the formatter and the returners, functions *)
Inductive attr_says : str -> val -> list val -> dict -> list attribute -> Prop :=
| at_names k v : same_word k "name" -> attr_says k v [v] [] []
| at_returner k s l : same_word k "returner" -> commas s l -> attr_says k (VStr s) [] [(KS (t_ "returner"), text_values l)] []
| at_filename k s : same_word k "filename" -> ~ In "%"%char s -> attr_says k (VStr s) [] [(KS (t_ "filename"), VStr s)] []
| at_format k v a : same_word k "format_attributes" -> called_with (t_ "format_attributes") v a ->
    attr_says k v [] [(KS (t_ "format_attributes"), VDict [(KS (t_ "args"), VList (at_args a)); (KS (t_ "kwargs"), VDict (at_kwargs a))])] []
| at_way k s l : same_word k "path" -> dots s l -> attr_says k (VStr s) [] [(KS (t_ "path"), text_values l)] []
| at_headers k s l : same_word k "headers" -> commas s l -> attr_says k (VStr s) [] [(KS (t_ "headers"), text_values l)] []
| at_other_headers k v : same_word k "headers" -> (forall s, v <> VStr s) -> attr_says k v [] [(KS (t_ "headers"), v)] []
| at_condition k v a : same_word k "condition" -> called_with (t_ "condition") v a -> attr_says k v [] [(KS (t_ "condition"), VList (at_args a))] []
| at_functions k s l fs : same_word k "functions" -> Forall2 item_means (items_of s) l -> Forall (fun a => at_name a <> t_ "functions") l ->
    sublist (fun a => word_in (at_name a) output_words) l fs -> attr_says k (VStr s) [] [] fs
| at_function k v a : Forall (fun x => ~ same_word k x) attribute_words -> word_in k output_words -> called_with k v a -> attr_says k v [] [] [a]
| at_any k v : Forall (fun x => ~ same_word k x) attribute_words -> ~ word_in k output_words -> k <> t_ "data" -> k <> t_ "D" -> attr_says k v [] [] [].
(** all attributes, in order; the last name counts *)
Inductive attrs_say : dict -> list val -> dict -> list attribute -> Prop :=
| an_nil : attrs_say [] [] [] []
| an_more k v l n d f ns ds fs : attr_says k v n d f -> attrs_say l ns ds fs -> attrs_say ((KS k, v) :: l) (n ++ ns) (d ++ ds) (f ++ fs).
Definition reads_output (attrs : dict) (load : val) (o : outputter) : Prop :=
  exists names conv, attrs_say attrs names conv (ot_funcs o) /\ ot_name o = last names VNone /\ ot_attrs o = dupdate attrs conv /\ ot_load o = load.
(** the attributes that every output has, and the tag's *)
Definition usual (d : dict) : Prop := d = [(KS (t_ "returner"), VStr (t_ "self")); (KS (t_ "format"), VStr (t_ "raw")); (KS (t_ "load"), VStr (t_ "python"))].
Definition text_dict (l : list (str * str)) : dict := map (fun kv => (KS (fst kv), VStr (snd kv))) l.
Definition tag_attributes (e : elem) (d : dict) : Prop :=
  exists u, usual u /\ let a := dupdate u (text_dict (e_attrs e)) in
  (dget a (KS (t_ "format")) = Some (VStr (t_ "jinja2")) /\ d = dset a (KS (t_ "load")) (VStr (t_ "text"))) \/
  (dget a (KS (t_ "format")) <> Some (VStr (t_ "jinja2")) /\ d = a).
(** what the tag's text loads to; the text itself if that is nothing *)
Inductive loaded (text : str) : option val -> val -> Prop :=
| lo_value x : truthy x = true -> loaded text (Some x) x
| lo_no_text o : (forall x, o = Some x -> truthy x = false) -> text = [] -> loaded text o VNone
| lo_text o : (forall x, o = Some x -> truthy x = false) -> text <> [] -> loaded text o (VStr text).
Inductive overlaid (d : dict) : option val -> dict -> Prop :=
| ov_dict x : overlaid d (Some (VDict x)) (dupdate d x)
| ov_other o : (forall x, o <> Some (VDict x)) -> overlaid d o d.
Definition tag_output_is (w : world) (e : elem) (o : outputter) : Prop :=
  exists a l x load d, tag_attributes e a /\ text_attributes a l /\ struct_gives w (e_text e) l x /\ loaded (e_text e) x load /\ overlaid a x d /\ reads_output d load o.
(** an output that arguments describe *)
Definition arguments_output (kw : dict) (o : outputter) : Prop := exists u d, usual u /\ default_attribute "returner" (VStr (t_ "self")) kw d /\ reads_output (dupdate u d) (VDict []) o.

(** ** running *)
Inductive has_attr (o : outputter) (n : string) (default : val) : val -> Prop :=
| ha_given v : dget (ot_attrs o) (KS (t_ n)) = Some v -> has_attr o n default v
| ha_default : dget (ot_attrs o) (KS (t_ n)) = None -> has_attr o n default default.
Inductive way : val -> list str -> Prop :=
| wy_text s l : dots s l -> way (VStr s) l
| wy_list vs l : texts vs l -> way (VList vs) l.
Definition way_or_none (v : val) (l : list str) : Prop := (truthy v = true /\ way v l) \/ (truthy v = false /\ l = []).
(** dict_to_list: the entries of a dictionary with their keys under [k]; it stops at an entry that is no dictionary *)
Definition keyed (k : str) (e : key * val) (r : val) : Prop := exists vd, snd e = VDict vd /\ r = VDict (dset vd (KS k) (SpecOutput.value_of (fst e))).
Definition all_dicts (d : dict) : Prop := Forall (fun e => exists vd, snd e = VDict vd) d.
Inductive keyed_dict (k : str) : dict -> dict -> Prop :=
| kd_end : keyed_dict k [] []
| kd_stop i v d : (forall vd, v <> VDict vd) -> keyed_dict k ((i, v) :: d) ((i, v) :: d)
| kd_entry i v r d d' : keyed k (i, v) r -> keyed_dict k d d' -> keyed_dict k ((i, v) :: d) ((i, r) :: d').
Inductive keyed_value (k : str) : val -> val -> Prop :=
| kv_dict d d' : keyed_dict k d d' -> keyed_value k (VDict d) (VDict d')
| kv_list l l' : Forall2 (keyed_value k) l l' -> keyed_value k (VList l) (VList l')
| kv_other v : plain_value v -> keyed_value k v v.
Inductive listed (k : str) : val -> val -> Prop :=
| li_dict d d' : keyed_dict k d d' -> all_dicts d -> listed k (VDict d) (VList (map snd d'))
| li_mixed d d' : keyed_dict k d d' -> ~ all_dicts d -> listed k (VDict d) (VDict d')
| li_list l l' : Forall2 (listed k) l l' -> listed k (VList l) (VList l')
| li_other v : plain_value v -> listed k v (VList []).
Definition traverse_def : signature := snd (read_def "traverse(data, path, strict=True)").
Definition dict_to_list_def : signature := snd (read_def "dict_to_list(data, key_name=""key"", path=None, strict=False)").
Definition is_equal_def : signature := snd (read_def "is_equal(data)").
Definition macro_def : signature := snd (read_def "macro(data, macro_name)").
(** the macro of a name: the latest definitions come first *)
Definition defined (ms : list (str * macro)) (n : str) (f : macro) : Prop := exists p q, ms = p ++ (n, f) :: q /\ ~ In n (map fst p).
(** macros give Python values for Python values *)
Definition macros_ok (ms : list (str * macro)) : Prop := forall n f v y, In (n, f) ms -> vok v -> f v = Ok (MVal y) -> vok y.
Inductive function_gives (ms : list (str * macro)) (o : outputter) (a : attribute) (x : val) : val -> Prop :=
| fg_traverse b l y : at_name a = t_ "traverse" -> binds traverse_def (at_args a) (at_kwargs a) b -> way (SpecCalls.value_of traverse_def b "path") l ->
    selects (truthy (SpecCalls.value_of traverse_def b "strict")) l x y -> function_gives ms o a x y
| fg_dict_to_list b k y : at_name a = t_ "dict_to_list" -> binds dict_to_list_def (at_args a) (at_kwargs a) b -> SpecCalls.value_of dict_to_list_def b "key_name" = VStr k ->
    way_or_none (SpecCalls.value_of dict_to_list_def b "path") [] -> listed k x y -> function_gives ms o a x y
| fg_dict_to_list_at b k l z y : at_name a = t_ "dict_to_list" -> binds dict_to_list_def (at_args a) (at_kwargs a) b -> SpecCalls.value_of dict_to_list_def b "key_name" = VStr k ->
    way_or_none (SpecCalls.value_of dict_to_list_def b "path") l -> l <> [] -> selects (truthy (SpecCalls.value_of dict_to_list_def b "strict")) l x z -> listed k z y -> function_gives ms o a x y
| fg_is_equal b c d t : at_name a = t_ "is_equal" -> binds is_equal_def (at_args a) (at_kwargs a) b -> compared x c -> (t = true <-> veq c (ot_load o)) -> has_attr o "description" (VStr (t_ "None")) d ->
    function_gives ms o a x (VDict [(KS (t_ "output_name"), ot_name o); (KS (t_ "output_description"), d); (KS (t_ "is_equal"), VBool t)])
| fg_macro_same b n : at_name a = t_ "macro" -> binds macro_def (at_args a) (at_kwargs a) b -> SpecCalls.value_of macro_def b "macro_name" = VStr n ->
    ~ In n (map fst ms) \/ (exists f, defined ms n f /\ f x = Ok (MVal VNone)) -> function_gives ms o a x x
| fg_macro_new b n f y : at_name a = t_ "macro" -> binds macro_def (at_args a) (at_kwargs a) b -> SpecCalls.value_of macro_def b "macro_name" = VStr n ->
    defined ms n f -> f x = Ok (MVal y) -> y <> VNone -> function_gives ms o a x y.
Inductive functions_give (ms : list (str * macro)) (o : outputter) : list attribute -> val -> val -> Prop :=
| fs_none x : functions_give ms o [] x x
| fs_more a l x y z : function_gives ms o a x y -> functions_give ms o l y z -> functions_give ms o (a :: l) x z.

(** a table: which records, which headers, which cells *)
Inductive data_of : val -> list val -> Prop := do_list l : data_of (VList l) l | do_dict d : data_of (VDict d) [VDict d] | do_other v : plain_value v -> data_of v [].
Inductive adds (k : str) : val -> list val -> Prop :=
| ad_list l : adds k (VList l) l
| ad_empty : adds k (VDict []) []
| ad_dict d : d <> [] -> k = [] -> adds k (VDict d) [VDict d]
| ad_entries d rs : d <> [] -> k <> [] -> Forall2 (keyed k) d rs -> adds k (VDict d) rs
| ad_other v : plain_value v -> adds k v [].
Inductive headers_for (recs : list val) : list key -> list key -> Prop :=
| hf_given h : h <> [] -> headers_for recs h h
| hf_sorted hs : StronglySorted key_before hs -> (forall k, In k hs <-> exists d, In (VDict d) recs /\ In k (dkeys d)) -> headers_for recs [] hs.
Definition tabulated (path : list str) (missing : val) (k : str) (strict : bool) (headers : list key) (data : val) (hs : list key) (rows : list (list val)) : Prop :=
  exists src recss, data_of data src /\ Forall2 (fun x r => exists y, selects strict path x y /\ adds k y r) src recss /\
  headers_for (concat recss) headers hs /\ Forall2 (fun r row => exists d, r = VDict d /\ row_of missing hs d row) (concat recss) rows.
Inductive key_or_none : val -> str -> Prop :=
| kn_text s : key_or_none (VStr s) s
| kn_none v : truthy v = false -> key_or_none v [].
Inductive headers_given : val -> list key -> Prop :=
| hg_list vs ks : Forall2 as_key vs ks -> headers_given (VList vs) ks
| hg_none v : truthy v = false -> headers_given v [].
Definition table_is (o : outputter) (data : val) (hs : list key) (rows : list (list val)) : Prop :=
  exists p pl k ks h hl m s, has_attr o "path" VNone p /\ way_or_none p pl /\ has_attr o "key" VNone k /\ key_or_none k ks /\ has_attr o "headers" VNone h /\ headers_given h hl /\
  has_attr o "missing" (VStr []) m /\ has_attr o "strict" (VBool true) s /\ tabulated pl m ks (truthy s) hl data hs rows.
Definition no_braces (s : str) : Prop := ~ In "{"%char s /\ ~ In "}"%char s.
(** quoted cells with separators, one line per row *)
Definition quoted_row (sep q : str) (cells : list str) : str := join sep (map (fun c => q ++ c ++ q) cells).
Definition csv_row (sep q : str) (cells : list str) : str := match cells with [] => q ++ q | _ => quoted_row sep q cells end.
Inductive formats_to (o : outputter) (f : str) (x : val) : val -> Prop :=
| ft_raw : f = t_ "raw" -> formats_to o f x x
| ft_json t : f = t_ "json" -> printed 0 x t -> formats_to o f x (VStr t)
| ft_table hs rows : f = t_ "table" -> table_is o x hs rows -> formats_to o f x (VList (VList (map SpecOutput.value_of hs) :: map VList rows))
| ft_csv names rows sep q : f = t_ "csv" -> table_is o x (map KS names) rows -> has_attr o "sep" (VStr (t_ ",")) (VStr sep) -> no_braces sep ->
    has_attr o "quote" (VStr [chr 34]) (VStr q) -> no_braces q ->
    formats_to o f x (VStr (join [chr 10] (csv_row sep q names :: map (fun r => csv_row sep q (map py_str r)) rows)))
| ft_unknown : ~ word_in f ["csv"; "excel"; "jinja2"; "json"; "n2g"; "pprint"; "raw"; "table"; "tabulate"; "yaml"] -> formats_to o f x x.
Inductive formatted (o : outputter) (x y : val) : Prop :=
| fo_named f : dget (ot_attrs o) (KS (t_ "format")) = Some (VStr f) -> formats_to o f x y -> formatted o x y
| fo_unnamed : (forall v, dget (ot_attrs o) (KS (t_ "format")) = Some v -> v = VNone \/ (exists b, v = VBool b) \/ (exists z, v = VInt z) \/ (exists s, v = VObj s)) -> y = x -> formatted o x y.

(** the returners *)
Inductive shown : val -> str -> Prop :=
| sh_text s : shown (VStr s) s
| sh_other v ps : (forall s, v <> VStr s) -> cut_at ["\"%char; "n"%char] (py_repr v) ps -> shown v (join [chr 10] ps).
Inductive returner_does (o : outputter) (v : val) (r : str) : list effect -> Prop :=
| rt_self : r = t_ "self" -> returner_does o v r []
| rt_terminal t : r = t_ "terminal" -> dget (ot_attrs o) (KS (t_ "colour")) = None -> shown v t -> returner_does o v r [Printed t]
| rt_file u f p : r = t_ "file" -> has_attr o "url" (VStr (t_ "./Output/")) (VStr u) -> dget (ot_attrs o) (KS (t_ "filename")) = Some (VStr f) -> f <> [] -> no_braces f ->
    joined u f p -> returner_does o v r [Wrote p (py_str v)]
| rt_unknown : ~ word_in r ["self"; "terminal"; "file"; "syslog"] -> returner_does o v r [].
Inductive returners_do (o : outputter) (v : val) : list str -> list effect -> Prop :=
| rs_none : returners_do o v [] []
| rs_more r l e es : returner_does o v r e -> returners_do o v l es -> returners_do o v (r :: l) (e ++ es).
(** what is wrong with a returner of the model, whether it runs or not *)
Definition returner_allowed (o : outputter) (r : str) : Prop := forall v, exists e, returner_does o v r e.

(** when nothing is returned, the data are as the functions left them: dict_to_list changes them *)
Inductive key_argument (a : attribute) : str -> Prop :=
| ka_place k : at_args a = [VStr k] -> at_kwargs a = [] -> key_argument a k
| ka_name k : at_args a = [] -> at_kwargs a = [(KS (t_ "key_name"), VStr k)] -> key_argument a k
| ka_none : at_args a = [] -> at_kwargs a = [] -> key_argument a (t_ "key").
Definition no_dict_to_list (l : list attribute) : Prop := Forall (fun a => at_name a <> t_ "dict_to_list") l.
Inductive leaves : list attribute -> val -> val -> Prop :=
| lv_same l x : no_dict_to_list l -> leaves l x x
| lv_keyed a l k x y : at_name a = t_ "dict_to_list" -> key_argument a k -> no_dict_to_list l -> keyed_value k x y -> leaves (a :: l) x y.
Definition no_key (o : outputter) : Prop := forall f v, dget (ot_attrs o) (KS (t_ "format")) = Some (VStr f) -> word_in f ["table"; "csv"] -> dget (ot_attrs o) (KS (t_ "key")) = Some v -> truthy v = false.

(** the condition *)
Inductive condition_is (vars : option dict) (o : outputter) : bool -> Prop :=
| ci_none : (forall l, dget (ot_attrs o) (KS (t_ "condition")) = Some (VList l) -> l = []) -> condition_is vars o true
| ci_value d n k want b : vars = Some d -> dget (ot_attrs o) (KS (t_ "condition")) = Some (VList [n; want]) -> as_key n k ->
    (b = true <-> veq (match dget d k with Some v => v | None => VStr (t_ "_undef_") end) want) -> condition_is vars o b.
Definition returners_are (o : outputter) (rs : list str) : Prop := exists vs, dget (ot_attrs o) (KS (t_ "returner")) = Some (VList vs) /\ texts vs rs.
Inductive output_runs_to (ms : list (str * macro)) (vars : option dict) (o : outputter) (x : val) : val -> list effect -> Prop :=
| or_skipped rs : returners_are o rs -> Forall (returner_allowed o) rs -> condition_is vars o false -> output_runs_to ms vars o x x []
| or_returned rs y z es : returners_are o rs -> Forall (returner_allowed o) rs -> condition_is vars o true -> In (t_ "self") rs ->
    functions_give ms o (ot_funcs o) x y -> formatted o y z -> returners_do o z rs es -> output_runs_to ms vars o x z es
| or_kept rs y z es x' : returners_are o rs -> Forall (returner_allowed o) rs -> condition_is vars o true -> ~ In (t_ "self") rs ->
    functions_give ms o (ot_funcs o) x y -> no_key o -> formatted o y z -> returners_do o z rs es -> leaves (ot_funcs o) x x' -> output_runs_to ms vars o x x' es.
(** the outputs one after the other *)
Inductive outputs_run_to (ms : list (str * macro)) (vars : dict) : list outputter -> val -> val -> list effect -> Prop :=
| ors_none x : outputs_run_to ms vars [] x x []
| ors_more o l x y z e es : output_runs_to ms (Some vars) o x y e -> outputs_run_to ms vars l y z es -> outputs_run_to ms vars (o :: l) x z (e ++ es).
(** result() with arguments: the output runs for one template after the other.  A template without macros sees those of the
    template before it *)
Inductive results_run_to (own : nat -> list (str * macro)) (o : outputter) : list (str * macro) -> list (@Session.template (list attribute)) -> list val -> Prop :=
| rr_none ms : results_run_to own o ms [] []
| rr_own ms t ts r es rs : own (t_id t) <> [] -> output_runs_to (own (t_id t)) None o (t_results t) r es -> results_run_to own o (own (t_id t)) ts rs -> results_run_to own o ms (t :: ts) (r :: rs)
| rr_other ms t ts r es rs : own (t_id t) = [] -> output_runs_to ms None o (t_results t) r es -> results_run_to own o ms ts rs -> results_run_to own o ms (t :: ts) (r :: rs).
(** the templates asked for: all, or those with one of the names; a dictionary has those with a name only *)
Definition asked_for (names : list str) (structure : str) (t : @Session.template (list attribute)) : Prop :=
  (names = [] \/ In (t_name t) names) /\ (same_word structure "dictionary" -> t_name t <> []).
(** what the output returned for each template, in the structure asked for *)
Inductive structured (structure : str) (ts : list (@Session.template (list attribute))) (rs : list val) : val -> Prop :=
| st_list : same_word structure "list" -> structured structure ts rs (VList rs)
| st_dictionary : same_word structure "dictionary" -> structured structure ts rs (VDict (dict_of (combine (map (fun t => KS (t_name t)) ts) rs)))
| st_flat : same_word structure "flat_list" -> structured structure ts rs (VList (concat (map (fun r => concat (map SpecSession.items1 (SpecSession.items1 r))) rs))).
Definition known_structure (structure : str) : Prop := same_word structure "list" \/ same_word structure "dictionary" \/ same_word structure "flat_list".
