(** * SpecLoaded: what loading a template makes of its text (specification for C131).

    A template is a tree of tags.  Every kind of tag has its own rules, which are given where they belong: groups in
    SpecMade (C123), inputs in SpecInputs (C127), outputs in SpecOutputTags (C130), structured text in SpecFiles (C126).
    Here they are put together. *)
From Verif Require Import PyBase Regex Results Template Attributes FormRegex MatchVar MatchFuncs GroupFuncs Parser Compile FuncTable Loaders Xml Session Files Inputs OutputTags Load
  SpecAttr SpecVariable SpecFiles SpecInputs SpecOutputTags SpecMade SpecJson.
Local Open Scope string_scope.
Local Open Scope list_scope.

(** ** bytes as Python shows them: b'...' *)
(** a character of Latin-1 in UTF-8 *)
Inductive encoded : ascii -> str -> Prop :=
| en_one c : (code c < 128)%N -> encoded c [c]
| en_two c a b : (128 <= code c)%N -> (code c = 64 * (code a - 192) + (code b - 128))%N -> (192 <= code a < 196)%N -> (128 <= code b < 192)%N -> encoded c [a; b].
Inductive byte_shown (q : ascii) : ascii -> str -> Prop :=
| by_backslash : byte_shown q "\" (t_ "\\")
| by_quote : byte_shown q q ["\"%char; q]
| by_tab : byte_shown q (chr 9) (t_ "\t")
| by_nl : byte_shown q (chr 10) (t_ "\n")
| by_cr : byte_shown q (chr 13) (t_ "\r")
| by_self c : (32 <= code c < 127)%N -> c <> "\"%char -> c <> q -> byte_shown q c [c]
| by_hex c h l hv lv : ((code c < 32)%N /\ ~ In c [chr 9; chr 10; chr 13]) \/ (127 <= code c)%N -> lower_hex h hv -> lower_hex l lv ->
    (code c = 16 * hv + lv)%N -> byte_shown q c ["\"%char; "x"%char; h; l].
Definition bytes_shown (s r : str) : Prop :=
  exists es bs q, Forall2 encoded s es /\
    ((In (chr 39) s /\ ~ In (chr 34) s /\ q = chr 34) \/ (~ (In (chr 39) s /\ ~ In (chr 34) s) /\ q = chr 39)) /\
    Forall2 (byte_shown q) (concat es) bs /\ r = "b"%char :: q :: concat bs ++ [q].

(** ** the tree of a text: it is wrapped if it is no template tag, and a text without tags is one group.  [fmt]: the text as
    the wrapper shows it *)
Definition in_template (t : str) : str := t_ "<template>" ++ [chr 10] ++ t ++ [chr 10] ++ t_ "</template>".
Definition in_group (t : str) : str := t_ "<template><group name=""_anonymous_"">" ++ [chr 10] ++ t ++ [chr 10] ++ t_ "</group></template>".
Definition template_tag (e : elem) : Prop := lower (e_tag e) = t_ "template".
Inductive read_as (t fmt : str) : elem -> Prop :=
| ra_template e : xml_parse t = Some e -> template_tag e -> e_children e <> [] -> read_as t fmt e
| ra_wrapped e : (forall e', xml_parse t = Some e' -> ~ template_tag e') -> xml_parse (in_template fmt) = Some e -> e_children e <> [] -> read_as t fmt e
| ra_text e e' : ((xml_parse t = Some e' /\ template_tag e') \/ ((forall e1, xml_parse t = Some e1 -> ~ template_tag e1) /\ xml_parse (in_template fmt) = Some e')) ->
    e_children e' = [] -> xml_parse (in_group fmt) = Some e -> read_as t fmt e.

Section W.
Variables (w : world) (order : list nat -> list nat).
(** [d] stands somewhere in [e], or is [e] *)
Inductive inside : elem -> elem -> Prop :=
| in_self e : inside e e
| in_child d c e : In c (e_children e) -> inside d c -> inside d e.
(** macro tags run before anything else; the last definition of a name counts, and one with a syntax error defines nothing *)
Inductive macros_read : list elem -> list (str * macro) -> list (str * macro) -> Prop :=
| mr_end ms : macros_read [] ms ms
| mr_macro c cs ms l ms' : e_tag c = t_ "macro" -> e_text c <> [] -> w_exec w (e_text c) = Ok (Some l) -> macros_read cs (l ++ ms) ms' -> macros_read (c :: cs) ms ms'
| mr_syntax c cs ms ms' : e_tag c = t_ "macro" -> e_text c <> [] -> w_exec w (e_text c) = Ok None -> macros_read cs ms ms' -> macros_read (c :: cs) ms ms'
| mr_other c cs ms ms' : e_tag c <> t_ "macro" -> macros_read cs ms ms' -> macros_read (c :: cs) ms ms'.
(** the text that an extend tag refers to: a file's, and what the tag's macro makes of it.  A path that is no file is missing *)
Definition file_text (c : elem) (x : str) : Prop :=
  exists p l, (attribute_of (e_attrs c) "template" = Some p \/ (attribute_of (e_attrs c) "template" = None /\ p = [])) /\
    loads w [] [] true (VStr p) (TextData x :: l) /\ x <> p.
Inductive text_brought (ms : list (str * macro)) (c : elem) : str -> Prop :=
| tb_plain x : file_text c x -> (forall n, attribute_of (e_attrs c) "macro" = Some n -> ~ In n (map fst ms)) -> text_brought ms c x
| tb_macro x n f y : file_text c x -> attribute_of (e_attrs c) "macro" = Some n -> defined ms n f -> f (VStr x) = Ok (MVal (VStr y)) -> text_brought ms c y.
(** what it brings: the text of a group, if there are no tags in it, otherwise tags *)
Inductive brings (ms : list (str * macro)) (c : elem) : (str * list elem) + str -> Prop :=
| br_text x e g : text_brought ms c x -> read_as x x e -> e_children e = [g] -> attribute_of (e_attrs g) "name" = Some (t_ "_anonymous_") -> brings ms c (inr (e_text g))
| br_tags x e : text_brought ms c x -> read_as x x e -> (forall g, e_children e = [g] -> attribute_of (e_attrs g) "name" <> Some (t_ "_anonymous_")) -> brings ms c (inl (e_text e, e_children e)).
(** the tree after the extend tags (C40, C88 say what [handle] does), written as text and read again *)
Inductive extends (e : elem) : elem -> Prop :=
| xt_none ms e' : macros_read (e_children e) [] ms -> (forall d, inside d e -> e_tag d <> t_ "extend") ->
    read_as (xml_text e) (xml_text e) e' -> extends e e'
| xt_some ms ld x cs e' : macros_read (e_children e) [] ms -> (exists d, inside d e /\ e_tag d = t_ "extend") ->
    (forall c r, ld c = Ok r <-> brings ms c r) -> handle ld 1000 true true (e_text e) (e_children e) = Ok (x, cs) ->
    read_as (xml_text (Elem (e_tag e) (e_attrs e) x cs (e_tail e))) (xml_text (Elem (e_tag e) (e_attrs e) x cs (e_tail e))) e' -> extends e e'.
Definition tree_of (t : str) (e : elem) : Prop := exists e0, read_as t t e0 /\ extends e0 e.
(** a child template goes through bytes *)
Definition child_tree_of (c e : elem) : Prop := exists e0 b, bytes_shown (raw_text c) b /\ read_as (xml_text c) b e0 /\ extends e0 e.

(** ** the tags *)
Definition tag_is (names : list string) (e : elem) : Prop := word_in (lower (e_tag e)) names.
Definition tags (names : list string) (cs l : list elem) : Prop := sublist (tag_is names) cs l.
(** macro tags define functions, the last definition of a name counts; a doc tag has a text *)
Inductive collects : list elem -> list (str * macro) -> list (str * macro) -> Prop :=
| co_end ms : collects [] ms ms
| co_macro c cs ms l ms' : tag_is ["macro"] c -> e_text c <> [] -> w_exec w (e_text c) = Ok (Some l) -> collects cs (l ++ ms) ms' -> collects (c :: cs) ms ms'
| co_syntax c cs ms ms' : tag_is ["macro"] c -> e_text c <> [] -> w_exec w (e_text c) = Ok None -> collects cs ms ms' -> collects (c :: cs) ms ms'
| co_doc c cs ms ms' : tag_is ["doc"] c -> e_text c <> [] -> collects cs ms ms' -> collects (c :: cs) ms ms'
| co_other c cs ms ms' : ~ tag_is ["macro"; "doc"] c -> collects cs ms ms' -> collects (c :: cs) ms ms'.
(** variables: a dictionary is added; with a name its keys are results under this name *)
Definition adds_vars (o : option val) (v v' : dict) : Prop :=
  (exists d, o = Some (VDict d) /\ v' = dupdate v d) \/ ((o = None \/ exists x, o = Some x /\ (forall d, x <> VDict d) /\ truthy x = false) /\ v' = v).
Inductive under (n : str) (ks : list str) : list (str * list str) -> list (str * list str) -> Prop :=
| un_old p1 old p2 : ~ In n (map fst p1) -> under n ks (p1 ++ (n, old) :: p2) (p1 ++ (n, old ++ ks) :: p2)
| un_new p : ~ In n (map fst p) -> ks <> [] -> under n ks p (p ++ [(n, ks)])
| un_none p : ~ In n (map fst p) -> ks = [] -> under n ks p p.
Definition adds_names (name : option str) (o : option val) (p p' : list (str * list str)) : Prop :=
  (name = None /\ p' = p) \/ (exists n d ks, name = Some n /\ o = Some (VDict d) /\ map fst d = map KS ks /\ under n ks p p').
Inductive vars_read : list elem -> dict -> list (str * list str) -> dict -> list (str * list str) -> Prop :=
| vr_end v p : vars_read [] v p v p
| vr_tag e es o v p v1 p1 v2 p2 : struct_gives w (e_text e) (e_attrs e) o -> adds_vars o v v1 -> adds_names (attribute_of (e_attrs e) "name") o p p1 ->
    vars_read es v1 p1 v2 p2 -> vars_read (e :: es) v p v2 p2.
(** lookup tables by name; what loads to nothing is left out *)
Inductive lookups_read : list elem -> dict -> dict -> Prop :=
| lr_end d : lookups_read [] d d
| lr_unnamed e es d d' : attribute_of (e_attrs e) "name" = None -> lookups_read es d d' -> lookups_read (e :: es) d d'
| lr_nothing e es n d d' : attribute_of (e_attrs e) "name" = Some n -> struct_gives w (e_text e) (e_attrs e) None -> lookups_read es d d' -> lookups_read (e :: es) d d'
| lr_table e es n x d d' : attribute_of (e_attrs e) "name" = Some n -> struct_gives w (e_text e) (e_attrs e) (Some x) ->
    (forall b, attribute_of (e_attrs e) "database" = Some b -> lower b <> t_ "geoip2") -> lookups_read es (dset d (KS n) x) d' -> lookups_read (e :: es) d d'.
(** a variable whose value is the name of a function is computed for every input *)
Definition variable_words : list string :=
  ["getfilename"; "gethostname"; "get_time"; "get_date"; "get_timestamp_ms"; "get_timestamp"; "get_time_ns"; "get_timestamp_iso"].
Definition computed (kv : key * val) : Prop := exists s, snd kv = VStr s /\ word_in s variable_words.
Definition group_words : list string :=
  ["contains"; "contains_val"; "containsall"; "del"; "equal"; "exclude"; "exclude_val"; "excludeall"; "expand"; "itemize"; "items2dict"; "lookup"; "macro"; "record";
   "set"; "sformat"; "str_to_unicode"; "to_int"; "void"; "to_ip"; "cerberus"; "validate"].
(** what inputs and outputs see of a group *)
Definition group_known (ig : nat * cgroup) (tg : tgroup) (outs : list str) : Prop :=
  exists id par p a fs s ks, snd ig = CG id par p a fs s ks /\ tg = {| tg_index := fst ig; tg_name := ga_name a; tg_inputs := ga_in a |} /\ outs = ga_out a.
Definition attribute_or (attrs : list (str * str)) (n : string) (d v : str) : Prop :=
  attribute_of attrs n = Some v \/ (attribute_of attrs n = None /\ v = d).

(** ** the template: [child] says what a child template becomes *)
Inductive template_from (child : str -> nat -> elem -> tpl -> Prop) (base : str) (ttp_vars : dict) (name : str) (e : elem) (kids : list tpl) : tpl -> Prop :=
| tf_made base1 ms ts vs os ls gs is vars v2r outs lookups pc groups tgs gos ins gouts glob nm method plain vfs fns :
    attribute_or (e_attrs e) "base_path" base base1 -> attribute_or (e_attrs e) "pathchar" (t_ ".") pc ->
    attribute_or (e_attrs e) "name" name nm -> attribute_or (e_attrs e) "results" (t_ "per_input") method ->
    collects (e_children e) [] ms ->
    tags ["template"] (e_children e) ts -> Forall2 (fun ic k => child base1 (fst ic) (snd ic) k) (numbered ts) kids ->
    tags ["v"; "vars"; "variables"] (e_children e) vs -> vars_read vs ttp_vars [] vars v2r ->
    tags ["o"; "out"; "output"] (e_children e) os -> Forall2 (tag_output_is w) os outs ->
    tags ["lookup"] (e_children e) ls -> lookups_read ls [] lookups ->
    tags ["g"; "grp"; "group"] (e_children e) gs ->
    Forall2 (fun ie g => group_from vars (map t_ group_words) pc true [] (fst ie) None (snd ie) g) (numbered gs) groups ->
    Forall2 (fun ig to => group_known ig (fst to) (snd to)) (numbered groups) (combine tgs gos) -> length tgs = length gos ->
    tags ["i"; "in"; "input"] (e_children e) is -> inputs_are w tgs order base1 is ins ->
    group_outputs output_name gos outs = (gouts, glob) ->
    sublist (fun kv => ~ computed kv) vars plain -> sublist computed vars fns -> Forall2 (fun kv nf => fst kv = fst nf /\ snd kv = VStr (snd nf)) fns vfs ->
    template_from child base ttp_vars name e kids
      {| tp_name := nm; tp_method := method; tp_pathchar := pc; tp_vars := plain; tp_v2r := v2r; tp_vfs := vfs; tp_lookups := lookups; tp_groups := groups;
         tp_inputs := map (fun ni => (fst ni, io_input (snd ni))) ins; tp_macros := ms; tp_outputs := glob; tp_gouts := gouts |}.
(** child templates, nested less than [n] deep; they are named by their numbers unless they have a name *)
Fixpoint child_from (n : nat) (ttp_vars : dict) (base : str) (i : nat) (c : elem) (t : tpl) : Prop :=
  match n with
  | O => False
  | S m => exists e kids s, child_tree_of c e /\ py_str (VInt (Z.of_nat i)) = s /\ template_from (child_from m ttp_vars) base ttp_vars s e kids t
  end.
(** a template with child templates is replaced by them *)
Definition template_is (base : str) (ttp_vars : dict) (text : str) (ts : list tpl) : Prop :=
  exists e kids t, tree_of text e /\ template_from (child_from (S (length text)) ttp_vars) base ttp_vars (t_ "_root_template_") e kids t /\
    ((kids = [] /\ ts = [t]) \/ (kids <> [] /\ ts = kids)).
End W.
