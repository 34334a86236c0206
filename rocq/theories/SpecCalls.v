(** * SpecCalls: calling functions by name (specification for C124).

    The functions' [def] lines are copied from ttp/match and ttp/group; the rules of calls are those of Python. *)
From Verif Require Import PyBase Results Template Attributes MatchFuncs GroupFuncs Parser FuncTable SpecVariable.
From Verif Require Ip Uptime.
Local Open Scope string_scope.
Local Open Scope list_scope.

(** ** reading a [def] line *)
Definition default_value (s : str) : val :=
  if str_eqb s (t_ "None") then VNone else if str_eqb s (t_ "False") then VBool false else if str_eqb s (t_ "True") then VBool true
  else match py_int s with Some z => VInt z | None => VStr (firstn (length s - 2) (skipn 1 s)) end.
(** a parameter after [data]: [*args], [**kwargs], one with a default or one without; those after [*args] can only be given by name *)
Fixpoint read_params (star : bool) (l : list str) : signature :=
  match l with
  | [] => {| sg_params := []; sg_star := false; sg_kwonly := []; sg_kwargs := false |}
  | p :: t =>
      let s := read_params (star || prefixb (t_ "*") p) t in
      if prefixb (t_ "**") p then {| sg_params := sg_params s; sg_star := sg_star s; sg_kwonly := sg_kwonly s; sg_kwargs := true |}
      else if prefixb (t_ "*") p then {| sg_params := sg_params s; sg_star := true; sg_kwonly := sg_kwonly s; sg_kwargs := sg_kwargs s |}
      else match split (t_ "=") p with
           | [n; d] => if star then {| sg_params := sg_params s; sg_star := sg_star s; sg_kwonly := (n, default_value d) :: sg_kwonly s; sg_kwargs := sg_kwargs s |}
                       else {| sg_params := (n, Some (default_value d)) :: sg_params s; sg_star := sg_star s; sg_kwonly := sg_kwonly s; sg_kwargs := sg_kwargs s |}
           | _ => {| sg_params := (p, None) :: sg_params s; sg_star := sg_star s; sg_kwonly := sg_kwonly s; sg_kwargs := sg_kwargs s |}
           end
  end.
(** "name(data, ...)" *)
Definition read_def (line : string) : str * signature :=
  match split (t_ "(") (t_ line) with
  | [n; ps] => (n, match split (t_ ", ") (firstn (length ps - 1) ps) with _ :: t => read_params false t | [] => read_params false [] end)
  | _ => ([], read_params false [])
  end.

(** ** Python's rules of calls: [data] is given by the caller, [args] in order, [kws] by name *)
Definition binds (s : signature) (args : list val) (kws : dict) (b : bound) : Prop :=
  (* every name is one of a parameter, and not of one that has a value by its place *)
  (forall k, dget kws k <> None -> exists n, k = KS n /\ ~ In n (map fst (firstn (length args) (sg_params s))) /\
     (In n (map fst (sg_params s)) \/ In n (map fst (sg_kwonly s)) \/ sg_kwargs s = true /\ n <> t_ "data")) /\
  (* the places first, then names, then defaults *)
  (exists rest, Forall2 (fun p v => dget kws (KS (fst p)) = Some v \/ dget kws (KS (fst p)) = None /\ snd p = Some v) (skipn (length args) (sg_params s)) rest /\
     b_params b = firstn (length (sg_params s)) args ++ rest) /\
  (* more values than parameters only for [*args] *)
  b_star b = skipn (length (sg_params s)) args /\ (b_star b <> [] -> sg_star s = true) /\
  Forall2 (fun p v => dget kws (KS (fst p)) = Some v \/ dget kws (KS (fst p)) = None /\ snd p = v) (sg_kwonly s) (b_kwonly b).
(** the value of a parameter *)
Definition value_of (s : signature) (b : bound) (n : string) : val :=
  match find (fun kv => str_eqb (fst kv) (t_ n)) (combine (map fst (sg_params s) ++ map fst (sg_kwonly s)) (b_params b ++ b_kwonly b)) with Some kv => snd kv | None => VNone end.

(** ** the functions *)
Definition match_defs : list string :=
  ["copy(data, name)"; "count(data, var=None, globvar=None)"; "item(data, item_index)"; "joinmatches(data, *args, **kwargs)";
   "let(data, name_or_value, var_value=""__Undefined_Var_Value__"")"; "lookup(data, name=None, template=None, group=None, add_field=False)"; "rlookup(data, name, add_field=False)";
   "gpvlookup(data, name, add_field=False, record=False, multimatch=False)"; "mac_eui(data)"; "macro(data, macro_name)"; "raise(data, message="""")";
   "startswith_re(data, pattern)"; "endswith_re(data, pattern)"; "contains_re(data, pattern)"; "notstartswith_re(data, pattern)"; "notendswith_re(data, pattern)"; "exclude_re(data, pattern)";
   "resub(data, old, new, count=1)"; "resuball(data, *args)"; "record(data, record)"; "set(data, value, match_line)"; "exclude(data, pattern)"; "equal(data, value)"; "notequal(data, value)";
   "contains(data, *patterns)"; "sformat(data, string)"; "isdigit(data)"; "notdigit(data)"; "greaterthan(data, value)"; "lessthan(data, value)"; "join(data, char)"; "append(data, char)"; "prepend(data, char)";
   "print(data)"; "replaceall(data, *args)"; "truncate(data, truncate)"; "to_str(data)"; "to_list(data)"; "to_int(data)"; "to_unicode(data)"; "to_cidr(data)"; "unrange(data, rangechar, joinchar)"; "void(data)"; "is_ip(data, *args)"; "cidr_match(data, prefix)"; "uptimeparse(data, format=""seconds"")"].
Definition group_defs : list string :=
  ["contains(data, *args)"; "contains_val(data, key, value)"; "containsall(data, *args)"; "del(data, *args)"; "equal(data, key, value)"; "exclude(data, *args)"; "exclude_val(data, key, value)"; "excludeall(data, *args)";
   "expand(data)"; "itemize(data, key, path="""")"; "items2dict(data, key_name, value_name)"; "lookup(data, key, name=None, template=None, group=None, add_field=False, replace=True, update=False)"; "macro(data, *macro)";
   "record(data, source, target=""_use_source_"")"; "set(data, source, target=""_use_source_"", default=""_no_default_value_"")"; "sformat(data, string, add_field)"; "str_to_unicode(data)"; "to_int(data, *keys, intlist=False)"; "void(data)"].
(** texts for the functions that take texts, keys for those that take keys; other values are outside of the model *)
Inductive texts : list val -> list str -> Prop := tx_nil : texts [] [] | tx_more s l ss : texts l ss -> texts (VStr s :: l) (s :: ss).
Inductive as_key : val -> key -> Prop := ak_text s : as_key (VStr s) (KS s) | ak_number z : as_key (VInt z) (KI z) | ak_none : as_key VNone KNone.
Inductive key_given : val -> option key -> Prop :=
| kg_none v : truthy v = false -> key_given v None
| kg_key v k : truthy v = true -> as_key v k -> key_given v (Some k).
Inductive where_from : val -> val -> val -> source -> Prop :=
| wf_name s t g : s <> [] -> where_from (VStr s) t g (ByName s)
| wf_template n s g : truthy n = false -> s <> [] -> where_from n (VStr s) g (ByTemplate s)
| wf_group n t s : truthy n = false -> truthy t = false -> s <> [] -> where_from n t (VStr s) (ByGroup s)
| wf_none n t g : truthy n = false -> truthy t = false -> truthy g = false -> where_from n t g NoSource.
Inductive number : val -> Z -> Prop := nu_int z : number (VInt z) z | nu_true : number (VBool true) 1 | nu_false : number (VBool false) 0.
Section Match.
Variables (macros : list (str * (val -> res mret))) (lookups : val) (templates : list (str * val)) (results : val).
(** what a match function does with the value [d], the values of its parameters [arg] and its other arguments [more] *)
Inductive match_does (arg : string -> val) (more : list val) (env : menv) (d : val) : string -> menv * (val * mflag) -> Prop :=
| md_copy k r : as_key (arg "name") k -> f_copy d k = Ok r -> match_does arg more env d "copy" (env, r)
| md_count v g r : key_given (arg "var") v -> key_given (arg "globvar") g -> f_count env d v g = Ok r -> match_does arg more env d "count" r
| md_item z r : number (arg "item_index") z -> f_item d z = Ok r -> match_does arg more env d "item" (env, r)
| md_item_text s z r : arg "item_index" = VStr s -> py_int s = Some z -> f_item d z = Ok r -> match_does arg more env d "item" (env, r)
| md_joinmatches r : f_joinmatches d = Ok r -> match_does arg more env d "joinmatches" (env, r)
| md_let r : py_eq (arg "var_value") (VStr (t_ "__Undefined_Var_Value__")) = false -> f_let d (arg "name_or_value") (Some (arg "var_value")) = Ok r -> match_does arg more env d "let" (env, r)
| md_let_value r : py_eq (arg "var_value") (VStr (t_ "__Undefined_Var_Value__")) = true -> f_let d (arg "name_or_value") None = Ok r -> match_does arg more env d "let" (env, r)
| md_lookup s a r : where_from (arg "name") (arg "template") (arg "group") s -> key_given (arg "add_field") a -> f_lookup lookups templates results d s a = Ok r -> match_does arg more env d "lookup" (env, r)
| md_rlookup x n a r : d = VStr x -> arg "name" = VStr n -> key_given (arg "add_field") a -> f_rlookup lookups x n a = Ok r -> match_does arg more env d "rlookup" (env, r)
| md_gpvlookup x n a k r : d = VStr x -> arg "name" = VStr n -> key_given (arg "add_field") a -> key_given (arg "record") k ->
    f_gpvlookup fnmatch lookups env x n a k (truthy (arg "multimatch")) = Ok r -> match_does arg more env d "gpvlookup" r
| md_mac_eui r : f_mac_eui d = Ok r -> match_does arg more env d "mac_eui" (env, r)
| md_macro n r : arg "macro_name" = VStr n -> f_macro macros d n = Ok r -> match_does arg more env d "macro" (env, r)
| md_startswith_re x p r : d = VStr x -> arg "pattern" = VStr p -> f_startswith_re re_search x p = Ok r -> match_does arg more env d "startswith_re" (env, r)
| md_endswith_re x p r : d = VStr x -> arg "pattern" = VStr p -> f_endswith_re re_search x p = Ok r -> match_does arg more env d "endswith_re" (env, r)
| md_contains_re x p r : d = VStr x -> arg "pattern" = VStr p -> f_contains_re re_search x p = Ok r -> match_does arg more env d "contains_re" (env, r)
| md_notstartswith_re x p r : d = VStr x -> arg "pattern" = VStr p -> f_notstartswith_re re_search x p = Ok r -> match_does arg more env d "notstartswith_re" (env, r)
| md_notendswith_re x p r : d = VStr x -> arg "pattern" = VStr p -> f_notendswith_re re_search x p = Ok r -> match_does arg more env d "notendswith_re" (env, r)
| md_exclude_re x p r : d = VStr x -> arg "pattern" = VStr p -> f_exclude_re re_search x p = Ok r -> match_does arg more env d "exclude_re" (env, r)
| md_resub x o n z r : d = VStr x -> arg "old" = VStr o -> arg "new" = VStr n -> number (arg "count") z -> (0 <= z)%Z ->
    f_resub re_subn FormRegex.re_escape (m_vars env) x o n (Z.to_nat z) = Ok r -> match_does arg more env d "resub" (env, r)
| md_resuball x l r : d = VStr x -> texts more l -> f_resuball re_subn FormRegex.re_escape (m_vars env) x l = Ok r -> match_does arg more env d "resuball" (env, r)
| md_record k : as_key (arg "record") k -> match_does arg more env d "record" (f_record env d k)
| md_set l r : arg "match_line" = VStr l -> f_set env d (arg "value") l = Ok r -> match_does arg more env d "set" (env, r)
| md_exclude p r : arg "pattern" = VStr p -> f_exclude d p = Ok r -> match_does arg more env d "exclude" (env, r)
| md_equal r : f_equal d (arg "value") = Ok r -> match_does arg more env d "equal" (env, r)
| md_notequal r : f_notequal d (arg "value") = Ok r -> match_does arg more env d "notequal" (env, r)
| md_contains l r : texts more l -> f_contains d l = Ok r -> match_does arg more env d "contains" (env, r)
| md_sformat s t : arg "string" = VStr s -> format_str [py_str d] s [] = Ok t -> match_does arg more env d "sformat" (env, (VStr t, FNone))
| md_isdigit r : f_isdigit d = Ok r -> match_does arg more env d "isdigit" (env, r)
| md_notdigit r : f_notdigit d = Ok r -> match_does arg more env d "notdigit" (env, r)
| md_greaterthan r : f_greaterthan d (arg "value") = Ok r -> match_does arg more env d "greaterthan" (env, r)
| md_lessthan r : f_lessthan d (arg "value") = Ok r -> match_does arg more env d "lessthan" (env, r)
| md_join l c r : d = VList l -> arg "char" = VStr c -> f_join d c = Ok r -> match_does arg more env d "join" (env, r)
| md_join_other r : (forall l, d <> VList l) -> f_join d [] = Ok r -> match_does arg more env d "join" (env, r)
| md_append c r : arg "char" = VStr c -> f_append env d c = Ok r -> match_does arg more env d "append" (env, r)
| md_prepend c r : arg "char" = VStr c -> f_prepend env d c = Ok r -> match_does arg more env d "prepend" (env, r)
| md_print : match_does arg more env d "print" (env, (d, FNone))
| md_replaceall x l r : d = VStr x -> texts more l -> f_replaceall (m_vars env) x l = Ok r -> match_does arg more env d "replaceall" (env, r)
| md_truncate z r : number (arg "truncate") z -> f_truncate d z = Ok r -> match_does arg more env d "truncate" (env, r)
| md_to_str r : f_to_str d = Ok r -> match_does arg more env d "to_str" (env, r)
| md_to_list r : f_to_list d = Ok r -> match_does arg more env d "to_list" (env, r)
| md_to_int r : f_to_int d = Ok r -> match_does arg more env d "to_int" (env, r)
| md_to_unicode : match_does arg more env d "to_unicode" (env, (d, FNone))
| md_to_cidr r : f_to_cidr d = Ok r -> match_does arg more env d "to_cidr" (env, r)
| md_unrange x c j r : d = VStr x -> arg "rangechar" = VStr c -> arg "joinchar" = VStr j -> f_unrange x c j = Ok r -> match_does arg more env d "unrange" (env, r)
| md_void r : f_void d = Ok r -> match_does arg more env d "void" (env, r)
| md_is_ip r : Ip.f_is_ip d more = Ok r -> match_does arg more env d "is_ip" (env, r)
| md_cidr_match p r : arg "prefix" = VStr p -> Ip.f_cidr_match (m_vars env) d p = Ok r -> match_does arg more env d "cidr_match" (env, r)
| md_uptimeparse r : Uptime.f_uptimeparse d (arg "format") = Ok r -> match_does arg more env d "uptimeparse" (env, r).
End Match.
Section Group.
Variables (macros : list (str * (val -> res gmret))) (lookups : val) (templates : list (str * val)) (main : val) (results : val) (k2i : bool).
(** the text of a parameter, or nothing for the text that stands for nothing *)
Definition unless (v : val) (nothing : string) (o : option str) : Prop := exists s, v = VStr s /\ o = if str_eqb s (t_ nothing) then None else Some s.
Inductive group_does (arg : string -> val) (more : list val) (st : fstate) : string -> fstate * bool -> Prop :=
| gd_contains l r : texts more l -> g_contains l st = Ok r -> group_does arg more st "contains" r
| gd_contains_val k r : arg "key" = VStr k -> g_contains_val k (arg "value") st = Ok r -> group_does arg more st "contains_val" r
| gd_containsall l r : texts more l -> g_containsall l st = Ok r -> group_does arg more st "containsall" r
| gd_del l r : texts more l -> g_del l st = Ok r -> group_does arg more st "del" r
| gd_equal k r : arg "key" = VStr k -> g_equal k (arg "value") st = Ok r -> group_does arg more st "equal" r
| gd_exclude l r : texts more l -> g_exclude l st = Ok r -> group_does arg more st "exclude" r
| gd_exclude_val k r : arg "key" = VStr k -> g_exclude_val k (arg "value") st = Ok r -> group_does arg more st "exclude_val" r
| gd_excludeall l r : texts more l -> g_excludeall l st = Ok r -> group_does arg more st "excludeall" r
| gd_expand r : g_expand st = Ok r -> group_does arg more st "expand" r
| gd_itemize k p r : arg "key" = VStr k -> arg "path" = VStr p -> g_itemize k2i k p st = Ok r -> group_does arg more st "itemize" r
| gd_items2dict k v r : arg "key_name" = VStr k -> arg "value_name" = VStr v -> g_items2dict k v st = Ok r -> group_does arg more st "items2dict" r
| gd_lookup k s a r : arg "key" = VStr k -> where_from (arg "name") (arg "template") (arg "group") s ->
    (truthy (arg "add_field") = false /\ a = None \/ exists f, arg "add_field" = VStr f /\ f <> [] /\ a = Some f) ->
    g_lookup lookups templates main results s k a (truthy (arg "replace")) (match arg "update" with VBool b => b | _ => false end) st = Ok r -> group_does arg more st "lookup" r
| gd_macro l r : texts more l -> g_macro macros l st = Ok r -> group_does arg more st "macro" r
| gd_record s t r : arg "source" = VStr s -> unless (arg "target") "_use_source_" t -> g_record s t st = Ok r -> group_does arg more st "record" r
| gd_set s t r : arg "source" = VStr s -> unless (arg "target") "_use_source_" t ->
    g_set s t (if py_eq (arg "default") (VStr (t_ "_no_default_value_")) then None else Some (arg "default")) st = Ok r -> group_does arg more st "set" r
| gd_sformat s f r : arg "string" = VStr s -> arg "add_field" = VStr f -> g_sformat (fun s kws => format_str [] s kws) s f st = Ok r -> group_does arg more st "sformat" r
| gd_str_to_unicode r : g_str_to_unicode st = Ok r -> group_does arg more st "str_to_unicode" r
| gd_to_int l d r : texts more l -> fs_data st = VDict d -> (forall k v, In (k, v) d -> l = [] \/ (exists n, In n l /\ k = KS n) -> float_risk v = false) ->
    g_to_int (fun _ => None) (fun _ => None) (fun _ => None) l (match arg "intlist" with VBool b => b | _ => false end) st = Ok r -> group_does arg more st "to_int" r
| gd_void r : g_void st = Ok r -> group_does arg more st "void" r.
End Group.
(** the functions outside of the model *)
Definition match_unmodelled : list string := ["dns"; "rdns"; "geoip_lookup"; "to_ip"; "to_net"; "ip_info"; "to_float"].
Definition group_unmodelled : list string := ["to_ip"; "cerberus"; "validate"].
