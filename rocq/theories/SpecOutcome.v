(** * SpecOutcome: every outcome of the match variable functions - the new value, the flag and the
    exceptions (specification for C133).  From the model only the types of values, flags, sources
    and macro results are used. *)
From Verif Require Import PyBase MatchFuncs SpecMatch SpecVariable SpecText SpecCalls.
Local Open Scope string_scope.
Local Open Scope list_scope.

(** the value and the flag a function returns, or the exception it raises *)
Notation outcome := (res (val * mflag)).
(** the flag says whether the match is valid *)
Definition checked (v : val) (b : bool) : outcome := Ok (v, FBool b).
(** the value replaces the match *)
Definition becomes (v : val) : outcome := Ok (v, FNone).
(** the match stays and a field is added *)
Definition adds_field (v : val) (k : key) (x : val) : outcome := Ok (v, FNew [(k, x)]).

Definition not_text (v : val) : Prop := forall s, v <> VStr s.
Definition not_list (v : val) : Prop := forall l, v <> VList l.
Definition not_dict (v : val) : Prop := forall d, v <> VDict d.

(** ** is a text in a value: a part of a text, an item of a list, a key of a dictionary *)
Inductive text_in (p : str) : val -> res bool -> Prop :=
| ti_text s b : (b = true <-> exists x y, s = x ++ p ++ y) -> text_in p (VStr s) (Ok b)
| ti_list l b : (b = true <-> In (VStr p) l) -> text_in p (VList l) (Ok b)
| ti_dict d b : (b = true <-> exists v, In (KS p, v) d) -> text_in p (VDict d) (Ok b)
| ti_other v : not_text v -> not_list v -> not_dict v -> text_in p v (Raise TypeError).
Inductive exclude_gives (data : val) (p : str) : outcome -> Prop :=
| eg_ok b : text_in p data (Ok b) -> exclude_gives data p (checked data (negb b))
| eg_bad e : text_in p data (Raise e) -> exclude_gives data p (Raise e).
Inductive contains_gives (data : val) (ps : list str) : outcome -> Prop :=
| cg_some a p b : ps = a ++ p :: b -> Forall (fun q => text_in q data (Ok false)) a -> text_in p data (Ok true) ->
    contains_gives data ps (checked data true)
| cg_none : Forall (fun q => text_in q data (Ok false)) ps -> contains_gives data ps (checked data false)
| cg_bad p b e : ps = p :: b -> text_in p data (Raise e) -> contains_gives data ps (Raise e).

(** ** join, append, prepend *)
Inductive join_gives (sep : str) : val -> outcome -> Prop :=
| jg_texts l : join_gives sep (VList (map VStr l)) (becomes (VStr (join sep l)))
| jg_bad l v : In v l -> not_text v -> join_gives sep (VList l) (Raise TypeError)
| jg_other v : not_list v -> join_gives sep v (becomes v).
(** what a name stands for: the template variable, or itself *)
Inductive stands_for (vars : dict) (n : str) : val -> Prop :=
| sf_var v : dget vars (KS n) = Some v -> stands_for vars n v
| sf_self : dget vars (KS n) = None -> stands_for vars n (VStr n).
Inductive append_gives (front : bool) (vars : dict) (n : str) : val -> outcome -> Prop :=
| ag_text s t : stands_for vars n (VStr t) -> append_gives front vars n (VStr s) (becomes (VStr (if front then t ++ s else s ++ t)))
| ag_bad s v : stands_for vars n v -> not_text v -> append_gives front vars n (VStr s) (Raise TypeError)
| ag_list l v : stands_for vars n v -> append_gives front vars n (VList l) (becomes (VList (if front then v :: l else l ++ [v])))
| ag_other v : not_text v -> not_list v -> append_gives front vars n v (becomes v).

(** ** replaceall, resuball: what is replaced, and by what *)
Definition swap := (val * key)%type.
(** [plain]: what a variable that is a text stands for *)
Definition swaps (plain : str -> option str) (vars : dict) (new : str) (arg : str) : list swap :=
  match dget vars (KS arg) with
  | None => [(VStr arg, KS new)]
  | Some (VStr s) => match plain s with Some p => [(VStr p, KS new)] | None => [] end
  | Some (VList l) => map (fun o => (o, KS new)) l
  | Some (VDict d) => flat_map (fun kv => match snd kv with
                                          | VList l => map (fun o => (o, fst kv)) l
                                          | v => [(v, fst kv)] end) d
  | Some _ => []
  end.
(** one after the other, on the text that the earlier ones made; what is no text is passed over *)
Inductive swapped (one : str -> str -> str -> res str -> Prop) : list swap -> str -> res str -> Prop :=
| sw_end s : swapped one [] s (Ok s)
| sw_other v k t s r : not_text v -> swapped one t s r -> swapped one ((v, k) :: t) s r
| sw_key old k t s : (forall n, k <> KS n) -> swapped one ((VStr old, k) :: t) s (Raise TypeError)
| sw_text old new t s s' r : one old new s (Ok s') -> swapped one t s' r -> swapped one ((VStr old, KS new) :: t) s r
| sw_bad old new t s e : one old new s (Raise e) -> swapped one ((VStr old, KS new) :: t) s (Raise e).
(** a single argument is deleted *)
Inductive new_and_olds : list str -> str -> list str -> Prop :=
| no_none : new_and_olds [] [] []
| no_one old : new_and_olds [old] [] [old]
| no_more new old olds : new_and_olds (new :: old :: olds) new (old :: olds).
Inductive swap_gives (one : str -> str -> str -> res str -> Prop) (plain : str -> option str) (vars : dict) (data : str) (args : list str) : outcome -> Prop :=
| sg_ok new olds s : new_and_olds args new olds -> swapped one (flat_map (swaps plain vars new) olds) data (Ok s) -> swap_gives one plain vars data args (becomes (VStr s))
| sg_bad new olds e : new_and_olds args new olds -> swapped one (flat_map (swaps plain vars new) olds) data (Raise e) -> swap_gives one plain vars data args (Raise e).
(** replacing a text everywhere; an empty one is in front of every character and at the end *)
Inductive replace_gives : str -> str -> str -> res str -> Prop :=
| rg_text old new s l : old <> [] -> cut_at old s l -> replace_gives old new s (Ok (join new l))
| rg_empty new s : replace_gives [] new s (Ok (concat (map (fun c => new ++ [c]) s) ++ new)).

(** ** truncate: the first [n] words, or for a negative [n] all words but the last -[n] *)
Inductive truncate_gives (n : Z) : val -> outcome -> Prop :=
| tg_first s a b : cut_at (t_ " ") s (a ++ b) -> Z.of_nat (length a) = n -> truncate_gives n (VStr s) (becomes (VStr (join (t_ " ") a)))
| tg_short s l : cut_at (t_ " ") s l -> (Z.of_nat (length l) < n)%Z -> truncate_gives n (VStr s) (becomes (VStr s))
| tg_last s a b : cut_at (t_ " ") s (a ++ b) -> (n < 0)%Z -> Z.of_nat (length b) = (- n)%Z -> truncate_gives n (VStr s) (becomes (VStr (join (t_ " ") a)))
| tg_all s l : cut_at (t_ " ") s l -> (n < - Z.of_nat (length l))%Z -> truncate_gives n (VStr s) (becomes (VStr []))
| tg_bad v : not_text v -> truncate_gives n v (Raise AttributeError).

(** ** unrange: the pieces around every range character; a range from the last piece before it to the
    first piece after it is written out.  A range that ends with no number leaves the text alone *)
Inductive written_out : list (list str) -> res (option (list str)) -> Prop :=
| wo_none : written_out [] (Ok (Some []))
| wo_last c : written_out [c] (Ok (Some c))
| wo_no_number a s b t : py_int s = None -> written_out ((a ++ [s]) :: b :: t) (Raise ValueError)
| wo_no_end a s t x : py_int s = Some x -> written_out ((a ++ [s]) :: [] :: t) (Raise IndexError)
| wo_stop a s h b t x : py_int s = Some x -> py_int h = None -> written_out ((a ++ [s]) :: (h :: b) :: t) (Ok None)
| wo_range a s h b t x y l : py_int s = Some x -> py_int h = Some y -> written_out ((h :: b) :: t) (Ok (Some l)) ->
    written_out ((a ++ [s]) :: (h :: b) :: t) (Ok (Some ((a ++ [s]) ++ map str_of_Z (between_z x y) ++ l)))
| wo_later a s h b t x y : py_int s = Some x -> py_int h = Some y -> written_out ((h :: b) :: t) (Ok None) -> written_out ((a ++ [s]) :: (h :: b) :: t) (Ok None)
| wo_fails a s h b t x y e : py_int s = Some x -> py_int h = Some y -> written_out ((h :: b) :: t) (Raise e) -> written_out ((a ++ [s]) :: (h :: b) :: t) (Raise e).
Definition chunks (rc jc s : str) (cs : list (list str)) : Prop :=
  exists parts fields, cut_at rc s parts /\ Forall2 (cut_at jc) parts fields /\ cs = from_first (map (filter nonempty) fields).
Inductive unrange_gives (rc jc : str) (s : str) : outcome -> Prop :=
| ug_empty x y : s = x ++ rc ++ y -> rc = [] \/ jc = [] -> unrange_gives rc jc s (Raise ValueError)
| ug_plain : (forall x y, s <> x ++ rc ++ y) -> unrange_gives rc jc s (becomes (VStr s))
| ug_range x y cs l : s = x ++ rc ++ y -> rc <> [] -> jc <> [] -> chunks rc jc s cs -> written_out cs (Ok (Some l)) -> unrange_gives rc jc s (becomes (VStr (join jc l)))
| ug_left x y cs : s = x ++ rc ++ y -> rc <> [] -> jc <> [] -> chunks rc jc s cs -> written_out cs (Ok None) -> unrange_gives rc jc s (becomes (VStr s))
| ug_bad x y cs e : s = x ++ rc ++ y -> rc <> [] -> jc <> [] -> chunks rc jc s cs -> written_out cs (Raise e) -> unrange_gives rc jc s (Raise e).

(** ** lookups *)
(** the names in a dotted path, white space around them is dropped *)
Definition dotted_path (n : str) (l : list str) : Prop := exists parts, cut_at (t_ ".") n parts /\ Forall2 (stripped true true white) parts l.
(** what is missing on the way is an empty dictionary *)
Inductive walks : list str -> val -> res val -> Prop :=
| wk_here v : walks [] v (Ok v)
| wk_in d k x t r : dget d (KS k) = Some x -> walks t x r -> walks (k :: t) (VDict d) r
| wk_missing d k t : dget d (KS k) = None -> walks (k :: t) (VDict d) (Ok (VDict []))
| wk_bad v k t : not_dict v -> walks (k :: t) v (Raise AttributeError).
(** True is the number 1, False the number 0 *)
Inductive same_number : val -> val -> Prop :=
| sn_true : same_number (VBool true) (VInt 1)
| sn_false : same_number (VBool false) (VInt 0)
| sn_self v : (forall b, v <> VBool b) -> same_number v v.
(** the items of a list, or the characters of a text *)
Inductive sequence : val -> list val -> Prop :=
| sq_list l : sequence (VList l) l
| sq_text s : sequence (VStr s) (map (fun c => VStr [c]) s).
(** position [i], from the end if it is negative *)
Definition at_position (l : list val) (i : Z) (x : val) : Prop :=
  exists a b, l = a ++ x :: b /\ (i = Z.of_nat (length a) \/ i = (- Z.of_nat (length (x :: b)))%Z).
Inductive asked : val -> val -> res (option val) -> Prop :=
| as_dict d v v' k : same_number v v' -> as_key v' k -> asked (VDict d) v (Ok (dget d k))
| as_no_key d v v' : same_number v v' -> (forall k, ~ as_key v' k) -> asked (VDict d) v (Raise TypeError)
| as_item t l v i x : sequence t l -> same_number v (VInt i) -> at_position l i x -> asked t v (Ok (Some x))
| as_outside t l v i : sequence t l -> same_number v (VInt i) -> (forall x, ~ at_position l i x) -> asked t v (Raise IndexError)
| as_no_number t l v : sequence t l -> (forall i, ~ same_number v (VInt i)) -> asked t v (Raise TypeError)
| as_other t v : not_dict t -> (forall l, ~ sequence t l) -> asked t v (Raise TypeError).
Inductive answers (add : option key) (data : val) : option val -> outcome -> Prop :=
| an_none : answers add data None (becomes data)
| an_field k x : add = Some k -> answers add data (Some x) (adds_field data k x)
| an_value x : add = None -> answers add data (Some x) (becomes x).
(** the keys of a dictionary as values *)
Inductive key_as : key -> val -> Prop := ka_text s : key_as (KS s) (VStr s) | ka_number z : key_as (KI z) (VInt z) | ka_none : key_as KNone VNone.
Inductive iterates : val -> res (list val) -> Prop :=
| it_list l : iterates (VList l) (Ok l)
| it_dict d l : Forall2 (fun kv v => key_as (fst kv) v) d l -> iterates (VDict d) (Ok l)
| it_text s : iterates (VStr s) (Ok (map (fun c => VStr [c]) s))
| it_bad v : not_list v -> not_dict v -> not_text v -> iterates v (Raise TypeError).
(** the first result that has the group *)
Inductive group_table (n : str) : list val -> res val -> Prop :=
| gt_none : group_table n [] (Ok (VDict []))
| gt_here d x t : dget d (KS n) = Some x -> group_table n (VDict d :: t) (Ok x)
| gt_in_list r t : not_dict r -> text_in n r (Ok true) -> group_table n (r :: t) (Raise TypeError)
| gt_bad r t e : text_in n r (Raise e) -> group_table n (r :: t) (Raise e)
| gt_next r t x : text_in n r (Ok false) -> group_table n t x -> group_table n (r :: t) x.
(** the first template of that name: the results of its first input, or all of them *)
Inductive template_table (ts : list (str * val)) (n : str) : option (res val) -> Prop :=
| tt_none : (forall r, ~ In (n, r) ts) -> template_table ts n None
| tt_list a b x l : ts = a ++ (n, VList (x :: l)) :: b -> (forall r, ~ In (n, r) a) -> template_table ts n (Some (Ok x))
| tt_empty a b : ts = a ++ (n, VList []) :: b -> (forall r, ~ In (n, r) a) -> template_table ts n (Some (Raise IndexError))
| tt_one a b r : ts = a ++ (n, r) :: b -> (forall r', ~ In (n, r') a) -> not_list r -> template_table ts n (Some (Ok r)).
(** where a lookup starts and the path from there *)
Inductive starts_at (lookups : val) (ts : list (str * val)) (results : val) : source -> res (val * list str) -> Prop :=
| sa_name n p : dotted_path n p -> starts_at lookups ts results (ByName n) (Ok (lookups, p))
| sa_template s n p v : dotted_path s (n :: p) -> template_table ts n (Some (Ok v)) -> starts_at lookups ts results (ByTemplate s) (Ok (v, p))
| sa_template_bad s n p e : dotted_path s (n :: p) -> template_table ts n (Some (Raise e)) -> starts_at lookups ts results (ByTemplate s) (Raise e)
| sa_no_template s n p : dotted_path s (n :: p) -> template_table ts n None -> starts_at lookups ts results (ByTemplate s) (Ok (VDict [], n :: p))
| sa_group s n p l v : dotted_path s (n :: p) -> iterates results (Ok l) -> group_table n l (Ok v) -> starts_at lookups ts results (ByGroup s) (Ok (v, p))
| sa_group_bad s n p l e : dotted_path s (n :: p) -> iterates results (Ok l) -> group_table n l (Raise e) -> starts_at lookups ts results (ByGroup s) (Raise e)
| sa_no_results s e : iterates results (Raise e) -> starts_at lookups ts results (ByGroup s) (Raise e).
Inductive lookup_gives (lookups : val) (ts : list (str * val)) (results data : val) (add : option key) : source -> outcome -> Prop :=
| lg_nothing : lookup_gives lookups ts results data add NoSource (becomes data)
| lg_no_start src e : starts_at lookups ts results src (Raise e) -> lookup_gives lookups ts results data add src (Raise e)
| lg_no_way src t p e : starts_at lookups ts results src (Ok (t, p)) -> walks p t (Raise e) -> lookup_gives lookups ts results data add src (Raise e)
| lg_not_asked src t p table e : starts_at lookups ts results src (Ok (t, p)) -> walks p t (Ok table) -> asked table data (Raise e) -> lookup_gives lookups ts results data add src (Raise e)
| lg_asked src t p table o r : starts_at lookups ts results src (Ok (t, p)) -> walks p t (Ok table) -> asked table data (Ok o) -> answers add data o r -> lookup_gives lookups ts results data add src r.

(** the first key that is a part of the text; a None found is nothing *)
Inductive key_inside (data : str) : dict -> res (option val) -> Prop :=
| ki_none : key_inside data [] (Ok None)
| ki_here x y k v d : data = x ++ k ++ y -> key_inside data ((KS k, v) :: d) (Ok (Some v))
| ki_next k v d r : (forall x y, data <> x ++ k ++ y) -> key_inside data d r -> key_inside data ((KS k, v) :: d) r
| ki_bad k v d : (forall s, k <> KS s) -> key_inside data ((k, v) :: d) (Raise TypeError).
Inductive rlookup_gives (lookups : val) (data name : str) (add : option key) : outcome -> Prop :=
| rl_no_way p e : dotted_path name p -> walks p lookups (Raise e) -> rlookup_gives lookups data name add (Raise e)
| rl_no_table p v : dotted_path name p -> walks p lookups (Ok v) -> not_dict v -> rlookup_gives lookups data name add (becomes (VStr data))
| rl_bad p d e : dotted_path name p -> walks p lookups (Ok (VDict d)) -> key_inside data d (Raise e) -> rlookup_gives lookups data name add (Raise e)
| rl_none p d o : dotted_path name p -> walks p lookups (Ok (VDict d)) -> key_inside data d (Ok o) -> o = None \/ o = Some VNone -> rlookup_gives lookups data name add (becomes (VStr data))
| rl_found p d x r : dotted_path name p -> walks p lookups (Ok (VDict d)) -> key_inside data d (Ok (Some x)) -> x <> VNone -> answers add (VStr data) (Some x) r -> rlookup_gives lookups data name add r.

(** patterns: every pattern has to be a text; the first key that has one that matches, or with multimatch
    every key as often as it has one *)
Section Patterns.
Variable matching : str -> str -> bool.
Inductive patterns_of : val -> res (list str) -> Prop :=
| po_texts v l : iterates v (Ok (map VStr l)) -> patterns_of v (Ok l)
| po_bad v l x : iterates v (Ok l) -> In x l -> not_text x -> patterns_of v (Raise TypeError)
| po_none v e : iterates v (Raise e) -> patterns_of v (Raise e).
Inductive keys_found (data : str) : bool -> dict -> res (list key) -> Prop :=
| kf_end multi : keys_found data multi [] (Ok [])
| kf_bad multi k v d e : patterns_of v (Raise e) -> keys_found data multi ((k, v) :: d) (Raise e)
| kf_first k v d l p : patterns_of v (Ok l) -> In p l -> matching data p = true -> keys_found data false ((k, v) :: d) (Ok [k])
| kf_next k v d l r : patterns_of v (Ok l) -> Forall (fun p => matching data p = false) l -> keys_found data false d r -> keys_found data false ((k, v) :: d) r
| kf_all k v d l ks : patterns_of v (Ok l) -> keys_found data true d (Ok ks) -> keys_found data true ((k, v) :: d) (Ok (repeat k (length (filter (matching data) l)) ++ ks))
| kf_later k v d l e : patterns_of v (Ok l) -> keys_found data true d (Raise e) -> keys_found data true ((k, v) :: d) (Raise e).
(** the keys found are recorded in both tables of variables *)
Inductive recorded (rec : option key) (v : val) (env : menv) : menv -> Prop :=
| rc_no : rec = None -> recorded rec v env env
| rc_yes k : rec = Some k -> recorded rec v env {| m_vars := dset (m_vars env) k v; m_gvars := dset (m_gvars env) k v |}.
Inductive gpv_gives (lookups : val) (env : menv) (data name : str) (add rec : option key) (multi : bool) : res (menv * (val * mflag)) -> Prop :=
| gv_no_way p e : dotted_path name p -> walks p lookups (Raise e) -> gpv_gives lookups env data name add rec multi (Raise e)
| gv_no_table p v : dotted_path name p -> walks p lookups (Ok v) -> not_dict v -> gpv_gives lookups env data name add rec multi (Ok (env, (VStr data, FNone)))
| gv_bad p d e : dotted_path name p -> walks p lookups (Ok (VDict d)) -> keys_found data multi d (Raise e) -> gpv_gives lookups env data name add rec multi (Raise e)
| gv_none p d env' : dotted_path name p -> walks p lookups (Ok (VDict d)) -> keys_found data multi d (Ok []) -> recorded rec (VList []) env env' ->
    gpv_gives lookups env data name add rec multi (Ok (env', (VStr data, FNone)))
| gv_found p d ks l env' r : dotted_path name p -> walks p lookups (Ok (VDict d)) -> keys_found data multi d (Ok ks) -> ks <> [] -> Forall2 key_as ks l ->
    recorded rec (VList l) env env' -> answers add (VStr data) (Some (VList l)) (Ok r) -> gpv_gives lookups env data name add rec multi (Ok (env', r)).
End Patterns.

(** ** count, set, let *)
Inductive number_of : val -> Z -> Prop :=
| nm_int z : number_of (VInt z) z
| nm_true : number_of (VBool true) 1
| nm_false : number_of (VBool false) 0.
Inductive counted (d : dict) : option key -> res dict -> Prop :=
| cn_no : counted d None (Ok d)
| cn_first k : dget d k = None -> counted d (Some k) (Ok (dset d k (VInt 1)))
| cn_next k v z : dget d k = Some v -> number_of v z -> counted d (Some k) (Ok (dset d k (VInt (z + 1))))
| cn_bad k v : dget d k = Some v -> (forall z, ~ number_of v z) -> counted d (Some k) (Raise TypeError).
Inductive count_gives (env : menv) (data : val) (var glob : option key) : res (menv * (val * mflag)) -> Prop :=
| ct_ok vs gs : counted (m_vars env) var (Ok vs) -> counted (m_gvars env) glob (Ok gs) -> count_gives env data var glob (Ok ({| m_vars := vs; m_gvars := gs |}, (data, FNone)))
| ct_bad_var e : counted (m_vars env) var (Raise e) -> count_gives env data var glob (Raise e)
| ct_bad_glob vs e : counted (m_vars env) var (Ok vs) -> counted (m_gvars env) glob (Raise e) -> count_gives env data var glob (Raise e).
Inductive set_gives (env : menv) (value : val) (line : str) : val -> outcome -> Prop :=
| st_other s : ~ stripped false true white s line -> set_gives env value line (VStr s) (checked (VStr s) false)
| st_var s n x : stripped false true white s line -> value = VStr n -> dget (m_vars env) (KS n) = Some x -> set_gives env value line (VStr s) (becomes x)
| st_global s n x : stripped false true white s line -> value = VStr n -> dget (m_vars env) (KS n) = None -> dget (m_gvars env) (KS n) = Some x -> set_gives env value line (VStr s) (becomes x)
| st_value s : stripped false true white s line -> (forall n, value = VStr n -> dget (m_vars env) (KS n) = None /\ dget (m_gvars env) (KS n) = None) -> set_gives env value line (VStr s) (becomes value)
| st_bad v : not_text v -> set_gives env value line v (Raise AttributeError).
Inductive let_gives (data n : val) : option val -> outcome -> Prop :=
| le_value : let_gives data n None (becomes n)
| le_field k x : as_key n k -> let_gives data n (Some x) (adds_field data k x)
| le_bad x : (forall k, ~ as_key n k) -> let_gives data n (Some x) (Raise TypeError).

(** ** digits and numbers *)
Definition digits_only (s : str) : Prop := s <> [] /\ Forall (fun c => is_digitc c = true) s.
Definition decimal (s : str) : Prop := Forall (fun c => is_dec c = true) s.
Inductive isdigit_gives (sense : bool) : val -> outcome -> Prop :=
| dg_text s t b : stripped true true white s t -> (b = sense <-> digits_only t) -> isdigit_gives sense (VStr s) (checked (VStr s) b)
| dg_bad v : not_text v -> isdigit_gives sense v (Raise AttributeError).
(** [cmp] of two numbers; what has no digits only fails the check, digits that are not decimal are an error *)
Inductive compare_gives (cmp : N -> N -> Prop) : val -> val -> outcome -> Prop :=
| cp_bad v w : not_text v -> compare_gives cmp v w (Raise AttributeError)
| cp_not s t w : stripped true true white s t -> ~ digits_only t -> compare_gives cmp (VStr s) w (checked (VStr s) false)
| cp_bad2 s t w : stripped true true white s t -> digits_only t -> not_text w -> compare_gives cmp (VStr s) w (Raise AttributeError)
| cp_not2 s t s2 t2 : stripped true true white s t -> digits_only t -> stripped true true white s2 t2 -> ~ digits_only t2 -> compare_gives cmp (VStr s) (VStr s2) (checked (VStr s) false)
| cp_odd s t s2 t2 : stripped true true white s t -> digits_only t -> stripped true true white s2 t2 -> digits_only t2 -> ~ (decimal t /\ decimal t2) ->
    compare_gives cmp (VStr s) (VStr s2) (Raise ValueError)
| cp_numbers s t s2 t2 b : stripped true true white s t -> digits_only t -> stripped true true white s2 t2 -> digits_only t2 -> decimal t -> decimal t2 ->
    (b = true <-> cmp (digits_val t 0) (digits_val t2 0)) -> compare_gives cmp (VStr s) (VStr s2) (checked (VStr s) b).
Inductive to_int_gives : val -> outcome -> Prop :=
| to_text s z : py_int s = Some z -> to_int_gives (VStr s) (becomes (VInt z))
| to_no_number s : py_int s = None -> to_int_gives (VStr s) (becomes (VStr s))
| to_number v z : number_of v z -> to_int_gives v (becomes (VInt z))
| to_bad v : not_text v -> (forall z, ~ number_of v z) -> to_int_gives v (Raise TypeError).

(** ** searching: the flag says whether the pattern was found *)
Inductive search_gives (sense : bool) (found : res bool) (data : str) : outcome -> Prop :=
| sr_ok b : found = Ok b -> search_gives sense found data (checked (VStr data) (if sense then b else negb b))
| sr_bad e : found = Raise e -> search_gives sense found data (Raise e).
(** resub: a variable's text is taken literally, no text cannot be *)
Inductive resub_gives (sub : str -> str -> str -> nat -> res str) (escape : str -> str) (vars : dict) (data old new : str) (n : nat) : outcome -> Prop :=
| rs_ok p r : (dget vars (KS old) = None /\ p = old) \/ (exists o, dget vars (KS old) = Some (VStr o) /\ p = escape o) -> sub p new data n = Ok r -> resub_gives sub escape vars data old new n (becomes (VStr r))
| rs_fails p e : (dget vars (KS old) = None /\ p = old) \/ (exists o, dget vars (KS old) = Some (VStr o) /\ p = escape o) -> sub p new data n = Raise e -> resub_gives sub escape vars data old new n (Raise e)
| rs_bad v : dget vars (KS old) = Some v -> not_text v -> resub_gives sub escape vars data old new n (Raise TypeError).
