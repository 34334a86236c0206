(** * SpecGroupOutcome: every outcome of the group functions - the record's data, whether the group
    stays valid, and the exceptions (specification for C134).  From the model only the types of
    values, states, sources and macro results are used; the path and the saving of [itemize] with a
    path are the ones that C01 and the other properties of the results are about. *)
From Verif Require Import PyBase Regex Tree Results MatchFuncs GroupFuncs SpecMatch SpecGroup SpecVariable SpecText SpecCalls SpecOutcome.
Local Open Scope string_scope.
Local Open Scope list_scope.

(** the state after the function and whether the group is still valid, or the exception *)
Notation goutcome := (res (fstate * bool)).
(** the same state with other data *)
Definition holding (st : fstate) (v : val) : fstate :=
  {| fs_data := v; fs_path := fs_path st; fs_defaults := fs_defaults st; fs_cache := fs_cache st; fs_results := fs_results st; fs_env := fs_env st |}.
(** a test leaves the data alone *)
Inductive tests (st : fstate) (says : res bool -> Prop) : goutcome -> Prop :=
| ts_ok b : says (Ok b) -> tests st says (Ok (st, b))
| ts_bad e : says (Raise e) -> tests st says (Raise e).
(** a function that only changes the data *)
Inductive changes (st : fstate) (to : res val -> Prop) : goutcome -> Prop :=
| ch_ok v : to (Ok v) -> changes st to (Ok (holding st v, true))
| ch_bad e : to (Raise e) -> changes st to (Raise e).

(** ** tests for variables: the first one that decides *)
Inductive decided (by_ : str -> res (option bool) -> Prop) (otherwise : bool) : list str -> res bool -> Prop :=
| dc_none : decided by_ otherwise [] (Ok otherwise)
| dc_here v t b : by_ v (Ok (Some b)) -> decided by_ otherwise (v :: t) (Ok b)
| dc_next v t r : by_ v (Ok None) -> decided by_ otherwise t r -> decided by_ otherwise (v :: t) r
| dc_bad v t e : by_ v (Raise e) -> decided by_ otherwise (v :: t) (Raise e).
(** what is known about a variable: it is not there, it is there with its default, or with a value of its own *)
Inductive presence := Absent | OnlyDefault | Present.
Inductive found (st : fstate) (v : str) : res presence -> Prop :=
| fo_absent : text_in v (fs_data st) (Ok false) -> found st v (Ok Absent)
| fo_plain : text_in v (fs_data st) (Ok true) -> dget (fs_defaults st) (KS v) = None -> found st v (Ok Present)
| fo_default d x y : fs_data st = VDict d -> dget d (KS v) = Some x -> dget (fs_defaults st) (KS v) = Some y -> py_eq y x = true -> found st v (Ok OnlyDefault)
| fo_other d x y : fs_data st = VDict d -> dget d (KS v) = Some x -> dget (fs_defaults st) (KS v) = Some y -> py_eq y x = false -> found st v (Ok Present)
| fo_no_dict y : text_in v (fs_data st) (Ok true) -> not_dict (fs_data st) -> dget (fs_defaults st) (KS v) = Some y -> found st v (Raise TypeError)
| fo_bad e : text_in v (fs_data st) (Raise e) -> found st v (Raise e).
Inductive contains_by (st : fstate) (v : str) : res (option bool) -> Prop :=
| cb_absent : found st v (Ok Absent) -> contains_by st v (Ok None)
| cb_default : found st v (Ok OnlyDefault) -> contains_by st v (Ok (Some false))
| cb_present : found st v (Ok Present) -> contains_by st v (Ok (Some true))
| cb_bad e : found st v (Raise e) -> contains_by st v (Raise e).
Inductive containsall_by (st : fstate) (v : str) : res (option bool) -> Prop :=
| ca_absent : found st v (Ok Absent) -> containsall_by st v (Ok (Some false))
| ca_default : found st v (Ok OnlyDefault) -> containsall_by st v (Ok (Some false))
| ca_present : found st v (Ok Present) -> containsall_by st v (Ok None)
| ca_bad e : found st v (Raise e) -> containsall_by st v (Raise e).
(** a variable that has a default is never excluded, whatever its value *)
Inductive excluded (st : fstate) (v : str) : res bool -> Prop :=
| ex_absent : text_in v (fs_data st) (Ok false) -> excluded st v (Ok false)
| ex_default y : text_in v (fs_data st) (Ok true) -> dget (fs_defaults st) (KS v) = Some y -> excluded st v (Ok false)
| ex_plain : text_in v (fs_data st) (Ok true) -> dget (fs_defaults st) (KS v) = None -> excluded st v (Ok true)
| ex_bad e : text_in v (fs_data st) (Raise e) -> excluded st v (Raise e).
Inductive exclude_by (st : fstate) (v : str) : res (option bool) -> Prop :=
| eb_yes : excluded st v (Ok true) -> exclude_by st v (Ok (Some false))
| eb_no : excluded st v (Ok false) -> exclude_by st v (Ok None)
| eb_bad e : excluded st v (Raise e) -> exclude_by st v (Raise e).
Inductive excludeall_by (st : fstate) (v : str) : res (option bool) -> Prop :=
| xb_yes : excluded st v (Ok true) -> excludeall_by st v (Ok None)
| xb_no : excluded st v (Ok false) -> excludeall_by st v (Ok (Some true))
| xb_bad e : excluded st v (Raise e) -> excludeall_by st v (Raise e).

(** ** tests for values *)
(** the key a value is looked up as: True is 1 and False is 0 *)
Definition looked_up (v : val) (k : key) : Prop := exists w, same_number v w /\ as_key w k.
(** the argument, or the template variable it names *)
Inductive meant (vars : dict) (v : val) : res val -> Prop :=
| mt_var k x : looked_up v k -> dget vars k = Some x -> meant vars v (Ok x)
| mt_self k : looked_up v k -> dget vars k = None -> meant vars v (Ok v)
| mt_object n : v = VObj n -> meant vars v (Ok v)
| mt_bad : (forall k, ~ looked_up v k) -> (forall n, v <> VObj n) -> meant vars v (Raise TypeError).
Inductive equal_says (k : str) (value : val) (st : fstate) : res bool -> Prop :=
| eq_bad e : meant (e_vars (fs_env st)) value (Raise e) -> equal_says k value st (Raise e)
| eq_no_dict v : meant (e_vars (fs_env st)) value (Ok v) -> not_dict (fs_data st) -> equal_says k value st (Raise AttributeError)
| eq_there v d x : meant (e_vars (fs_env st)) value (Ok v) -> fs_data st = VDict d -> dget d (KS k) = Some x -> equal_says k value st (Ok (py_eq x v))
| eq_missing v d : meant (e_vars (fs_env st)) value (Ok v) -> fs_data st = VDict d -> dget d (KS k) = None -> equal_says k value st (Ok (py_eq VNone v)).
Inductive exclude_val_says (k : str) (value : val) (st : fstate) : res bool -> Prop :=
| ev_bad e : meant (e_vars (fs_env st)) value (Raise e) -> exclude_val_says k value st (Raise e)
| ev_no_dict v : meant (e_vars (fs_env st)) value (Ok v) -> not_dict (fs_data st) -> exclude_val_says k value st (Raise TypeError)
| ev_there v d x : meant (e_vars (fs_env st)) value (Ok v) -> fs_data st = VDict d -> dget d (KS k) = Some x -> exclude_val_says k value st (Ok (negb (py_eq x v)))
| ev_missing v d : meant (e_vars (fs_env st)) value (Ok v) -> fs_data st = VDict d -> dget d (KS k) = None -> exclude_val_says k value st (Ok true).
(** is a value in another one *)
Inductive value_in (v : val) : val -> res bool -> Prop :=
| vi_text p s b : v = VStr p -> (b = true <-> exists x y, s = x ++ p ++ y) -> value_in v (VStr s) (Ok b)
| vi_no_text s : not_text v -> value_in v (VStr s) (Raise TypeError)
| vi_list l b : (b = true <-> exists x, In x l /\ py_eq v x = true) -> value_in v (VList l) (Ok b)
| vi_dict d k b : looked_up v k -> (b = true <-> exists x, In (k, x) d) -> value_in v (VDict d) (Ok b)
| vi_no_key d : (forall k, ~ looked_up v k) -> value_in v (VDict d) (Raise TypeError)
| vi_other x : not_text x -> not_list x -> not_dict x -> value_in v x (Raise TypeError).
Inductive contains_val_says (k : str) (value : val) (st : fstate) : res bool -> Prop :=
| cv_bad e : meant (e_vars (fs_env st)) value (Raise e) -> contains_val_says k value st (Raise e)
| cv_no_dict v : meant (e_vars (fs_env st)) value (Ok v) -> not_dict (fs_data st) -> contains_val_says k value st (Raise AttributeError)
| cv_there v d x r : meant (e_vars (fs_env st)) value (Ok v) -> fs_data st = VDict d -> dget d (KS k) = Some x -> value_in v x r -> contains_val_says k value st r
| cv_missing v d r : meant (e_vars (fs_env st)) value (Ok v) -> fs_data st = VDict d -> dget d (KS k) = None -> value_in v (VStr []) r -> contains_val_says k value st r.

(** ** del, items2dict: [k] is taken out of a dictionary *)
Definition taken (d : dict) (k : key) (x : val) (d' : dict) : Prop := exists a b, d = a ++ (k, x) :: b /\ d' = a ++ b /\ forall y, ~ In (k, y) a.
Inductive del_to : list str -> val -> res val -> Prop :=
| dl_done v : del_to [] v (Ok v)
| dl_absent k t v r : text_in k v (Ok false) -> del_to t v r -> del_to (k :: t) v r
| dl_there k t d x d' r : taken d (KS k) x d' -> del_to t (VDict d') r -> del_to (k :: t) (VDict d) r
| dl_list k t l : text_in k (VList l) (Ok true) -> del_to (k :: t) (VList l) (Raise TypeError)
| dl_text k t s : text_in k (VStr s) (Ok true) -> del_to (k :: t) (VStr s) (Raise AttributeError)
| dl_bad k t v e : text_in k v (Raise e) -> del_to (k :: t) v (Raise e).
Inductive items2dict_gives (kn vn : str) (st : fstate) : goutcome -> Prop :=
| i2_no_key : text_in kn (fs_data st) (Ok false) -> items2dict_gives kn vn st (Ok (st, false))
| i2_no_value : text_in kn (fs_data st) (Ok true) -> text_in vn (fs_data st) (Ok false) -> items2dict_gives kn vn st (Ok (st, false))
| i2_pair d v d1 x d2 k : fs_data st = VDict d -> taken d (KS vn) v d1 -> taken d1 (KS kn) x d2 -> looked_up x k -> items2dict_gives kn vn st (Ok (holding st (VDict (dset d2 k v)), true))
| i2_unhashable d v d1 x d2 : fs_data st = VDict d -> taken d (KS vn) v d1 -> taken d1 (KS kn) x d2 -> (forall k, ~ looked_up x k) -> items2dict_gives kn vn st (Raise TypeError)
| i2_same d v d1 : kn = vn -> fs_data st = VDict d -> taken d (KS vn) v d1 -> (forall x, ~ In (KS kn, x) d1) -> items2dict_gives kn vn st (Raise KeyError)
| i2_list l : fs_data st = VList l -> text_in kn (VList l) (Ok true) -> text_in vn (VList l) (Ok true) -> items2dict_gives kn vn st (Raise TypeError)
| i2_text s : fs_data st = VStr s -> text_in kn (VStr s) (Ok true) -> text_in vn (VStr s) (Ok true) -> items2dict_gives kn vn st (Raise AttributeError)
| i2_bad e : text_in kn (fs_data st) (Raise e) -> items2dict_gives kn vn st (Raise e).

(** ** set and record *)
Inductive value_for (env : env) (source : str) (default : option val) : val -> Prop :=
| vf_var x : dget (e_vars env) (KS source) = Some x -> value_for env source default x
| vf_global x : dget (e_vars env) (KS source) = None -> dget (e_gvars env) (KS source) = Some x -> value_for env source default x
| vf_default x : dget (e_vars env) (KS source) = None -> dget (e_gvars env) (KS source) = None -> default = Some x -> value_for env source default x
| vf_self : dget (e_vars env) (KS source) = None -> dget (e_gvars env) (KS source) = None -> default = None -> value_for env source default (VStr source).
Inductive named (source : str) : option str -> str -> Prop := nm_target t : named source (Some t) t | nm_source : named source None source.
Inductive set_to (source : str) (target : option str) (default : option val) (st : fstate) : res val -> Prop :=
| se_dict d v t : fs_data st = VDict d -> value_for (fs_env st) source default v -> named source target t -> set_to source target default st (Ok (VDict (dset d (KS t) v)))
| se_bad : not_dict (fs_data st) -> set_to source target default st (Raise AttributeError).
Inductive record_gives (source : str) (target : option str) (st : fstate) : goutcome -> Prop :=
| re_absent : text_in source (fs_data st) (Ok false) -> record_gives source target st (Ok (st, true))
| re_there d v t : fs_data st = VDict d -> dget d (KS source) = Some v -> named source target t ->
    record_gives source target st (Ok ({| fs_data := fs_data st; fs_path := fs_path st; fs_defaults := fs_defaults st; fs_cache := fs_cache st; fs_results := fs_results st;
      fs_env := {| e_vars := dset (e_vars (fs_env st)) (KS t) v; e_gvars := dset (e_gvars (fs_env st)) (KS t) v |} |}, true))
| re_no_dict : not_dict (fs_data st) -> text_in source (fs_data st) (Ok true) -> record_gives source target st (Raise TypeError)
| re_bad e : text_in source (fs_data st) (Raise e) -> record_gives source target st (Raise e).

(** ** to_int: [int(x)], or else [float(x)], or else [x]; floats are objects *)
Section Floats.
Variables (float_of_str : str -> option nat) (int_of_obj : nat -> option Z) (float_of_obj : nat -> option nat).
Inductive number_for : val -> val -> Prop :=
| nf_int s z : py_int s = Some z -> number_for (VStr s) (VInt z)
| nf_float s n : py_int s = None -> float_of_str s = Some n -> number_for (VStr s) (VObj n)
| nf_text s : py_int s = None -> float_of_str s = None -> number_for (VStr s) (VStr s)
| nf_number v z : number_of v z -> number_for v (VInt z)
| nf_obj_int n z : int_of_obj n = Some z -> number_for (VObj n) (VInt z)
| nf_obj_float n m : int_of_obj n = None -> float_of_obj n = Some m -> number_for (VObj n) (VObj m)
| nf_obj n : int_of_obj n = None -> float_of_obj n = None -> number_for (VObj n) (VObj n)
| nf_none : number_for VNone VNone
| nf_list l : number_for (VList l) (VList l)
| nf_dict d : number_for (VDict d) (VDict d).
(** with intlist, the items of a list too *)
Inductive converted (intlist : bool) : val -> val -> Prop :=
| cv_list l l' : intlist = true -> Forall2 number_for l l' -> converted intlist (VList l) (VList l')
| cv_one v w : (intlist = false \/ not_list v) -> number_for v w -> converted intlist v w.
(** one key after the other; keys that are not there are skipped *)
Inductive keys_converted (intlist : bool) : list key -> dict -> dict -> Prop :=
| kc_done d : keys_converted intlist [] d d
| kc_absent k t d d' : dget d k = None -> keys_converted intlist t d d' -> keys_converted intlist (k :: t) d d'
| kc_there k t d x y d' : dget d k = Some x -> converted intlist x y -> keys_converted intlist t (dset d k y) d' -> keys_converted intlist (k :: t) d d'.
Inductive to_int_to (keys : list str) (intlist : bool) : val -> res val -> Prop :=
| tn_some d d' : keys <> [] -> keys_converted intlist (map KS keys) d d' -> to_int_to keys intlist (VDict d) (Ok (VDict d'))
| tn_all d d' : keys = [] -> keys_converted intlist (map fst d) d d' -> to_int_to keys intlist (VDict d) (Ok (VDict d'))
| tn_no_keys v : not_dict v -> keys = [] -> to_int_to keys intlist v (Raise AttributeError)
| tn_no_dict v : not_dict v -> keys <> [] -> to_int_to keys intlist v (Raise TypeError).
End Floats.

(** ** expand: the value is put below the dictionaries that the parts of the key name *)
Inductive put_below : list str -> val -> val -> res val -> Prop :=
| pb_here k v d : put_below [k] v (VDict d) (Ok (VDict (dset d (KS k) v)))
| pb_lost k v x : not_dict x -> put_below [k] v x (Ok x)
| pb_down k k' t v d x y : dget d (KS k) = Some x -> put_below (k' :: t) v x (Ok y) -> put_below (k :: k' :: t) v (VDict d) (Ok (VDict (dset d (KS k) y)))
| pb_new k k' t v d y : dget d (KS k) = None -> put_below (k' :: t) v (VDict []) (Ok y) -> put_below (k :: k' :: t) v (VDict d) (Ok (VDict (dset d (KS k) y)))
| pb_fails k k' t v d x e : dget d (KS k) = Some x -> put_below (k' :: t) v x (Raise e) -> put_below (k :: k' :: t) v (VDict d) (Raise e)
| pb_bad k k' t v x : not_dict x -> put_below (k :: k' :: t) v x (Raise AttributeError).
Inductive expanded : dict -> val -> res val -> Prop :=
| ep_done v : expanded [] v (Ok v)
| ep_next n x t parts v v' r : cut_at (t_ ".") n parts -> put_below parts x v (Ok v') -> expanded t v' r -> expanded ((KS n, x) :: t) v r
| ep_fails n x t parts v e : cut_at (t_ ".") n parts -> put_below parts x v (Raise e) -> expanded ((KS n, x) :: t) v (Raise e)
| ep_bad k x t v : (forall n, k <> KS n) -> expanded ((k, x) :: t) v (Raise AttributeError).
Inductive expand_to : val -> res val -> Prop :=
| et_dict d r : expanded d (VDict []) r -> expand_to (VDict d) r
| et_other v : not_dict v -> expand_to v (Ok v).

(** ** itemize *)
(** an element of what [dict.update] gets: any two items are a key and a value *)
Inductive pair_in (v : val) : res (key * val) -> Prop :=
| pi_pair k x k' : iterates v (Ok [k; x]) -> looked_up k k' -> pair_in v (Ok (k', x))
| pi_no_key k x : iterates v (Ok [k; x]) -> (forall k', ~ looked_up k k') -> pair_in v (Raise TypeError)
| pi_length l : iterates v (Ok l) -> length l <> 2 -> pair_in v (Raise ValueError)
| pi_none e : iterates v (Raise e) -> pair_in v (Raise e).
Inductive pairs_added : list val -> dict -> res dict -> Prop :=
| pd_done d : pairs_added [] d (Ok d)
| pd_next v k x t d r : pair_in v (Ok (k, x)) -> pairs_added t (dset d k x) r -> pairs_added (v :: t) d r
| pd_bad v t d e : pair_in v (Raise e) -> pairs_added (v :: t) d (Raise e).
Inductive updated (d : dict) : val -> res dict -> Prop :=
| ud_dict e : updated d (VDict e) (Ok (dupdate d e))
| ud_pairs v l r : not_dict v -> iterates v (Ok l) -> pairs_added l d r -> updated d v r
| ud_bad v e : not_dict v -> iterates v (Raise e) -> updated d v (Raise e).
(** the last item of a path gets a single asterisk *)
Inductive starred : list str -> res (list str) -> Prop :=
| sr_last a p : starred (a ++ [p]) (Ok (a ++ [single_star p]))
| sr_empty : starred [] (Raise IndexError).
Inductive itemize_gives (k2i : bool) (k path : str) (st : fstate) : goutcome -> Prop :=
| iz_absent : text_in k (fs_data st) (Ok false) -> itemize_gives k2i k path st (Ok (st, false))
| iz_bad e : text_in k (fs_data st) (Raise e) -> itemize_gives k2i k path st (Raise e)
(* without a path the value replaces the data and the group's own path gets an asterisk *)
| iz_no_path e : text_in k (fs_data st) (Ok true) -> path = [] -> starred (fs_path st) (Raise e) -> itemize_gives k2i k path st (Raise e)
| iz_no_update p e : text_in k (fs_data st) (Ok true) -> path = [] -> starred (fs_path st) (Ok p) -> updated (fs_cache st) (fs_data st) (Raise e) -> itemize_gives k2i k path st (Raise e)
| iz_value p d v : path = [] -> starred (fs_path st) (Ok p) -> fs_data st = VDict d -> dget d (KS k) = Some v ->
    itemize_gives k2i k path st (Ok ({| fs_data := v; fs_path := p; fs_defaults := fs_defaults st; fs_cache := dupdate (fs_cache st) d; fs_results := fs_results st; fs_env := fs_env st |}, true))
| iz_list p l c : text_in k (fs_data st) (Ok true) -> path = [] -> starred (fs_path st) (Ok p) -> fs_data st = VList l -> updated (fs_cache st) (VList l) (Ok c) -> itemize_gives k2i k path st (Raise TypeError)
| iz_text p s c : text_in k (fs_data st) (Ok true) -> path = [] -> starred (fs_path st) (Ok p) -> fs_data st = VStr s -> updated (fs_cache st) (VStr s) (Ok c) -> itemize_gives k2i k path st (Raise AttributeError)
(* with a path the value is saved there *)
| iz_path_no_update e : text_in k (fs_data st) (Ok true) -> path <> [] -> updated (fs_cache st) (fs_data st) (Raise e) -> itemize_gives k2i k path st (Raise e)
| iz_path_bad c ps p e : text_in k (fs_data st) (Ok true) -> path <> [] -> updated (fs_cache st) (fs_data st) (Ok c) -> dotted_path path ps -> starred ps (Ok p) ->
    form_path (e_vars (fs_env st)) p (fs_data st) c = Raise e -> itemize_gives k2i k path st (Raise e)
| iz_no_dict c ps p o w c1 : text_in k (fs_data st) (Ok true) -> path <> [] -> updated (fs_cache st) (fs_data st) (Ok c) -> dotted_path path ps -> starred ps (Ok p) ->
    form_path (e_vars (fs_env st)) p (fs_data st) c = Ok (o, w, c1) -> not_dict w -> itemize_gives k2i k path st (Raise TypeError)
| iz_used_up c ps p o d c1 : text_in k (fs_data st) (Ok true) -> path <> [] -> updated (fs_cache st) (fs_data st) (Ok c) -> dotted_path path ps -> starred ps (Ok p) ->
    form_path (e_vars (fs_env st)) p (fs_data st) c = Ok (o, VDict d, c1) -> dget d (KS k) = None -> itemize_gives k2i k path st (Raise KeyError)
| iz_nowhere c ps p o d c1 v : text_in k (fs_data st) (Ok true) -> path <> [] -> updated (fs_cache st) (fs_data st) (Ok c) -> dotted_path path ps -> starred ps (Ok p) ->
    form_path (e_vars (fs_env st)) p (fs_data st) c = Ok (o, VDict d, c1) -> dget d (KS k) = Some v -> o = None \/ o = Some [] -> itemize_gives k2i k path st (Raise TypeError)
| iz_saved c ps p i is d c1 v r : text_in k (fs_data st) (Ok true) -> path <> [] -> updated (fs_cache st) (fs_data st) (Ok c) -> dotted_path path ps -> starred ps (Ok p) ->
    form_path (e_vars (fs_env st)) p (fs_data st) c = Ok (Some (i :: is), VDict d, c1) -> dget d (KS k) = Some v -> save_cur k2i false (fs_results st) (i :: is) v = Ok r ->
    itemize_gives k2i k path st (Ok ({| fs_data := VDict d; fs_path := fs_path st; fs_defaults := fs_defaults st; fs_cache := c1; fs_results := r; fs_env := fs_env st |}, true))
| iz_not_saved c ps p i is d c1 v e : text_in k (fs_data st) (Ok true) -> path <> [] -> updated (fs_cache st) (fs_data st) (Ok c) -> dotted_path path ps -> starred ps (Ok p) ->
    form_path (e_vars (fs_env st)) p (fs_data st) c = Ok (Some (i :: is), VDict d, c1) -> dget d (KS k) = Some v -> save_cur k2i false (fs_results st) (i :: is) v = Raise e ->
    itemize_gives k2i k path st (Raise e).

(** ** macro: one after the other; unknown names are skipped *)
Inductive macros_run (known : list (str * (val -> res gmret))) : list str -> val -> res (val * bool) -> Prop :=
| mr_done v : macros_run known [] v (Ok (v, true))
| mr_unknown n t v r : (forall m, ~ In (n, m) known) -> macros_run known t v r -> macros_run known (n :: t) v r
| mr_false n m t v : first_named known n m -> m v = Ok MFalse -> macros_run known (n :: t) v (Ok (v, false))
| mr_same n m t v r : first_named known n m -> m v = Ok MGoOn -> macros_run known t v r -> macros_run known (n :: t) v r
| mr_new n m t v w r : first_named known n m -> m v = Ok (MNew w) -> macros_run known t w r -> macros_run known (n :: t) v r
| mr_bad n m t v e : first_named known n m -> m v = Raise e -> macros_run known (n :: t) v (Raise e)
with first_named (known : list (str * (val -> res gmret))) : str -> (val -> res gmret) -> Prop :=
| fn_first n m a b : known = a ++ (n, m) :: b -> (forall m', ~ In (n, m') a) -> first_named known n m.
(** names are separated by commas, white space around them is dropped *)
Definition macro_words (args : list str) (names : list str) : Prop :=
  exists parts, Forall2 (cut_at (t_ ",")) args parts /\ Forall2 (stripped true true white) (concat parts) names.
Inductive macro_gives (known : list (str * (val -> res gmret))) (args : list str) (st : fstate) : goutcome -> Prop :=
| mg_ok names v b : macro_words args names -> macros_run known names (fs_data st) (Ok (v, b)) -> macro_gives known args st (Ok (holding st v, b))
| mg_bad names e : macro_words args names -> macros_run known names (fs_data st) (Raise e) -> macro_gives known args st (Raise e).

(** ** sformat: [fmt] is str.format with keyword arguments, whose names are texts *)
Section Format.
Variable fmt : str -> dict -> res str.
Inductive formatted (s : str) (d : dict) : res str -> Prop :=
| fm_texts r : text_keys d -> fmt s d = r -> formatted s d r
| fm_bad : ~ text_keys d -> formatted s d (Raise TypeError).
Inductive sformat_to (s field : str) (st : fstate) : res val -> Prop :=
| sm_record d t : fs_data st = VDict d -> formatted s d (Ok t) -> sformat_to s field st (Ok (VDict (dset d (KS field) (VStr t))))
| sm_bad d e : fs_data st = VDict d -> formatted s d (Raise e) -> e <> KeyError -> sformat_to s field st (Raise e)
(* a name is missing: the record with the template variables and the global variables *)
| sm_vars d t : fs_data st = VDict d -> formatted s d (Raise KeyError) -> formatted s (dupdate (dupdate (e_gvars (fs_env st)) (e_vars (fs_env st))) d) (Ok t) ->
    sformat_to s field st (Ok (VDict (dset d (KS field) (VStr t))))
| sm_missing d : fs_data st = VDict d -> formatted s d (Raise KeyError) -> formatted s (dupdate (dupdate (e_gvars (fs_env st)) (e_vars (fs_env st))) d) (Raise KeyError) ->
    sformat_to s field st (Ok (VDict d))
| sm_vars_bad d e : fs_data st = VDict d -> formatted s d (Raise KeyError) -> formatted s (dupdate (dupdate (e_gvars (fs_env st)) (e_vars (fs_env st))) d) (Raise e) -> e <> KeyError ->
    sformat_to s field st (Raise e)
| sm_no_dict : not_dict (fs_data st) -> sformat_to s field st (Raise TypeError).
End Format.

(** ** to_ip: [ip_of] is the match function to_ip, nothing when it raises *)
Section Ip.
Variable ip_of : str -> option val.
Inductive to_ip_to (ipk maskk : str) : val -> res val -> Prop :=
| ip_no_ip v : text_in ipk v (Ok false) -> to_ip_to ipk maskk v (Ok v)
| ip_no_mask v : text_in ipk v (Ok true) -> text_in maskk v (Ok false) -> to_ip_to ipk maskk v (Ok v)
| ip_made d ip mask x : dget d (KS ipk) = Some ip -> dget d (KS maskk) = Some mask -> ip_of (py_str ip ++ t_ "/" ++ py_str mask) = Some x -> to_ip_to ipk maskk (VDict d) (Ok (VDict (dset d (KS ipk) x)))
| ip_not_made d ip mask : dget d (KS ipk) = Some ip -> dget d (KS maskk) = Some mask -> ip_of (py_str ip ++ t_ "/" ++ py_str mask) = None -> to_ip_to ipk maskk (VDict d) (Ok (VDict d))
| ip_no_dict v : not_dict v -> text_in ipk v (Ok true) -> text_in maskk v (Ok true) -> to_ip_to ipk maskk v (Raise TypeError)
| ip_bad v e : text_in ipk v (Raise e) -> to_ip_to ipk maskk v (Raise e).
End Ip.

(** ** lookup *)
(** where the table is looked for, and the path from there; groups of the same input first *)
Inductive begins (lookups : val) (ts : list (str * val)) (main results : val) : source -> res (val * list str) -> Prop :=
| bg_name n p : dotted_path n p -> begins lookups ts main results (ByName n) (Ok (lookups, p))
| bg_template s n p v : dotted_path s (n :: p) -> template_table ts n (Some (Ok v)) -> begins lookups ts main results (ByTemplate s) (Ok (v, p))
| bg_template_bad s n p e : dotted_path s (n :: p) -> template_table ts n (Some (Raise e)) -> begins lookups ts main results (ByTemplate s) (Raise e)
| bg_no_template s n p : dotted_path s (n :: p) -> template_table ts n None -> begins lookups ts main results (ByTemplate s) (Ok (VDict [], n :: p))
| bg_here s n p d v : dotted_path s (n :: p) -> main = VDict d -> dget d (KS n) = Some v -> begins lookups ts main results (ByGroup s) (Ok (v, p))
| bg_here_bad s n p : dotted_path s (n :: p) -> not_dict main -> text_in n main (Ok true) -> begins lookups ts main results (ByGroup s) (Raise TypeError)
| bg_main_bad s n p e : dotted_path s (n :: p) -> text_in n main (Raise e) -> begins lookups ts main results (ByGroup s) (Raise e)
| bg_group s n p l v : dotted_path s (n :: p) -> text_in n main (Ok false) -> iterates results (Ok l) -> group_table n l (Ok v) -> begins lookups ts main results (ByGroup s) (Ok (v, p))
| bg_group_bad s n p l e : dotted_path s (n :: p) -> text_in n main (Ok false) -> iterates results (Ok l) -> group_table n l (Raise e) -> begins lookups ts main results (ByGroup s) (Raise e)
| bg_no_results s n p e : dotted_path s (n :: p) -> text_in n main (Ok false) -> iterates results (Raise e) -> begins lookups ts main results (ByGroup s) (Raise e).
(** what the table says about the value of the record's key; what is no dictionary says None *)
Inductive table_says (k : str) (data : val) : val -> res (option val) -> Prop :=
| ty_found d t x kk y : data = VDict d -> dget d (KS k) = Some x -> looked_up x kk -> dget t kk = Some y -> table_says k data (VDict t) (Ok (Some y))
| ty_not_found d t x kk : data = VDict d -> dget d (KS k) = Some x -> looked_up x kk -> dget t kk = None -> table_says k data (VDict t) (Ok None)
| ty_no_key d t : data = VDict d -> dget d (KS k) = None -> table_says k data (VDict t) (Ok None)
| ty_unhashable d t x : data = VDict d -> dget d (KS k) = Some x -> (forall kk, ~ looked_up x kk) -> table_says k data (VDict t) (Raise TypeError)
| ty_no_dict t : not_dict data -> table_says k data (VDict t) (Raise TypeError)
| ty_no_table t : not_dict t -> table_says k data t (Ok (Some VNone)).
(** what is done with what was found: a new field, or an update, or a replacement *)
Inductive acts (k : str) (add : option str) (replace update : bool) (f : val) : val -> res val -> Prop :=
| at_field n d : add = Some n -> acts k add replace update f (VDict d) (Ok (VDict (dset d (KS n) f)))
| at_no_field n v : add = Some n -> not_dict v -> acts k add replace update f v (Ok v)
| at_update d e : add = None -> update = true -> f = VDict e -> acts k add replace update f (VDict d) (Ok (VDict (dupdate d e)))
| at_no_update v e : add = None -> update = true -> f = VDict e -> not_dict v -> acts k add replace update f v (Raise AttributeError)
| at_replace d : add = None -> (update = false \/ not_dict f) -> replace = true -> acts k add replace update f (VDict d) (Ok (VDict (dset d (KS k) f)))
| at_no_replace v : add = None -> (update = false \/ not_dict f) -> replace = true -> not_dict v -> acts k add replace update f v (Raise TypeError)
| at_nothing v : add = None -> (update = false \/ not_dict f) -> replace = false -> acts k add replace update f v (Ok v).
Inductive glookup_to (lookups : val) (ts : list (str * val)) (main results : val) (k : str) (add : option str) (replace update : bool) (data : val) : source -> res val -> Prop :=
| lo_nothing : glookup_to lookups ts main results k add replace update data NoSource (Ok data)
| lo_no_start src e : begins lookups ts main results src (Raise e) -> glookup_to lookups ts main results k add replace update data src (Raise e)
| lo_no_way src t p e : begins lookups ts main results src (Ok (t, p)) -> walks p t (Raise e) -> glookup_to lookups ts main results k add replace update data src (Raise e)
| lo_bad src t p table e : begins lookups ts main results src (Ok (t, p)) -> walks p t (Ok table) -> table_says k data table (Raise e) -> glookup_to lookups ts main results k add replace update data src (Raise e)
| lo_not_found src t p table : begins lookups ts main results src (Ok (t, p)) -> walks p t (Ok table) -> table_says k data table (Ok None) -> glookup_to lookups ts main results k add replace update data src (Ok data)
| lo_found src t p table f r : begins lookups ts main results src (Ok (t, p)) -> walks p t (Ok table) -> table_says k data table (Ok (Some f)) -> acts k add replace update f data r -> glookup_to lookups ts main results k add replace update data src r.
