(** * GroupFuncs: model of the group functions, /repo/ttp/group/*.py.

    A group function is called by _results_class.processgrp (/repo/ttp/ttp.py
    3251-3261) with the record's data; it may read and write the results object
    (record["PATH"], record["DEFAULTS"], dyn_path_cache, results) and the
    variables: this is [fstate] of Results.v.  The model returns the new state
    and [false] exactly when the function's flag is False ([flags == False]).

    Not modelled: validate_cerberus.py (a third party validator). *)
From Verif Require Import PyBase Regex Tree Results MatchFuncs.
Local Open Scope string_scope.
Local Open Scope list_scope.

Notation gres := (res (fstate * bool)).

Definition with_data (st : fstate) (v : val) : fstate :=
  {| fs_data := v; fs_path := fs_path st; fs_defaults := fs_defaults st; fs_cache := fs_cache st;
     fs_results := fs_results st; fs_env := fs_env st |}.
Definition keep (st : fstate) : gres := Ok (st, true).
Definition reject (st : fstate) : gres := Ok (st, false).

(** [data[k]] on the record's data, KeyError as [None]; a string or list indexed
    with a name is a TypeError *)
Definition sub_data (v : val) (k : str) : res (option val) :=
  match v with
  | VDict d => Ok (dget d (KS k))
  | _ => Raise TypeError
  end.
(** [data[k] = v] *)
Definition set_data (st : fstate) (k : key) (x : val) : res fstate :=
  match fs_data st with
  | VDict d => Ok (with_data st (VDict (dset d k x)))
  | _ => Raise TypeError
  end.

(** the test [var in DEFAULTS and DEFAULTS[var] == data[var]], contains.py 5-6 *)
Definition is_default (st : fstate) (var : str) : res bool :=
  match dget (fs_defaults st) (KS var) with
  | None => Ok false
  | Some dflt =>
      do v <- sub_data (fs_data st) var;
      match v with Some x => Ok (py_eq dflt x) | None => Raise KeyError end
  end.

(** contains.py 1-9 *)
Fixpoint g_contains (args : list str) (st : fstate) : gres :=
  match args with
  | [] => reject st
  | var :: t =>
      do b <- py_in var (fs_data st);
      if b then
        do d <- is_default st var;
        if d then reject st else keep st
      else g_contains t st
  end.

(** containsall.py 1-10 *)
Fixpoint g_containsall (args : list str) (st : fstate) : gres :=
  match args with
  | [] => keep st
  | var :: t =>
      do b <- py_in var (fs_data st);
      if b then
        do d <- is_default st var;
        if d then reject st else g_containsall t st
      else reject st
  end.

(** exclude.py 1-8 *)
Fixpoint g_exclude (args : list str) (st : fstate) : gres :=
  match args with
  | [] => keep st
  | var :: t =>
      do b <- py_in var (fs_data st);
      if b then
        if dmem (fs_defaults st) (KS var) then g_exclude t st else reject st
      else g_exclude t st
  end.

(** excludeall.py 3-8: found_vars *)
Fixpoint found_vars (args : list str) (st : fstate) : res (list str) :=
  match args with
  | [] => Ok []
  | var :: t =>
      do b <- py_in var (fs_data st);
      do r <- found_vars t st;
      Ok (if b then if dmem (fs_defaults st) (KS var) then r else var :: r else r)
  end.
(** excludeall.py 9-12 *)
Definition g_excludeall (args : list str) (st : fstate) : gres :=
  do f <- found_vars args st;
  if path_eqb args f then reject st else keep st.

(** [_ttp_["vars"].get(value, value)]: TypeError for an unhashable value; True and
    False are looked up as 1 and 0.  Simplification: opaque objects are never
    variable names. *)
Definition var_or_self (vars : dict) (v : val) : res val :=
  match v with
  | VList _ | VDict _ => Raise TypeError
  | VObj _ => Ok v
  | _ => do k <- key_of (bool_number v); Ok (match dget vars k with Some x => x | None => v end)
  end.

(** [data.get(key, dflt)] *)
Definition get_data (v : val) (k : str) (dflt : val) : res val :=
  match v with
  | VDict d => Ok (match dget d (KS k) with Some x => x | None => dflt end)
  | _ => Raise AttributeError
  end.

(** equal.py 1-9 *)
Definition g_equal (k : str) (value : val) (st : fstate) : gres :=
  do v <- var_or_self (e_vars (fs_env st)) value;
  do x <- get_data (fs_data st) k VNone;
  if negb (py_eq x v) then reject st else keep st.

(** exclude_val.py 1-13 *)
Definition g_exclude_val (k : str) (value : val) (st : fstate) : gres :=
  do v <- var_or_self (e_vars (fs_env st)) value;
  do x <- sub_data (fs_data st) k;
  match x with
  | Some y => if py_eq y v then reject st else keep st
  | None => keep st
  end.

(** [v in x] for arbitrary values *)
Definition val_in (v x : val) : res bool :=
  match x with
  | VStr s => match v with VStr p => Ok (containsb p s) | _ => Raise TypeError end
  | VList l => Ok (existsb (py_eq v) l)
  | VDict d => do k <- key_of (bool_number v); Ok (dmem d k)
  | _ => Raise TypeError
  end.

(** contains_val.py 1-9 *)
Definition g_contains_val (k : str) (value : val) (st : fstate) : gres :=
  do v <- var_or_self (e_vars (fs_env st)) value;
  do x <- get_data (fs_data st) k (VStr []);
  do b <- val_in v x;
  if negb b then reject st else keep st.

(** delete.py 4-8.  [data.pop(key)] on a list is a TypeError, on a string an
    AttributeError. *)
Fixpoint g_del (args : list str) (st : fstate) : gres :=
  match args with
  | [] => keep st
  | k :: t =>
      do b <- py_in k (fs_data st);
      if b then
        match fs_data st with
        | VDict d => g_del t (with_data st (VDict (ddel d (KS k))))
        | VList _ => Raise TypeError
        | _ => Raise AttributeError
        end
      else g_del t st
  end.

(** items2dict.py 1-12.  In [data[data.pop(a)] = data.pop(b)] Python evaluates
    the right hand side first.  Simplification: the key True is the key 1, to which
    it is equal. *)
Definition g_items2dict (kn vn : str) (st : fstate) : gres :=
  do b1 <- py_in kn (fs_data st);
  if negb b1 then reject st else
  do b2 <- py_in vn (fs_data st);
  if negb b2 then reject st else
  match fs_data st with
  | VDict d =>
      match dget d (KS vn) with
      | None => Raise KeyError
      | Some v =>
          let d1 := ddel d (KS vn) in
          match dget d1 (KS kn) with
          | None => Raise KeyError
          | Some kv => do k <- key_of (bool_number kv); keep (with_data st (VDict (dset (ddel d1 (KS kn)) k v)))
          end
      end
  | VList _ => Raise TypeError
  | _ => Raise AttributeError
  end.

(** set_.py 4-19; [target]/[default] are [None] when left at their default *)
Definition g_set (source : str) (target : option str) (default : option val) (st : fstate) : gres :=
  let v := match dget (e_vars (fs_env st)) (KS source) with
           | Some x => x
           | None => match dget (e_gvars (fs_env st)) (KS source) with
                     | Some x => x
                     | None => match default with Some x => x | None => VStr source end
                     end
           end in
  let t := match target with Some t => t | None => source end in
  match fs_data st with
  | VDict d => keep (with_data st (VDict (dset d (KS t) v)))
  | _ => Raise AttributeError
  end.

(** record.py 1-11 *)
Definition g_record (source : str) (target : option str) (st : fstate) : gres :=
  do b <- py_in source (fs_data st);
  if b then
    do x <- sub_data (fs_data st) source;
    match x with
    | None => Raise KeyError
    | Some v =>
        let t := KS (match target with Some t => t | None => source end) in
        keep {| fs_data := fs_data st; fs_path := fs_path st; fs_defaults := fs_defaults st;
                fs_cache := fs_cache st; fs_results := fs_results st;
                fs_env := {| e_vars := dset (e_vars (fs_env st)) t v; e_gvars := dset (e_gvars (fs_env st)) t v |} |}
    end
  else keep st.

Section Floats.
(** floating point numbers are opaque objects: [float(s)] of a text, [int(x)]
    and [float(x)] of an object; [None] when Python raises *)
Variable float_of_str : str -> option nat.
Variable float_of_int : Z -> option nat.
Variable int_of_obj : nat -> option Z.
Variable float_of_obj : nat -> option nat.

(** to_converters.py 26-32 and 38-44: [int(v)], else [float(v)], else [v] *)
Definition int_or_float (v : val) : val :=
  match v with
  | VStr s => match py_int s with
              | Some z => VInt z
              | None => match float_of_str s with Some n => VObj n | None => v end
              end
  | VInt z => v
  | VBool b => VInt (if b then 1 else 0)
  | VObj n => match int_of_obj n with
              | Some z => VInt z
              | None => match float_of_obj n with Some m => VObj m | None => v end
              end
  | VNone | VList _ | VDict _ => v
  end.

(** to_converters.py 18-46, one key *)
Definition to_int_key (intlist : bool) (d : dict) (k : key) : dict :=
  match dget d k with
  | None => d
  | Some v =>
      let v1 := int_or_float v in
      let v2 := match v1 with
                | VList l => if intlist then VList (map int_or_float l) else v1
                | _ => v1
                end in
      dset d k v2
  end.
(** to_converters.py 15-48.  Simplification: data that is not a dictionary
    raises AttributeError (no keys) or TypeError. *)
Definition g_to_int (keys : list str) (intlist : bool) (st : fstate) : gres :=
  match fs_data st with
  | VDict d =>
      let ks := match keys with [] => dkeys d | _ => map KS keys end in
      keep (with_data st (VDict (fold_left (to_int_key intlist) ks d)))
  | _ => match keys with [] => Raise AttributeError | _ => Raise TypeError end
  end.
End Floats.

(** expand.py 12-22: store [value] at the dotted key's path below [ref].
    [ref.setdefault] on a value that is not a dictionary is an AttributeError;
    the last key is dropped silently when [ref] is not a dictionary. *)
Fixpoint nest_set (keys : list str) (value : val) (ref : val) : res val :=
  match keys with
  | [] => Ok ref                       (* unreachable: split never returns [] *)
  | [k] => match ref with
           | VDict d => Ok (VDict (dset d (KS k) value))
           | _ => Ok ref
           end
  | k :: t => match ref with
              | VDict d =>
                  do sub <- nest_set t value (match dget d (KS k) with Some x => x | None => VDict [] end);
                  Ok (VDict (dset d (KS k) sub))
              | _ => Raise AttributeError
              end
  end.
Definition dot : ascii := ".".
(** expand.py 1-24; [key.split] of a key that is not a string is an AttributeError *)
Definition expand_one (ret : val) (kv : key * val) : res val :=
  match fst kv with
  | KS s => nest_set (split [dot] s) (snd kv) ret
  | _ => Raise AttributeError
  end.
Definition g_expand (st : fstate) : gres :=
  match fs_data st with
  | VDict d => do r <- rfold expand_one d (VDict []); keep (with_data st r)
  | _ => keep st
  end.

(** itemize.py 6-7 and 18-19: a path item with exactly one asterisk *)
Definition one_star (p : str) : str :=
  let n := snd (split_stars p) in
  if (Nat.leb 2 n || Nat.eqb n 0)%bool then fst (split_stars p) ++ [star_c] else p.
Definition one_star_last (path : list str) : res (list str) :=
  match opt_last path with
  | None => Raise IndexError
  | Some p => Ok (set_last path (one_star p))
  end.

(** one element of what [dict.update] is given: a pair of any two items *)
Definition pair_of (v : val) : res (key * val) :=
  do l <- iter v;
  match l with
  | [k; x] => do k' <- key_of (bool_number k); Ok (k', x)
  | _ => Raise ValueError
  end.
(** [dyn_path_cache.update(data)], itemize.py 11 and 16, for any data *)
Definition update_any (d : dict) (v : val) : res dict :=
  match v with
  | VDict e => Ok (dupdate d e)
  | _ => do l <- iter v; rfold (fun d x => do (k, y) <- pair_of x; Ok (dset d k y)) l d
  end.

Section Itemize.
Variable k2i : bool.
(** itemize.py 1-28.  [mwl]: record.get("merge_with_last") as seen by
    save_curelements.  Simplification: [mwl] is false (a record continued
    after another group's line is not itemized with a path). *)
Definition g_itemize (k : str) (path : str) (st : fstate) : gres :=
  do b <- py_in k (fs_data st);
  if negb b then reject st else
  match path with
  | [] =>
      do p <- one_star_last (fs_path st);
      do c <- update_any (fs_cache st) (fs_data st);
      match fs_data st with
      | VDict d =>
          match dget d (KS k) with
          | Some v => keep {| fs_data := v; fs_path := p; fs_defaults := fs_defaults st; fs_cache := c;
                              fs_results := fs_results st; fs_env := fs_env st |}
          | None => Raise KeyError
          end
      | VList _ => Raise TypeError
      | _ => Raise AttributeError
      end
  | _ =>
      do c <- update_any (fs_cache st) (fs_data st);
      do p <- one_star_last (dotted path);
      do (op, data1, c1) <- form_path (e_vars (fs_env st)) p (fs_data st) c;
      do x <- sub_data data1 k;
      match x with
      | None => Raise KeyError
      | Some v =>
          match op with
          | Some ((_ :: _) as pp) =>
              do r <- save_cur k2i false (fs_results st) pp v;
              keep {| fs_data := data1; fs_path := fs_path st; fs_defaults := fs_defaults st; fs_cache := c1;
                      fs_results := r; fs_env := fs_env st |}
          | _ => Raise TypeError
          end
      end
  end.
End Itemize.

(** void.py 1-3 *)
Definition g_void (st : fstate) : gres := reject st.

(** to_converters.py 6-8 under Python 3 *)
Definition g_str_to_unicode (st : fstate) : gres := keep st.

(** what a macro returns: False, True or None, or a new value.  Simplification:
    a macro is a function of its argument alone; a return value equal to True
    (1) counts as True. *)
Inductive gmret := MFalse | MGoOn | MNew (v : val).
(** macro.py 6-15 *)
Fixpoint run_macros (macros : list (str * (val -> res gmret))) (names : list str) (v : val) : res (val * bool) :=
  match names with
  | [] => Ok (v, true)
  | n :: t =>
      match find (fun m => str_eqb n (fst m)) macros with
      | None => run_macros macros t v
      | Some m =>
          do r <- snd m v;
          match r with
          | MFalse => Ok (v, false)
          | MGoOn => run_macros macros t v
          | MNew w => run_macros macros t w
          end
      end
  end.
(** macro.py 1-5 *)
Definition macro_names (args : list str) : list str :=
  flat_map (fun a => map strip (split $"," a)) args.
Definition g_macro (macros : list (str * (val -> res gmret))) (args : list str) (st : fstate) : gres :=
  do (v, ok) <- run_macros macros (macro_names args) (fs_data st);
  Ok (with_data st v, ok).

Section Format.
(** [string.format( **kwargs )] *)
Variable fmt : str -> dict -> res str.
(** [string.format( **d )]: every key has to be a text *)
Definition fmt_kw (string : str) (d : dict) : res str :=
  if forallb (fun kv => match fst kv with KS _ => true | _ => false end) d then fmt string d else Raise TypeError.
(** sformat.py 1-22; data that is not a dictionary is a TypeError *)
Definition g_sformat (string : str) (add_field : str) (st : fstate) : gres :=
  match fs_data st with
  | VDict d =>
      match fmt_kw string d with
      | Ok s => keep (with_data st (VDict (dset d (KS add_field) (VStr s))))
      | Raise KeyError =>
          match fmt_kw string (dupdate (dupdate (e_gvars (fs_env st)) (e_vars (fs_env st))) d) with
          | Ok s => keep (with_data st (VDict (dset d (KS add_field) (VStr s))))
          | Raise KeyError => keep st
          | Raise e => Raise e
          end
      | Raise e => Raise e
      end
  | _ => Raise TypeError
  end.
End Format.

Section Ip.
(** the match function to_ip on a text; [None] when it raises *)
Variable ip_of : str -> option val.
(** to_ip.py 1-11 *)
Definition g_to_ip (ipk maskk : str) (st : fstate) : gres :=
  do b1 <- py_in ipk (fs_data st);
  if negb b1 then keep st else
  do b2 <- py_in maskk (fs_data st);
  if negb b2 then keep st else
  do x <- sub_data (fs_data st) ipk;
  do y <- sub_data (fs_data st) maskk;
  match x, y with
  | Some ip, Some mask =>
      match ip_of (py_str ip ++ $"/" ++ py_str mask) with
      | Some v => do st' <- set_data st (KS ipk) v; keep st'
      | None => keep st
      end
  | _, _ => Raise KeyError
  end.
End Ip.

(** what to do with the value found, lookup.py 60-73 *)
Inductive laction := LAdd (field : str) | LUpdate | LReplace | LNothing.
Definition laction_of (add_field : option str) (replace update : bool) (found : val) : laction :=
  match add_field with
  | Some f => LAdd f
  | None => if (update && match found with VDict _ => true | _ => false end)%bool then LUpdate
            else if replace then LReplace else LNothing
  end.
(** lookup.py 52-58 and 60-74 (a field that cannot be added is only logged): [table] is the lookup data before the traversal,
    [path] what is left of the dotted name.  A table that is not a dictionary
    leaves found_value None. *)
Definition group_lookup_in (table : val) (path : list str) (k : str)
    (add_field : option str) (replace update : bool) (st : fstate) : gres :=
  do t <- walk_get path table;
  do found <-
    match t with
    | VDict d =>
        do x <- sub_data (fs_data st) k;
        match x with
        | None => Ok None
        | Some v => do kk <- key_of (bool_number v); Ok (dget d kk)
        end
    | _ => Ok (Some VNone)
    end;
  match found with
  | None => keep st
  | Some f =>
      match laction_of add_field replace update f with
      | LAdd n => match set_data st (KS n) f with Ok st' => keep st' | Raise _ => keep st end
      | LUpdate => match fs_data st, f with
                   | VDict d, VDict e => keep (with_data st (VDict (dupdate d e)))
                   | _, _ => Raise AttributeError
                   end
      | LReplace => do st' <- set_data st (KS k) f; keep st'
      | LNothing => keep st
      end
  end.

(** lookup.py 19-50: where the table comes from.  [main] is the parser object's
    main_results, [results] the current template's results. *)
Definition group_lookup_source (lookups : val) (templates : list (str * val)) (main results : val)
    (src : source) : res (option (val * list str)) :=
  match src with
  | ByName n => Ok (Some (lookups, dotted n))
  | ByTemplate n =>
      match dotted n with
      | [] => Raise IndexError
      | (h :: t) as p =>
          match find_template h templates with
          | Some (VList (x :: _)) => Ok (Some (x, t))
          | Some (VList []) => Raise IndexError
          | Some v => Ok (Some (v, t))
          | None => Ok (Some (VDict [], p))
          end
      end
  | ByGroup n =>
      match dotted n with
      | [] => Raise IndexError
      | h :: t =>
          do b <- py_in h main;
          if b then do v <- sub_data main h;
                    match v with Some v => Ok (Some (v, t)) | None => Raise KeyError end
          else do rs <- iter results; do v <- find_group h rs; Ok (Some (v, t))
      end
  | NoSource => Ok None
  end.
Definition g_lookup lookups templates main results (src : source) (k : str)
    (add_field : option str) (replace update : bool) (st : fstate) : gres :=
  do s <- group_lookup_source lookups templates main results src;
  match s with
  | None => keep st
  | Some (table, path) => group_lookup_in table path k add_field replace update st
  end.
