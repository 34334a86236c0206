(** * Results: model of ttp's results builder, [_results_class]
    (/repo/ttp/ttp.py lines 2668-3262).

    The object's attributes become the record [rstate]; every method is a
    function returning the new state or the Python exception it raises. *)
From Verif Require Import PyBase Regex Tree.

(** ** Paths.  A processed path item is (name, number of asterisks), ttp.py 3200-3235. *)
Notation pitem := (str * nat)%type.
Definition underscore : str := $"_".

Section Cfg.
(** config flag [_ttp_["dynamic_path_key_to_int"]] *)
Variable k2i : bool.

(** ttp.py 2932-2934 and 2965-2967: [int(name) if name.isdigit() else name] *)
Definition path_key (n : str) : res key :=
  if (k2i && isdigit n)%bool
  then match py_int n with Some z => Ok (KI z) | None => Raise ValueError end
  else Ok (KS n).

(** ttp.py 2918-2950 list_to_dict_fwd.  The null-path test of lines 2930-2934
    compares a tuple with "_" and never succeeds, so it is not in the model. *)
Fixpoint list_to_dict_fwd (ks : list pitem) : res val :=
  match ks with
  | [] => Ok (VDict [])
  | (n, st) :: t =>
      do k <- path_key n;
      if Nat.eqb st 1 then
        match t with
        | [] => Ok (VDict [(k, VList [])])
        | _ => do v <- list_to_dict_fwd t; Ok (VDict [(k, VList [v])])
        end
      else do v <- list_to_dict_fwd t; Ok (VDict [(k, v)])
  end.

(** follow [-1] while the value is a non-empty list (ttp.py 2985-2992) *)
Fixpoint to_last (v : val) : addr * val :=
  match v with
  | VList l =>
      (fix go (l : list val) (i : nat) : addr * val :=
         match l with
         | [] => ([], VList [])
         | [x] => let (a, t) := to_last x in (SIdx i :: a, t)
         | _ :: t => go t (S i)
         end) l 0
  | _ => ([], v)
  end.

(** one step into a dictionary (ttp.py 2975-2984): [full] is PATH after the
    optional removal of a null path item, [rec] the recursive call on PATH[1:] *)
Definition dict_step (d : dict) (k : key) (full : list pitem)
    (rec : val -> res (val * option addr)) : res (val * option addr) :=
  match dget d k with
  | Some v =>
      do (v', a) <- rec v;
      Ok (VDict (dset d k v'), option_map (cons (SKey k)) a)
  | None =>
      do nb <- list_to_dict_fwd full;
      match nb with
      | VDict nd =>
          let d1 := dupdate d nd in
          match dget d1 k with
          | Some v => do (v', a) <- rec v;
                      Ok (VDict (dset d1 k v'), option_map (cons (SKey k)) a)
          | None => Raise KeyError
          end
      | _ => Raise TypeError
      end
  end.

(** ttp.py 2952-2992 dict_by_path: the tree after creating missing keys and the
    address of the element found ([None]: the method returned Python's None
    because it met a value that is neither dict nor list). *)
Fixpoint dict_by_path (P : list pitem) (E : val) {struct P} : res (val * option addr) :=
  match P with
  | [] => Ok (E, Some [])
  | (n, st) :: P1 =>
      let on_dict (d : dict) : res (val * option addr) :=
        do k0 <- path_key n;
        if key_eqb k0 (KS underscore) then
          match P1 with
          | [] => Ok (VDict d, Some [])
          | (n2, _) :: P2 => dict_step d (KS n2) P1 (dict_by_path P2)
          end
        else dict_step d k0 P (dict_by_path P1) in
      let (a0, T) := to_last E in
      match T with
      | VDict d =>
          do (T', a) <- on_dict d;
          Ok (upd_at a0 (fun _ => T') E, option_map (app a0) a)
      | VList _ =>                    (* empty list: append a fresh branch *)
          do nb <- list_to_dict_fwd P;
          match nb with
          | VDict nd =>
              do (T', a) <- on_dict nd;
              Ok (upd_at a0 (fun _ => VList [T']) E, option_map (fun x => a0 ++ SIdx 0 :: x) a)
          | _ => Raise TypeError
          end
      | _ => Ok (E, None)
      end
  end.

(** ttp.py 2972 [PATH.pop(0)]: the caller's own list loses a leading null path
    item when the walk reaches a dictionary with more than one item left. *)
Definition popped (P : list pitem) (E : val) : list pitem :=
  match P with
  | (n, _) :: ((_ :: _) as P1) =>
      match snd (to_last E) with
      | VDict _ | VList _ => if str_eqb n underscore then P1 else P
      | _ => P
      end
  | _ => P
  end.

(** ttp.py 2877-2916 value_to_list *)
Definition vstep (D : val) (n : str) (rec : val -> res val) : res val :=
  match D with
  | VDict d =>
      match dget d (KS n) with
      | Some v => do v' <- rec v; Ok (VDict (dset d (KS n) v'))
      | None => Ok VNone
      end
  | VList l =>
      match opt_last l with
      | None => Raise IndexError
      | Some x =>
          do b <- py_in n x;
          if b then
            match x with
            | VDict d =>
                match dget d (KS n) with
                | Some v => do v' <- rec v; Ok (VList (set_last l (VDict (dset d (KS n) v'))))
                | None => Ok VNone
                end
            | _ => Raise TypeError
            end
          else Ok VNone
      end
  | _ => Ok VNone
  end.

Fixpoint value_to_list (D : val) (P : list pitem) (r : val) {struct P} : res val :=
  match P with
  | [] => Ok (VList [D; r])
  | (n, _) :: P1 =>
      if str_eqb n underscore then
        match P1 with
        | [] =>
            match D with
            | VDict d => do d' <- update_val d r; Ok (VDict d')
            | VList l =>
                match opt_last l with
                | None => Raise IndexError
                | Some (VDict d) => do d' <- update_val d r; Ok (VList (set_last l (VDict d')))
                | Some _ => Raise AttributeError
                end
            | _ => Ok D
            end
        | (n2, _) :: P2 => vstep D n2 (fun v => value_to_list v P2 r)
        end
      else vstep D n (fun v => value_to_list v P1 r)
  end.

(** ttp.py 2994-3007 _merge_recursively *)
Fixpoint merge_rec (el data : val) {struct data} : res val :=
  match data with
  | VDict nd =>
      (fix go (nd : list (key * val)) (el : val) : res val :=
         match nd with
         | [] => Ok el
         | (nk, v) :: t =>
             match el with
             | VDict e =>
                 match dget e nk with
                 | Some old =>
                     match v with
                     | VDict _ =>
                         if truthy old
                         then do old' <- merge_rec old v; go t (VDict (dset e nk old'))
                         else go t (VDict (dset e nk v))
                     | _ => go t (VDict (dset e nk v))
                     end
                 | None => go t (VDict (dset e nk v))
                 end
             | _ => Raise AttributeError
             end
         end) nd el
  | _ => Raise AttributeError
  end.

(** ttp.py 3009-3032 save_curelements; [mwl] is record.get("merge_with_last") *)
Definition save_cur (mwl : bool) (results : val) (path : list pitem) (data : val) : res val :=
  do (r1, oa) <- dict_by_path path results;
  let path' := popped path results in
  match oa with
  | None => Ok r1
  | Some a =>
      match get_at a r1 with
      | Some (VList l) =>
          if truthy data then
            if mwl then
              match opt_last l with
              | None => Raise IndexError
              | Some x => do x' <- merge_rec x data;
                          Ok (upd_at a (fun _ => VList (set_last l x')) r1)
              end
            else Ok (upd_at a (fun _ => VList (l ++ [data])) r1)
          else Ok r1
      | Some (VDict e) =>
          if mwl then do e' <- merge_rec (VDict e) data; Ok (upd_at a (fun _ => e') r1)
          else
            match opt_last path' with
            | None => Raise IndexError
            | Some (_, st) =>
                if Nat.eqb st 2 then
                  match data with
                  | VDict dd => Ok (upd_at a (fun _ => VDict (dupdate e (dupdate dd e))) r1)
                  | _ => Raise AttributeError
                  end
                else
                  match e with
                  | [] => do e' <- update_val [] data; Ok (upd_at a (fun _ => VDict e') r1)
                  | _ => value_to_list r1 path' data
                  end
            end
      | _ => Ok r1
      end
  end.
End Cfg.

(** ** Groups and match items *)

(** group_id, ttp.py 1703, 1735: (name, index) *)
Notation gid := (str * nat)%type.
Definition gid_eqb (a b : gid) : bool := (str_eqb (fst a) (fst b) && Nat.eqb (snd a) (snd b))%bool.
Definition gid_in (g : gid) (l : list gid) : bool := existsb (gid_eqb g) l.
Definition ogid_in (g : option gid) (l : list gid) : bool :=
  match g with Some x => gid_in x l | None => false end.

Inductive action := AStart | AStartEmpty | AAdd | AJoin | AEnd.
(** ttp.py 2825 [ACTION.startswith("start")] *)
Definition is_start (a : action) : bool :=
  match a with AStart | AStartEmpty => true | _ => false end.

(** template variables and global variables visible to functions *)
Record env := { e_vars : dict; e_gvars : dict }.

Section Machine.
(** [F]: a group function call (name, args, kwargs) *)
Variable F : Type.

(** what a group function can read and write while it runs: the data it is
    given, and [results_object].record["PATH"]/["DEFAULTS"], dyn_path_cache,
    results, and the variables. *)
Record fstate := {
  fs_data : val; fs_path : list str; fs_defaults : dict; fs_cache : dict;
  fs_results : val; fs_env : env }.

(** running a group function: new state and [true] unless the flag is False *)
Variable runf : F -> fstate -> res (fstate * bool).
Variable k2i : bool.

(** the attributes of _group_class that results code reads (ttp.py 1673-1693) *)
Record group := {
  g_id : gid; g_parent : option gid; g_path : list str; g_runs : dict; g_funcs : list F }.
(** a regex dictionary, ttp.py 1848-1856; [r_joins] lists the variables that have
    a joinmatches function with its optional joinchar *)
Record redict := {
  r_action : action; r_isline : bool; r_group : group; r_joins : list (key * option str) }.
(** one match: [None] is Python's False, a match that failed validation *)
Definition item := (redict * option dict)%type.

Record rec := {
  rc_result : dict; rc_path : list str; rc_funcs : list F; rc_defaults : dict;
  rc_gid : option gid; rc_mwl : bool }.
(** ttp.py 2684-2690, 2870-2876 *)
Definition rec0 : rec :=
  {| rc_result := []; rc_path := []; rc_funcs := []; rc_defaults := []; rc_gid := None; rc_mwl := false |}.

Record rstate := {
  s_results : val;
  s_started : list gid;   (* top of the stack first *)
  s_ended : list gid;
  s_rec : rec;
  s_cache : dict;
  s_env : env }.

(** ** form_path, ttp.py 3200-3235 *)
Definition star_c : ascii := "*"%char.
Definition split_stars (s : str) : pitem :=
  let b := rstrip_p (is_c star_c) s in (b, length s - length b).

(** [r"{{\s*(\S+)\s*}}"], ttp.py 3211 *)
Definition dyn_re : re :=
  RSeq (rlit $"{{") (RSeq (RStar true rs) (RSeq (RGroup $"1" (rplus rS)) (RSeq (RStar true rs) (rlit $"}}")))).
Definition dyn_vars (s : str) : list str :=
  flat_map (fun m => map snd (m_caps m)) (finditer dyn_re s).
(** [r"{{\s*" + m + r"\s*}}"], ttp.py 3214.  Simplification: [m] is taken
    literally, i.e. variable names are assumed to contain no regex metacharacter. *)
Definition dyn_var_re (m : str) : re :=
  RSeq (rlit $"{{") (RSeq (RStar true rs) (RSeq (rlit m) (RSeq (RStar true rs) (rlit $"}}")))).

(** [m in self.record["result"]] and the value, for any kind of result *)
Definition res_lookup (data : val) (m : str) : res (option val) :=
  match data with
  | VDict d => Ok (dget d (KS m))
  | _ => do b <- py_in m data; if b then Raise TypeError else Ok None
  end.
Definition res_pop (data : val) (m : str) : val :=
  match data with VDict d => VDict (ddel d (KS m)) | _ => data end.

Definition replace_me : str := $"__replace_me__".

(** the inner loop over the variables of one path item, ttp.py 3213-3230;
    result: [None] if form_path returns False; plus the record's data and the
    cache as they are left *)
Fixpoint subst_vars (vars : dict) (ms : list str) (it : str) (data : val) (cache : dict)
  : res (option str * val * dict) :=
  match ms with
  | [] => Ok (Some it, data, cache)
  | m :: ms' =>
      do r <- res_lookup data m;
      match r with
      | Some v =>
          let cache' := dset cache (KS m) v in
          let data' := res_pop data m in
          let repl := py_str v in
          match re_sub (dyn_var_re m) repl it with
          | Ok it' => subst_vars vars ms' it' data' cache'
          | Raise ReError =>
              let it1 := re_sub_lit (dyn_var_re m) replace_me it in
              subst_vars vars ms' (replace_all replace_me repl it1) data' cache'
          | Raise e => Raise e
          end
      | None =>
          match dget cache (KS m) with
          | Some (VStr s) => do it' <- re_sub (dyn_var_re m) s it; subst_vars vars ms' it' data cache
          | Some _ => Raise TypeError
          | None =>
              match dget vars (KS m) with
              | Some v => do it' <- re_sub (dyn_var_re m) (py_str v) it; subst_vars vars ms' it' data cache
              | None => Ok (None, data, cache)
              end
          end
      end
  end.

Fixpoint form_path (vars : dict) (path : list str) (data : val) (cache : dict)
  : res (option (list pitem) * val * dict) :=
  match path with
  | [] => Ok (Some [], data, cache)
  | p :: ps =>
      let (b, st) := split_stars p in
      do (oi, data1, cache1) <- subst_vars vars (dyn_vars b) b data cache;
      match oi with
      | None => Ok (None, data1, cache1)
      | Some it =>
          do (rest, data2, cache2) <- form_path vars ps data1 cache1;
          Ok (option_map (cons (it, st)) rest, data2, cache2)
      end
  end.

(** ** processgrp, ttp.py 3237-3262 *)

(** add defaults, lines 3240-3241 *)
Definition add_defaults (result defaults : dict) : dict :=
  fold_left (fun r kv => dsetdefault r (fst kv) (snd kv)) defaults result.

(** ttp.py 3034-3047 reconstruct_last_element: (tree, merged copy) *)
Definition reconstruct (results : val) (path : list pitem) (data : dict) : res (val * dict) :=
  do (r1, oa) <- dict_by_path k2i path results;
  match oa with
  | None => Raise UnboundLocalError
  | Some a =>
      match get_at a r1 with
      | Some (VList l) =>
          match opt_last l with
          | None => Raise IndexError
          | Some (VDict d) => Ok (r1, dupdate d data)
          | Some _ => Raise AttributeError
          end
      | Some (VDict d) => Ok (r1, dupdate d data)
      | _ => Raise UnboundLocalError
      end
  end.

(** lines 3251-3261: run the functions until one returns False *)
Fixpoint run_funcs (fs : list F) (st : fstate) : res (fstate * bool) :=
  match fs with
  | [] => Ok (st, true)
  | f :: t => do (st', ok) <- runf f st; if ok then run_funcs t st' else Ok (st', false)
  end.

(** Result: the state with results, cache and variables updated, and
    [Some (data, path)] if the record is to be saved. *)
Definition processgrp (s : rstate) : res (rstate * option (val * list pitem)) :=
  let r := s_rec s in
  let result := add_defaults (rc_result r) (rc_defaults r) in
  do (results1, data1, cache1) <-
    (if rc_mwl r then
       do (op, d1, c1) <- form_path (e_vars (s_env s)) (rc_path r) (VDict result) (s_cache s);
       match op, d1 with
       | Some ((_ :: _) as pp), VDict dd =>
           do (rs, merged) <- reconstruct (s_results s) pp dd;
           Ok (rs, VDict merged, c1)
       | _, _ => Ok (s_results s, d1, c1)
       end
     else Ok (s_results s, VDict result, s_cache s));
  do (fs, ok) <- run_funcs (rc_funcs r)
     {| fs_data := data1; fs_path := rc_path r; fs_defaults := rc_defaults r;
        fs_cache := cache1; fs_results := results1; fs_env := s_env s |};
  let mk rs cache env :=
    {| s_results := rs; s_started := s_started s; s_ended := s_ended s;
       s_rec := r; s_cache := cache; s_env := env |} in
  if ok then
    do (op, data2, cache2) <- form_path (e_vars (fs_env fs)) (fs_path fs) (fs_data fs) (fs_cache fs);
    let s' := mk (fs_results fs) cache2 (fs_env fs) in
    match op with
    | Some ((_ :: _) as pp) => Ok (s', Some (data2, pp))
    | _ => Ok (s', None)
    end
  else Ok (mk (fs_results fs) (fs_cache fs) (fs_env fs), None).

Definition with_results (s : rstate) (v : val) : rstate :=
  {| s_results := v; s_started := s_started s; s_ended := s_ended s; s_rec := s_rec s;
     s_cache := s_cache s; s_env := s_env s |}.

(** "process recorded group results and save them", ttp.py 3070-3074, 2838-2841 *)
Definition flush (s : rstate) : res rstate :=
  do (s', o) <- processgrp s;
  match o with
  | Some (data, pp) => do v <- save_cur k2i (rc_mwl (s_rec s)) (s_results s') pp data; Ok (with_results s' v)
  | None => Ok s'
  end.

(** ** save functions *)

Definition set_rec (s : rstate) (r : rec) : rstate :=
  {| s_results := s_results s; s_started := s_started s; s_ended := s_ended s; s_rec := r;
     s_cache := s_cache s; s_env := s_env s |}.
Definition set_started (s : rstate) (l : list gid) : rstate :=
  {| s_results := s_results s; s_started := l; s_ended := s_ended s; s_rec := s_rec s;
     s_cache := s_cache s; s_env := s_env s |}.
Definition set_ended (s : rstate) (l : list gid) : rstate :=
  {| s_results := s_results s; s_started := s_started s; s_ended := l; s_rec := s_rec s;
     s_cache := s_cache s; s_env := s_env s |}.

(** group path tracing, ttp.py 3052-3067 and 3085-3100 *)
Fixpoint trace (st : list gid) (g : group) (isline : bool) : list gid :=
  match st with
  | [] => [g_id g]
  | top :: rest =>
      if match g_parent g with Some p => gid_eqb p top | None => false end then g_id g :: st
      else if isline then g_id g :: st
      else trace rest g isline
  end.

(** ttp.py 3049-3080 (start) and 3082-3113 (startempty: result is {}) *)
Definition do_start (s : rstate) (rd : redict) (result : dict) (mwl : bool) (defaults : dict) : res rstate :=
  let g := r_group rd in
  let s1 := set_started s (trace (s_started s) g (r_isline rd)) in
  do s2 <- flush s1;
  Ok (set_rec s2 {| rc_result := result; rc_path := g_path g; rc_funcs := g_funcs g;
                    rc_defaults := defaults; rc_gid := Some (g_id g); rc_mwl := mwl |}).

Fixpoint path_eqb (a b : list str) : bool :=
  match a, b with
  | [], [] => true
  | x :: a', y :: b' => (str_eqb x y && path_eqb a' b')%bool
  | _, _ => false
  end.

Definition upd_rec_result (s : rstate) (d : dict) : rstate :=
  let r := s_rec s in
  set_rec s {| rc_result := d; rc_path := rc_path r; rc_funcs := rc_funcs r;
               rc_defaults := rc_defaults r; rc_gid := rc_gid r; rc_mwl := rc_mwl r |}.

(** ttp.py 3115-3137 *)
Definition do_add (s : rstate) (rd : redict) (result : dict) : res rstate :=
  let g := r_group rd in
  if path_eqb (rc_path (s_rec s)) (g_path g)
  then Ok (upd_rec_result s (dupdate result (rc_result (s_rec s))))
  else if gid_in (g_id g) (s_started s)
  then do_start s rd result true []
  else Ok s.

(** ttp.py 3144-3155: the separator *)
Definition joinchar (joins : list (key * option str)) (result : dict) : str :=
  fold_left (fun acc kv => match dget joins (fst kv) with Some (Some jc) => jc | _ => acc end)
            result [nl].

(** ttp.py 3157-3169: join one key *)
Definition join_one (jc : str) (rr : dict) (k : key) (v : val) : res dict :=
  match dget rr k with
  | Some (VStr a) =>
      match v with
      | VStr b => Ok (dset rr k (VStr (a ++ jc ++ b)))
      | _ => Raise TypeError
      end
  | Some (VList a) =>
      match v with
      | VList b => Ok (dset rr k (VList (a ++ b)))
      | _ => Ok (dset rr k (VList (a ++ [v])))
      end
  | Some old => Ok (dset rr k (VList [old; v]))
  | None => Ok (dset rr k v)
  end.

(** ttp.py 3139-3183 *)
Definition do_join (s : rstate) (rd : redict) (result : dict) : res rstate :=
  let g := r_group rd in
  if path_eqb (rc_path (s_rec s)) (g_path g)
  then
    let jc := joinchar (r_joins rd) result in
    do rr <- rfold (fun rr kv => join_one jc rr (fst kv) (snd kv)) result (rc_result (s_rec s));
    Ok (upd_rec_result s rr)
  else if gid_in (g_id g) (s_started s)
  then do_start s rd result true []
  else Ok s.

(** ttp.py 3185-3198 *)
Definition do_end (s : rstate) (rd : redict) : res rstate :=
  let g := r_group rd in
  if negb (path_eqb (rc_path (s_rec s)) (g_path g)) then
    match s_started s with
    | [] => Raise IndexError
    | top :: _ => if gid_eqb (g_id g) top then Ok s
                  else Ok (set_ended s (g_id g :: s_ended s))
    end
  else Ok (set_ended s (g_id g :: s_ended s)).

(** saveFuncs dispatch, ttp.py 2697-2703, 2829-2836 *)
Definition dispatch (s : rstate) (rd : redict) (result : dict) : res rstate :=
  match r_action rd with
  | AStart => do_start s rd result false (g_runs (r_group rd))
  | AStartEmpty => do_start s rd [] false (g_runs (r_group rd))
  | AAdd => do_add s rd result
  | AJoin => do_join s rd result
  | AEnd => do_end s rd
  end.

(** ** choosing among several matches at one position, ttp.py 2711-2813 *)

(** a Python [for .. break .. else]: the first item that satisfies the test, or
    [None] if the loop ran to its end *)
Definition first_that (test : item -> bool) (l : list item) : option item := find test l.
Definition last_item (l : list item) : option item := opt_last l.

Definition cur_gid_is (s : rstate) (g : gid) : bool :=
  match rc_gid (s_rec s) with Some x => gid_eqb g x | None => false end.

(** preference among start or startempty candidates, 2730-2754 and 2757-2783 *)
Definition pick_start (s : rstate) (l : list item) : option item :=
  match first_that (fun '(rd, d) => match d with None => false | Some _ => cur_gid_is s (g_id (r_group rd)) end) l with
  | Some x => Some x
  | None =>
      match first_that (fun '(rd, d) =>
              match d with
              | None => false
              | Some _ =>
                  (match rc_gid (s_rec s) with
                   | Some g => startswith (fst (g_id (r_group rd))) (fst g)
                   | None => false end
                   || ogid_in (g_parent (r_group rd)) (s_started s))%bool
              end) l with
      | Some x => Some x
      | None => last_item l
      end
  end.

(** 2785-2801 *)
Definition pick_normal (s : rstate) (l : list item) : option item :=
  match first_that (fun '(rd, _) => cur_gid_is s (g_id (r_group rd))) l with
  | Some x => Some x
  | None =>
      match first_that (fun '(rd, _) => gid_in (g_id (r_group rd)) (s_started s)) l with
      | Some x => Some x
      | None => last_item l
      end
  end.

(** 2803-2811 *)
Definition pick_line (s : rstate) (l : list item) : option item :=
  match first_that (fun '(rd, _) => cur_gid_is s (g_id (r_group rd))) l with
  | Some x => Some x
  | None => last_item l
  end.

Definition is_a (a : action) (b : action) : bool :=
  match a, b with
  | AStart, AStart | AStartEmpty, AStartEmpty | AAdd, AAdd | AJoin, AJoin | AEnd, AEnd => true
  | _, _ => false
  end.

Definition choose (s : rstate) (cands : list item) : option item :=
  match cands with
  | [x] => Some x
  | _ =>
      let lines := filter (fun '(rd, _) => r_isline rd) cands in
      let rest := filter (fun '(rd, _) => negb (r_isline rd)) cands in
      let se := filter (fun '(rd, _) => is_a (r_action rd) AStartEmpty) rest in
      let st := filter (fun '(rd, _) => is_a (r_action rd) AStart) rest in
      let nr := filter (fun '(rd, _) => negb (is_start (r_action rd))) rest in
      match se, st, nr with
      | _ :: _, _, _ => pick_start s se
      | [], _ :: _, _ => pick_start s st
      | [], [], _ :: _ => pick_normal s nr
      | [], [], [] => pick_line s lines
      end
  end.

(** ttp.py 2815-2836: process the chosen match *)
Definition handle (s : rstate) (x : item) : res rstate :=
  let '(rd, data) := x in
  let g := r_group rd in
  match data with
  | None => Ok (set_ended s (g_id g :: s_ended s))
  | Some result =>
      if ogid_in (g_parent g) (s_ended s) then Ok s
      else if gid_in (g_id g) (s_ended s) then
        if is_start (r_action rd)
        then dispatch (set_ended s (filter (fun y => negb (gid_eqb (g_id g) y)) (s_ended s))) rd result
        else Ok s
      else dispatch s rd result
  end.

(** one candidate set: [re_["GROUP"]] with re_ = None raises TypeError, which
    happens only for an empty candidate set *)
Definition step_item (s : rstate) (cands : list item) : res rstate :=
  match choose s cands with
  | Some x => handle s x
  | None => Raise TypeError
  end.

(** ** save_vars, ttp.py 2843-2876.  [v2r] is variables["_vars_to_results_"]
    sorted by path (the sort itself is done by [sort_paths]). *)
Fixpoint str_leb (a b : str) : bool :=
  match a, b with
  | [], _ => true
  | _ :: _, [] => false
  | x :: a', y :: b' =>
      if N.ltb (code x) (code y) then true
      else if N.ltb (code y) (code x) then false
      else str_leb a' b'
  end.
Fixpoint insert_path (x : str * list str) (l : list (str * list str)) : list (str * list str) :=
  match l with
  | [] => [x]
  | y :: t => if str_leb (fst x) (fst y) then x :: l else y :: insert_path x t
  end.
Definition sort_paths (l : list (str * list str)) := fold_right insert_path [] l.

Definition collect_vars (vars : dict) (names : list str) : dict :=
  fold_left (fun acc n => match dget vars (KS n) with Some v => dset acc (KS n) v | None => acc end) names [].

Definition save_var_path (s : rstate) (pv : str * list str) : res rstate :=
  let '(p, names) := pv in
  match p with
  | [] => Ok s
  | _ =>
      let result := collect_vars (e_vars (s_env s)) names in
      do (op, data, cache) <- form_path (e_vars (s_env s)) (map strip (split $"." p)) (VDict result) (s_cache s);
      let s1 := {| s_results := s_results s; s_started := s_started s; s_ended := s_ended s;
                   s_rec := s_rec s; s_cache := cache; s_env := s_env s |} in
      match op with
      | Some ((_ :: _) as pp) => do v <- save_cur k2i false (s_results s1) pp data; Ok (with_results s1 v)
      | _ => Ok s1
      end
  end.

Definition save_vars (s : rstate) (v2r : list (str * list str)) : res rstate :=
  do s' <- rfold save_var_path (sort_paths v2r) s;
  Ok (set_rec s' rec0).

(** ** make_results, ttp.py 2694-2841; a fresh object per call (line 2627, 2646) *)
Definition init_state (e : env) (main_results : val) : rstate :=
  {| s_results := main_results; s_started := []; s_ended := []; s_rec := rec0; s_cache := []; s_env := e |}.

Definition run_groups (raw : list (list (list item))) (s : rstate) : res rstate :=
  rfold (fun s grp => rfold step_item grp s) raw s.

Definition make_results (e : env) (v2r : list (str * list str)) (raw : list (list (list item)))
    (main_results : val) : res rstate :=
  let s0 := init_state e main_results in
  do s1 <- (match raw with [] => Ok s0 | _ => save_vars s0 v2r end);
  do s2 <- run_groups raw s1;
  flush s2.
End Machine.
