(** * Cache: lazy_import_functions, CachedModule and add_function
    (/repo/ttp/ttp.py 29-66, 69-177, 797-805). *)
From Verif Require Import PyBase.
Local Open Scope string_scope.
Local Open Scope list_scope.

(** a module of the package: its directory, file name, top level functions in order and [_name_map_].
    Simplification: parsing the file (127-146) is not modelled. *)
Record pyfile := mkF { pf_dir : str; pf_name : str; pf_defs : list str; pf_map : list (key * str) }.
Definition ends_with (suf s : str) : bool := prefixb (rev suf) (rev s).
(** 119-120, 125-131 *)
Definition used_file (major : nat) (f : pyfile) : bool :=
  (ends_with $".py" (pf_name f) && negb (prefixb $"_" (pf_name f)) &&
   negb (ends_with (if Nat.eqb major 2 then $"_py3.py" else $"_py2.py") (pf_name f)) &&
   negb (str_eqb (pf_name f) $"ttp.py"))%bool.
(** 140: functions whose name does not start with an underscore *)
Definition public (f : pyfile) : list str := filter (fun n => negb (prefixb $"_" n)) (pf_defs f).
(** [_name_map_.get(func_name, func_name)] *)
Definition mapped (f : pyfile) (n : str) : str := match dget (pf_map f) (KS n) with Some m => m | None => n end.

(** [_ttp_[directory][name]] *)
Definition table_ (A : Type) := list (key * list (key * A)).
Definition fget {A} (t : table_ A) (dir name : str) : option A :=
  match dget t (KS dir) with Some d => dget d (KS name) | None => None end.
Definition fput {A} (t : table_ A) (dir name : str) (a : A) : table_ A :=
  dset t (KS dir) (dset (match dget t (KS dir) with Some d => d | None => [] end) (KS name) a).

(** a CachedModule: the module it stands for and its own name.  Simplification: import_path,
    parent_dir and parent_module_functions are those of the module. *)
Record cached := mkC { c_file : pyfile; c_name : str }.
(** 158-166 *)
Definition scan_file (t : table_ cached) (f : pyfile) : table_ cached :=
  fold_left (fun t n => fput t (pf_dir f) (mapped f n) (mkC f (mapped f n))) (public f) t.
Definition scan (major : nat) (files : list pyfile) : table_ cached :=
  fold_left scan_file (filter (used_file major) files) [].

(** ** the cache file *)

(** what was pickled.  Simplification: of the other sections (macro, vars, ...) nothing is kept. *)
Record ttpdict := mkT { t_major : nat; t_version : option str; t_funs : table_ cached }.
Inductive pickled :=
| PDict (t : ttpdict)
| POther.     (* anything else: [_ttp_["python_major_version"]] raises *)
Inductive cachefile :=
| CAbsent
| CBroken     (* open() or pickle.load() raises: unreadable, empty, truncated, not a pickle *)
| CHolds (p : pickled).
Definition same_version (v : option str) (ver : str) : bool := match v with Some x => str_eqb x ver | None => false end.
(** lazy_import_functions: the functions, and what is then written to the cache file (None: nothing).
    [major]: the running Python; [ver]: ttp's __version__; [files]: the package as os.walk lists it. *)
Definition startup (major : nat) (ver : str) (files : list pyfile) (c : cachefile) : res (table_ cached * option ttpdict) :=
  match c with
  | CHolds (PDict t) =>
      if (Nat.eqb (t_major t) major && same_version (t_version t) ver)%bool
      then Ok (t_funs t, None)                                         (* 91-98 *)
      else let s := scan major files in Ok (s, Some (mkT major (Some ver) s))   (* 99-108 *)
  | CHolds POther => Raise KeyError                                    (* 91 raises, 109 catches, 117 raises again *)
  | CAbsent | CBroken => let s := scan major files in Ok (s, Some (mkT major None s))  (* the first dictionary has no __version__ *)
  end.

(** ** processes sharing a cache file *)
Inductive pstate :=
| PStart
| PReady (t : table_ cached) (w : option ttpdict)
| PWriting (t : table_ cached) (w : ttpdict)
| PDone (t : table_ cached)
| PFailed
| PDead.
Record world := mkW { w_cache : cachefile; w_procs : nat -> pstate }.
Definition set_proc (w : world) (p : nat) (s : pstate) : nat -> pstate := fun q => if Nat.eqb q p then s else w_procs w q.
Section Steps.
Variable major : nat -> nat.          (* the Python of process p *)
Variable version : nat -> str.        (* the ttp of process p *)
Variable contents : str -> list pyfile.   (* the files of a version of ttp *)
Inductive cstep : world -> world -> Prop :=
| cs_start w p t o : w_procs w p = PStart -> startup (major p) (version p) (contents (version p)) (w_cache w) = Ok (t, o) ->
    cstep w (mkW (w_cache w) (set_proc w p (PReady t o)))
| cs_start_raise w p e : w_procs w p = PStart -> startup (major p) (version p) (contents (version p)) (w_cache w) = Raise e ->
    cstep w (mkW (w_cache w) (set_proc w p PFailed))
| cs_cached w p t : w_procs w p = PReady t None -> cstep w (mkW (w_cache w) (set_proc w p (PDone t)))
(* 169: open(cache_file, "wb") empties the file, or fails *)
| cs_open w p t d : w_procs w p = PReady t (Some d) -> cstep w (mkW CBroken (set_proc w p (PWriting t d)))
| cs_open_fails w p t d : w_procs w p = PReady t (Some d) -> cstep w (mkW (w_cache w) (set_proc w p (PDone t)))
(* 170: pickle.dump completes, or fails half way *)
| cs_write w p t d : w_procs w p = PWriting t d -> cstep w (mkW (CHolds (PDict d)) (set_proc w p (PDone t)))
| cs_write_fails w p t d : w_procs w p = PWriting t d -> cstep w (mkW CBroken (set_proc w p (PDone t)))
(* a partial write by one process over what another one wrote *)
| cs_torn w p t d : w_procs w p = PWriting t d -> cstep w (mkW CBroken (w_procs w))
(* the process is killed; the file is removed *)
| cs_kill w p : cstep w (mkW (w_cache w) (set_proc w p PDead))
| cs_remove w : cstep w (mkW CAbsent (w_procs w)).
Inductive csteps : world -> world -> Prop :=
| css_refl w : csteps w w
| css_step w1 w2 w3 : csteps w1 w2 -> cstep w2 w3 -> csteps w1 w3.
End Steps.

(** ** calling functions *)
Inductive slot :=
| Lazy (c : cached)                     (* CachedModule *)
| Real (f : pyfile) (def : str)         (* the function [def] of a module of the package *)
| Custom (n : nat).                     (* a user's function *)
(** every parser has its table; an imported module has one [_ttp_] in its globals, which is the
    dictionary of some parser *)
Record runtime := mkRt { r_tabs : nat -> table_ slot; r_bind : list (key * nat) }.
Definition module_key (f : pyfile) : key := KS (pf_dir f ++ $"." ++ replace_all $".py" [] (pf_name f)).
(** CachedModule.load, 45-58 *)
Definition load_module (t : table_ slot) (f : pyfile) : table_ slot :=
  fold_left (fun t n => fput t (pf_dir f) (mapped f n) (Real f n)) (public f) t.
Definition set_tab (r : runtime) (s : nat) (t : table_ slot) : nat -> table_ slot := fun q => if Nat.eqb q s then t else r_tabs r q.
Inductive called := CallReal (f : pyfile) (def : str) (env : option nat) | CallCustom (n : nat).
(** a call of [_ttp_[dir][name]] by parser [s]: what runs, and the parser whose [_ttp_] it sees *)
Definition call (r : runtime) (s : nat) (dir name : str) : res (called * runtime) :=
  match fget (r_tabs r s) dir name with
  | None => Raise KeyError
  | Some (Custom n) => Ok (CallCustom n, r)
  | Some (Real f d) => Ok (CallReal f d (dget (r_bind r) (module_key f)), r)
  | Some (Lazy c) =>                                     (* 60-66 *)
      let f := c_file c in
      let r' := mkRt (set_tab r s (load_module (r_tabs r s) f)) (dset (r_bind r) (module_key f) s) in
      match fget (r_tabs r' s) (pf_dir f) (c_name c) with
      | Some (Real g d) => Ok (CallReal g d (dget (r_bind r') (module_key g)), r')
      | Some (Custom n) => Ok (CallCustom n, r')
      | _ => Raise RuntimeError                          (* calls itself for ever *)
      end
  end.
(** 800; the scope has to be there *)
Definition add_function (r : runtime) (s : nat) (scope name : str) (n : nat) : res runtime :=
  match dget (r_tabs r s) (KS scope) with
  | None => Raise KeyError
  | Some _ => Ok (mkRt (set_tab r s (fput (r_tabs r s) scope name (Custom n))) (r_bind r))
  end.
(** a new parser: [ttp()] *)
Definition as_slots (t : table_ cached) : table_ slot := map (fun kd => (fst kd, map (fun ke => (fst ke, Lazy (snd ke))) (snd kd))) t.
Definition new_parser (r : runtime) (s : nat) (t : table_ cached) : runtime := mkRt (set_tab r s (as_slots t)) (r_bind r).

Inductive rt_event := ENew (s : nat) | ECall (s : nat) (dir name : str) | EAdd (s : nat) (scope name : str) (n : nat).
(** events one after the other; what every call ran *)
Definition rt_step (t : table_ cached) (r : runtime) (e : rt_event) : runtime * list (res called) :=
  match e with
  | ENew s => (new_parser r s t, [])
  | ECall s dir name => match call r s dir name with Ok (c, r') => (r', [Ok c]) | Raise x => (r, [Raise x]) end
  | EAdd s scope name n => match add_function r s scope name n with Ok r' => (r', []) | Raise _ => (r, []) end
  end.
Fixpoint rt_run (t : table_ cached) (r : runtime) (es : list rt_event) : runtime * list (res called) :=
  match es with
  | [] => (r, [])
  | e :: es' => let (r1, o1) := rt_step t r e in let (r2, o2) := rt_run t r1 es' in (r2, o1 ++ o2)
  end.
Definition rt_init : runtime := mkRt (fun _ => []) [].
