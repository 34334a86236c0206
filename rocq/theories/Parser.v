(** * Parser: model of [_parser_class] (/repo/ttp/ttp.py 2350-2656).

    A compiled regular expression is an arbitrary function from a text to its
    list of matches; match functions are arbitrary too.  Parsing runs every
    regex of the group tree over a window of the text and collects the matches
    by position; the sorted matches go to the results builder (Results.v). *)
From Verif Require Import PyBase Results MatchFuncs.

(** a match object: [span()], [group()], [groupdict()] (None for a group that did not take part) *)
Record pmatch := { pm_start : nat; pm_end : nat; pm_text : str; pm_groups : list (str * val) }.

(** one call of the function list of a match variable: [mf_call] is
    [_ttp_["match"][name](data, *args, **kwargs)] - KeyError when there is no such
    function, or when the function itself raises it; [mf_attr] is the attribute
    of the data tried instead (ttp.py 2463-2468), called if callable. *)
Record mfunc := {
  mf_call : menv -> val -> res (menv * (val * mflag));
  mf_attr : val -> res val }.
Record pvar := { pv_orig : key; pv_funcs : list mfunc }.

(** ttp.py 2457-2492: one function.  Simplification: changes a function made to
    the variables before raising KeyError are forgotten. *)
Definition run_func (f : mfunc) (env : menv) (data : val) : res (menv * (val * mflag)) :=
  match mf_call f env data with
  | Raise KeyError =>
      match mf_attr f data with
      | Ok (VBool false) => Ok (env, (data, FBool false))
      | Ok (VBool true) => Ok (env, (data, FBool true))
      | Ok v => Ok (env, (v, FNone))
      | Raise AttributeError => Ok (env, (data, FNone))
      | Raise e => Raise e
      end
  | r => r
  end.

(** ttp.py 2453-2504: the functions of one variable; [flags] is flags["new_field"].
    [None] is [result = False]. *)
Fixpoint run_chain (fs : list mfunc) (env : menv) (data : val) (flags : dict)
  : res (menv * option (val * dict)) :=
  match fs with
  | [] => Ok (env, Some (data, flags))
  | f :: t =>
      do (env', (d, fl)) <- run_func f env data;
      match fl with
      | FBool false => Ok (env', None)
      | FNew nf => run_chain t env' d (dupdate flags nf)
      | _ => run_chain t env' d flags
      end
  end.

Fixpoint assoc {A} (n : str) (l : list (str * A)) : option A :=
  match l with [] => None | (m, a) :: t => if str_eqb n m then Some a else assoc n t end.

(** ttp.py 2451-2514: all variables of one match *)
Fixpoint run_vars (vars : list (str * pvar)) (temp : list (str * val)) (env : menv) (result : dict)
  : res (menv * option dict) :=
  match temp with
  | [] => Ok (env, Some result)
  | (n, data) :: t =>
      match assoc n vars with
      | None => Raise KeyError
      | Some v =>
          do (env', o) <- run_chain (pv_funcs v) env data [];
          match o with
          | None => Ok (env', None)
          | Some (d, nf) => run_vars vars t env' (dupdate (dset result (pv_orig v) d) nf)
          end
      end
  end.

(** ** set_data: the variables an input starts with (ttp.py 2363-2392, 2417-2428).
    [vfs] is vars["_var_functions_"] with, for each variable, the value its
    function computes for this text ([None]: it failed or returned something
    falsy, and the variable keeps its value). *)
Definition set_vars (orig : dict) (vfs : list (key * (str -> option val))) (text : str) : dict :=
  fold_left (fun vs kf => match (snd kf) text with
                          | Some v => if truthy v then dset vs (fst kf) v else vs
                          | None => vs end) vfs orig.
(** ttp.py 2375: the text that is parsed *)
Definition datatext (d : str) : str := nl :: d ++ [nl; nl].

Section P.
Variable F : Type.

(** a regex dictionary together with its compiled regex and its variables, ttp.py 1848-1856 *)
Record pregex := {
  p_re : redict F;
  p_find : str -> list pmatch;        (* list(REGEX.finditer(text)) *)
  p_vars : list (str * pvar) }.

(** a group object: start, end and normal regexes, has_start_re_default, children *)
Inductive pgroup :=
| PG (g : group F) (starts ends normals : list pregex) (has_default : bool) (children : list pgroup).

Definition pg_group (G : pgroup) : group F := match G with PG g _ _ _ _ _ => g end.
Definition pg_default (G : pgroup) : bool := match G with PG _ _ _ _ d _ => d end.

(** match results by position, in insertion order *)
Notation found := (list (Z * list (item F))).

(** ttp.py 2518-2523 *)
Fixpoint add_at (p : Z) (x : item F) (rs : found) : found :=
  match rs with
  | [] => [(p, [x])]
  | (q, l) :: t => if Z.eqb p q then (q, l ++ [x]) :: t else (q, l) :: add_at p x t
  end.

(** ttp.py 2443-2450 *)
Definition temp_of (R : pregex) (m : pmatch) : list (str * val) :=
  match pm_groups m with
  | [] => map (fun nv => (fst nv, VStr (pm_text m))) (p_vars R)
  | gd => gd
  end.

(** ttp.py 2440-2523, one match *)
Definition check_one (R : pregex) (start : Z) (st : menv * found) (m : pmatch) : res (menv * found) :=
  let '(env, rs) := st in
  do (env', result) <- run_vars (p_vars R) (temp_of R m) env [];
  match result with
  | None => if is_start (r_action F (p_re R))
            then Ok (env', add_at (start + Z.of_nat (pm_start m)) (p_re R, None) rs)
            else Ok (env', rs)
  | Some d => Ok (env', add_at (start + Z.of_nat (pm_start m)) (p_re R, Some d) rs)
  end.
Definition check_matches (R : pregex) (ms : list pmatch) (start : Z) (st : menv * found) : res (menv * found) :=
  rfold (check_one R start) ms st.

(** [text[start:end]] for start >= 0 *)
Definition slice (text : str) (start stop : Z) : str :=
  let n := Z.of_nat (length text) in
  let e := if Z.ltb stop 0 then (n + stop)%Z else stop in
  firstn (Z.to_nat (e - start)) (skipn (Z.to_nat start) text).

(** ttp.py 2534-2549: the state of the loop over start regexes *)
Record sacc := { sa_found : bool; sa_s : Z; sa_se : Z; sa_st : menv * found }.
Definition do_start (text : str) (start stop : Z) (a : sacc) (R : pregex) : res sacc :=
  match p_find R (slice text start stop) with
  | [] => Ok a
  | (m :: _) as ms =>
      do st <- check_matches R ms start (sa_st a);
      let s0 := Z.of_nat (pm_start m) in
      let lst := last ms m in
      Ok {| sa_found := true;
            sa_s := if (Z.ltb s0 (sa_s a) || negb (sa_found a))%bool then s0 else sa_s a;
            sa_se := if (Z.ltb (sa_se a) (Z.of_nat (pm_start lst)) && negb (r_isline F (p_re R)))%bool
                     then (Z.of_nat (pm_end lst) + start)%Z else sa_se a;
            sa_st := st |}
  end.

(** ttp.py 2574-2583: the loop over end regexes, (e, state) *)
Definition do_end (text : str) (start stop se : Z) (a : Z * (menv * found)) (R : pregex) : res (Z * (menv * found)) :=
  match p_find R (slice text start stop) with
  | [] => Ok a
  | (m :: _) as ms =>
      do st <- check_matches R ms start (snd a);
      let x := Z.of_nat (pm_end (last ms m)) in
      Ok (if (Z.ltb (fst a) x && Z.ltb se x)%bool then x else fst a, st)
  end.

(** ttp.py 2589-2591: [for item in l: if p(item): l.remove(item)] - removing while
    iterating skips the item after a removed one.  Simplification: [remove] finds
    the item itself, not an earlier equal one. *)
Fixpoint remove_iter {A} (p : A -> bool) (l : list A) : list A :=
  match l with
  | [] => []
  | x :: t => if p x then match t with [] => [] | y :: t' => y :: remove_iter p t' end
              else x :: remove_iter p t
  end.
(** ttp.py 2586-2596; "GROUP is group" is identity of group ids here *)
Definition of_gid (g : gid) (x : item F) : bool := gid_eqb (g_id F (r_group F (fst x))) g.
Definition nonempty_l {A} (l : list A) : bool := match l with [] => false | _ => true end.
Definition cleanup (g : gid) (stop : Z) (rs : found) : found :=
  filter (fun e => nonempty_l (snd e))
    (map (fun e => (fst e, remove_iter (fun x => (of_gid g x && Z.ltb stop (fst e))%bool) (snd e))) rs).

(** ttp.py 2562-2565: the first free key from 10000000 *)
Definition has_key (p : Z) (rs : found) : bool := existsb (fun e => Z.eqb p (fst e)) rs.
Fixpoint free_key (fuel : nat) (p : Z) (rs : found) : Z :=
  match fuel with
  | O => p
  | S f => if has_key p rs then free_key f (p + 1) rs else p
  end.
Definition default_key : Z := 10000000.

(** ttp.py 2557-2561: the start regex of a group with defaults *)
Definition default_re (g : group F) (starts : list pregex) : redict F :=
  match starts with
  | [] => {| r_action := AStart; r_isline := false; r_group := g; r_joins := [] |}
  | R :: _ => p_re R
  end.
Definition place_default (g : group F) (starts : list pregex) (rs : found) : found :=
  rs ++ [(free_key (S (length rs)) default_key rs, [(default_re g starts, Some [])])].

Definition no_starts (l : list pregex) : bool := match l with [] => true | _ => false end.

(** ttp.py 2525-2607 run_re *)
Fixpoint run_re (text : str) (G : pgroup) (st : menv * found) (start stop : Z) {struct G} : res (menv * found) :=
  match G with
  | PG g starts ends normals has_default children =>
      do a <- rfold (do_start text start stop) starts
                {| sa_found := false; sa_s := 0; sa_se := 0; sa_st := st |};
      let start1 := (start + sa_s a)%Z in
      if negb (sa_found a) then
        let st1 := if has_default then (fst (sa_st a), place_default g starts (snd (sa_st a))) else sa_st a in
        (fix go (cs : list pgroup) (st : menv * found) : res (menv * found) :=
           match cs with
           | [] => Ok st
           | c :: t =>
               do st' <- (if (no_starts starts || pg_default c)%bool
                          then run_re text c st start1 stop else Ok st);
               go t st'
           end) children st1
      else
        do (e, st1) <- rfold (do_end text start1 stop (sa_se a)) ends ((-1)%Z, sa_st a);
        let stop1 := if Z.eqb e (-1) then stop else (start1 + e)%Z in
        let st2 := if Z.eqb e (-1) then st1 else (fst st1, cleanup (g_id F g) stop1 (snd st1)) in
        do st3 <- rfold (fun st R => check_matches R (p_find R (slice text start1 stop1)) start1 st) normals st2;
        (fix go (cs : list pgroup) (st : menv * found) : res (menv * found) :=
           match cs with
           | [] => Ok st
           | c :: t => do st' <- run_re text c st start1 stop1; go t st'
           end) children st3
  end.

(** ttp.py 2628-2632 [[group_result[key] for key in sorted(group_result.keys())]] *)
Fixpoint insert_found (x : Z * list (item F)) (l : found) : found :=
  match l with
  | [] => [x]
  | y :: t => if Z.leb (fst x) (fst y) then x :: l else y :: insert_found x t
  end.
Definition sort_found (l : found) : found := fold_right insert_found [] l.
Definition raw_of (l : found) : list (list (item F)) := map snd (sort_found l).

(** ttp.py 1922-1930 update_runs, for one group's runs *)
Definition update_runs (data runs : dict) : dict :=
  fold_left (fun rs kv => map (fun d => if py_eq (snd d) (key_val (fst kv)) then (fst d, snd kv) else d) rs) data runs.
Definition set_runs (f : dict -> dict) (x : item F) : item F :=
  let '(rd, r) := x in
  let g := r_group F rd in
  ({| r_action := r_action F rd; r_isline := r_isline F rd; r_joins := r_joins F rd;
      r_group := {| g_id := g_id F g; g_parent := g_parent F g; g_path := g_path F g;
                    g_runs := f (g_runs F g); g_funcs := g_funcs F g |} |}, r).

Variable runf : F -> fstate -> res (fstate * bool).
Variable k2i : bool.

(** ttp.py 2611-2619: all groups, in the order of the indexes, each into a fresh dictionary *)
Fixpoint run_all (text : str) (Gs : list (pgroup * bool)) (env : menv) : res (menv * list (found * bool)) :=
  match Gs with
  | [] => Ok (env, [])
  | (G, own) :: t =>
      do (env1, rs) <- run_re text G (env, []) 0 (-1);
      do (env2, l) <- run_all text t env1;
      Ok (env2, (rs, own) :: l)
  end.

(** ttp.py 2429-2656 parse.  A group is given with the flag "has its own outputs";
    those are run on the group's results by [outs], in order of the groups.
    [v2r] is vars["_vars_to_results_"].  Simplification: [outs] is one function per
    group with own outputs. *)
Fixpoint own_results (e : env) (v2r : list (str * list str)) (l : list (list (list (item F)) * (val -> res val)))
  (main : list val) : res (env * list val) :=
  match l with
  | [] => Ok (e, main)
  | (raw, out) :: t =>
      do s <- make_results F runf k2i e v2r [raw] (VDict []);
      do v <- out (s_results F s);
      own_results (s_env F s) v2r t (main ++ [v])
  end.
Definition parse (text : str) (Gs : list (pgroup * option (val -> res val))) (v2r : list (str * list str))
  (env0 : menv) (main : val) : res (menv * (env * val)) :=
  do (env1, l) <- run_all text (map (fun x => (fst x, match snd x with Some _ => true | None => false end)) Gs) env0;
  let fresh runs := update_runs (m_vars env1) (update_runs (m_gvars env1) runs) in
  let cook (rs : found) : list (list (item F)) := map (map (set_runs fresh)) (raw_of rs) in
  let glob := flat_map (fun x => match snd x with
                                 | false => match fst x with [] => [] | rs => [cook rs] end
                                 | true => [] end) l in
  let own := flat_map (fun x => match snd (snd x) with
                                | Some out => match fst (fst x) with [] => [] | rs => [(cook rs, out)] end
                                | None => [] end) (combine l Gs) in
  do s <- make_results F runf k2i {| e_vars := m_vars env1; e_gvars := m_gvars env1 |} v2r glob main;
  match own with
  | [] => Ok (env1, (s_env F s, s_results F s))
  | _ =>
      let start := match s_results F s with
                   | VDict [] => []
                   | VDict d => [VDict d]
                   | VList l => l
                   | v => [v] end in
      do (e, vs) <- own_results (s_env F s) v2r own start;
      Ok (env1, (e, VList vs))
  end.

(** the group objects after their runs have been changed: every reference to the
    group sees the new runs *)
Definition group_runs (f : gid -> dict -> dict) (g : group F) : group F :=
  {| g_id := g_id F g; g_parent := g_parent F g; g_path := g_path F g;
     g_runs := f (g_id F g) (g_runs F g); g_funcs := g_funcs F g |}.
Definition regex_runs (f : gid -> dict -> dict) (R : pregex) : pregex :=
  {| p_re := {| r_action := r_action F (p_re R); r_isline := r_isline F (p_re R);
                r_group := group_runs f (r_group F (p_re R)); r_joins := r_joins F (p_re R) |};
     p_find := p_find R; p_vars := p_vars R |}.
Fixpoint tree_runs (f : gid -> dict -> dict) (G : pgroup) : pgroup :=
  match G with
  | PG g a b c d cs => PG (group_runs f g) (map (regex_runs f) a) (map (regex_runs f) b) (map (regex_runs f) c) d
                          (map (tree_runs f) cs)
  end.

(** ** the parser object between inputs *)
Record pstate := { ps_vars : dict; ps_gvars : dict; ps_groups : list (pgroup * option (val -> res val)) }.
Definition groups_runs (f : gid -> dict -> dict) (l : list (pgroup * option (val -> res val))) :=
  map (fun x => (tree_runs f (fst x), snd x)) l.

(** set_data followed by parse for one text: ttp.py 2363-2392 and 2429-2656.
    [orig] are the template's variables, [vfs] its variable functions,
    [defaults] the groups' default values. *)
Definition process (orig : dict) (vfs : list (key * (str -> option val))) (defaults : gid -> dict)
  (v2r : list (str * list str)) (st : pstate) (data : str) (main : val) : res (pstate * val) :=
  let text := datatext data in
  let vars := set_vars orig vfs text in
  let groups := groups_runs (fun id _ => defaults id) (ps_groups st) in
  do (env1, (e, v)) <- parse text groups v2r {| m_vars := vars; m_gvars := ps_gvars st |} main;
  Ok ({| ps_vars := e_vars e; ps_gvars := e_gvars e;
         ps_groups := groups_runs (fun _ runs => update_runs (m_vars env1) (update_runs (m_gvars env1) runs)) groups |}, v).
End P.

