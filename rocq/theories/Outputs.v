(** * Outputs: output functions, formatters and the outputter.
    Models /repo/ttp/output/transform.py, /repo/ttp/output/is_equal.py,
    /repo/ttp/formatters/table_formatter.py, csv_formatter.py and
    _outputter_class.run (/repo/ttp/ttp.py 3395-3448). *)
From Verif Require Import PyBase Results.
Local Open Scope string_scope.
Local Open Scope list_scope.

(** a dictionary key as a value *)
Definition key_val (k : key) : val :=
  match k with KS s => VStr s | KI z => VInt z | KNone => VNone end.

(** [result[i]] for a string [i], transform.py 19 with strict *)
Definition py_item (v : val) (i : str) : res val :=
  match v with
  | VDict d => match dget d (KS i) with Some w => Ok w | None => Raise KeyError end
  | _ => Raise TypeError
  end.
(** [result.get(i, {})], transform.py 19 without strict *)
Definition py_get (v : val) (i : str) : res val :=
  match v with
  | VDict d => Ok (match dget d (KS i) with Some w => w | None => VDict [] end)
  | _ => Raise AttributeError
  end.
(** transform.py 18-19 *)
Fixpoint walk (strict : bool) (path : list str) (v : val) : res val :=
  match path with
  | [] => Ok v
  | i :: p => do w <- (if strict then py_item v i else py_get v i); walk strict p w
  end.
(** transform.py 6-22.  [path] is a list; a string path is [split_path] of it. *)
Fixpoint traverse (strict : bool) (path : list str) (data : val) : res val :=
  match data with
  | VDict _ => walk strict path data
  | VList l => do r <- (fix go (l : list val) : res (list val) :=
                         match l with [] => Ok [] | x :: t => do y <- traverse strict path x; do ys <- go t; Ok (y :: ys) end) l;
               Ok (VList r)
  | _ => Ok data
  end.
Definition split_path (p : str) : list str := map strip (split $"." p).

(** transform.py 58-64.  Simplification: [v.update] changes the dictionaries in place, so the
    caller's data change too; [done] is what they have become (the second component of the result). *)
Fixpoint dtl_items (key_name : str) (items : dict) (done : dict) (acc : list val) : val * val :=
  match items with
  | [] => (VList acc, VDict done)
  | (k, v) :: t =>
      match v with
      | VDict vd => let v' := VDict (dset vd (KS key_name) (key_val k)) in
                    dtl_items key_name t (done ++ [(k, v')]) (acc ++ [v'])
      | _ => (VDict (done ++ items), VDict (done ++ items))
      end
  end.
(** transform.py 46-68 with path None: (result, the data afterwards) *)
Fixpoint dict_to_list (key_name : str) (data : val) : val * val :=
  match data with
  | VDict d => dtl_items key_name d [] []
  | VList l => let r := map (dict_to_list key_name) l in (VList (map fst r), VList (map snd r))
  | _ => (VList [], data)
  end.
(** with a path, 54-57: the result only *)
Definition dict_to_list_at (key_name : str) (path : list str) (strict : bool) (data : val) : res val :=
  match path with
  | [] => Ok (fst (dict_to_list key_name data))
  | _ => do t <- traverse strict path data; Ok (fst (dict_to_list key_name t))
  end.

(** ** table_formatter.py *)

(** 24-41: what one datum contributes *)
Definition table_items (path : list str) (key_name : str) (strict : bool) (datum : val) : res (list val) :=
  do item <- traverse strict path datum;
  if negb (truthy item) then Ok []
  else match item with
       | VList l => Ok l
       | VDict d => match key_name with
                    | [] => Ok [item]
                    | _ => match fst (dict_to_list key_name item) with
                           | VList l => Ok l
                           | VDict d' => Ok (map (fun kv => key_val (fst kv)) d')   (* list += dict adds its keys *)
                           | _ => Raise TypeError
                           end
                    end
       | _ => Ok []
       end.
Fixpoint concat_res {A} (l : list (res (list A))) : res (list A) :=
  match l with [] => Ok [] | x :: t => do a <- x; do b <- concat_res t; Ok (a ++ b) end.
Definition table_source (data : val) : list val :=
  match data with VList l => l | VDict _ => [data] | _ => [] end.
Definition table_data (path : list str) (key_name : str) (strict : bool) (data : val) : res (list val) :=
  concat_res (map (table_items path key_name strict) (table_source data)).

(** 43-47: [sorted] of a set of keys; keys of different types do not compare *)
Definition key_lt (a b : key) : res bool :=
  match a, b with
  | KS x, KS y => Ok (negb (str_leb y x))
  | KI x, KI y => Ok (Z.ltb x y)
  | _, _ => Raise TypeError
  end.
Fixpoint insert_key (k : key) (l : list key) : res (list key) :=
  match l with
  | [] => Ok [k]
  | x :: t => do b <- key_lt k x; if b then Ok (k :: l) else do t' <- insert_key k t; Ok (x :: t')
  end.
(** Simplification: the elements are inserted one by one (the result of sorting distinct keys does not
    depend on the algorithm, nor does whether some comparison fails) *)
Definition sort_keys (l : list key) : res (list key) := rfold (fun acc k => insert_key k acc) l [].
Definition add_keys (acc : list key) (ks : list key) : list key :=
  fold_left (fun acc k => if existsb (key_eqb k) acc then acc else acc ++ [k]) ks acc.
Definition all_keys (items : list val) : res (list key) :=
  rfold (fun acc it => match it with VDict d => Ok (add_keys acc (map fst d)) | _ => Raise AttributeError end) items [].
Definition table_headers (given : list key) (items : list val) : res (list key) :=
  match given with
  | [] => do ks <- all_keys items; sort_keys ks
  | _ => Ok given
  end.

(** [headers.index(k)] if [k in headers] *)
Fixpoint key_index (k : key) (hs : list key) : option nat :=
  match hs with
  | [] => None
  | h :: t => if key_eqb k h then Some 0 else option_map S (key_index k t)
  end.
Fixpoint set_nth {A} (n : nat) (x : A) (l : list A) : list A :=
  match l, n with
  | [], _ => []
  | _ :: t, 0 => x :: t
  | y :: t, S n' => y :: set_nth n' x t
  end.
(** 51-55 *)
Definition fill_row (hs : list key) (row : list val) (kv : key * val) : list val :=
  match key_index (fst kv) hs with Some i => set_nth i (snd kv) row | None => row end.
Definition table_row (missing : val) (hs : list key) (item : val) : res (list val) :=
  match item with
  | VDict d => Ok (fold_left (fill_row hs) d (map (fun _ => missing) hs))
  | _ => Raise AttributeError
  end.
(** the table: its header row and the other rows *)
Definition table (path : list str) (missing : val) (key_name : str) (strict : bool) (headers : list key) (data : val)
  : res (list key * list (list val)) :=
  do items <- table_data path key_name strict data;
  do hs <- table_headers headers items;
  do rows <- rmap (table_row missing hs) items;
  Ok (hs, rows).

(** ** csv_formatter.py 4-26.  Simplification: [quote] and [sep] contain no braces. *)
Fixpoint str_keys (ks : list key) : res (list str) :=
  match ks with [] => Ok [] | KS s :: t => do r <- str_keys t; Ok (s :: r) | _ :: _ => Raise TypeError end.
Definition csv_line (sep quote : str) (cells : list str) : str :=
  quote ++ join (quote ++ sep ++ quote) cells ++ quote.
(** strings are joined as they are; otherwise each cell becomes [str(cell)], the same for strings *)
Definition csv_text (sep quote : str) (t : list key * list (list val)) : res str :=
  do hs <- str_keys (fst t);
  Ok (fold_left (fun acc row => acc ++ nl :: csv_line sep quote (map py_str row)) (snd t) (csv_line sep quote hs)).

(** ** is_equal.py: the "is_equal" field; [load] is output_object.tag_load *)
Definition anon : str := $"_anonymous_".
Definition is_equal (load data : val) : res bool :=
  do b <- py_in anon data;
  if b then match data with
            | VDict d => match dget d (KS anon) with Some w => Ok (py_eq w load) | None => Raise KeyError end
            | _ => Raise TypeError
            end
  else Ok (py_eq data load).

(** ** _outputter_class.run, ttp.py 3395-3448 *)
Section Run.
(** output functions, formatters and returners, by name with their arguments *)
Variable F : Type.
(** a function gives its result and what it left of the data the outputter was given *)
Variable runf : F -> val -> val -> res (val * val).
(** [None]: unsupported formatter *)
Variable format : option (val -> res val).
Variable is_self : str -> bool.
(** effect of a supported returner other than self, [None] if unsupported *)
Variable Eff : Type.
Variable returner : str -> option (val -> Eff).

(** 3408-3413; [condition] is the list of the attribute's arguments *)
Definition cond_holds (condition : list val) (vars : dict) : res bool :=
  match condition with
  | [] => Ok true
  | [n; want] => do k <- key_of n; Ok (py_eq (match dget vars k with Some v => v | None => VStr $"_undef_" end) want)
  | _ => Raise ValueError
  end.
Fixpoint run_functions (fs : list F) (results data : val) : res (val * val) :=
  match fs with
  | [] => Ok (results, data)
  | f :: t => do (r', d') <- runf f results data; run_functions t r' d'
  end.
(** 3432-3443: returners in order; the self returner sets the flag *)
Fixpoint run_returners (rs : list str) (results : val) (flag : bool) : list Eff * bool :=
  match rs with
  | [] => ([], flag)
  | r :: t =>
      if is_self r then run_returners t results true
      else let (es, fl) := run_returners t results flag in
           (match returner r with Some e => e results :: es | None => es end, fl)
  end.
(** [flag] is return_to_self from earlier runs of the same object *)
Definition output_run (condition : list val) (vars : dict) (fs : list F) (rs : list str) (flag : bool) (data : val)
  : res (val * list Eff * bool) :=
  do c <- cond_holds condition vars;
  if negb c then Ok (data, [], flag)
  else
    do (results, data') <- run_functions fs data data;
    do formatted <- (match format with Some f => f results | None => Ok results end);
    let (es, fl) := run_returners rs formatted flag in
    Ok (if fl then formatted else data', es, fl).
End Run.
