(** * Session: the public [ttp] object - inputs, parsing, results.
    Models ttp/ttp.py 251-347 (inputs), 415-451 and 498-532 (parse), 611-659
    (result), 680-704 (clear_result), 983-1072 (template bookkeeping) and
    1466-1510, 1597-1619 (input objects).

    Simplifications:
    - what a parser object does with one datum is a parameter [prs] of the
      section; it may depend on and change a global state [G] (recorded
      variables, group objects): the machine behind it is Parser.v/Results.v.
    - output tags are a list of arbitrary functions on the template's results
      ([Outputs.v] models the functions themselves).
    - an exception leaves no state behind: [Raise] (Python keeps what earlier
      templates already stored).
    - values are immutable here; aliasing of result lists is in SessionHeap.v. *)
From Verif Require Import PyBase DictFacts.
Local Open Scope string_scope.
Local Open Scope list_scope.

(** one data item, a tuple (type, value): utils/loaders.py 29-100 *)
Inductive datum :=
| FileName (p : str)
| TextData (t : str)
| StructData (v : val).

(** [==] on the tuples *)
Definition datum_eqb (a b : datum) : bool :=
  match a, b with
  | FileName x, FileName y => str_eqb x y
  | TextData x, TextData y => str_eqb x y
  | StructData x, StructData y => py_eq x y
  | _, _ => false
  end.

(** what an input needs to know of a top group: index, name, [input] attribute *)
Record tgroup := { tg_index : nat; tg_name : str; tg_inputs : list str }.

Section S.
Context {Fn G : Type}.

Record input := { in_groups : list nat; in_data : list datum; in_funcs : Fn }.
Record template := {
  t_id : nat; t_name : str; t_method : str; t_groups : list tgroup;
  t_inputs : list (str * input); t_results : val; t_outputs : list (val -> res val) }.
Record session := { ss_templates : list template; ss_global : G; ss_threshold : Z }.

Definition set_inputs (t : template) (l : list (str * input)) : template :=
  {| t_id := t_id t; t_name := t_name t; t_method := t_method t; t_groups := t_groups t;
     t_inputs := l; t_results := t_results t; t_outputs := t_outputs t |}.
Definition set_results (t : template) (v : val) : template :=
  {| t_id := t_id t; t_name := t_name t; t_method := t_method t; t_groups := t_groups t;
     t_inputs := t_inputs t; t_results := v; t_outputs := t_outputs t |}.
Definition set_templates (s : session) (l : list template) : session :=
  {| ss_templates := l; ss_global := ss_global s; ss_threshold := ss_threshold s |}.
Definition set_global (s : session) (g : G) : session :=
  {| ss_templates := ss_templates s; ss_global := g; ss_threshold := ss_threshold s |}.

(** ** Parameters: the world outside *)
Variable fsize : str -> res Z.          (* os.path.getsize *)
Variable tsize : str -> Z.              (* sys.getsizeof of a str *)
Variable load : val -> list datum.      (* utils.load_files(path, read=False) *)
Variable nofuncs : Fn.                  (* the functions of an input created by add_input: none *)
(** [list(set(l))]: Python leaves the order unspecified *)
Variable order : list nat -> list nat.
Variable prs : nat -> G -> list nat -> Fn -> datum -> val -> res (G * val).
Variable multi : template -> G -> res (G * template).   (* Workers.v *)

(** ** Inputs *)
Fixpoint aget {A} (l : list (str * A)) (k : str) : option A :=
  match l with [] => None | (k', v) :: t => if str_eqb k k' then Some v else aget t k end.
Fixpoint aset {A} (l : list (str * A)) (k : str) (v : A) : list (str * A) :=
  match l with
  | [] => [(k, v)]
  | (k', v') :: t => if str_eqb k k' then (k', v) :: t else (k', v') :: aset t k v
  end.

(** [sorted(list(set(l)))] *)
Fixpoint insert_nat (n : nat) (l : list nat) : list nat :=
  match l with
  | [] => [n]
  | m :: t => if Nat.ltb n m then n :: l else if Nat.eqb n m then l else m :: insert_nat n t
  end.
Definition sort_set (l : list nat) : list nat := fold_right insert_nat [] l.

(** extract_groups: ttp.py 1482-1510 *)
Definition extract_groups (tgs : list tgroup) (name : str) (groups_list : list str) : list nat :=
  let no_inputs := fun g => match tg_inputs g with [] => true | _ => false end in
  let input_groups :=
    if in_strs ($"all") groups_list
    then map tg_index (filter no_inputs tgs)
    else map tg_index (filter (fun g => (in_strs (tg_name g) groups_list && no_inputs g)%bool) tgs) in
  let group_inputs := map tg_index (filter (fun g => in_strs name (tg_inputs g)) tgs) in
  match group_inputs with
  | [] => sort_set input_groups
  | _ => sort_set group_inputs
  end.

(** load_data with data: ttp.py 1601-1605 *)
Definition load_data (old data : list datum) : list datum :=
  fold_left (fun acc d => if existsb (datum_eqb d) acc then acc else acc ++ [d]) data old.

(** update_input without an element: ttp.py 1028-1055 *)
Definition update_input (t : template) (name : str) (groups : list str) (data : list datum) : template :=
  let obj := {| in_groups := extract_groups (t_groups t) name groups; in_data := load_data [] data;
                in_funcs := nofuncs |} in
  match aget (t_inputs t) name with
  | Some i => set_inputs t (aset (t_inputs t) name
      {| in_groups := order (in_groups i ++ in_groups obj); in_data := load_data (in_data i) (in_data obj);
         in_funcs := in_funcs i |})
  | None => set_inputs t (aset (t_inputs t) name obj)
  end.

Definition all_name : str := $"_all_".
Definition selected (template_name : str) (t : template) : bool :=
  (str_eqb (t_name t) template_name || str_eqb template_name all_name)%bool.

(** add_input: ttp.py 251-286 (the default for [groups] is the list of "all") *)
Definition add_input (s : session) (data : val) (input_name template_name : str) (groups : list str) : session :=
  let groups := match groups with [] => [$"all"] | _ => groups end in
  let items := load data in
  match items with
  | [] => s
  | _ => set_templates s (map (fun t => if selected template_name t then update_input t input_name groups items else t)
                              (ss_templates s))
  end.

(** clear_input: ttp.py 319-332 *)
Definition clear_input (s : session) (template_name : str) : session :=
  set_templates s (map (fun t => if selected template_name t then set_inputs t [] else t) (ss_templates s)).

(** set_input: ttp.py 288-317 *)
Definition set_input (s : session) (data : val) (input_name template_name : str) (groups : list str) : session :=
  let groups := match groups with [] => [$"all"] | _ => groups end in
  add_input (clear_input s template_name) data input_name template_name groups.

(** ** Size and process mode *)
(** _calculate_overall_data_size: ttp.py 334-347 *)
Definition add_size (acc : Z * nat) (d : datum) : res (Z * nat) :=
  match d with
  | FileName p => do n <- fsize p; Ok ((fst acc + n)%Z, snd acc)
  | TextData x => Ok ((fst acc + tsize x)%Z, snd acc)
  | StructData _ => Ok acc
  end.
Definition data_size (s : session) : res (Z * nat) :=
  rfold (fun acc t =>
    rfold (fun acc i =>
      rfold add_size (in_data (snd i)) (fst acc, snd acc + length (in_data (snd i)))%nat) (t_inputs t) acc)
    (ss_templates s) (0%Z, 0%nat).

(** ** Results *)
Definition anonymous : str := $"_anonymous_".

(** form_results, the datum: ttp.py 985-1000.
    Simplification: [result] is a dictionary or a list (all a parser returns). *)
Definition form_datum (result : val) : res val :=
  match result with
  | VDict d =>
      match dget d (KS anonymous) with
      | Some v =>
          match ddel d (KS anonymous) with
          | [] => Ok v
          | rest => match v with VList l => Ok (VList (l ++ [VDict rest])) | _ => Raise AttributeError end
          end
      | None => Ok result
      end
  | VList l => if existsb (py_eq (VStr anonymous)) l then Raise TypeError else Ok result
  | _ => Raise TypeError
  end.

(** form_results: ttp.py 983-1013 *)
Definition form_results (t : template) (result : val) : res template :=
  do d <- form_datum result;
  if str_eqb (t_method t) ($"per_template") then Ok (set_results t d)
  else if str_eqb (t_method t) ($"per_input") then
    match t_results t with
    | VList l => Ok (set_results t (VList (l ++ [d])))
    | _ => Raise AttributeError
    end
  else Ok t.

(** __parse_in_one_process, one template: ttp.py 503-532 *)
Definition parse_one (t0 : template) (g : G) : res (G * template) :=
  let m := lower (t_method t0) in
  if str_eqb m ($"per_input") then
    rfold (fun st i =>
      rfold (fun st d =>
        do (g', v) <- prs (t_id t0) (fst st) (in_groups (snd i)) (in_funcs (snd i)) d (VDict []);
        do t' <- form_results (snd st) v; Ok (g', t')) (in_data (snd i)) st) (t_inputs t0) (g, t0)
  else if str_eqb m ($"per_template") then
    do (g', v) <- rfold (fun st i =>
      rfold (fun st d => prs (t_id t0) (fst st) (in_groups (snd i)) (in_funcs (snd i)) d (snd st))
            (in_data (snd i)) st) (t_inputs t0) (g, VDict []);
    do t' <- form_results t0 v; Ok (g', t')
  else Ok (g, t0).

Fixpoint each (f : template -> G -> res (G * template)) (ts : list template) (g : G) : res (G * list template) :=
  match ts with
  | [] => Ok (g, [])
  | t :: ts => do (g1, t1) <- f t g; do (g2, ts2) <- each f ts g1; Ok (g2, t1 :: ts2)
  end.

(** run_outputs: ttp.py 978-981 *)
Definition run_outputs (t : template) : res template :=
  do r <- rfold (fun r f => f r) (t_outputs t) (t_results t); Ok (set_results t r).

(** [x is True] *)
Definition is_true (v : val) : bool := match v with VBool true => true | _ => false end.

(** parse: ttp.py 415-451 *)
Definition parse (s : session) (one mult : val) : res session :=
  do (size, count) <- data_size s;
  do (g, ts) <-
    (if (is_true one && is_true mult)%bool then Raise SystemExit
     else if is_true one then each parse_one (ss_templates s) (ss_global s)
     else if is_true mult then each multi (ss_templates s) (ss_global s)
     else if (Z.ltb (ss_threshold s) size && Nat.leb 2 count)%bool then each multi (ss_templates s) (ss_global s)
     else each parse_one (ss_templates s) (ss_global s));
  do ts' <- rmap run_outputs ts;
  Ok (set_templates (set_global s g) ts').

(** result, no output arguments: ttp.py 611-659 *)
Definition pick (names : list str) (ts : list template) : list template :=
  match names with [] => ts | _ => filter (fun t => in_strs (t_name t) names) ts end.
Definition flat_items (acc : list val) (l : list val) : list val :=
  fold_left (fun acc i => match i with VList m => acc ++ m | _ => acc ++ [i] end) l acc.
Definition flat_list (ts : list template) : list val :=
  fold_left (fun acc t => match t_results t with VList l => flat_items acc l | r => acc ++ [r] end) ts [].
Definition as_dictionary (ts : list template) : dict :=
  fold_left (fun d t => match t_name t with [] => d | _ => dset d (KS (t_name t)) (t_results t) end) ts [].
Definition result (s : session) (names : list str) (structure : str) : val :=
  let ts := pick names (ss_templates s) in
  let m := lower structure in
  if str_eqb m ($"list") then VList (map t_results ts)
  else if str_eqb m ($"dictionary") then VDict (as_dictionary ts)
  else if str_eqb m ($"flat_list") then VList (flat_list ts)
  else VNone.

(** clear_result: ttp.py 680-704 *)
Definition clear_val (v : val) : res val :=
  match v with VList _ => Ok (VList []) | VDict _ => Ok (VDict []) | _ => Raise AttributeError end.
Definition clear_result (s : session) (names : list str) : res session :=
  do ts <- rmap (fun t =>
      if match names with [] => true | _ => in_strs (t_name t) names end
      then do v <- clear_val (t_results t); Ok (set_results t v) else Ok t) (ss_templates s);
  Ok (set_templates s ts).

(** ** Histories of calls *)
Inductive op :=
| OAdd (data : val) (input_name template_name : str) (groups : list str)
| OSet (data : val) (input_name template_name : str) (groups : list str)
| OClearInput (template_name : str)
| OParse (one mult : val)
| OClear (names : list str).

Definition exec (s : session) (o : op) : res session :=
  match o with
  | OAdd d i t g => Ok (add_input s d i t g)
  | OSet d i t g => Ok (set_input s d i t g)
  | OClearInput t => Ok (clear_input s t)
  | OParse one mult => parse s one mult
  | OClear names => clear_result s names
  end.
Definition execs (s : session) (h : list op) : res session := rfold exec h s.
End S.
Arguments input : clear implicits.
Arguments template : clear implicits.
Arguments session : clear implicits.
