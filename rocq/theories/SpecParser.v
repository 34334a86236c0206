(** * SpecParser: vocabulary for the statements about parsing (C17-C22). *)
From Verif Require Import PyBase Results MatchFuncs Parser.
From Coq Require Import Sorting.Sorted.

(** a function that leaves the variables alone and computes [g] *)
Definition pure_func (f : mfunc) (g : val -> val * mflag) : Prop :=
  forall env d, run_func f env d = Ok (env, g d).
(** the value computed by a list of such functions, [None] when one rejects *)
Fixpoint through (gs : list (val -> val * mflag)) (d : val) : option val :=
  match gs with
  | [] => Some d
  | g :: t => match snd (g d) with FBool false => None | _ => through t (fst (g d)) end
  end.
Fixpoint new_fields (gs : list (val -> val * mflag)) (d : val) : list dict :=
  match gs with
  | [] => []
  | g :: t => (match snd (g d) with FNew n => [n] | _ => [] end) ++ new_fields t (fst (g d))
  end.
(** ... and adds no fields *)
Definition plain_func (f : mfunc) (g : val -> val * mflag) : Prop :=
  pure_func f g /\ forall d n, snd (g d) <> FNew n.
(** a variable with its functions given as mathematical functions *)
Definition var_is (v : pvar) (k : key) (gs : list (val -> val * mflag)) : Prop :=
  pv_orig v = k /\ Forall2 plain_func (pv_funcs v) gs.

(** the values of a line: name in the result and value of every variable;
    [None] when the functions of one of them reject it *)
Definition var_spec := (key * list (val -> val * mflag))%type.
Fixpoint line_values (spec : list (str * var_spec)) (temp : list (str * val)) : option (list (key * val)) :=
  match temp with
  | [] => Some []
  | (n, d) :: t =>
      match assoc n spec with
      | Some (k, gs) => match through gs d, line_values spec t with
                        | Some v, Some l => Some ((k, v) :: l)
                        | _, _ => None end
      | None => None
      end
  end.
(** the variables of a regex are described by [spec] *)
Definition vars_are (vars : list (str * pvar)) (spec : list (str * var_spec)) (temp : list (str * val)) : Prop :=
  forall n d, In (n, d) temp ->
    exists v k gs, assoc n vars = Some v /\ assoc n spec = Some (k, gs) /\ var_is v k gs.

(** [x] is one of the candidates at position [p] *)
Definition at_pos {A} (rs : list (Z * list A)) (p : Z) (x : A) : Prop := exists l, In (p, l) rs /\ In x l.

(** what [re.finditer] guarantees: matches lie inside the text, in order *)
Definition finder_ok (f : str -> list pmatch) : Prop := forall s,
  Forall (fun m => pm_start m <= pm_end m /\ pm_end m <= length s) (f s) /\
  StronglySorted (fun a b => pm_start a <= pm_start b /\ pm_end a <= pm_end b) (f s).

Section S.
Variable F : Type.

Fixpoint regexes (G : pgroup F) : list (pregex F) :=
  match G with PG _ _ a b c _ cs => a ++ b ++ c ++ flat_map regexes cs end.
Definition tree_ok (G : pgroup F) : Prop := Forall (fun R => finder_ok (p_find F R)) (regexes G).

Definition starts_of (G : pgroup F) : list (pregex F) := match G with PG _ _ a _ _ _ _ => a end.
Definition ends_of (G : pgroup F) : list (pregex F) := match G with PG _ _ _ b _ _ _ => b end.
Definition children_of (G : pgroup F) : list (pgroup F) := match G with PG _ _ _ _ _ _ cs => cs end.

(** a start line of [G] matches in the window at absolute position [p] *)
Definition start_at (text : str) (G : pgroup F) (start stop p : Z) : Prop :=
  exists R m, In R (starts_of G) /\ In m (p_find F R (slice text start stop)) /\ p = (start + Z.of_nat (pm_start m))%Z.

Definition normals_of (G : pgroup F) : list (pregex F) := match G with PG _ _ _ _ c _ _ => c end.
(** the first start line of [G] in the window is at [p] *)
Definition is_first (text : str) (G : pgroup F) (start stop p : Z) : Prop :=
  start_at text G start stop p /\ forall p', start_at text G start stop p' -> (p <= p')%Z.

(** the positions of all the matches of the lines [a] in a window *)
Definition pos_of (start : Z) (m : pmatch) : Z := (start + Z.of_nat (pm_start m))%Z.
Definition starts_pos (text : str) (start stop : Z) (a : list (pregex F)) : list Z :=
  flat_map (fun R => map (pos_of start) (p_find F R (slice text start stop))) a.

(** what one match [m] of a line contributes, [spec] describing the functions of
    each line's variables: its values, a rejected start, or nothing *)
Definition item_of (spec : pregex F -> list (str * var_spec)) (R : pregex F) (m : pmatch) : option (item F) :=
  match line_values (spec R) (temp_of F R m) with
  | Some l => Some (p_re F R, Some (dupdate [] l))
  | None => if is_start (r_action F (p_re F R)) then Some (p_re F R, None) else None
  end.

(** the matches a group without end lines and defaults contributes, read off the
    template: its start lines anywhere in the window, its normal lines and its
    child groups from the first start line on; a group without start lines only
    passes its window on to its children *)
Inductive contributes (spec : pregex F -> list (str * var_spec)) (text : str) : pgroup F -> Z -> Z -> Z -> item F -> Prop :=
| c_start G start stop R m y :
    In R (starts_of G) -> In m (p_find F R (slice text start stop)) -> item_of spec R m = Some y ->
    contributes spec text G start stop (start + Z.of_nat (pm_start m)) y
| c_normal G start stop p R m y :
    is_first text G start stop p ->
    In R (normals_of G) -> In m (p_find F R (slice text p stop)) -> item_of spec R m = Some y ->
    contributes spec text G start stop (p + Z.of_nat (pm_start m)) y
| c_child G start stop p c q y :
    is_first text G start stop p -> In c (children_of G) ->
    contributes spec text c p stop q y -> contributes spec text G start stop q y
| c_pass G start stop c q y :
    starts_of G = [] -> In c (children_of G) ->
    contributes spec text c start stop q y -> contributes spec text G start stop q y.

(** no end lines and no defaults in the whole tree *)
Fixpoint simple_tree (G : pgroup F) : Prop :=
  match G with PG _ _ _ b _ d cs => b = [] /\ d = false /\ fold_right (fun c P => simple_tree c /\ P) True cs end.

(** the record of defaults of a group that did not match *)
Definition is_default (x : item F) : Prop := snd x = Some [].
End S.

(** the end of a window: negative counts from the end of the text *)
Definition stop_pos (text : str) (stop : Z) : Z :=
  if Z.ltb stop 0 then (Z.of_nat (length text) + stop)%Z else stop.

(** ** functions that add fields.  [line_writes]: what the variables of a line write into its record, in order:
    each variable its value, then the fields its functions add; [None] when one is rejected *)
Definition var_pure (v : pvar) (k : key) (gs : list (val -> val * mflag)) : Prop :=
  pv_orig v = k /\ Forall2 pure_func (pv_funcs v) gs.
Definition vars_pure (vars : list (str * pvar)) (spec : list (str * var_spec)) (temp : list (str * val)) : Prop :=
  forall n d, In (n, d) temp ->
    exists v k gs, assoc n vars = Some v /\ assoc n spec = Some (k, gs) /\ var_pure v k gs.
Fixpoint line_writes (spec : list (str * var_spec)) (temp : list (str * val)) : option (list (key * val)) :=
  match temp with
  | [] => Some []
  | (n, d) :: t =>
      match assoc n spec with
      | Some (k, gs) => match through gs d, line_writes spec t with
                        | Some v, Some l => Some (((k, v) :: concat (new_fields gs d)) ++ l)
                        | _, _ => None end
      | None => None
      end
  end.
(** the last value written for [k] *)
Definition last_written (l : list (key * val)) (k : key) : option val := dget (rev l) k.
