(** * SpecMade: what a group tag becomes (specification for C123).

    A group is made from the lines of its text and from the lines after its child groups.
    Each line is made from its variables (C121, C122). *)
From Verif Require Import PyBase Regex FormRegex Results Template Attributes MatchVar Compile SpecGroups SpecVariable.
Local Open Scope string_scope.
Local Open Scope list_scope.

(** ** the lines that are used: not blank, no comment, with a variable; without the spaces at the end *)
Inductive used : str -> list str -> Prop :=
| us_yes l : strip l <> [] -> (forall t, lstrip l <> t_ "##" ++ t) -> vars_in (rstrip l) <> [] -> used l [rstrip l]
| us_blank l : strip l = [] -> used l []
| us_comment l t : lstrip l = t_ "##" ++ t -> used l []
| us_plain l : vars_in (rstrip l) = [] -> used l [].

Section Made.
Variables (vars : dict) (gdefault : option str).
(** a variable that was made, with those of the columns of a table *)
Definition made : Type := varobj * list (str * varobj).
(** the variables of a line in order; their defaults and the line's expression grow along *)
Inductive line_made (line : str) : list str -> dict -> str -> list made -> dict -> str -> Prop :=
| lm_end d r : line_made line [] d r [] d r
| lm_set t ts d r v l d' r' : is_variable vars gdefault t line d v -> v_skipre (vo_st v) = true ->
    line_made line ts (v_defaults (vo_st v)) r l d' r' -> line_made line (t :: ts) d r ((v, []) :: l) d' r'
| lm_variable t ts d r v r1 cols d1 l d' r' : is_variable vars gdefault t line d v -> v_skipre (vo_st v) = false ->
    variable_regex vars gdefault v line r (v_defaults (vo_st v)) = Ok (r1, cols, d1) ->
    line_made line ts d1 r1 l d' r' -> line_made line (t :: ts) d r ((v, cols) :: l) d' r'.
(** what a match of the line does: the first variable that starts a record decides, otherwise the last one; [ignore] never counts *)
Definition ignored (m : made) : Prop := vo_name (fst m) = t_ "ignore".
Definition acts (m : made) : action := v_action (vo_st (fst m)).
Inductive line_action : list made -> action -> Prop :=
| la_start l1 m l2 : Forall (fun x => ignored x \/ is_start (acts x) = false) l1 -> ~ ignored m -> is_start (acts m) = true -> line_action (l1 ++ m :: l2) (acts m)
| la_last l1 m l2 : Forall (fun x => ignored x \/ is_start (acts x) = false) (l1 ++ [m]) -> ~ ignored m -> Forall ignored l2 -> line_action (l1 ++ m :: l2) (acts m)
| la_none l : Forall ignored l -> line_action l AAdd.
(** the names of the line's variables: as written and made regular; [ignore] has none *)
Definition named (m : made) : list (str * varobj) :=
  (if v_skipvar (vo_st (fst m)) then [] else [(vo_name (fst m), fst m); (vo_orig (fst m), fst m)]) ++ snd m.
(** a dictionary written as a list: of several values for one name the last one counts, in the place of the first one *)
Fixpoint firsts (l : list str) : list str := match l with [] => [] | n :: t => n :: filter (fun m => negb (str_eqb n m)) (firsts t) end.
Definition last_for {A} (l : list (str * A)) (n : str) : option A := opt_last (map snd (filter (fun kv => str_eqb n (fst kv)) l)).
Definition as_dict {A} (l x : list (str * A)) : Prop := map fst x = firsts (map fst l) /\ forall n v, In (n, v) x -> last_for l n = Some v.
Definition line_gives (line : str) (d : dict) (ms : list made) (ox : option crex) (d' : dict) : Prop :=
  exists r, line_made line (vars_in line) d [] ms d' r /\
    (((exists m, In m ms /\ v_skipre (vo_st (fst m)) = true) /\ ox = None) \/
     (Forall (fun m => v_skipre (vo_st (fst m)) = false) ms /\ exists x, ox = Some x /\ x_text x = r /\ re_compile r = Some (x_re x) /\
        (x_isline x = true <-> exists m, In m ms /\ v_isline (vo_st (fst m)) = true) /\ line_action ms (x_action x) /\ as_dict (flat_map named ms) (x_vars x))).
(** several lines; [ms]: their variables, each with its line *)
Inductive lines_give : list str -> dict -> list (str * made) -> list crex -> dict -> Prop :=
| lg_end d : lines_give [] d [] [] d
| lg_more line ls d ms ox d1 ms' xs d' : line_gives line d ms ox d1 -> lines_give ls d1 ms' xs d' ->
    lines_give (line :: ls) d (map (pair line) ms ++ ms') (match ox with Some x => x :: xs | None => xs end) d'.
End Made.

(** ** the parts of a group: its text and what stands after its children *)
Definition text_default (default : option val) (g : str) : Prop := default = Some (VStr g) /\ g <> t_ "_Not_Given_".
Definition is_gdefault (default : option val) (o : option str) : Prop := (exists g, text_default default g /\ o = Some g) \/ ((forall g, ~ text_default default g) /\ o = None).
(** a dictionary of defaults is added after each part *)
Definition add_dict (default : option val) (d : dict) : dict := match default with Some (VDict e) => dupdate d e | _ => d end.
Inductive parts_give (vars : dict) (default : option val) : list str -> dict -> list (str * made) -> list (list crex) -> dict -> Prop :=
| pg_end d : parts_give vars default [] d [] [] d
| pg_more o text lss ts d ms xs d1 ms' xss d' : is_gdefault default o -> Forall2 used (splitlines text) lss -> lines_give vars o (concat lss) d ms xs d1 ->
    parts_give vars default ts (add_dict default d1) ms' xss d' -> parts_give vars default (text :: ts) d (ms ++ ms') (xs :: xss) d'.
Definition blank (s : str) : bool := match strip s with [] => true | _ => false end.
Definition with_start (x y : crex) : Prop :=
  x_text y = x_text x /\ x_re y = x_re x /\ x_vars y = x_vars x /\ x_isline y = x_isline x /\ x_action y = if is_start (x_action x) then x_action x else AStart.
(** start lines: the first line, lines that start a record, all lines of a table; but no end lines *)
Definition starts (table : bool) (ix : nat * crex) : bool := (negb (is_end (x_action (snd ix))) && (Nat.eqb (fst ix) 0 || table || is_start (x_action (snd ix))))%bool.
Definition numbered {A} (l : list A) : list (nat * A) := combine (seq 0 (length l)) l.
Definition lists_made (table : bool) (first : list crex) (others : list (list crex)) (s : gstate) : Prop :=
  Forall2 with_start (map snd (filter (starts table) (numbered first))) (gs_start s) /\
  gs_end s = filter (fun x => is_end (x_action x)) (concat (first :: others)) /\
  gs_re s = map snd (filter (fun ix => negb (is_end (x_action (snd ix))) && negb (starts table ix))%bool (numbered first)) ++ filter (fun x => negb (is_end (x_action x))) (concat others).
(** whether a record of defaults is made when no start line matches: a start line has a variable with a default, or
    there are no start lines and the default is a dictionary *)
Definition default_only (default : option val) (s : gstate) : Prop :=
  (gs_start s = [] /\ exists e, default = Some (VDict e)) \/
  exists x n v, In x (gs_start s) /\ In (n, v) (x_vars x) /\ dget (gs_defaults s) (KS n) <> None.

Inductive group_from (vars : dict) (functions : list str) (pathchar : str) : bool -> list str -> nat -> option gid -> elem -> cgroup -> Prop :=
| gm top path idx par tag attrs text cs tail fss default a id ms first others d s kids :
    Forall2 (adds vars functions top) attrs fss ->
    default = match last_given attrs (t_ "default") with Some o => Some (variable_or_text vars o) | None => None end ->
    a = attributes pathchar top path idx attrs -> ga_id a = Some id ->
    text <> [] -> Forall (fun c => e_tail c <> []) cs ->
    parts_give vars default (text :: filter (fun t => negb (blank t)) (map e_tail cs)) [] ms (first :: others) d ->
    lists_made (str_eqb (ga_method a) (t_ "table")) first others s -> gs_defaults s = d -> (gs_hasdef s = true <-> default_only default s) ->
    Forall2 (fun ic k => group_from vars functions pathchar false (ga_path a) (fst ic) (Some id) (snd ic) k) (numbered cs) kids ->
    group_from vars functions pathchar top path idx par (Elem tag attrs text cs tail) (CG id par (ga_path a) a (concat fss) s kids).

(** ** the default values *)
(** the default that a variable itself gives *)
Definition own_default (vars : dict) (v : varobj) (line : str) (o : option val) : Prop :=
  exists es fs rs, expands vars (own_call (vo_dict v) ++ map by_own_name (vo_attrs v)) es /\ do_all vars (vo_orig v) (rstrip (without_vars line)) es fs rs o.
(** all variables of a group, with those of columns, in order, each with the line it stands in *)
Definition everyone (ms : list (str * made)) : list (varobj * str) := flat_map (fun lm => (fst (snd lm), fst lm) :: map (fun nv => (snd nv, [])) (snd (snd lm))) ms.
Fixpoint last_own (vos : list (varobj * str)) (os : list (option val)) (n : str) : option val :=
  match vos, os with
  | v :: vos, o :: os => match last_own vos os n with Some x => Some x | None => if str_eqb (vo_orig (fst v)) n then o else None end
  | _, _ => None
  end.
(** a dictionary of the group first, then the last default that a variable of the name gives, then the text of the group *)
Inductive default_of (default : option val) (vos : list (varobj * str)) (os : list (option val)) : key -> val -> Prop :=
| dv_dict e k v : default = Some (VDict e) -> dget e k = Some v -> default_of default vos os k v
| dv_own n v : (forall e, default = Some (VDict e) -> dget e (KS n) = None) -> last_own vos os n = Some v -> default_of default vos os (KS n) v
| dv_group n g : last_own vos os n = None -> text_default default g -> In n (map (fun v => vo_orig (fst v)) vos) -> ~ among n without_default ->
    default_of default vos os (KS n) (VStr g).
