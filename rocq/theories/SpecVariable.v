(** * SpecVariable: what a match variable is (specification for C121).

    A match variable [{{ name | f1 | f2 ... }}] given as rules: which functions it stands
    for once its chains are written out ([expands]), and what each of them does ([does]). *)
From Verif Require Import PyBase FormRegex Results Template Attributes MatchVar.
Local Open Scope string_scope.
Local Open Scope list_scope.

Definition t_ (s : string) : str := list_ascii_of_string s.
Definition among (n : str) (l : list string) : Prop := In n (map t_ l).

(** ** template variables and patterns *)
(** values as dictionary keys: True is 1 and False is 0 *)
Definition key_for (v : val) : option key :=
  match v with VStr s => Some (KS s) | VInt z => Some (KI z) | VBool true => Some (KI 1) | VBool false => Some (KI 0) | VNone => Some KNone | _ => None end.
(** the template variable that a value names, if any; lists and dictionaries name nothing, not even "no variable" *)
Inductive names_variable (vars : dict) : val -> option val -> Prop :=
| nv_key v k : key_for v = Some k -> names_variable vars v (dget vars k)
| nv_object n : names_variable vars (VObj n) None.
(** names that the module of the patterns defines besides the patterns *)
Definition module_of_patterns : list string := ["get"; "_ttp_"; "__name__"; "__package__"; "__loader__"; "__spec__"; "__file__"; "__cached__"; "__builtins__"].
Inductive names_pattern : val -> option val -> Prop :=
| np_pattern s p : In (s, p) patterns -> names_pattern (VStr s) (Some (VStr p))
| np_module s : among s module_of_patterns -> names_pattern (VStr s) (Some (VObj 0))
| np_no s : ~ In s (map fst patterns) -> ~ among s module_of_patterns -> names_pattern (VStr s) None
| np_other v : (forall s, v <> VStr s) -> (forall l, v <> VList l) -> (forall d, v <> VDict d) -> names_pattern v None.
(** a regular expression given by name or directly: a variable that is not empty, else a pattern, else what is written *)
Inductive expression_of (vars : dict) (v : val) : val -> Prop :=
| eo_variable x p : names_variable vars v (Some x) -> truthy x = true -> names_pattern v p -> expression_of vars v x
| eo_pattern o p : names_variable vars v o -> (forall x, o = Some x -> truthy x = false) -> names_pattern v (Some p) -> expression_of vars v p
| eo_itself o : names_variable vars v o -> (forall x, o = Some x -> truthy x = false) -> names_pattern v None -> expression_of vars v v.

(** ** chains *)
(** the functions in the value of a chain variable: a text, or a list of texts *)
Inductive chained : val -> list attribute -> Prop :=
| ch_text s l : get_attributes s = Ok l -> chained (VStr s) l
| ch_list ss ls : Forall2 (fun s l => get_attributes s = Ok l) ss ls -> chained (VList (map VStr ss)) (concat ls).
(** a function and the name it goes by *)
Definition called : Type := str * attribute.
Definition by_own_name (a : attribute) : called := (at_name a, a).
(** the functions, with chains of chains written out *)
Inductive expands (vars : dict) : list called -> list called -> Prop :=
| ex_end : expands vars [] []
| ex_function k a l r : k <> t_ "chain" -> expands vars l r -> expands vars ((k, a) :: l) ((k, a) :: r)
| ex_nothing k a v args l r o : k = t_ "chain" -> at_args a = v :: args -> names_variable vars v o -> o = None \/ o = Some VNone -> expands vars l r -> expands vars ((k, a) :: l) r
| ex_chain k a v args x fs es l r : k = t_ "chain" -> at_args a = v :: args -> names_variable vars v (Some x) -> x <> VNone -> chained x fs ->
    expands vars (map by_own_name fs) es -> expands vars l r -> expands vars ((k, a) :: l) (es ++ r).

(** ** what a function does *)
Definition marks : list string := ["ignore"; "_start_"; "_end_"; "_headers_"; "_exact_"; "_exact_space_"; "columns"].
(** functions whose arguments may be names of variables *)
Definition with_names : list string :=
  ["contains_re"; "startswith_re"; "endswith_re"; "notstartswith_re"; "notendswith_re"; "exclude_re"; "exclude"; "contains"; "equal"; "notequal"; "sformat"].
Definition own_meaning : list string := marks ++ ["_line_"; "chain"; "set"; "default"; "joinmatches"; "re"] ++ with_names.
(** variables that have no default value *)
Definition without_default : list string := ["_end_"; "_line_"; "ignore"; "_start_"].
Section Does.
  Variable vars : dict.
  Variables (orig : str) (around : str).  (* the name as written; the text of the line outside of variables, without the spaces at its end *)
  (** the first argument, or the function's own name *)
  Definition subject (a : attribute) : val := match at_args a with x :: _ => x | [] => VStr (at_name a) end.
  (** functions kept for the match, regular expressions, a default value *)
  Inductive does : called -> list attribute -> list val -> option val -> Prop :=
  | do_mark k a : among k marks -> does (k, a) [] [] None
  | do_expression k a r : k = t_ "_line_" \/ k = t_ "re" -> expression_of vars (subject a) r -> does (k, a) [] [r] None
  | do_set_line k a : k = t_ "set" -> around <> [] ->
      does (k, a) [{| at_name := at_name a; at_args := at_args a; at_kwargs := dset (at_kwargs a) (KS (t_ "match_line")) (VStr (chr 10 :: around)) |}] [] None
  | do_set_alone k a v args : k = t_ "set" -> around = [] -> at_args a = v :: args -> does (k, a) [] [] (Some v)
  | do_default_no k a : k = t_ "default" -> among orig without_default -> does (k, a) [] [] None
  | do_default_one k a v : k = t_ "default" -> ~ among orig without_default -> at_args a = [v] -> does (k, a) [] [] (Some v)
  | do_default_other k a : k = t_ "default" -> ~ among orig without_default -> length (at_args a) <> 1 -> does (k, a) [] [] (Some (VStr (t_ "None")))
  | do_join k a : k = t_ "joinmatches" -> does (k, a) [a] [] None
  | do_named k a l : among k with_names -> Forall2 (fun x y => exists o, names_variable vars x o /\ y = match o with Some z => z | None => x end) (at_args a) l ->
      does (k, a) [{| at_name := at_name a; at_args := l; at_kwargs := at_kwargs a |}] [] None
  | do_pattern k a p r : ~ among k own_meaning -> names_pattern (VStr k) (Some p) -> expression_of vars (subject a) r -> does (k, a) [] [r] None
  | do_function k a : ~ among k own_meaning -> names_pattern (VStr k) None -> does (k, a) [a] [] None.
  (** a list of functions does what each of them does, in order; of several defaults the last one counts *)
  Inductive do_all : list called -> list attribute -> list val -> option val -> Prop :=
  | da_end : do_all [] [] [] None
  | da_more c l fs rs d fs' rs' d' : does c fs rs d -> do_all l fs' rs' d' -> do_all (c :: l) (fs ++ fs') (rs ++ rs') (match d' with Some v => Some v | None => d end).
End Does.
(** what happens with the value: the last of the functions that say so *)
Definition action_for (name k : str) : option action :=
  if str_eqb k (t_ "_start_") then Some (if str_eqb name (t_ "_start_") then AStartEmpty else AStart)
  else if str_eqb k (t_ "_headers_") then Some AStart
  else if str_eqb k (t_ "_end_") then Some AEnd
  else if str_eqb k (t_ "_line_") then Some AJoin
  else if str_eqb k (t_ "joinmatches") then Some AJoin else None.
Fixpoint last_action (name : str) (l : list called) : option action :=
  match l with [] => None | c :: t => match last_action name t with Some x => Some x | None => action_for name (fst c) end end.
Definition with_default (orig : str) (d : dict) (v : option val) : dict := match v with Some x => dset d (KS orig) x | None => d end.

(** ** the variable *)
(** the group's own default value stands for variables that have none yet *)
Definition group_default (gdefault : option str) (orig : str) (d : dict) : dict :=
  match gdefault with
  | Some g => if (in_strs orig (map t_ without_default) || match dget d (KS orig) with Some _ => true | None => false end)%bool then d else dset d (KS orig) (VStr g)
  | None => d
  end.
(** the variable's name counts as a function if it has a meaning of its own *)
Definition own_call (a : attribute) : list called := if in_strs (sanitize (at_name a)) (map t_ own_meaning) then [(sanitize (at_name a), a)] else [].
Definition has (n : string) (l : list called) : bool := in_strs (t_ n) (map fst l).
Definition is_variable (vars : dict) (gdefault : option str) (text line : str) (defaults : dict) (v : varobj) : Prop :=
  exists a attrs es fs rs d,
    get_attributes text = Ok (a :: attrs) /\
    expands vars (own_call a ++ map by_own_name attrs) es /\
    do_all vars (at_name a) (rstrip (without_vars line)) es fs rs d /\
    v = {| vo_text := text; vo_name := sanitize (at_name a); vo_orig := at_name a; vo_dict := a; vo_attrs := attrs;
           vo_st := {| v_funcs := fs;
                       v_action := match last_action (sanitize (at_name a)) es with Some x => x | None => AAdd end;
                       v_isline := has "_line_" es;
                       v_skipvar := has "ignore" es;
                       v_skipre := (has "set" es && str_eqb (rstrip (without_vars line)) [])%bool;
                       v_res := rs;
                       v_defaults := with_default (at_name a) (group_default gdefault (at_name a) defaults) d |} |}.

(** ** the name *)
Definition word_text (w : str) : Prop := Forall (fun c => is_word c = true) w.
(** every run of other characters becomes one underscore *)
Inductive cleaned : str -> str -> Prop :=
| cl_end w : word_text w -> cleaned w w
| cl_gap w g s r : word_text w -> g <> [] -> Forall (fun c => is_word c = false) g -> match s with c :: _ => is_word c = true | [] => True end ->
    cleaned s r -> cleaned (w ++ g ++ s) (w ++ "_"%char :: r).
Definition starts_with_digit (s : str) : Prop := match s with c :: _ => is_dec c = true | [] => False end.
Inductive name_for (s : str) : str -> Prop :=
| nf_digit r : starts_with_digit s -> cleaned s r -> name_for s ("_"%char :: r)
| nf_other r : ~ starts_with_digit s -> cleaned s r -> name_for s r.

(** ** its part of the line's expression *)
(** what [form_regex] (C38, C39, C90) is given for a variable that is not [_headers_] *)
Definition describes (vars : dict) (v : varobj) (i : vinfo) : Prop :=
  vi_name i = vo_name v /\ v_res (vo_st v) = map VStr (vi_res i) /\
  (vi_set i = true <-> exists a, In a (v_funcs (vo_st v)) /\ at_name a = t_ "set") /\
  ((exists x s, vo_name v = t_ "ignore" /\ at_args (vo_dict v) = [x] /\ expression_of vars x (VStr s) /\ vi_ignore i = Some s) \/
   (vo_name v <> t_ "ignore" \/ length (at_args (vo_dict v)) <> 1) /\ vi_ignore i = None).
(** [ignore] with two arguments or more *)
Definition left_alone (v : varobj) : Prop := vo_name v = t_ "ignore" /\ 2 <= length (at_args (vo_dict v)).
