(** * SpecForm: a template line as literal parts and variables *)
From Verif Require Import PyBase Regex SpecRegex Template FormRegex SpecLine.
Local Open Scope string_scope.
Local Open Scope list_scope.

Definition opn : ascii := "{"%char.
Definition cls : ascii := "}"%char.
(** [s] has no two [x] in a row and does not end with [x] *)
Definition nd (x : ascii) (s : str) : Prop := containsb [x; x] (s ++ [x]) = false.
(** a variable's text: not empty, and its closing braces are the first ones *)
Definition var_text (v : str) : Prop := v <> [] /\ nd cls (tl v).
(** literal text, then variables, each followed by literal text *)
Fixpoint body (lit : str) (parts : list (str * str)) : str :=
  lit ++ match parts with [] => [] | (v, l) :: ps => brace v ++ body l ps end.
(** the literal parts hold no variable *)
Fixpoint cut (lit : str) (parts : list (str * str)) : Prop :=
  match parts with
  | [] => containsb $"{{" lit = false
  | (v, l) :: ps => nd opn lit /\ var_text v /\ cut l ps
  end.
(** the whole line: indentation, then text that starts with a non-blank *)
Definition line_of (indent lit : str) (parts : list (str * str)) : str := indent ++ body lit parts.
Definition line_ok (indent lit : str) (parts : list (str * str)) : Prop :=
  Forall (fun c => is_space c = true) indent /\ cut lit parts /\
  match body lit parts with [] => True | c :: _ => is_space c = false end.

(** a regular expression the reader understands, without groups of its own *)
Definition regex_of (t : str) (r : re) : Prop := re_compile t = Some r /\ re_groups t = [] /\ containsb $"{{" t = false.
(** the indicators that end a line: everything from them on is dropped, and the blanks before them too *)
Definition deletes (i : vinfo) : bool := (negb (str_eqb (vi_name i) $"ignore") && (in_strs (vi_name i) [$"_start_"; $"_end_"] || vi_set i))%bool.
Definition chop (xs : bool) (l : str) : str := if xs then l else rstrip_p blank l.
Inductive line_pieces (info : str -> vinfo) (xs : bool) : str -> list (str * str) -> list piece -> Prop :=
| lp_end l : line_pieces info xs l [] [PLit l]
| lp_del l v l2 ps : deletes (info v) = true -> line_pieces info xs l ((v, l2) :: ps) [PLit (chop xs l)]
| lp_ignore l v l2 ps r q : vi_name (info v) = $"ignore" -> vi_set (info v) = false ->
    (match vi_ignore (info v) with None => r = rplus rS | Some p => regex_of p r end) ->
    line_pieces info xs l2 ps q -> line_pieces info xs l ((v, l2) :: ps) (PLit l :: PVar None [r] :: q)
| lp_var l v l2 ps rs q : vi_name (info v) <> $"ignore" -> deletes (info v) = false ->
    vi_name (info v) <> [] -> Forall (fun c => is_word c = true) (vi_name (info v)) ->
    Forall2 regex_of (match vi_res (info v) with [] => [$"\S+"] | l => l end) rs ->
    line_pieces info xs l2 ps q -> line_pieces info xs l ((v, l2) :: ps) (PLit l :: PVar (Some (vi_name (info v))) rs :: q).
(** the named variables of a line *)
Definition names_of (q : list piece) : list str :=
  flat_map (fun p => match p with PVar (Some n) _ => [n] | _ => [] end) q.

(** ** lines that can be read in one way only: the variables take words and are set off by blanks *)
Definition wordy (rs : list re) : Prop :=
  forall r, In r rs -> forall w s, rel r (w ++ s) [] s [] -> w <> [] /\ Forall (fun c => is_space c = false) w.
Definition starts_blank (l : str) : Prop := exists c t, l = c :: t /\ blank c = true.
Definition stops_blank (l : str) : Prop := exists t c, l = t ++ [c] /\ blank c = true.
Inductive spaced : bool -> list piece -> Prop :=
| sp_end after l : (after = true -> l = [] \/ starts_blank l) -> spaced after [PLit l]
| sp_var after l n rs q : (after = true -> starts_blank l) -> l = [] \/ stops_blank l -> wordy rs -> spaced true q ->
    spaced after (PLit l :: PVar n rs :: q).
