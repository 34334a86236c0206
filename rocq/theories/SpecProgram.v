(** * SpecProgram: what a template of plain lines says about a text.
    Nothing here refers to the code: no regular expressions, no groups, no matches at positions. *)
From Verif Require Import PyBase SpecLine SpecForm SpecRecords Files.
Local Open Scope string_scope.
Local Open Scope list_scope.

(** ** a line of the template: indentation, literal text, variables, each followed by literal text *)
Record tline := { tl_indent : str; tl_lit : str; tl_vars : list (str * str) }.
(** [{{ name }}] *)
Definition spelled (nv : str * str) : str * str := (space :: fst nv ++ [space], snd nv).
Definition source (t : tline) : str := tl_indent t ++ body (tl_lit t) (map spelled (tl_vars t)).
Definition tl_names (t : tline) : list str := map fst (tl_vars t).
Definition tl_literals (t : tline) : list str := tl_lit t :: map snd (tl_vars t).

(** a character of literal text: the only white space is blank and tab; no markup, no opening brace; XML allows it *)
Definition lit_char (c : ascii) : Prop :=
  (is_space c = true -> blank c = true) /\ ~ In c $"<&{" /\ (32 <= code c)%N \/ c = tab.
(** the words that mean something to ttp when they are the name of a variable *)
Definition reserved : list str :=
  [$"ignore"; $"_start_"; $"_end_"; $"_line_"; $"_exact_"; $"_exact_space_"; $"_headers_"; $"columns"; $"chain"; $"set"; $"default"; $"joinmatches"; $"re";
   $"contains_re"; $"startswith_re"; $"endswith_re"; $"notstartswith_re"; $"notendswith_re"; $"exclude_re"; $"exclude"; $"contains"; $"equal"; $"notequal"; $"sformat"].
(** a name: letters, digits and underscores, not beginning with a digit, not reserved *)
Definition name_ok (n : str) : Prop :=
  (exists c t, n = c :: t /\ is_dec c = false) /\ Forall (fun c => is_word c = true) n /\ ~ In n reserved.
(** between two variables there is text that starts and ends with a blank; the text before the first one is empty or
    ends with a blank; the text after the last one is empty or starts with a blank and does not end with one *)
Fixpoint separated (first : bool) (lit : str) (vars : list (str * str)) : Prop :=
  match vars with
  | [] => lit = [] \/ starts_blank lit /\ ~ stops_blank lit
  | (_, l) :: vs => (first = true \/ starts_blank lit) /\ ((first = true /\ lit = []) \/ stops_blank lit) /\ separated false l vs
  end.
Definition tline_ok (t : tline) : Prop :=
  tl_vars t <> [] /\ Forall name_ok (tl_names t) /\ NoDup (tl_names t) /\
  Forall (fun c => blank c = true) (tl_indent t) /\ Forall (Forall lit_char) (tl_literals t) /\ separated true (tl_lit t) (tl_vars t) /\
  ~ starts_blank (tl_lit t) /\ prefixb $"##" (tl_lit t) = false /\ containsb $"_exact_" (source t) = false.
(** the text of the template *)
Definition template_text (ts : list tline) : str := join [nl] (map source ts).

(** ** a line of the data *)
Definition word (w : str) : Prop := w <> [] /\ Forall (fun c => is_space c = false) w.
(** [fits lit vars s c]: [s] is the literal text - runs of blanks, and runs of digits, may be longer or shorter - with a word
    in the place of every variable; [c] are the variables and their words *)
Inductive fits : str -> list (str * str) -> str -> list (str * str) -> Prop :=
| fits_end l t : same_text false false l t -> fits l [] t []
| fits_var l n l' vs t w u c : same_text false false l t -> word w -> fits l' vs u c -> fits l ((n, l') :: vs) (t ++ w ++ u) ((n, w) :: c).
(** blanks may follow, and a carriage return *)
Definition line_fits (t : tline) (l : str) (c : list (str * str)) : Prop :=
  exists s b r, l = tl_indent t ++ s ++ b ++ r /\ fits (tl_lit t) (tl_vars t) s c /\ Forall (fun x => blank x = true) b /\ (r = [] \/ r = [chr 13]).
Definition entry (nw : str * str) : key * val := (KS (fst nw), VStr (snd nw)).
Definition values (c : list (str * str)) : dict := map entry c.
(** what a line of the data is: the first line of the template wins, then the others in their order *)
Inductive line_event (first : tline) (others : list tline) (l : str) : option ev -> Prop :=
| le_start c : line_fits first l c -> line_event first others l (Some (EStart (values c)))
| le_add before t after c : others = before ++ t :: after -> (forall c, ~ line_fits first l c) -> Forall (fun t => forall c, ~ line_fits t l c) before ->
    line_fits t l c -> line_event first others l (Some (EAdd (values c)))
| le_none : (forall c, ~ line_fits first l c) -> Forall (fun t => forall c, ~ line_fits t l c) others -> line_event first others l None.
Definition events (l : list (option ev)) : list ev := flat_map (fun o => match o with Some e => [e] | None => [] end) l.
(** no record gives an empty dictionary, one record itself, several a list *)
Definition shape (rs : list dict) : val :=
  match rs with [] => VDict [] | [r] => VDict r | _ => VList (map VDict rs) end.
(** the result for a text: the records of its lines *)
Definition text_result (first : tline) (others : list tline) (d : str) (v : val) : Prop :=
  exists es, Forall2 (line_event first others) (split [nl] d) es /\ v = shape (records (events es) None true).
(** a text that is given twice is parsed once *)
Definition firsts (ds : list str) : list str := rev (nodup (list_eq_dec ascii_dec) (rev ds)).
(** ** the template as a whole *)
(** a group's name: letters, digits and underscores, not beginning with a digit, and not the single underscore *)
Definition group_name (n : str) : Prop := n <> $"_" /\ (exists c t, n = c :: t /\ is_digitc c = false) /\ Forall (fun c => is_word c = true) n.
(** the result for a text when the group has a name: under the name, if there are records *)
Definition named_result (name : str) (first : tline) (others : list tline) (d : str) (v : val) : Prop :=
  exists es, Forall2 (line_event first others) (split [nl] d) es /\
  v = match records (events es) None true with [] => VDict [] | rs => VDict [(KS name, shape rs)] end.
(** a text that names no file, no directory and no template of the ttp_templates package: it is the data itself *)
Definition data_text (w : world) (d : str) : Prop :=
  prefixb $"ttp://" d = false /\ w_file w (firstn 5000 d) = None /\ w_dir w (firstn 5000 d) = None /\
  forall dir, w_tdir w = Some dir -> w_file w (path_join dir (firstn 5000 d)) = None.
(** the items of the lists, and what is no list *)
Definition flattened (vs : list val) : list val := flat_map (fun v => match v with VList l => l | _ => [v] end) vs.
(** the template's text when the group has a name *)
Definition group_text (n lines : str) : str := $"<template><group name=""" ++ n ++ $""">" ++ [nl] ++ lines ++ [nl] ++ $"</group></template>".
(** [list(set(l))]: the same elements, in any order *)
Definition is_set (order : list nat -> list nat) : Prop := forall l, NoDup (order l) /\ forall x, In x (order l) <-> In x l.
(** each text is added with the name of the template, or for all templates *)
Definition for_template (w : world) (dn : str * str) : Prop := data_text w (fst dn) /\ (snd dn = $"_all_" \/ snd dn = $"_root_template_").
