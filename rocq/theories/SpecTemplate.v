(** * SpecTemplate: what a template's groups are, stated without the code that builds them *)
From Verif Require Import PyBase Regex Results Template.
Local Open Scope string_scope.
Local Open Scope list_scope.

(** ** lines *)
Inductive role := StartLine | EndLine | NormalLine.
(** a line's role: end lines are marked; lines after a child group are normal; the
    first line, every line of a table and lines marked as start are start lines *)
Definition has_role (table tail : bool) (index : nat) (r : rline) (k : role) : Prop :=
  match k with
  | EndLine => rl_action r = AEnd
  | StartLine => rl_action r <> AEnd /\ tail = false /\ (index = 0 \/ table = true \/ is_start (rl_action r) = true)
  | NormalLine => rl_action r <> AEnd /\ (tail = true \/ (index <> 0 /\ table = false /\ is_start (rl_action r) = false))
  end.
(** the lines of [l] (with their position and place) that have role [k], in order *)
Inductive with_role (table : bool) (k : role) : list (bool * nat * rline) -> list rline -> Prop :=
| wr_nil : with_role table k [] []
| wr_in tail i r l l' : has_role table tail i r k -> with_role table k l l' -> with_role table k ((tail, i, r) :: l) (r :: l')
| wr_out tail i r l l' : ~ has_role table tail i r k -> with_role table k l l' -> with_role table k ((tail, i, r) :: l) l'.

Fixpoint numbered (tail : bool) (i : nat) (l : list rline) : list (bool * nat * rline) :=
  match l with [] => [] | r :: l => (tail, i, r) :: numbered tail (S i) l end.
(** all lines of an element: its text, then the text after each child *)
Definition all_lines names_of (e : elem) : list (bool * nat * rline) :=
  numbered false 0 (compile_lines names_of (e_text e)) ++
  concat (map (fun c => numbered true 0 (compile_lines names_of (e_tail c))) (e_children e)).
(** same line, and its action is a start action *)
Definition made_start (r r' : rline) : Prop :=
  rl_line r' = rl_line r /\ rl_isline r' = rl_isline r /\
  (if is_start (rl_action r) then rl_action r' = rl_action r else rl_action r' = AStart).

(** ** names and paths *)
Definition name_attrs (e : elem) : list str := map snd (filter (fun kv => str_eqb (lower (fst kv)) $"name") (e_attrs e)).
Definition name_of (e : elem) : option str := match name_attrs e with n :: _ => Some n | [] => None end.
Definition slash := is_c "/"%char.
(** at most one name, and it is not just slashes *)
Definition good_name (e : elem) : Prop := name_attrs e = [] \/ exists n, name_attrs e = [n] /\ lstrip_p slash n <> [].
Definition absolute (e : elem) : Prop := exists n, name_of e = Some ("/"%char :: n).
(** the path items a name stands for *)
Definition segments (pathchar : str) (e : elem) : list str :=
  match name_of e with Some n => split pathchar (lstrip_p slash n) | None => [] end.

(** the elements from a top group down to the one at position [p], and the group there *)
Fixpoint line_to (p : list nat) (e : elem) : option (list elem) :=
  match p with
  | [] => Some [e]
  | i :: p => match nth_error (e_children e) i with
              | Some c => match line_to p c with Some l => Some (e :: l) | None => None end
              | None => None
              end
  end.
Fixpoint grp_at (p : list nat) (g : grp) : option grp :=
  match p with
  | [] => Some g
  | i :: p => match nth_error (gr_children g) i with Some c => grp_at p c | None => None end
  end.

(** ** outputs *)
Definition known {O} (oname : O -> str) (outs : list O) (n : str) : Prop := exists o, In o outs /\ oname o = n.
(** what becomes of a group's list of output names: a known name is replaced by the output, an unknown one
    is dropped - and the name after it is left as it is *)
Inductive settled {O} (oname : O -> str) (outs : list O) : list str -> list (@gout O) -> Prop :=
| st_none : settled oname outs [] []
| st_found n ns o r : In o outs -> oname o = n -> settled oname outs ns r -> settled oname outs (n :: ns) (Found o :: r)
| st_lost n : ~ known oname outs n -> settled oname outs [n] []
| st_left n m ns r : ~ known oname outs n -> settled oname outs ns r -> settled oname outs (n :: m :: ns) (ByName m :: r).
(** an output of that name is in the list *)
Definition holds_output {O} (oname : O -> str) (n : str) (r : list (@gout O)) : bool :=
  existsb (fun g => match g with Found o => str_eqb (oname o) n | ByName _ => false end) r.

(** ** extend filters *)
(** the attribute that filters elements with this tag *)
Definition filter_attr (t : elem) : option str :=
  if in_strs (e_tag t) [$"i"; $"in"; $"input"] then Some $"inputs"
  else if in_strs (e_tag t) [$"v"; $"vars"; $"variables"] then Some $"vars"
  else if in_strs (e_tag t) [$"g"; $"grp"; $"group"] then Some $"groups"
  else if in_strs (e_tag t) [$"lookup"] then Some $"lookups"
  else if in_strs (e_tag t) [$"o"; $"out"; $"output"] then Some $"outputs"
  else None.
Definition is_group (t : elem) : Prop := In (e_tag t) [$"g"; $"grp"; $"group"].
Definition listed (l : list str) (index : nat) (t : elem) : Prop :=
  (exists n, attr (e_attrs t) $"name" = Some n /\ In n l) \/ is_group t /\ In (str_of_N (N.of_nat index)) l.
(** [index]: how many groups come before [t] in the extended template *)
Definition kept_top (tag : elem) (index : nat) (t : elem) : Prop :=
  match filter_attr t with
  | None => True
  | Some a => filter_list tag a = [] \/ listed (filter_list tag a) index t
  end.
Definition kept_nested (tag : elem) (index : nat) (t : elem) : Prop :=
  is_group t /\ (filter_list tag $"groups" = [] \/ listed (filter_list tag $"groups") index t) \/
  ~ is_group t /\ e_tag t = $"extend".
(** the elements satisfying [P index], in order *)
Inductive chosen (P : nat -> elem -> Prop) : nat -> list elem -> list elem -> Prop :=
| ch_nil i : chosen P i [] []
| ch_in i t ts l j : P i t -> (is_group t -> j = S i) -> (~ is_group t -> j = i) -> chosen P j ts l -> chosen P i (t :: ts) (t :: l)
| ch_out i t ts l j : ~ P i t -> (is_group t -> j = S i) -> (~ is_group t -> j = i) -> chosen P j ts l -> chosen P i (t :: ts) l.

(** ** what a variable's functions say about its line *)
Definition says (n : str) (name : str) : option action :=
  if str_eqb n $"_start_" then Some (if str_eqb name $"_start_" then AStartEmpty else AStart)
  else if str_eqb n $"_end_" then Some AEnd
  else if str_eqb n $"_headers_" then Some AStart
  else if in_strs n [$"joinmatches"; $"_line_"] then Some AJoin
  else None.
(** the last word that says something decides *)
Definition decided (names : list str) (name : str) (a : action) : Prop :=
  (Forall (fun n => says n name = None) names /\ a = AAdd) \/
  (exists before n after, names = before ++ n :: after /\ Forall (fun n => says n name = None) after /\ says n name = Some a).
(** a line starts with the first start action of its variables other than [ignore];
    without one the last such variable decides *)
Definition line_decided (cs : list cvar) (a : action) : Prop :=
  let real := filter (fun c => negb (str_eqb (cv_name c) $"ignore")) cs in
  (exists before c after, real = before ++ c :: after /\ Forall (fun c => is_start (cv_action c) = false) before /\
     is_start (cv_action c) = true /\ a = cv_action c) \/
  (Forall (fun c => is_start (cv_action c) = false) real /\ a = match rev real with c :: _ => cv_action c | [] => AAdd end).

(** ** extend tags; [load]: what the template of an extend tag holds, its text and tags, or the text of its only group *)
Section Extend.
Variable load : elem -> res ((str * list elem) + str).
(** no extend tag is left in the element or in the groups below it *)
Inductive expanded : elem -> Prop :=
| ex_intro_ c : e_tag c <> $"extend" -> (e_tag c = $"group" -> Forall expanded (e_children c)) -> expanded c.

(** the extend tag brings at least one tag other than another extend *)
Definition contributes (top : bool) (c : elem) : Prop :=
  exists text content e, load c = Ok (inl (text, content)) /\ In e (filter_extend content c top) /\ e_tag e <> $"extend".
(** wherever an extend tag may bring nothing but text (or nothing at all), what follows it directly
    has nothing to expand; also within groups and within the extended templates *)
Inductive orderly : bool -> list elem -> Prop :=
| orderly_intro top cs :
    (forall l1 c d l2, cs = l1 ++ c :: d :: l2 -> e_tag c = $"extend" -> contributes top c \/ expanded d) ->
    (forall c, In c cs -> e_tag c = $"group" -> orderly false (e_children c)) ->
    (forall c text content, In c cs -> e_tag c = $"extend" -> load c = Ok (inl (text, content)) ->
       orderly false (filter_extend content c top)) ->
    orderly top cs.
End Extend.
