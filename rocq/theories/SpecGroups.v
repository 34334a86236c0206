(** * SpecGroups: what the attributes of a group tag mean. *)
From Verif Require Import PyBase Results Attributes MatchVar.
Local Open Scope string_scope.
Local Open Scope list_scope.

(** the values given for an attribute, whatever the case of its name *)
Definition given (l : list (str * str)) (n : str) : list str := map snd (filter (fun kv => str_eqb (lower (fst kv)) n) l).
(** the last one *)
Definition last_given (l : list (str * str)) (n : str) : option str := opt_last (given l n).
(** the items of a list with commas, without the white space around them *)
Definition items (o : str) : list str := map strip (split $"," o).
(** the path of a group with a name, in a group with the path [parent] *)
Definition path_of_name (pathchar : str) (parent : list str) (n : str) : list str :=
  match n with
  | "/"%char :: _ =>
      if in_strs $"_anonymous_" parent then $"_anonymous_*" :: split pathchar (lstrip_p (is_c "/"%char) n)
      else if str_eqb n $"/" then [$"_anonymous_*"] else split pathchar (lstrip_p (is_c "/"%char) n)
  | _ => parent ++ split pathchar n
  end.
(** an attribute with a meaning of its own *)
Definition own_attributes : list str := [$"method"; $"input"; $"output"; $"name"; $"default"; $"chain"; $"functions"].
(** the value of a variable of that name, or the text itself *)
Definition variable_or_text (vars : dict) (o : str) : val := match dget vars (KS o) with Some v => v | None => VStr o end.
(** the functions that an attribute adds to the group: those of a chain that are group functions; any other attribute is a function
    and its value the arguments.  In a chain the names of the attributes with a meaning of their own are refused - input and output
    only in top groups, in others they are ignored *)
Definition adds (vars : dict) (functions : list str) (top : bool) (kv : str * str) (fs : list attribute) : Prop :=
  let n := lower (fst kv) in
  if in_strs n [$"chain"; $"functions"] then
    exists l, chain_texts (variable_or_text vars (snd kv)) = Ok l /\
      Forall (fun a => ~ In (at_name a) [$"method"; $"name"; $"default"; $"chain"; $"functions"] /\ (top = true -> ~ In (at_name a) [$"input"; $"output"])) l /\
      fs = filter (fun a => (in_strs (at_name a) functions && negb (in_strs (at_name a) [$"input"; $"output"]))%bool) l
  else if in_strs n own_attributes then fs = []
  else exists x more, get_attributes (fst kv ++ $"(" ++ snd kv ++ $")") = Ok (x :: more) /\ fs = [x].
