(** * Template: from a template's XML tree to its groups.
    Models ttp/ttp.py 1074-1104 (update_groups_with_outputs), 1252-1309
    (filter_extend), 1319-1373 (handle_extend), 1694-1949 (_group_class) and the
    save action of a match variable (1966-2131).

    Simplifications: the XML text was already parsed into a tree; what
    utils/get_attributes.py (which uses [eval]) and chain variables make of a
    variable's text is a parameter; the compiled regexes are in FormRegex.v;
    group functions and default values are not built here. *)
From Verif Require Import PyBase Regex Results.
Local Open Scope string_scope.
Local Open Scope list_scope.

(** an XML element: tag, attributes, text, children, tail *)
Inductive elem := Elem (tag : str) (attrs : list (str * str)) (text : str) (children : list elem) (tail : str).
Definition e_tag (e : elem) : str := match e with Elem t _ _ _ _ => t end.
Definition e_attrs (e : elem) : list (str * str) := match e with Elem _ a _ _ _ => a end.
Definition e_text (e : elem) : str := match e with Elem _ _ x _ _ => x end.
Definition e_children (e : elem) : list elem := match e with Elem _ _ _ c _ => c end.
Definition e_tail (e : elem) : str := match e with Elem _ _ _ _ x => x end.
Fixpoint attr (l : list (str * str)) (n : str) : option str :=
  match l with [] => None | (m, v) :: t => if str_eqb n m then Some v else attr t n end.

(** ** Variables of a line: [re.findall(r"{{([\S\s]+?)}}", line)], ttp.py 1810, 2210 *)
Definition any_char : re := RSet false [CNSpaceC; CSpaceC].
Definition var_re : re := RSeq (rlit $"{{") (RSeq (RGroup $"1" (rplus_lazy any_char)) (rlit $"}}")).
Definition vars_in (line : str) : list str := flat_map (fun m => map snd (m_caps m)) (finditer var_re line).
(** [re.sub(var_re, "", line)] *)
Definition without_vars (line : str) : str := re_sub_lit var_re [] line.

(** sanitized variable name, [re.sub(r"\W+|^(?=\d)", "_", name)]: ttp.py 1996 *)
Fixpoint squash (s : str) (prev : bool) : str :=
  match s with
  | [] => []
  | c :: t => if is_word c then c :: squash t false
              else if prev then squash t true else "_"%char :: squash t true
  end.
Definition sanitize (s : str) : str :=
  match s with c :: _ => if is_dec c then "_"%char :: squash s false else squash s false | [] => [] end.

Section G.
(** the names of a variable's text: the variable's own, then its functions in order
    (get_attributes.py 31-90; chain functions replaced by their content, ttp.py 2056-2078) *)
Variable names_of : str -> list str.

Record cvar := { cv_name : str; cv_action : action; cv_isline : bool; cv_skip : bool }.

(** extract_functions restricted to what decides the save action: ttp.py 2013-2131.
    [blank]: the line holds nothing but variables *)
Definition apply_name (var_name : str) (blank : bool) (c : cvar) (n : str) : cvar :=
  let upd a := {| cv_name := cv_name c; cv_action := a; cv_isline := cv_isline c; cv_skip := cv_skip c |} in
  if str_eqb n $"_start_" then upd (if str_eqb var_name $"_start_" then AStartEmpty else AStart)
  else if str_eqb n $"_end_" then upd AEnd
  else if str_eqb n $"_headers_" then upd AStart
  else if str_eqb n $"joinmatches" then upd AJoin
  else if str_eqb n $"_line_" then
    {| cv_name := cv_name c; cv_action := AJoin; cv_isline := true; cv_skip := cv_skip c |}
  else if str_eqb n $"set" then
    if blank then {| cv_name := cv_name c; cv_action := cv_action c; cv_isline := cv_isline c; cv_skip := true |} else c
  else c.
Definition compile_var (blank : bool) (v : str) : cvar :=
  match names_of v with
  | [] => {| cv_name := []; cv_action := AAdd; cv_isline := false; cv_skip := false |}
  | n :: fs =>
      let name := sanitize n in
      let c0 := {| cv_name := name; cv_action := AAdd; cv_isline := false; cv_skip := false |} in
      fold_left (apply_name name blank) fs (apply_name name blank c0 name)
  end.

(** one regex dictionary: the line, its ACTION and IS_LINE *)
Record rline := { rl_line : str; rl_action : action; rl_isline : bool }.

(** ttp.py 1818-1858 *)
Definition line_step (st : action * bool * bool) (c : cvar) : action * bool * bool :=
  let '(a, l, sk) := st in
  if cv_skip c then (a, l, true)
  else ((if is_start a then a else if str_eqb (cv_name c) $"ignore" then a else cv_action c),
        (if l then l else cv_isline c), sk).
Definition compile_line (line : str) : option rline :=
  let blank := match rstrip (without_vars line) with [] => true | _ => false end in
  let '(a, l, sk) := fold_left line_step (map (compile_var blank) (vars_in line)) (AAdd, false, false) in
  if sk then None else Some {| rl_line := line; rl_action := a; rl_isline := l |}.

(** the lines that are used: ttp.py 1800-1817 *)
Definition used_lines (data : str) : list str :=
  filter (fun l => match vars_in l with [] => false | _ => true end)
    (map rstrip (filter (fun l => (negb (match strip l with [] => true | _ => false end) && negb (prefixb $"##" (lstrip l)))%bool)
                        (splitlines data))).
Definition compile_lines (data : str) : list rline :=
  flat_map (fun l => match compile_line l with Some r => [r] | None => [] end) (used_lines data).

(** ** start, end and normal lists: ttp.py 1859-1879 *)
Record lists := { l_start : list rline; l_end : list rline; l_re : list rline }.
Definition as_start (r : rline) : rline :=
  if is_start (rl_action r) then r else {| rl_line := rl_line r; rl_action := AStart; rl_isline := rl_isline r |}.
Definition add_start (L : lists) (r : rline) : lists := {| l_start := l_start L ++ [r]; l_end := l_end L; l_re := l_re L |}.
Definition add_end (L : lists) (r : rline) : lists := {| l_start := l_start L; l_end := l_end L ++ [r]; l_re := l_re L |}.
Definition add_re (L : lists) (r : rline) : lists := {| l_start := l_start L; l_end := l_end L; l_re := l_re L ++ [r] |}.
Definition is_end (a : action) : bool := match a with AEnd => true | _ => false end.
Definition classify1 (method : str) (tail : bool) (index : nat) (L : lists) (r : rline) : lists :=
  if is_end (rl_action r) then add_end L r
  else if tail then add_re L r
  else if Nat.eqb index 0 then add_start L (as_start r)
  else if str_eqb method $"table" then add_start L (as_start r)
  else if is_start (rl_action r) then add_start L r
  else add_re L r.
Fixpoint classify (method : str) (tail : bool) (index : nat) (rs : list rline) (L : lists) : lists :=
  match rs with
  | [] => L
  | r :: rs => classify method tail (S index) rs (classify1 method tail index L r)
  end.
Definition get_regexes (method : str) (tail : bool) (data : str) (L : lists) : lists :=
  classify method tail 0 (compile_lines data) L.

(** ** Groups *)
Inductive grp := Grp (id : gid) (parent : option gid) (name : str) (path : list str) (method : str)
                     (inputs outputs : list str) (regexes : lists) (children : list grp).
Definition gr_id (g : grp) : gid := match g with Grp i _ _ _ _ _ _ _ _ => i end.
Definition gr_parent (g : grp) : option gid := match g with Grp _ p _ _ _ _ _ _ _ => p end.
Definition gr_name (g : grp) : str := match g with Grp _ _ n _ _ _ _ _ _ => n end.
Definition gr_path (g : grp) : list str := match g with Grp _ _ _ p _ _ _ _ _ => p end.
Definition gr_method (g : grp) : str := match g with Grp _ _ _ _ m _ _ _ _ => m end.
Definition gr_inputs (g : grp) : list str := match g with Grp _ _ _ _ _ i _ _ _ => i end.
Definition gr_outputs (g : grp) : list str := match g with Grp _ _ _ _ _ _ o _ _ => o end.
Definition gr_lists (g : grp) : lists := match g with Grp _ _ _ _ _ _ _ r _ => r end.
Definition gr_children (g : grp) : list grp := match g with Grp _ _ _ _ _ _ _ _ c => c end.

(** attributes: ttp.py 1704-1796 *)
Record gattrs := { ga_path : list str; ga_name : str; ga_id : option gid; ga_method : str; ga_in : list str; ga_out : list str }.
Definition anon_path : str := $"_anonymous_*".
Definition extract_name (pathchar : str) (path : list str) (o : str) : list str :=
  if prefixb $"/" o then
    if in_strs $"_anonymous_" path then anon_path :: split pathchar (lstrip_p (is_c "/"%char) o)
    else if str_eqb o $"/" then [anon_path]
    else split pathchar (lstrip_p (is_c "/"%char) o)
  else path ++ split pathchar o.
Definition comma_list (o : str) : list str := map strip (split $"," o).
Definition one_attr (pathchar : str) (top : bool) (idx : nat) (a : gattrs) (kv : str * str) : gattrs :=
  let n := lower (fst kv) in let o := snd kv in
  if str_eqb n $"method" then
    {| ga_path := ga_path a; ga_name := ga_name a; ga_id := ga_id a; ga_method := strip (lower o); ga_in := ga_in a; ga_out := ga_out a |}
  else if str_eqb n $"input" then
    if top then {| ga_path := ga_path a; ga_name := ga_name a; ga_id := ga_id a; ga_method := ga_method a; ga_in := comma_list o; ga_out := ga_out a |} else a
  else if str_eqb n $"output" then
    if top then {| ga_path := ga_path a; ga_name := ga_name a; ga_id := ga_id a; ga_method := ga_method a; ga_in := ga_in a; ga_out := comma_list o |} else a
  else if str_eqb n $"name" then
    let p := extract_name pathchar (ga_path a) o in
    {| ga_path := p; ga_name := join $"." p; ga_id := Some (join $"." p, idx); ga_method := ga_method a; ga_in := ga_in a; ga_out := ga_out a |}
  else a.
(** set_anonymous_path: ttp.py 1697-1702.  ([ga_id] is set whenever the name is not empty) *)
Definition anonymous_path (top : bool) (idx : nat) (a : gattrs) : gattrs :=
  match ga_name a with
  | [] => let p := if top then [anon_path] else ga_path a in
          {| ga_path := p; ga_name := join $"." p; ga_id := Some (join $"." p ++ $"._anonymous_", idx);
             ga_method := ga_method a; ga_in := ga_in a; ga_out := ga_out a |}
  | _ => a
  end.
Definition attributes (pathchar : str) (top : bool) (path : list str) (idx : nat) (l : list (str * str)) : gattrs :=
  anonymous_path top idx
    (fold_left (one_attr pathchar top idx) l
       {| ga_path := path; ga_name := []; ga_id := None; ga_method := $"group"; ga_in := []; ga_out := [] |}).

(** _group_class.__init__ and get_children: ttp.py 1688-1695, 1895-1918 *)
Fixpoint build (pathchar : str) (top : bool) (path : list str) (idx : nat) (parent : option gid) (e : elem) : grp :=
  match e with
  | Elem _ attrs text cs _ =>
      let a := attributes pathchar top path idx attrs in
      let id := match ga_id a with Some i => i | None => ([], 0) end in
      let L0 := get_regexes (ga_method a) false text {| l_start := []; l_end := []; l_re := [] |} in
      let kids := (fix go (i : nat) (cs : list elem) : list grp :=
                     match cs with [] => [] | c :: cs => build pathchar false (ga_path a) i (Some id) c :: go (S i) cs end) 0 cs in
      let L := fold_left (fun L c => match strip (e_tail c) with [] => L | _ => get_regexes (ga_method a) true (e_tail c) L end) cs L0 in
      Grp id parent (ga_name a) (ga_path a) (ga_method a) (ga_in a) (ga_out a) L kids
  end.
(** the top groups of a template: ttp.py 1225-1235, 1246-1247 *)
Fixpoint build_all (pathchar : str) (i : nat) (es : list elem) : list grp :=
  match es with [] => [] | e :: es => build pathchar true [] i None e :: build_all pathchar (S i) es end.
End G.

(** ** Outputs of groups: ttp.py 1074-1104 *)
Section Outs.
Context {O : Type}.
Variable oname : O -> str.
Inductive gout := ByName (n : str) | Found (o : O).
(** [glob_output.name == grp_output] where the group's item is an output object is never true *)
Definition is_named (g : gout) (o : O) : bool := match g with ByName n => str_eqb (oname o) n | Found _ => false end.
Definition remove_at {A} (i : nat) (l : list A) : list A := firstn i l ++ skipn (S i) l.
Definition set_at {A} (i : nat) (x : A) (l : list A) : list A := firstn i l ++ match skipn i l with [] => [] | _ :: t => x :: t end.
Record ostate := { o_glob : list O; o_grp : list O; o_outs : list gout; o_found : bool }.
(** the enumerations look at the current list at every step *)
Fixpoint scan_glob (fuel gi oi : nat) (want : gout) (s : ostate) : ostate :=
  match fuel with
  | 0 => s
  | S f =>
      match nth_error (o_glob s) gi with
      | None => s
      | Some o =>
          scan_glob f (S gi) oi want
            (if is_named want o
             then {| o_glob := remove_at gi (o_glob s); o_grp := o_grp s ++ [o]; o_outs := set_at oi (Found o) (o_outs s); o_found := true |}
             else s)
      end
  end.
Definition scan_grp (oi : nat) (want : gout) (s : ostate) : ostate :=
  fold_left (fun s o => if is_named want o
                        then {| o_glob := o_glob s; o_grp := o_grp s; o_outs := set_at oi (Found o) (o_outs s); o_found := true |}
                        else s) (o_grp s) s.
Fixpoint scan_outs (fuel oi : nat) (s : ostate) : ostate :=
  match fuel with
  | 0 => s
  | S f =>
      match nth_error (o_outs s) oi with
      | None => s
      | Some want =>
          let s1 := scan_glob (S (length (o_glob s))) 0 oi want
                      {| o_glob := o_glob s; o_grp := o_grp s; o_outs := o_outs s; o_found := false |} in
          if o_found s1 then scan_outs f (S oi) s1
          else
            let s2 := scan_grp oi want s1 in
            scan_outs f (S oi)
              (if o_found s2 then s2
               else {| o_glob := o_glob s2; o_grp := o_grp s2; o_outs := remove_at oi (o_outs s2); o_found := false |})
      end
  end.
(** all groups: [groups] are the groups' output name lists *)
Definition group_outputs (groups : list (list str)) (outs : list O) : list (list gout) * list O :=
  let '(res, glob, _) :=
    fold_left (fun acc names =>
      let '(res, glob, grp) := acc in
      let s := scan_outs (S (length names)) 0 {| o_glob := glob; o_grp := grp; o_outs := map ByName names; o_found := false |} in
      (res ++ [o_outs s], o_glob s, o_grp s)) groups ([], outs, []) in
  (res, glob).
End Outs.

(** ** Extend tags *)
(** [[i.strip() for i in tag.get(name, "").split(",") if i.strip()]]: ttp.py 1266-1283 *)
Definition filter_list (tag : elem) (n : str) : list str :=
  match attr (e_attrs tag) n with
  | Some o => filter (fun i => match i with [] => false | _ => true end) (map strip (split $"," o))
  | None => []
  end.
Definition is_tag (t : elem) (l : list str) : bool := in_strs (e_tag t) l.
Definition input_tags := [$"i"; $"in"; $"input"].
Definition vars_tags := [$"v"; $"vars"; $"variables"].
Definition group_tags := [$"g"; $"grp"; $"group"].
Definition output_tags := [$"o"; $"out"; $"output"].
Definition given (l : list str) : bool := match l with [] => false | _ => true end.
(** [tag_name in l]; [None in l] is False *)
Definition named_in (t : elem) (l : list str) : bool :=
  match attr (e_attrs t) $"name" with Some n => in_strs n l | None => false end.
(** filter_extend: ttp.py 1252-1309 *)
Fixpoint filter_top (inputs tvars groups lookups outputs : list str) (i : nat) (ts : list elem) : list elem :=
  match ts with
  | [] => []
  | t :: ts =>
      let rest := filter_top inputs tvars groups lookups outputs i ts in
      if (given inputs && is_tag t input_tags)%bool then if named_in t inputs then t :: rest else rest
      else if (given tvars && is_tag t vars_tags)%bool then if named_in t tvars then t :: rest else rest
      else if (given groups && is_tag t group_tags)%bool then
        let rest := filter_top inputs tvars groups lookups outputs (S i) ts in
        if (named_in t groups || in_strs (str_of_N (N.of_nat i)) groups)%bool then t :: rest else rest
      else if (given lookups && is_tag t [$"lookup"])%bool then if named_in t lookups then t :: rest else rest
      else if (given outputs && is_tag t output_tags)%bool then if named_in t outputs then t :: rest else rest
      else t :: rest
  end.
Fixpoint filter_nested (groups : list str) (i : nat) (ts : list elem) : list elem :=
  match ts with
  | [] => []
  | t :: ts =>
      if is_tag t group_tags then
        if given groups then
          let rest := filter_nested groups (S i) ts in
          if (named_in t groups || in_strs (str_of_N (N.of_nat i)) groups)%bool then t :: rest else rest
        else t :: filter_nested groups i ts
      else if str_eqb (e_tag t) $"extend" then t :: filter_nested groups i ts
      else filter_nested groups i ts
  end.
Definition filter_extend (content : list elem) (tag : elem) (top : bool) : list elem :=
  if (top && Nat.eqb (length (e_attrs tag)) 1)%bool then content
  else
    let groups := filter_list tag $"groups" in
    if top then filter_top (filter_list tag $"inputs") (filter_list tag $"vars") groups
                           (filter_list tag $"lookups") (filter_list tag $"outputs") 0 content
    else filter_nested groups 0 content.

(** handle_extend: ttp.py 1319-1373.  The container is either an element (with a
    text) or the list [filtered_ET].  [load tag]: the text and the children of the template that the tag extends with, or
    [inr text] when its only child is the _anonymous_ group.  An absent text is the empty one, nothing can be appended to it.
    Simplifications: [fuel] bounds the depth of nested extends
    and the number of children visited; RuntimeError when it is used up (Python: RecursionError for the
    depth, no bound on the number). *)
Section Ext.
Variable load : elem -> res ((str * list elem) + str).
Definition splice {A} (i : nat) (new l : list A) : list A := firstn i l ++ new ++ skipn (S i) l.
Definition no_text (s : str) : bool := match s with [] => true | _ => false end.
(** the loop of lines 1335-1370; [rec] is the recursive call (with top=False) *)
Fixpoint visit (rec : bool -> str -> list elem -> res (str * list elem)) (top is_elem : bool)
    (n : nat) (index : nat) (text : str) (cs : list elem) {struct n} : res (str * list elem) :=
  match nth_error cs index with
  | None => Ok (text, cs)
  | Some c =>
      match n with
      | 0 => Raise RuntimeError
      | S n =>
          if str_eqb (e_tag c) $"extend" then
            do x <- load c;
            match x with
            | inr t =>
                if is_elem then
                  if (no_text text || no_text t)%bool then Raise TypeError
                  else visit rec top is_elem n (S index) (text ++ t) (remove_at index cs)
                else Raise AttributeError
            | inl (x, content) =>
                (* without filters [filtered_ET] is the element itself, whose text is dropped *)
                do (_, new) <- rec (top && Nat.eqb (length (e_attrs c)) 1)%bool x (filter_extend content c top);
                visit rec top is_elem n (S index) text (splice index new cs)
            end
          else if str_eqb (e_tag c) $"group" then
            do (t', cs') <- rec true (e_text c) (e_children c);
            visit rec top is_elem n (S index) text (set_at index (Elem (e_tag c) (e_attrs c) t' cs' (e_tail c)) cs)
          else visit rec top is_elem n (S index) text cs
      end
  end.
Fixpoint handle (fuel : nat) (top : bool) (is_elem : bool) (text : str) (cs : list elem) : res (str * list elem) :=
  visit (match fuel with 0 => fun _ _ _ => Raise RuntimeError | S f => handle f false end) top is_elem fuel 0 text cs.
End Ext.
