(** * C121: what a match variable is.

    Between the braces of a template line stands a name followed by functions.  The
    specification (SpecVariable.v) says which functions those are - chains replaced by what
    the template's variables hold, chains of chains included - and what each of them does. *)
From Verif Require Import PyBase DictFacts StrFacts FormRegex Results Template Attributes MatchVar SpecVariable VariableFacts VariableFacts2 VariableFacts3.
Local Open Scope string_scope.
Local Open Scope list_scope.

(** the variable that is made is the one of the rules, and exactly the texts that the rules cover make one *)
Theorem C121_variable : forall vars gdefault text line defaults v,
  new_variable vars gdefault text line defaults = Ok v <-> is_variable vars gdefault text line defaults v.
Proof. exact variable_iff. Qed.
Print Assumptions C121_variable.
(** its name: runs of other characters become one underscore, one more goes before a digit *)
Theorem C121_name : forall s r, sanitize s = r <-> name_for s r.
Proof. exact name_iff. Qed.
Print Assumptions C121_name.
Theorem C121_name_good : forall s r, name_for s r -> s <> [] -> word_text r /\ r <> [] /\ ~ starts_with_digit r.
Proof. exact name_good. Qed.
Print Assumptions C121_name_good.
Theorem C121_name_kept : forall s, word_text s -> ~ starts_with_digit s -> sanitize s = s.
Proof. intros s Hw Hd. apply name_iff. now apply name_kept. Qed.
Print Assumptions C121_name_kept.
(** chains that lead back to themselves make no variable *)
Theorem C121_endless : forall vars gdefault text line defaults v a attrs S,
  endless vars S -> get_attributes text = Ok (a :: attrs) -> leads S (map by_own_name attrs) ->
  new_variable vars gdefault text line defaults <> Ok v.
Proof.
  intros vars gdefault text line defaults v a attrs S He Ha (x & y & args & k & Hi & Hr) H. apply variable_iff in H. destruct H as (a' & attrs' & es & fs & rs & d & Ht & Hx & _).
  rewrite Ha in Ht. assert (attrs' = attrs) by congruence. subst attrs'. eapply endless_no; [exact He| |exact Hx]. exists x, y, args, k. split; [|exact Hr]. apply in_or_app. now right.
Qed.
Print Assumptions C121_endless.
(** the variable's part of the line's expression *)
Theorem C121_source : forall vars gdefault v line regex d r subs d', vo_name v <> t_ "_headers_" ->
  variable_regex vars gdefault v line regex d = Ok (r, subs, d') <->
  subs = [] /\ d' = d /\ exists i, describes vars v i /\
    ((left_alone v /\ r = match regex with [] => base_regex line | _ => regex end) \/ (~ left_alone v /\ r = form_regex i (vo_text v) line regex)).
Proof. exact source_iff. Qed.
Print Assumptions C121_source.

(** non-vacuity *)
Definition x121_vars : dict := [(KS $"up", VList [VStr $"upper | chain(more)"; VStr $"IP"]); (KS $"more", VStr $"strip(' ') | _start_"); (KS $"loop", VStr $"lower | chain('loop')"); (KS $"pat", VStr $"[a-z]+")].
Definition x121_show (r : res varobj) :=
  do v <- r; Ok (vo_name v, map (fun a => (at_name a, at_args a)) (v_funcs (vo_st v)), v_res (vo_st v), v_action (vo_st v), v_defaults (vo_st v)).
Example C121_ex : x121_show (new_variable x121_vars (Some $"0") $" my-name | chain(up) | contains(pat, x) | re(pat) | re('\d') " $"x {{ my-name }}" [])
  = Ok ($"my_name", [($"upper", []); ($"strip", [VStr $" "]); ($"contains", [VStr $"[a-z]+"; VStr $"x"])], [VStr $"(?:[0-9]{1,3}\.){3}[0-9]{1,3}"; VStr $"[a-z]+"; VStr $"\d"], AStart, [(KS $"my-name", VStr $"0")]).
Proof. vm_compute. reflexivity. Qed.
Example C121_ex_is : exists v, is_variable x121_vars (Some $"0") $" my-name | chain(up) | re(pat) " $"x {{ my-name }}" [] v.
Proof. destruct (new_variable x121_vars (Some $"0") $" my-name | chain(up) | re(pat) " $"x {{ my-name }}" []) as [v|] eqn:E; [exists v; now apply C121_variable|vm_compute in E; discriminate]. Qed.
Example C121_ex_names : map sanitize [$"a"; $"a.b--c "; $"10G"; $"-x"; $"h_1"] = [$"a"; $"a_b_c_"; $"_10G"; $"_x"; $"h_1"].
Proof. vm_compute. reflexivity. Qed.
Example C121_ex_endless : endless x121_vars (fun k => k = KS $"loop").
Proof.
  intros k ->. exists (VStr $"lower | chain('loop')"). split; [reflexivity|]. split; [discriminate|]. intros fs H. apply chained_iff in H. cbn [chain_texts] in H.
  exists {| at_name := $"chain"; at_args := [VStr $"loop"]; at_kwargs := [] |}, (VStr $"loop"), [], (KS $"loop"). split; [|repeat split].
  assert (K : get_attributes $"lower | chain('loop')" = Ok [{| at_name := $"lower"; at_args := []; at_kwargs := [] |}; {| at_name := $"chain"; at_args := [VStr $"loop"]; at_kwargs := [] |}]) by (vm_compute; reflexivity).
  rewrite K in H. assert (fs = [{| at_name := $"lower"; at_args := []; at_kwargs := [] |}; {| at_name := $"chain"; at_args := [VStr $"loop"]; at_kwargs := [] |}]) as -> by congruence. right. left. reflexivity.
Qed.
Example C121_ex_loop : new_variable x121_vars None $"x | chain(loop)" $"{{ x }}" [] = Raise RuntimeError.
Proof. vm_compute. reflexivity. Qed.
Definition x121_re (text line : str) : res str := do v <- new_variable x121_vars None text line []; do (r, _, _) <- variable_regex x121_vars None v line [] []; Ok r.
Example C121_ex_source : map (fun t => x121_re t ($"a {{" ++ t ++ $"}}")) [$"x"; $"x | re(pat) | DIGIT"; $"ignore"; $"ignore(pat)"; $"ignore(a, b)"; $"x | set(1)"] =
  map (fun s => Ok ($"\na[ \t]+" ++ s ++ $"[\t ]*(?=\n|\r\n)")) [$"(?P<x>(?:\S+))"; $"(?P<x>(?:[a-z]+)|(?:\d+))"; $"\S+"; $"(?:[a-z]+)"; $"{{ignore(a, b)}}"] ++ [Ok $"\na[\t ]*(?=\n|\r\n)"].
Proof. vm_compute. reflexivity. Qed.
