(** * SpecLine: what a template line says about a line of text.
    Nothing here refers to the code or to the regex text it generates. *)
From Verif Require Import PyBase Regex SpecRegex.
Local Open Scope string_scope.
Local Open Scope list_scope.

Definition blank (c : ascii) : bool := (Ascii.eqb c space || Ascii.eqb c tab)%bool.

(** ** Literal text.  [xs]: blanks count exactly; [xd]: digits count exactly.
    The representative of the run a character belongs to, if it belongs to one. *)
Definition run_of (xs xd : bool) (c : ascii) : option ascii :=
  if (negb xs && blank c)%bool then Some space
  else if (negb xd && is_dec c)%bool then Some "0"%char
  else None.
Definition same_run (a b : option ascii) : bool :=
  match a, b with Some x, Some y => Ascii.eqb x y | _, _ => false end.
(** each maximal run of blanks becomes one space, each maximal run of digits one 0 *)
Fixpoint norm (xs xd : bool) (s : str) : str :=
  match s with
  | [] => []
  | c :: t =>
      match run_of xs xd c with
      | None => c :: norm xs xd t
      | Some r => match t with
                  | d :: _ => if same_run (Some r) (run_of xs xd d) then norm xs xd t else r :: norm xs xd t
                  | [] => [r]
                  end
      end
  end.
Definition same_text (xs xd : bool) (l t : str) : Prop := norm xs xd t = norm xs xd l.

(** ** A line: literal pieces and variables (with the alternatives for their text) *)
Inductive piece := PLit (l : str) | PVar (name : option str) (alts : list re).
(** [s] starts with a text for the pieces; [s'] is what follows; the named variables' texts *)
Inductive reads (xs xd : bool) : list piece -> str -> str -> caps -> Prop :=
| rd_nil s : reads xs xd [] s s []
| rd_lit l ps t s s' c : same_text xs xd l t -> reads xs xd ps s s' c -> reads xs xd (PLit l :: ps) (t ++ s) s' c
| rd_var n alts r ps w s s' c : In r alts -> rel r (w ++ s) [] s [] -> reads xs xd ps s s' c ->
    reads xs xd (PVar n alts :: ps) (w ++ s) s' (match n with Some x => (x, w) :: c | None => c end).

Definition at_eol (s : str) : Prop := exists u, s = nl :: u \/ s = chr 13 :: nl :: u.
(** a line of the text, at the newline that starts it *)
Definition reads_line (xs xd : bool) (indent : str) (ps : list piece) (s s' : str) (c : caps) : Prop :=
  exists s1 b, s = nl :: indent ++ s1 /\ reads xs xd ps s1 (b ++ s') c /\ Forall (fun x => blank x = true) b /\ at_eol s'.
