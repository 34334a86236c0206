(** * SpecHeaders: tables with a line of headings (specification for C122).

    A template line [Port   Name    Status {{ _headers_ }}] describes the columns of a
    table: each starts where its heading starts. *)
From Verif Require Import PyBase Template Attributes MatchVar SpecVariable.
Local Open Scope string_scope.
Local Open Scope list_scope.

(** a heading: a word and the blanks after it; the last one has none *)
Definition heading : Type := str * str.
Definition heading_text (h : heading) : str := fst h ++ snd h.
Definition a_word (w : str) : Prop := w <> [] /\ Forall (fun c => is_space c = false) w.
Definition blanks (b : str) : Prop := Forall (fun c => is_space c = true) b.
Inductive headings : list heading -> Prop :=
| hd_last w : a_word w -> headings [(w, [])]
| hd_more w b l : a_word w -> b <> [] -> blanks b -> headings l -> headings ((w, b) :: l).
Definition heading_line (indent : str) (l : list heading) : str := indent ++ concat (map heading_text l).

(** the widths of the columns: the first one has the indentation too, with four places for a tab *)
Definition places (c : ascii) : nat := if Ascii.eqb c (chr 9) then 4 else 1.
Definition indent_width (s : str) : nat := fold_right (fun c n => places c + n) 0 s.
Definition widths (indent : str) (l : list heading) : list nat :=
  match map (fun h => length (heading_text h)) l with [] => [] | w :: t => indent_width indent + w :: t end.
(** a line cut at the columns; the last one goes to the end *)
Fixpoint cells (ws : list nat) (s : str) : list str :=
  match ws with
  | [] => []
  | [_] => [s]
  | w :: t => firstn w s :: cells t (skipn w s)
  end.
(** names of groups in regular expressions *)
Definition group_name (w : str) : Prop := w <> [] /\ word_text w /\ ~ starts_with_digit w.

(** how many columns a row must reach: two less than there are, or what [columns(n)] says, but at least one and at most all *)
Inductive int_of : val -> Z -> Prop :=
| io_int z : int_of (VInt z) z
| io_true : int_of (VBool true) 1
| io_false : int_of (VBool false) 0
| io_text s z : py_int s = Some z -> int_of (VStr s) z.
Definition a_count (n : Z) (a : attribute) (c : Z) : Prop := exists v args z, at_args a = v :: args /\ int_of v z /\ c = Z.min (Z.max 1 z) n.
Inductive required (n : Z) (attrs : list attribute) : Z -> Prop :=
| rq_default : Forall (fun a => at_name a <> t_ "columns") attrs -> required n attrs (n - 2)
| rq_columns l1 a l2 c : attrs = l1 ++ a :: l2 -> at_name a = t_ "columns" -> a_count n a c ->
    Forall (fun b => at_name b = t_ "columns" -> exists c', a_count n b c') l1 -> Forall (fun b => at_name b <> t_ "columns") l2 -> required n attrs c.
(** a row reaches the column [c] *)
Definition reaches (ws : list nat) (c : Z) (s : str) : bool := Nat.ltb (list_sum (firstn (Z.to_nat (c - 1)) ws)) (length s).

(** the variables of the columns *)
Definition column_text (w : str) : str := w ++ t_ " | strip | exclude(" ++ w ++ t_ ")".
Inductive columns_made (vars : dict) (gdefault : option str) : list str -> dict -> list (str * varobj) -> dict -> Prop :=
| cm_end d : columns_made vars gdefault [] d [] d
| cm_more w ws d v l d' : is_variable vars gdefault (column_text w) [] d v -> columns_made vars gdefault ws (v_defaults (vo_st v)) l d' ->
    columns_made vars gdefault (w :: ws) d ((w, v) :: l) d'.
