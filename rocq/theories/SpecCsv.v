(** * SpecCsv: csv text and the table it stands for.  Independent of the code. *)
From Verif Require Import PyBase.
Local Open Scope string_scope.
Local Open Scope list_scope.

(** characters that end a line *)
Definition line_break (c : ascii) : Prop := In (code c) [10; 11; 12; 13; 28; 29; 30; 133]%N.
Definition one_line (s : str) : Prop := Forall (fun c => ~ line_break c) s.
Definition quote_char : ascii := """".
Definition comma_char : ascii := ",".
(** every quote twice *)
Fixpoint doubled (s : str) : str :=
  match s with [] => [] | c :: t => if Ascii.eqb c quote_char then c :: c :: doubled t else c :: doubled t end.

(** a cell as it is, or between quotes with its quotes doubled *)
Inductive written : str -> str -> Prop :=
| wr_plain c : one_line c -> ~ In quote_char c -> ~ In comma_char c -> written c c
| wr_quoted c : one_line c -> written c (quote_char :: doubled c ++ [quote_char]).
(** a row: its cells separated by commas *)
Inductive row_text : list str -> str -> Prop :=
| rt_one c t : written c t -> row_text [c] t
| rt_more c t cs ts : written c t -> row_text cs ts -> row_text (c :: cs) (t ++ comma_char :: ts).
(** a line end: one of the characters that end a line, or carriage return and line feed *)
Inductive line_end : str -> Prop :=
| le_one c : line_break c -> line_end [c]
| le_crlf : line_end [Ascii.ascii_of_N 13; Ascii.ascii_of_N 10].
(** lines laid out as text; the last one need not be ended *)
Inductive laid_out : list str -> str -> Prop :=
| lo_none : laid_out [] []
| lo_last l : laid_out [l] l
| lo_more l e ls t : line_end e -> laid_out ls t -> laid_out (l :: ls) (l ++ e ++ t).
(** a table: its rows on a line each, none of them blank *)
Definition table_text (rows : list (list str)) (text : str) : Prop :=
  exists lines, Forall2 row_text rows lines /\ Forall (fun l => l <> []) lines /\ laid_out lines text.

(** the cell of a row in the column headed h *)
Definition cell_at (hs row : list str) (h c : str) : Prop := exists i, nth_error hs i = Some h /\ nth_error row i = Some c.
(** a row as a dictionary of its cells, but for the column headed [key] *)
Definition others (hs row : list str) (key : str) (rec : dict) : Prop :=
  forall k v, dget rec k = Some v <-> exists h c, k = KS h /\ v = VStr c /\ h <> key /\ cell_at hs row h c.
(** the last of [rows] whose cell under [key] is [c] *)
Definition last_with (hs : list str) (key : str) (rows : list (list str)) (c : str) (row : list str) : Prop :=
  exists pre post, rows = pre ++ row :: post /\ cell_at hs row key c /\ forall r, In r post -> ~ cell_at hs r key c.
(** a row that fits under the headers and has a cell under the key *)
Definition good_row (hs : list str) (key : str) (row : list str) : Prop := length row <= length hs /\ exists c, cell_at hs row key c.
(** the dictionary a table loads to: the other cells of the last row with each key, and nothing else *)
Definition loads_to (hs : list str) (key : str) (rows : list (list str)) (data : dict) : Prop :=
  (forall c row, last_with hs key rows c row -> exists rec, dget data (KS c) = Some (VDict rec) /\ others hs row key rec) /\
  (forall k v, dget data k = Some v -> exists c row, k = KS c /\ last_with hs key rows c row).
(** a cell without quotes and line breaks *)
Definition simple_cell (c : str) : Prop := one_line c /\ ~ In quote_char c.
