(** * SpecUptime: how a time is written (specification for C138). *)
From Verif Require Import PyBase MatchFuncs.
From Verif Require Uptime.
Local Open Scope string_scope.
Local Open Scope list_scope.

Notation unit_ := Uptime.unit_.
Notation Years := Uptime.Years.
Notation Months := Uptime.Months.
Notation Weeks := Uptime.Weeks.
Notation Days := Uptime.Days.
Notation Hours := Uptime.Hours.
Notation Mins := Uptime.Mins.
Notation Secs := Uptime.Secs.

(** the words of a unit, in small letters; the short words of years and months can be followed by any one character (meant for a dot) *)
Definition words (u : unit_) : list string :=
  match u with
  | Years => ["y"; "ys"; "yr"; "yrs"; "year"; "years"]
  | Months => ["mo"; "mos"; "mth"; "mths"; "month"; "months"]
  | Weeks => ["w"; "wk"; "wks"; "week"; "weeks"]
  | Days => ["d"; "dy"; "dys"; "day"; "days"]
  | Hours => ["h"; "hr"; "hrs"; "hour"; "hours"]
  | Mins => ["m"; "min"; "mins"; "minute"; "minutes"]
  | Secs => ["s"; "sec"; "secs"; "second"; "seconds"]
  end.
Definition abbreviations (u : unit_) : list string :=
  match u with Years => ["yr"; "yrs"] | Months => ["mo"; "mos"; "mth"; "mths"] | _ => [] end.
(** in capital and small letters *)
Definition says (l : list string) (w : str) : Prop := exists x, In x l /\ lower w = $x.
Definition names_unit (u : unit_) (w : str) : Prop :=
  says (words u) w \/ exists v c, w = v ++ [c] /\ says (abbreviations u) v /\ c <> nl.
Definition blanks (s : str) : Prop := Forall (fun c => is_space c = true) s.
(** the count: digits, and for units below the month dots too *)
Definition count (u : unit_) (s : str) : Prop :=
  s <> [] /\ Forall (fun c => is_dec c = true \/ c = "."%char /\ u <> Years /\ u <> Months) s.
(** after a unit other than seconds, a comma or a slash *)
Definition separator (u : unit_) (s : str) : Prop := s = [] \/ u <> Secs /\ (s = $"," \/ s = $"/").
(** the text writes these counts, in the order of these units, any of which may be absent *)
Inductive writes : list unit_ -> str -> list (unit_ * str) -> Prop :=
| wr_end us b : blanks b -> writes us b []
| wr_absent u us s l : writes us s l -> writes (u :: us) s l
| wr_count u us b1 n b2 w b3 sep s l : blanks b1 -> count u n -> blanks b2 -> names_unit u w -> blanks b3 -> separator u sep -> writes us s l ->
    writes (u :: us) (b1 ++ n ++ b2 ++ w ++ b3 ++ sep ++ s) ((u, n) :: l).
Definition time (s : str) (l : list (unit_ * str)) : Prop := writes [Years; Months; Weeks; Days; Hours; Mins; Secs] s l.

Definition seconds_of (u : unit_) : Z :=
  match u with Years => 31536000 | Months => 2592000 | Weeks => 604800 | Days => 86400 | Hours => 3600 | Mins => 60 | Secs => 1 end.
Definition key_of (u : unit_) : str :=
  match u with Years => $"years" | Months => $"months" | Weeks => $"weeks" | Days => $"days" | Hours => $"hours" | Mins => $"mins" | Secs => $"secs" end.
Definition integer (n : str) : Prop := Forall (fun c => is_dec c = true) n.
Definition total (l : list (unit_ * str)) : Z := fold_right Z.add 0%Z (map (fun x => seconds_of (fst x) * Z.of_N (digits_val (snd x) 0))%Z l).
(** what is made of a time *)
Inductive time_gives (text : str) (format : val) (l : list (unit_ * str)) : val -> Prop :=
| tg_fraction u n : In (u, n) l -> ~ integer n -> time_gives text format l (VStr text)
| tg_seconds : (forall u n, In (u, n) l -> integer n) -> format = VStr $"seconds" -> time_gives text format l (VInt (total l))
| tg_dict : (forall u n, In (u, n) l -> integer n) -> format = VStr $"dict" -> time_gives text format l (VDict (map (fun x => (KS (key_of (fst x)), VStr (snd x))) l))
| tg_other : (forall u n, In (u, n) l -> integer n) -> format <> VStr $"seconds" -> format <> VStr $"dict" -> time_gives text format l (VStr text).
(** a digit or dot directly after an abbreviation of years or months: it can belong to the abbreviation or to the next count *)
Definition tight (s : str) : Prop :=
  exists a w c b, s = a ++ w ++ c :: b /\ (says (abbreviations Years) w \/ says (abbreviations Months) w) /\ (is_dec c = true \/ c = "."%char).

(** a time written out: the counts of the units that have one, each with the unit's name, with commas between *)
Definition long_name (u : unit_) : str := match u with Mins => $"minutes" | Secs => $"seconds" | _ => key_of u end.
Definition given (c : unit_ -> option str) : list (unit_ * str) :=
  flat_map (fun u => match c u with Some n => [(u, n)] | None => [] end) [Years; Months; Weeks; Days; Hours; Mins; Secs].
Definition written (l : list (unit_ * str)) : str := join $", " (map (fun x => snd x ++ $" " ++ long_name (fst x)) l).
