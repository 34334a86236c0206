(** * Uptime: the match function uptimeparse.
    Models ttp/match/uptimeparse.py 10-94: the regular expression built at lines 12-40 from its parts and the function.
    Simplifications.  Python's limit of 4300 digits for [int] is not modelled.  The two unnamed groups of MINS capture and are never read.  The expression ends with blanks and a dollar: the blanks
    take everything to the end of the text, so the dollar's other place, before a final line break, is never needed and is left out. *)
From Verif Require Import PyBase Regex Parser Attributes MatchFuncs.
Local Open Scope string_scope.
Local Open Scope list_scope.

Inductive unit_ := Years | Months | Weeks | Days | Hours | Mins | Secs.
Definition all_units : list unit_ := [Years; Months; Weeks; Days; Hours; Mins; Secs].
(** the names of the groups, lines 12-18 *)
Definition unit_name (u : unit_) : str :=
  match u with Years => $"years" | Months => $"months" | Weeks => $"weeks" | Days => $"days" | Hours => $"hours" | Mins => $"mins" | Secs => $"secs" end.
(** re.I, line 39: a small letter of the expression stands for both cases *)
Definition upper_letter (c : ascii) : ascii := chr (code c - 32).
Definition iletter (c : ascii) : re := RSet false [CChar c; CChar (upper_letter c)].
Fixpoint ilit (s : str) : re := match s with [] => REps | c :: t => RSeq (iletter c) (ilit t) end.
(** a word whose last letter is optional *)
Definition iplural (s : string) : re := RSeq (ilit $s) (ropt (iletter "s")).
(** the words after the number, lines 12-18 *)
Definition unit_words (u : unit_) : re :=
  match u with
  | Years => RAlt (iplural "y") (RAlt (RSeq (iplural "yr") (ropt RAny)) (iplural "year"))
  | Months => RAlt (RSeq (iplural "mo") (ropt RAny)) (RAlt (RSeq (iplural "mth") (ropt RAny)) (iplural "month"))
  | Weeks => RAlt (ilit $"w") (RAlt (iplural "wk") (iplural "week"))
  | Days => RAlt (ilit $"d") (RAlt (iplural "dy") (iplural "day"))
  | Hours => RAlt (ilit $"h") (RAlt (iplural "hr") (iplural "hour"))
  | Mins => RAlt (ilit $"m") (RAlt (iplural "min") (iplural "minute"))
  | Secs => RAlt (ilit $"s") (RAlt (iplural "sec") (iplural "second"))
  end.
(** the characters of the number, lines 12-18 *)
Definition unit_chars (u : unit_) : list citem := match u with Years | Months => [CDigitC] | _ => [CDigitC; CChar "."] end.
Definition field_re (u : unit_) : re :=
  RSeq (RGroup (unit_name u) (rplus (RSet false (unit_chars u)))) (RSeq (RStar true rs) (unit_words u)).
(** OPTSEP and OPT, lines 19-22; the seconds have no separator, line 33 *)
Definition part_re (u : unit_) : re :=
  ropt (RSeq (field_re u)
         (match u with Secs => REps | _ => RSeq (RStar true rs) (ropt (RSeq (RSet false [CChar ","; CChar "/"]) (RStar true rs))) end)).
(** TIMEFORMATS, lines 24-36 *)
Fixpoint format_re (l : list unit_) : re :=
  match l with
  | [] => at_end
  | u :: t => RSeq (part_re u) (RSeq (RStar true rs) (format_re t))
  end.
Definition uptime_re : re := RSeq (RStar true rs) (format_re all_units).
(** MULTIPLIERS, lines 42-52, by the name of the group *)
Definition multipliers : list (str * Z) :=
  [($"years", 60 * 60 * 24 * 365); ($"months", 60 * 60 * 24 * 30); ($"weeks", 60 * 60 * 24 * 7); ($"days", 60 * 60 * 24); ($"hours", 60 * 60); ($"mins", 60); ($"secs", 1)]%Z.
Fixpoint multiplier (n : str) (l : list (str * Z)) : Z := match l with [] => 0%Z | (m, z) :: t => if str_eqb n m then z else multiplier n t end.
(** uptimeparse, lines 55-94.  The groups that take part in the match come in the order of the expression.  A match takes the whole text.
    Simplification: a format that is an object is no format *)
Definition f_uptimeparse (data format : val) : mres :=
  match data with
  | VStr s =>
      match rmatch uptime_re s with
      | Some (_, found) =>
          if (negb (str_eqb (strip s) []) && forallb (fun kv => forallb is_dec (snd kv)) found)%bool then
            if py_eq format (VStr $"seconds")
            then Ok (VInt (fold_right Z.add 0%Z (map (fun kv => multiplier (fst kv) multipliers * Z.of_N (digits_val (snd kv) 0))%Z found)), FNone)
            else if py_eq format (VStr $"dict") then Ok (VDict (map (fun kv => (KS (fst kv), VStr (snd kv))) found), FNone)
            else Ok (data, FNone)
          else Ok (data, FNone)
      | None => Ok (data, FNone)
      end
  | VObj _ => Raise RuntimeError
  | _ => Raise TypeError
  end.
