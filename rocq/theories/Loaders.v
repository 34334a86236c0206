(** * Loaders: /repo/ttp/utils/loaders.py load_csv (300-327) with the parts of Python it uses,
    [str.splitlines] and [csv.reader] with its default dialect. *)
From Verif Require Import PyBase.
Local Open Scope string_scope.
Local Open Scope list_scope.

(** line boundaries of [str.splitlines] among the first 256 characters *)
Definition is_break (c : ascii) : bool :=
  existsb (N.eqb (code c)) [10; 11; 12; 13; 28; 29; 30; 133]%N.
(** [text_data.splitlines()] *)
Fixpoint lines_from (s : str) (cur : str) : list str :=
  match s with
  | [] => match cur with [] => [] | _ => [cur] end
  | c :: t =>
      if N.eqb (code c) 13 then
        cur :: match t with
               | d :: t' => if N.eqb (code d) 10 then lines_from t' [] else lines_from t []
               | [] => []
               end
      else if is_break c then cur :: lines_from t []
      else lines_from t (cur ++ [c])
  end.
Definition all_lines (s : str) : list str := lines_from s [].

(** ** csv.reader (CPython 3 Modules/_csv.c, parse_process_char; delimiter comma, quotechar double quote,
    doublequote, not strict, no escapechar).  The lines given to it contain no line terminators. *)
Inductive cstate := StartRecord | StartField | InField | InQuoted | QuoteInQuoted.
Record creader := mkR { cst : cstate; cfield : str; cfields : list str }.
Definition csave (r : creader) (s : cstate) : creader := mkR s [] (cfields r ++ [cfield r]).
Definition cadd (r : creader) (c : ascii) (s : cstate) : creader := mkR s (cfield r ++ [c]) (cfields r).
Definition comma : ascii := ",".
Definition dquote : ascii := """".
Definition start_field (r : creader) (c : ascii) : creader :=
  if Ascii.eqb c dquote then mkR InQuoted (cfield r) (cfields r)
  else if Ascii.eqb c comma then csave r StartField
  else cadd r c InField.
Definition csv_char (r : creader) (c : ascii) : creader :=
  match cst r with
  | StartRecord | StartField => start_field r c
  | InField => if Ascii.eqb c comma then csave r StartField else cadd r c InField
  | InQuoted => if Ascii.eqb c dquote then mkR QuoteInQuoted (cfield r) (cfields r) else cadd r c InQuoted
  | QuoteInQuoted =>
      if Ascii.eqb c dquote then cadd r c InQuoted
      else if Ascii.eqb c comma then csave r StartField
      else cadd r c InField
  end.
(** the end of a line *)
Definition csv_eol (r : creader) : creader :=
  match cst r with
  | StartRecord => r
  | InQuoted => r
  | StartField | InField | QuoteInQuoted => csave r StartRecord
  end.
Definition csv_line_in (r : creader) (l : str) : creader := csv_eol (fold_left csv_char l r).
(** Reader_iternext, repeatedly: the rows.  A quoted field left open at the end of the text is saved. *)
Fixpoint csv_rows (ls : list str) (r : creader) : list (list str) :=
  match ls with
  | [] => match cst r with InQuoted => [cfields (csave r StartRecord)] | _ => [] end
  | l :: t =>
      let r' := csv_line_in r l in
      match cst r' with
      | StartRecord => cfields r' :: csv_rows t (mkR StartRecord [] [])
      | _ => csv_rows t r'
      end
  end.
Definition csv_reader (text : str) : list (list str) := csv_rows (all_lines text) (mkR StartRecord [] []).

(** ** load_csv, loaders.py 300-327.  Not modelled: include. *)

(** 325: [{headers[index]: i for index, i in enumerate(row)}] *)
Fixpoint csv_record (headers row : list str) (acc : dict) : res dict :=
  match row, headers with
  | [], _ => Ok acc
  | i :: row', h :: hs => csv_record hs row' (dset acc (KS h) (VStr i))
  | _ :: _, [] => Raise IndexError
  end.
(** 325-326 *)
Definition csv_row (key : str) (headers : list str) (data : dict) (row : list str) : res dict :=
  do temp <- csv_record headers row [];
  match dget temp (KS key) with
  | None => Raise KeyError
  | Some v => do k <- key_of v; Ok (dset data k (VDict (ddel temp (KS key))))
  end.
(** 312-327; empty rows are skipped, the first row left is the header row *)
Definition load_csv (key : str) (text : str) : res dict :=
  match filter (fun row => match row with [] => false | _ => true end) (csv_reader text) with
  | [] => Ok []
  | headers :: rows =>
      let key' := match key with [] => hd [] headers | _ => key end in
      match key with
      | [] => rfold (csv_row key' headers) rows []
      | _ => if existsb (str_eqb key) headers then rfold (csv_row key' headers) rows [] else Ok []
      end
  end.
