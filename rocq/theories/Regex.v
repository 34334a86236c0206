(** * Regex: the fragment of Python's [re] that ttp relies on.

    A backtracking matcher in continuation-passing style, giving the same
    priorities as [sre]: alternatives left to right, greedy repetition tries one
    more iteration first, lazy repetition tries to stop first.

    Simplifications: no look-behind, no back-references, no flags; a repetition
    whose body can match the empty string never takes an empty iteration
    (irrelevant for every pattern used here: all repeated bodies consume). *)
From Verif Require Import PyBase.

(** one element of a character class *)
Inductive citem :=
| CChar (c : ascii)
| CRange (a b : ascii)
| CSpaceC       (* \s *)
| CNSpaceC      (* \S *)
| CDigitC       (* \d *)
| CNDigitC      (* \D *)
| CWordC        (* \w *)
| CNWordC.      (* \W *)

Definition citem_match (i : citem) (c : ascii) : bool :=
  match i with
  | CChar x => Ascii.eqb x c
  | CRange a b => between (code a) (code b) c
  | CSpaceC => is_space c
  | CNSpaceC => negb (is_space c)
  | CDigitC => is_dec c
  | CNDigitC => negb (is_dec c)
  | CWordC => is_word c
  | CNWordC => negb (is_word c)
  end.

Inductive re :=
| REps
| RSet (neg : bool) (items : list citem)   (* [..] / [^..] / a single char *)
| RAny                                     (* . : any character but \n *)
| RSeq (a b : re)
| RAlt (a b : re)
| RStar (greedy : bool) (r : re)
| RGroup (name : str) (r : re)             (* (?P<name>..) *)
| RAhead (neg : bool) (r : re).            (* (?=..) / (?!..) *)

Definition set_match (neg : bool) (items : list citem) (c : ascii) : bool :=
  xorb neg (existsb (fun i => citem_match i c) items).

Notation caps := (list (str * str)).

(** set a capture: a group inside a repetition keeps its last value *)
Fixpoint cap_set (n v : str) (c : caps) : caps :=
  match c with
  | [] => [(n, v)]
  | (m, w) :: t => if str_eqb n m then (m, v) :: t else (m, w) :: cap_set n v t
  end.

Notation mres := (option (str * caps)).    (* rest of the text, captures *)

Fixpoint mt (r : re) (s : str) (c : caps) (k : str -> caps -> mres) : mres :=
  match r with
  | REps => k s c
  | RSet neg items =>
      match s with
      | x :: t => if set_match neg items x then k t c else None
      | [] => None
      end
  | RAny =>
      match s with
      | x :: t => if Ascii.eqb x nl then None else k t c
      | [] => None
      end
  | RSeq a b => mt a s c (fun s' c' => mt b s' c' k)
  | RAlt a b => match mt a s c k with Some x => Some x | None => mt b s c k end
  | RStar greedy r1 =>
      (fix star (n : nat) (s : str) (c : caps) {struct n} : mres :=
         let more :=
           match n with
           | O => None
           | S n' => mt r1 s c (fun s' c' =>
                       if Nat.ltb (length s') (length s) then star n' s' c' else None)
           end in
         if greedy
         then match more with Some x => Some x | None => k s c end
         else match k s c with Some x => Some x | None => more end)
        (length s) s c
  | RGroup name r1 =>
      mt r1 s c (fun s' c' => k s' (cap_set name (firstn (length s - length s') s) c'))
  | RAhead neg r1 =>
      match mt r1 s c (fun s' c' => Some (s', c')) with
      | Some (_, c') => if neg then None else k s c'
      | None => if neg then k s c else None
      end
  end.

(** match at the beginning of [s] *)
Definition rmatch (r : re) (s : str) : mres := mt r s [] (fun s' c => Some (s', c)).

Record rmatch_t := { m_start : nat; m_end : nat; m_text : str; m_caps : caps }.

(** [list(r.finditer(s))].  An empty match advances the scan by one. *)
Fixpoint finditer_go (fuel : nat) (r : re) (s : str) (pos : nat) : list rmatch_t :=
  match fuel with
  | O => []
  | S f =>
      match rmatch r s with
      | Some (s', c) =>
          let n := length s - length s' in
          let m := {| m_start := pos; m_end := pos + n; m_text := firstn n s; m_caps := c |} in
          match n with
          | O => m :: match s with [] => [] | _ :: t => finditer_go f r t (S pos) end
          | _ => m :: finditer_go f r s' (pos + n)
          end
      | None =>
          match s with [] => [] | _ :: t => finditer_go f r t (S pos) end
      end
  end.
Definition finditer (r : re) (s : str) : list rmatch_t := finditer_go (S (length s)) r s 0.

(** [re.sub(r, repl, s)] with a literal replacement *)
Fixpoint sub_go (fuel : nat) (r : re) (repl s : str) : str :=
  match fuel with
  | O => s
  | S f =>
      match rmatch r s with
      | Some (s', _) =>
          match length s - length s' with
          | O => repl ++ match s with [] => [] | x :: t => x :: sub_go f r repl t end
          | _ => repl ++ sub_go f r repl s'
          end
      | None => match s with [] => [] | x :: t => x :: sub_go f r repl t end
      end
  end.
Definition re_sub_lit (r : re) (repl s : str) : str := sub_go (S (length s)) r repl s.

(** convenience constructors *)
Definition rchar (c : ascii) : re := RSet false [CChar c].
Fixpoint rlit (s : str) : re :=
  match s with [] => REps | c :: t => RSeq (rchar c) (rlit t) end.
Definition rplus (r : re) : re := RSeq r (RStar true r).
Definition rplus_lazy (r : re) : re := RSeq r (RStar false r).
Definition ropt (r : re) : re := RAlt r REps.
Definition rS : re := RSet false [CNSpaceC].
Definition rs : re := RSet false [CSpaceC].

(** ** Replacement templates of [re.sub] for a pattern without groups
    ([sre_parse.parse_template], CPython 3.7+):
    \\ and the escapes \a \b \f \n \r \t \v are translated, \0.. is an octal
    escape, a reference to a group that does not exist and an unknown escape of
    an ASCII letter raise re.error, an escape of any other character is kept as
    it is, and a final lone backslash raises.  [\g<0>] is the whole match and is
    represented by [None]. Simplification: any other [\g] form raises. *)
Definition octal (c : ascii) : bool := between 48 55 c.
Definition dval (c : ascii) : N := code c - 48.

Fixpoint parse_template (fuel : nat) (s : str) : res (list (option ascii)) :=
  match fuel with
  | O => Ok []
  | S f =>
  match s with
  | [] => Ok []
  | c :: t =>
      if negb (Ascii.eqb c "\") then do r <- parse_template f t; Ok (Some c :: r)
      else
        match t with
        | [] => Raise ReError
        | e :: t1 =>
            if Ascii.eqb e "\" then do r <- parse_template f t1; Ok (Some "\"%char :: r)
            else if Ascii.eqb e "g" then
              if prefixb $"<0>" t1 then do r <- parse_template f (skipn 3 t1); Ok (None :: r)
              else Raise ReError
            else if Ascii.eqb e "0" then
              match t1 with
              | d1 :: t2 =>
                  if octal d1 then
                    match t2 with
                    | d2 :: t3 =>
                        if octal d2
                        then do r <- parse_template f t3; Ok (Some (chr (dval d1 * 8 + dval d2)) :: r)
                        else do r <- parse_template f t2; Ok (Some (chr (dval d1)) :: r)
                    | [] => Ok [Some (chr (dval d1))]
                    end
                  else do r <- parse_template f t1; Ok (Some (chr 0) :: r)
              | [] => Ok [Some (chr 0)]
              end
            else if is_dec e then
              (* three octal digits: an octal escape up to 0o377; otherwise a group reference *)
              match t1 with
              | d1 :: d2 :: t3 =>
                  if (octal e && octal d1 && octal d2)%bool
                  then if N.leb (dval e * 64 + dval d1 * 8 + dval d2) 255
                       then do r <- parse_template f t3;
                            Ok (Some (chr (dval e * 64 + dval d1 * 8 + dval d2)) :: r)
                       else Raise ReError
                  else Raise ReError
              | _ => Raise ReError
              end
            else if Ascii.eqb e "n" then do r <- parse_template f t1; Ok (Some (chr 10) :: r)
            else if Ascii.eqb e "t" then do r <- parse_template f t1; Ok (Some (chr 9) :: r)
            else if Ascii.eqb e "r" then do r <- parse_template f t1; Ok (Some (chr 13) :: r)
            else if Ascii.eqb e "a" then do r <- parse_template f t1; Ok (Some (chr 7) :: r)
            else if Ascii.eqb e "b" then do r <- parse_template f t1; Ok (Some (chr 8) :: r)
            else if Ascii.eqb e "f" then do r <- parse_template f t1; Ok (Some (chr 12) :: r)
            else if Ascii.eqb e "v" then do r <- parse_template f t1; Ok (Some (chr 11) :: r)
            else if is_ascii_letter e then Raise ReError
            else do r <- parse_template f t1; Ok (Some "\"%char :: Some e :: r)
        end
  end end.

Fixpoint expand_template (t : list (option ascii)) (whole : str) : str :=
  match t with
  | [] => []
  | Some c :: r => c :: expand_template r whole
  | None :: r => whole ++ expand_template r whole
  end.

(** [re.sub(r, template, s)] for a pattern without groups *)
Fixpoint subt_go (fuel : nat) (r : re) (tp : list (option ascii)) (s : str) : str :=
  match fuel with
  | O => s
  | S f =>
      match rmatch r s with
      | Some (s', _) =>
          let n := length s - length s' in
          match n with
          | O => expand_template tp [] ++ match s with [] => [] | x :: t => x :: subt_go f r tp t end
          | _ => expand_template tp (firstn n s) ++ subt_go f r tp s'
          end
      | None => match s with [] => [] | x :: t => x :: subt_go f r tp t end
      end
  end.
Definition re_sub (r : re) (template s : str) : res str :=
  do tp <- parse_template (S (length template)) template;
  Ok (subt_go (S (length s)) r tp s).
