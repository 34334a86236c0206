(** * FormRegex: from a template line to its regular expression, and from the
    text of a regular expression to the expression.
    Models ttp/ttp.py 2157-2336 (form_regex, without _headers_), the part of
    get_regexes that joins the variables of a line (1818-1848), ttp/patterns/get_pattern.py,
    CPython's [re.escape] (3.7+) and, for [re.compile], the syntax the generated
    expressions use. *)
From Verif Require Import PyBase Regex Template.
Local Open Scope string_scope.
Local Open Scope list_scope.

Definition bs : ascii := "\"%char.

(** ** re.escape: Lib/re.py, [_special_chars_map] *)
Definition specials : str := $"()[]{}?*+-|^$\.&~# " ++ [tab; nl; chr 13; chr 11; chr 12].
Definition special (c : ascii) : bool := existsb (Ascii.eqb c) specials.
Definition esc_c (c : ascii) : str := if special c then [bs; c] else [c].
Definition re_escape (s : str) : str := flat_map esc_c s.

(** ** literal parts of a line: ttp.py 2173-2183 *)
(** [r"(\\ |\\\t)+"] *)
Definition esc_blank_re : re := rplus (RAlt (rlit [bs; space]) (rlit [bs; tab])).
(** [r"\d+"] *)
Definition digits_re : re := rplus (RSet false [CDigitC]).
Definition blank_src : str := $"[ \t]+".
Definition digit_src : str := $"\d+".
Definition lit_source (exact_space exact : bool) (s : str) : str :=
  let s1 := re_escape s in
  let s2 := if exact_space then s1 else re_sub_lit esc_blank_re blank_src s1 in
  if exact then s2 else re_sub_lit digits_re digit_src s2.

(** ** the escaped line: ttp.py 2162-2188.  [spans] are the positions of the
    variables in the line without indentation, [prev] the end of the last one *)
Fixpoint esc_chunks (exact_space exact : bool) (s : str) (spans : list (nat * nat)) (prev : nat) : str :=
  match spans with
  | [] => lit_source exact_space exact (skipn prev s)
  | (a, b) :: t => lit_source exact_space exact (firstn (a - prev) (skipn prev s)) ++ firstn (b - a) (skipn a s) ++
                   esc_chunks exact_space exact s t b
  end.
Definition spans_of (s : str) : list (nat * nat) := map (fun m => (m_start m, m_end m)) (finditer var_re s).
Definition exact_space_of (line : str) : bool := containsb $"_exact_space_" line.
Definition exact_of (line : str) : bool := containsb $"_exact_" line.
Definition esc_line (line : str) : str :=
  esc_chunks (exact_space_of line) (exact_of line) (lstrip line) (spans_of (lstrip line)) 0.
Definition indent_of (line : str) : str := firstn (length line - length (lstrip line)) line.
(** [r"[\t ]*(?=\n|\r\n)"] *)
Definition tail_src : str := $"[\t ]*(?=\n|\r\n)".
(** ttp.py 2191-2202 *)
Definition base_regex (line : str) : str := $"\n" ++ indent_of line ++ esc_line line ++ tail_src.

(** ** variables.  What extract_functions (ttp.py 2013-2155) makes of a variable's
    text is a parameter: its sanitized name; the argument of [ignore], resolved as
    in ttp.py 2208-2225 ([None]: no argument); whether a conditional [set] is among
    its functions; its regexes, resolved as in extract_re *)
Record vinfo := { vi_name : str; vi_ignore : option str; vi_set : bool; vi_res : list str }.
Definition word_src : str := $"\S+".
Definition brace (v : str) : str := $"{{" ++ v ++ $"}}".
(** ttp.py 2227-2238 regex_deleteVar.  Simplification: [$] also matches before a
    final newline, which no generated expression has *)
Definition strip_blank_src (s : str) : str :=
  if prefixb (rev blank_src) (rev s) then firstn (length s - length blank_src) s else s.
Definition delete_var (v regex : str) : str :=
  match find_at (brace v) regex with
  | Some i => strip_blank_src (firstn i regex) ++ tail_src
  | None => regex
  end.
Definition var_source (i : vinfo) : str :=
  $"(?P<" ++ vi_name i ++ $">(?:" ++ join $")|(?:" (match vi_res i with [] => [word_src] | l => l end) ++ $"))".
(** form_regex: ttp.py 2157-2336 *)
Definition form_regex (i : vinfo) (v line regex : str) : str :=
  let r0 := match regex with [] => base_regex line | _ => regex end in
  let r1 := if str_eqb (vi_name i) $"ignore" then
              replace_one (brace v) (match vi_ignore i with None => word_src | Some p => $"(?:" ++ p ++ $")" end) r0
            else if in_strs (vi_name i) [$"_start_"; $"_end_"] then delete_var v r0 else r0 in
  let r2 := if vi_set i then delete_var v r1 else r1 in
  if str_eqb (vi_name i) $"ignore" then r2 else replace_one (brace v) (var_source i) r2.
(** the regex of a line: ttp.py 1819-1841 *)
Definition line_regex (info : str -> vinfo) (line : str) : str :=
  fold_left (fun r v => form_regex (info v) v line r) (vars_in line) [].

(** ** patterns: ttp/patterns/get_pattern.py 1-18 *)
Definition patterns : list (str * str) :=
  [($"PHRASE", $"(\S+ {1})+?\S+"); ($"ROW", $"(\S+ +)+?\S+"); ($"ORPHRASE", $"\S+|(\S+ {1})+?\S+"); ($"DIGIT", $"\d+");
   ($"IP", $"(?:[0-9]{1,3}\.){3}[0-9]{1,3}"); ($"PREFIX", $"(?:[0-9]{1,3}\.){3}[0-9]{1,3}/[0-9]{1,2}");
   ($"IPV6", $"(?:[a-fA-F0-9]{1,4}:|:){1,7}(?:[a-fA-F0-9]{1,4}|:?)");
   ($"PREFIXV6", $"(?:[a-fA-F0-9]{1,4}:|:){1,7}(?:[a-fA-F0-9]{1,4}|:?)/[0-9]{1,3}");
   ($"_line_", $".+"); ($"WORD", $"\S+");
   ($"MAC", $"(?:[0-9a-fA-F]{2}(:|\.|\-)){5}([0-9a-fA-F]{2})|(?:[0-9a-fA-F]{4}(:|\.|\-)){2}([0-9a-fA-F]{4})")].

(** ** Reading a regular expression: [re.compile] (CPython Lib/sre_parse.py) for
    literals, escapes, classes, groups (unnamed ones do not capture here, ttp only
    uses [groupdict]), lookahead, alternatives and repetition.  One character at a
    time; [None]: a syntax error or a construct outside this fragment. *)
Inductive okind := ONon | OGroup (name : str) | OAhead (neg : bool).
Inductive mode :=
| MNormal | MEsc | MOpen | MOpenQ | MOpenP | MName (acc : str)
| MClass0 | MClass (neg : bool) (items : list citem) | MClassEsc (neg : bool) (items : list citem)
| MClassDash (neg : bool) (a : ascii) (items : list citem)
| MBrace (lo : str) | MBrace2 (lo hi : str).
(** what a quantifier would apply to *)
Inductive quant := QNone | QAtom | QRep (r : re) (lo : nat) (hi : option nat).
Record pst := {
  p_mode : mode; p_q : quant;
  p_branch : list re;                              (* pieces of the current alternative, last first *)
  p_alts : list re;                                (* finished alternatives, last first *)
  p_stack : list (okind * list re * list re);
  p_names : list str }.

Definition seq_of (branch : list re) : re := fold_left (fun acc p => RSeq p acc) branch REps.
Definition alt_of (alts : list re) (last : re) : re := fold_left (fun acc p => RAlt p acc) alts last.
Fixpoint copies (n : nat) (r tail : re) : re := match n with 0 => tail | S n => RSeq r (copies n r tail) end.
Fixpoint opts (greedy : bool) (n : nat) (r : re) : re :=
  match n with
  | 0 => REps
  | S n => if greedy then RAlt (RSeq r (opts greedy n r)) REps else RAlt REps (RSeq r (opts greedy n r))
  end.
Definition mk_rep (greedy : bool) (r : re) (lo : nat) (hi : option nat) : re :=
  copies lo r (match hi with None => RStar greedy r | Some h => opts greedy (h - lo) r end).

Definition with_mode (s : pst) (m : mode) : pst :=
  {| p_mode := m; p_q := p_q s; p_branch := p_branch s; p_alts := p_alts s; p_stack := p_stack s; p_names := p_names s |}.
Definition push (s : pst) (r : re) : pst :=
  {| p_mode := MNormal; p_q := QAtom; p_branch := r :: p_branch s; p_alts := p_alts s; p_stack := p_stack s; p_names := p_names s |}.
Definition quantify (s : pst) (lo : nat) (hi : option nat) : option pst :=
  match p_q s, p_branch s with
  | QAtom, r :: b =>
      Some {| p_mode := MNormal; p_q := QRep r lo hi; p_branch := mk_rep true r lo hi :: b;
              p_alts := p_alts s; p_stack := p_stack s; p_names := p_names s |}
  | _, _ => None
  end.
Definition open (s : pst) (k : okind) : pst :=
  {| p_mode := MNormal; p_q := QNone; p_branch := []; p_alts := [];
     p_stack := (k, p_branch s, p_alts s) :: p_stack s; p_names := p_names s |}.
Definition wrap (k : okind) (r : re) : re :=
  match k with ONon => r | OGroup n => RGroup n r | OAhead neg => RAhead neg r end.
Definition esc_items : list (ascii * citem) :=
  [("d", CDigitC); ("D", CNDigitC); ("s", CSpaceC); ("S", CNSpaceC); ("w", CWordC); ("W", CNWordC);
   ("n", CChar nl); ("t", CChar tab); ("r", CChar (chr 13)); ("f", CChar (chr 12)); ("v", CChar (chr 11)); ("a", CChar (chr 7))]%char.
Fixpoint assoc_c {A} (c : ascii) (l : list (ascii * A)) : option A :=
  match l with [] => None | (d, a) :: t => if Ascii.eqb c d then Some a else assoc_c c t end.
Definition esc_item (c : ascii) : option citem :=
  match assoc_c c esc_items with
  | Some i => Some i
  | None => if (is_ascii_letter c || is_dec c)%bool then None else Some (CChar c)
  end.
Definition nat_of_digits (s : str) : nat := N.to_nat (digits_val s 0).

Inductive special_kind := KEsc | KOpen | KClose | KBar | KClass | KAny | KStar | KPlus | KOpt | KBrace | KNo | KEnd | KLit.
Definition kind_of (c : ascii) : special_kind :=
  match assoc_c c [("\", KEsc); ("(", KOpen); (")", KClose); ("|", KBar); ("[", KClass); (".", KAny); ("*", KStar);
                   ("+", KPlus); ("?", KOpt); ("{", KBrace); ("^", KNo); ("$", KEnd)]%char with
  | Some k => k
  | None => KLit
  end.
(** [$]: the end of the text or before a newline that ends it; nothing to repeat *)
Definition dollar_re : re := RAhead false (RSeq (ropt (rchar nl)) (RAhead true (RSet true []))).
Definition push_at (s : pst) (r : re) : pst :=
  {| p_mode := MNormal; p_q := QNone; p_branch := r :: p_branch s; p_alts := p_alts s; p_stack := p_stack s; p_names := p_names s |}.
Definition step_normal (s : pst) (c : ascii) : option pst :=
  match kind_of c with
  | KEsc => Some (with_mode s MEsc)
  | KOpen => Some (with_mode s MOpen)
  | KClose =>
      match p_stack s with
      | [] => None
      | (k, b, a) :: st =>
          Some {| p_mode := MNormal; p_q := QAtom; p_branch := wrap k (alt_of (p_alts s) (seq_of (p_branch s))) :: b;
                  p_alts := a; p_stack := st; p_names := p_names s |}
      end
  | KBar => Some {| p_mode := MNormal; p_q := QNone; p_branch := []; p_alts := seq_of (p_branch s) :: p_alts s;
                    p_stack := p_stack s; p_names := p_names s |}
  | KClass => Some (with_mode s MClass0)
  | KAny => Some (push s RAny)
  | KStar => quantify s 0 None
  | KPlus => quantify s 1 None
  | KOpt =>
      match p_q s, p_branch s with
      | QRep r lo hi, _ :: b =>
          Some {| p_mode := MNormal; p_q := QNone; p_branch := mk_rep false r lo hi :: b;
                  p_alts := p_alts s; p_stack := p_stack s; p_names := p_names s |}
      | _, _ => quantify s 0 (Some 1)
      end
  | KBrace => Some (with_mode s (MBrace []))
  | KNo => None
  | KEnd => Some (push_at s dollar_re)
  | KLit => Some (push s (rchar c))
  end.
Definition is_ch (c d : ascii) : bool := Ascii.eqb c d.
Definition step_class (s : pst) (neg : bool) (items : list citem) (c : ascii) : option pst :=
  if is_ch c "]" then match items with [] => None | _ => Some (push s (RSet neg (rev items))) end
  else if is_ch c "\" then Some (with_mode s (MClassEsc neg items))
  else if is_ch c "-" then
    match items with
    | CChar a :: rest => Some (with_mode s (MClassDash neg a rest))
    | _ => Some (with_mode s (MClass neg (CChar c :: items)))
    end
  else if is_ch c "[" then None
  else Some (with_mode s (MClass neg (CChar c :: items))).
Definition pstep (s : pst) (c : ascii) : option pst :=
  match p_mode s with
  | MNormal => step_normal s c
  | MEsc => match esc_item c with Some i => Some (push s (RSet false [i])) | None => None end
  | MOpen => if is_ch c "?" then Some (with_mode s MOpenQ) else step_normal (open (with_mode s MNormal) ONon) c
  | MOpenQ =>
      if is_ch c "P" then Some (with_mode s MOpenP)
      else if is_ch c ":" then Some (open s ONon)
      else if is_ch c "=" then Some (open s (OAhead false))
      else if is_ch c "!" then Some (open s (OAhead true))
      else None
  | MOpenP => if is_ch c "<" then Some (with_mode s (MName [])) else None
  | MName acc =>
      if is_ch c ">" then
        match acc with
        | [] => None
        | _ => if in_strs (rev acc) (p_names s) then None     (* redefinition of group name *)
               else let s' := open s (OGroup (rev acc)) in
                    Some {| p_mode := MNormal; p_q := p_q s'; p_branch := p_branch s'; p_alts := p_alts s';
                            p_stack := p_stack s'; p_names := rev acc :: p_names s |}
        end
      else if is_word c then Some (with_mode s (MName (c :: acc))) else None
  | MClass0 => if is_ch c "^" then Some (with_mode s (MClass true []))
               else if is_ch c "]" then None else step_class s false [] c
  | MClass neg items => step_class s neg items c
  | MClassEsc neg items => match esc_item c with Some i => Some (with_mode s (MClass neg (i :: items))) | None => None end
  | MClassDash neg a items =>
      if is_ch c "]" then Some (push s (RSet neg (rev (CChar "-"%char :: CChar a :: items))))
      else if (is_ch c "\" || is_ch c "[" || N.ltb (code c) (code a))%bool then None     (* bad character range *)
      else Some (with_mode s (MClass neg (CRange a c :: items)))
  | MBrace lo =>
      if is_dec c then Some (with_mode s (MBrace (lo ++ [c])))
      else match lo with
           | [] => None
           | _ => if is_ch c "," then Some (with_mode s (MBrace2 lo []))
                  else if is_ch c "}" then quantify s (nat_of_digits lo) (Some (nat_of_digits lo)) else None
           end
  | MBrace2 lo hi =>
      if is_dec c then Some (with_mode s (MBrace2 lo (hi ++ [c])))
      else if is_ch c "}" then quantify s (nat_of_digits lo) (match hi with [] => None | _ => Some (nat_of_digits hi) end)
      else None
  end.
Fixpoint prun (t : str) (s : pst) : option pst :=
  match t with [] => Some s | c :: t => match pstep s c with Some s' => prun t s' | None => None end end.
Definition pst0 : pst := {| p_mode := MNormal; p_q := QNone; p_branch := []; p_alts := []; p_stack := []; p_names := [] |}.
Definition re_compile (t : str) : option re :=
  match prun t pst0 with
  | Some s => match p_mode s, p_stack s with
              | MNormal, [] => Some (alt_of (p_alts s) (seq_of (p_branch s)))
              | _, _ => None
              end
  | None => None
  end.

(** the group names of a regular expression: [re.compile(t).groupindex] *)
Definition re_groups (t : str) : list str := match prun t pst0 with Some s => p_names s | None => [] end.

(** tests of the reader on the built-in patterns *)
Example patterns_compile : forallb (fun p => match re_compile (snd p) with Some _ => true | None => false end) patterns = true.
Proof. vm_compute. reflexivity. Qed.
Definition fullmatch (p s : str) : bool :=
  match re_compile p with Some r => match rmatch r s with Some ([], _) => true | _ => false end | None => false end.
Example patterns_ip : map (fullmatch $"(?:[0-9]{1,3}\.){3}[0-9]{1,3}") [$"10.1.2.255"; $"10.1.2"; $"1234.1.1.1"] = [true; false; false].
Proof. vm_compute. reflexivity. Qed.
Example form_example : line_regex (fun v => {| vi_name := strip v; vi_ignore := None; vi_set := false; vi_res := [] |}) $" ip address {{ ip }} 10.{{ x }}" =
  $"\n ip[ \t]+address[ \t]+(?P<ip>(?:\S+))[ \t]+\d+\.(?P<x>(?:\S+))[\t ]*(?=\n|\r\n)".
Proof. vm_compute. reflexivity. Qed.
