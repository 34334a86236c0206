(** * Xml: the XML reader and writer that templates go through.
    A model of the host library (xml.etree.ElementTree over expat), not of ttp: ET.XML and ET.tostring as
    construct_etree and handle_extend (ttp/ttp.py 1319-1402) use them.

    An absent text or tail (Python's None) is the empty string: ElementTree never gives "".
    Simplifications: processing instructions, document types, names with a colon, character references above
    U+00FF and entities other than the five predefined ones are treated like syntax errors. *)
From Verif Require Import PyBase Regex Template Attributes.
Local Open Scope string_scope.
Local Open Scope list_scope.

Definition xml_name_start (c : ascii) : bool :=
  (is_ascii_letter c || Ascii.eqb c "_" || between 192 214 c || between 216 246 c || between 248 255 c)%bool.
Definition xml_name_char (c : ascii) : bool :=
  (xml_name_start c || is_dec c || Ascii.eqb c "-" || Ascii.eqb c "." || N.eqb (code c) 183)%bool.
(** a character of XML 1.0 *)
Definition xml_char (c : ascii) : bool := (N.leb 32 (code c) || in_strs [c] [[tab]; [nl]; [chr 13]])%bool.
Definition xml_space (c : ascii) : bool := in_strs [c] [[space]; [tab]; [nl]; [chr 13]].
(** line ends are read as one line feed *)
Fixpoint newlines (s : str) : str :=
  match s with
  | [] => []
  | c :: t => if Ascii.eqb c (chr 13)
              then match t with
                   | d :: t' => if Ascii.eqb d nl then nl :: newlines t' else nl :: newlines t
                   | [] => [nl]
                   end
              else c :: newlines t
  end.
Definition xml_name (s : str) : option (str * str) :=
  match s with
  | c :: _ => if xml_name_start c then Some (span_of xml_name_char s) else None
  | [] => None
  end.
Definition skip_space (s : str) : str := snd (span_of xml_space s).
(** the rest after a prefix *)
Fixpoint after (p s : str) : option str :=
  match p, s with
  | [], _ => Some s
  | a :: p', b :: s' => if Ascii.eqb a b then after p' s' else None
  | _ :: _, [] => None
  end.
(** a reference, after the ampersand *)
Definition hex_val (s : str) : option N :=
  fold_left (fun a c => match a, hexval c with Some n, Some d => Some (n * 16 + d)%N | _, _ => None end) s (Some 0%N).
Definition char_ref (n : N) : option ascii :=
  if (N.leb n 255 && xml_char (chr n))%bool then Some (chr n) else None.
Definition reference (s : str) : option (ascii * str) :=
  let '(body, rest) := span_of (fun c => negb (Ascii.eqb c ";")) s in
  match rest with
  | [] => None
  | _ :: r =>
      let c := if str_eqb body $"lt" then Some "<"%char else if str_eqb body $"gt" then Some ">"%char
               else if str_eqb body $"amp" then Some "&"%char else if str_eqb body $"quot" then Some """"%char
               else if str_eqb body $"apos" then Some "'"%char
               else match after $"#x" body with
                    | Some h => match h, hex_val h with _ :: _, Some n => char_ref n | _, _ => None end
                    | None => match after $"#" body with
                              | Some d => match d with
                                          | _ :: _ => if forallb is_dec d then char_ref (digits_val d 0) else None
                                          | [] => None
                                          end
                              | None => None
                              end
                    end in
      match c with Some x => Some (x, r) | None => None end
  end.
(** an attribute value, after its opening quote: line breaks and tabs become blanks *)
Fixpoint attr_value (fuel : nat) (q : ascii) (s : str) : option (str * str) :=
  match fuel with
  | O => None
  | S f =>
    match s with
    | [] => None
    | c :: t =>
        if Ascii.eqb c q then Some ([], t)
        else if Ascii.eqb c "<" then None
        else if Ascii.eqb c "&" then
          match reference t with
          | Some (x, r) => match attr_value f q r with Some (v, r') => Some (x :: v, r') | None => None end
          | None => None
          end
        else if xml_char c then
          match attr_value f q t with Some (v, r) => Some ((if xml_space c then space else c) :: v, r) | None => None end
        else None
    end
  end.
(** the attributes of a start tag up to its end: the attributes, whether the element is empty, the rest *)
Fixpoint attrs_of (fuel : nat) (s : str) (acc : list (str * str)) : option (list (str * str) * bool * str) :=
  match fuel with
  | O => None
  | S f =>
    let s1 := skip_space s in
    match after $"/>" s1, after $">" s1 with
    | Some r, _ => Some (acc, true, r)
    | None, Some r => Some (acc, false, r)
    | None, None =>
        if Nat.eqb (length s1) (length s) then None     (* no blank before the attribute *)
        else match xml_name s1 with
             | None => None
             | Some (n, r) =>
                 match after $"=" (skip_space r) with
                 | None => None
                 | Some r1 =>
                     match skip_space r1 with
                     | q :: r2 =>
                         if (quote q && negb (in_strs n (map fst acc)))%bool then
                           match attr_value (S (length r2)) q r2 with
                           | Some (v, r3) => attrs_of f r3 (acc ++ [(n, v)])
                           | None => None
                           end
                         else None
                     | [] => None
                     end
                 end
             end
    end
  end.
(** text up to the first occurrence of a delimiter, and the rest after it *)
Definition until (d s : str) : option (str * str) :=
  match find_at d s with Some i => Some (firstn i s, skipn (i + length d) s) | None => None end.
Definition comment_end (s : str) : option str :=
  match until $"--" s with Some (c, r) => if forallb xml_char c then after $">" r else None | None => None end.
(** the content of an element: its text, its children with their tails, and the rest from the end tag *)
Fixpoint content (fuel : nat) (s : str) : option (str * list elem * str) :=
  match fuel with
  | O => None
  | S f =>
    let more (x : str) (r : str) := match content f r with Some (t, cs, r') => Some (x ++ t, cs, r') | None => None end in
    match s with
    | [] => Some ([], [], [])
    | c :: t =>
        if Ascii.eqb c "<" then
          match after $"</" s, after $"<!--" s, after $"<![CDATA[" s with
          | Some _, _, _ => Some ([], [], s)
          | None, Some r, _ => match comment_end r with Some r' => more [] r' | None => None end
          | None, None, Some r =>
              match until $"]]>" r with Some (x, r') => if forallb xml_char x then more x r' else None | None => None end
          | None, None, None =>
              match element f t with
              | Some (n, a, x, cs, r) =>
                  match content f r with
                  | Some (tail, more, r') => Some ([], Elem n a x cs tail :: more, r')
                  | None => None
                  end
              | None => None
              end
          end
        else if Ascii.eqb c "&" then match reference t with Some (x, r) => more [x] r | None => None end
        else if prefixb $"]]>" s then None
        else if xml_char c then more [c] t else None
    end
  end
(** an element, after its opening angle bracket *)
with element (fuel : nat) (s : str) : option (str * list (str * str) * str * list elem * str) :=
  match fuel with
  | O => None
  | S f =>
    match xml_name s with
    | None => None
    | Some (n, r) =>
        match attrs_of (S (length r)) r [] with
        | None => None
        | Some (a, true, r1) => Some (n, a, [], [], r1)
        | Some (a, false, r1) =>
            match content f r1 with
            | Some (x, cs, r2) =>
                match after ($"</" ++ n) r2 with
                | Some r3 => match after $">" (skip_space r3) with Some r4 => Some (n, a, x, cs, r4) | None => None end
                | None => None
                end
            | None => None
            end
        end
    end
  end.
(** blanks and comments around the root element *)
Fixpoint misc (fuel : nat) (s : str) : option str :=
  match fuel with
  | O => None
  | S f => let s1 := skip_space s in
           match after $"<!--" s1 with
           | Some r => match comment_end r with Some r' => misc f r' | None => None end
           | None => Some s1
           end
  end.
(** [ET.XML(text)]; [None] is ET.ParseError *)
Definition xml_parse (text : str) : option elem :=
  let s := newlines text in
  match misc (S (length s)) s with
  | Some (c :: r) =>
      if Ascii.eqb c "<" then
        match element (2 + 2 * length s) r with
        | Some (n, a, x, cs, rest) =>
            match misc (S (length rest)) rest with
            | Some [] => Some (Elem n a x cs [])
            | _ => None
            end
        | None => None
        end
      else None
  | _ => None
  end.

(** ** [ET.tostring(element)]: Lib/xml/etree/ElementTree.py _escape_cdata, _escape_attrib, _serialize_xml.
    Characters above U+007F are written as decimal references *)
Definition dec_ref (c : ascii) : str := $"&#" ++ str_of_N (code c) ++ $";".
Definition plain_char (c : ascii) : str :=
  if Ascii.eqb c "&" then $"&amp;" else if Ascii.eqb c "<" then $"&lt;" else if Ascii.eqb c ">" then $"&gt;"
  else [c].
Definition text_char (c : ascii) : str := if N.leb 128 (code c) then dec_ref c else plain_char c.
Section X.
Variable text_char : ascii -> str.
Definition attr_char (c : ascii) : str :=
  if Ascii.eqb c """" then $"&quot;" else if Ascii.eqb c (chr 13) then $"&#13;" else if Ascii.eqb c nl then $"&#10;"
  else if Ascii.eqb c tab then $"&#09;" else text_char c.
Definition attr_text (kv : str * str) : str :=
  $" " ++ fst kv ++ $"=""" ++ flat_map attr_char (snd kv) ++ $"""".
Fixpoint serial (e : elem) : str :=
  match e with
  | Elem n a x cs tail =>
      $"<" ++ n ++ flat_map attr_text a ++
      (match x, cs with
       | [], [] => $" />"
       | _, _ => $">" ++ flat_map text_char x ++ (fix go (l : list elem) : str := match l with [] => [] | c :: t => serial c ++ go t end) cs ++ $"</" ++ n ++ $">"
       end) ++ flat_map text_char tail
  end.
End X.
Definition xml_text (e : elem) : str := serial text_char e.
(** [ET.tostring(element, encoding="UTF-8")], decoded *)
Definition raw_text (e : elem) : str := serial plain_char e.

Example xml1 : xml_parse $"<template a='1'>
<group name=""x.y"" del=""a &amp; b""> t {{ v }} &lt; &#65; <!-- c -->u<in/>tail</group>
</template> " =
  Some (Elem $"template" [($"a", $"1")] [nl]
    [Elem $"group" [($"name", $"x.y"); ($"del", $"a & b")] $" t {{ v }} < A u" [Elem $"in" [] [] [] $"tail"] [nl]] []).
Proof. vm_compute. reflexivity. Qed.
Example xml2 : map xml_parse [$"a {{ b }}"; $"<a></b>"; $"<a/><b/>"; $"<a x='1' x='2'/>"; $"<a>]]></a>"; $"<a>&b;</a>"] = repeat None 6.
Proof. vm_compute. reflexivity. Qed.
