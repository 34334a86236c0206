(** * SpecPath: dynamic path items, independently of regular expressions.

    A path item is either static text or [pre{{ ws name ws }}post]; the name is
    looked up in the record, then among the values remembered from earlier
    records, then in the template variables. *)
From Verif Require Import PyBase.

Inductive pspec :=
| PStatic (text : str) (stars : nat)
| PDyn (pre ws1 name ws2 post : str) (stars : nat).

(** how the item is written in a group name *)
Definition render (p : pspec) : str :=
  match p with
  | PStatic s n => s ++ repeat "*"%char n
  | PDyn pre ws1 m ws2 post n => (pre ++ $"{{" ++ ws1 ++ m ++ ws2 ++ $"}}" ++ post) ++ repeat "*"%char n
  end.

Definition braceless (s : str) : bool :=
  forallb (fun c => negb (Ascii.eqb c "{" || Ascii.eqb c "}")%bool) s.
Definition all_space (s : str) : bool := forallb is_space s.
Definition no_space (s : str) : bool := forallb (fun c => negb (is_space c)) s.
Definition no_final_star (s : str) : Prop := forall t, s <> t ++ ["*"%char].
Definition no_backslash (s : str) : bool := forallb (fun c => negb (Ascii.eqb c "\")) s.

Definition pspec_ok (p : pspec) : Prop :=
  match p with
  | PStatic s _ => containsb $"{{" s = false /\ no_final_star s
  | PDyn pre ws1 m ws2 post _ =>
      braceless pre = true /\ all_space ws1 = true /\ all_space ws2 = true /\ braceless post = true /\
      braceless m = true /\ no_space m = true /\ m <> [] /\ no_final_star post
  end.

(** the value a dynamic item is replaced with; [LDiscard]: nobody knows it *)
Inductive looked := LOwn (v : val) | LSeen (v : val) | LVar (v : val) | LDiscard.
Definition look (record seen vars : dict) (m : str) : looked :=
  match dget record (KS m) with
  | Some v => LOwn v
  | None => match dget seen (KS m) with
            | Some v => LSeen v
            | None => match dget vars (KS m) with Some v => LVar v | None => LDiscard end
            end
  end.

(** resolve a whole path: the keys, the record without the values used as keys,
    and the values remembered for later records *)
Fixpoint resolve (vars : dict) (ps : list pspec) (record seen : dict)
  : res (option (list (str * nat)) * dict * dict) :=
  match ps with
  | [] => Ok (Some [], record, seen)
  | PStatic s n :: ps' =>
      do (rest, r, c) <- resolve vars ps' record seen;
      Ok (option_map (cons (s, n)) rest, r, c)
  | PDyn pre _ m _ post n :: ps' =>
      match look record seen vars m with
      | LOwn v =>
          do (rest, r, c) <- resolve vars ps' (ddel record (KS m)) (dset seen (KS m) v);
          Ok (option_map (cons (pre ++ py_str v ++ post, n)) rest, r, c)
      | LSeen (VStr s) =>
          do (rest, r, c) <- resolve vars ps' record seen;
          Ok (option_map (cons (pre ++ s ++ post, n)) rest, r, c)
      | LSeen _ => Raise TypeError
      | LVar v =>
          do (rest, r, c) <- resolve vars ps' record seen;
          Ok (option_map (cons (pre ++ py_str v ++ post, n)) rest, r, c)
      | LDiscard => Ok (None, record, seen)
      end
  end.

(** the texts that could be substituted contain no backslash *)
Definition clean_dict (d : dict) : Prop := Forall (fun kv => no_backslash (py_str (snd kv)) = true) d.

(** ** Values with backslashes.
    The value is used as the replacement text of [re.sub]: [writes whole v k] - replacement text [v]
    writes [k]; [whole] is the text being replaced, which [\g<0>] stands for.  A value that no rule
    covers (e.g. ["a\d"], ["a\1"], ["a\"]) is not a replacement text. *)
Definition bs : ascii := "\"%char.
Definition octal_digit (c : ascii) : bool := existsb (Ascii.eqb c) $"01234567".
Definition digit_char (c : ascii) : bool := existsb (Ascii.eqb c) $"0123456789".
Definition letter_char (c : ascii) : bool := existsb (Ascii.eqb c) $"abcdefghijklmnopqrstuvwxyzABCDEFGHIJKLMNOPQRSTUVWXYZ".
Definition starts_octal (v : str) : bool := match v with [] => false | c :: _ => octal_digit c end.
Definition oval (c : ascii) : N := (N_of_ascii c - 48)%N.
Definition named_escapes : list (ascii * N) :=
  [("n"%char, 10%N); ("t"%char, 9%N); ("r"%char, 13%N); ("a"%char, 7%N); ("b"%char, 8%N); ("f"%char, 12%N); ("v"%char, 11%N)].

Inductive writes (whole : str) : str -> str -> Prop :=
| wr_nil : writes whole [] []
| wr_char c v k : c <> bs -> writes whole v k -> writes whole (c :: v) (c :: k)
| wr_backslash v k : writes whole v k -> writes whole (bs :: bs :: v) (bs :: k)
| wr_named e n v k : In (e, n) named_escapes -> writes whole v k -> writes whole (bs :: e :: v) (chr n :: k)
| wr_whole v k : writes whole v k -> writes whole ($"\g<0>" ++ v) (whole ++ k)
| wr_0 v k : starts_octal v = false -> writes whole v k -> writes whole ($"\0" ++ v) (chr 0 :: k)
| wr_0d d v k : octal_digit d = true -> starts_octal v = false -> writes whole v k -> writes whole ($"\0" ++ d :: v) (chr (oval d) :: k)
| wr_0dd d d' v k : octal_digit d = true -> octal_digit d' = true -> writes whole v k ->
    writes whole ($"\0" ++ d :: d' :: v) (chr (oval d * 8 + oval d') :: k)
| wr_ddd d d' d'' v k : d <> "0"%char -> octal_digit d = true -> octal_digit d' = true -> octal_digit d'' = true ->
    (oval d * 64 + oval d' * 8 + oval d'' <= 255)%N -> writes whole v k ->
    writes whole (bs :: d :: d' :: d'' :: v) (chr (oval d * 64 + oval d' * 8 + oval d'') :: k)
| wr_other e v k : e <> bs -> digit_char e = false -> letter_char e = false -> writes whole v k ->
    writes whole (bs :: e :: v) (bs :: e :: k).

(** the key text for a value of the record itself: as written, verbatim if it is no replacement text *)
Definition own_key (whole v k : str) : Prop := writes whole v k \/ (forall k', ~ writes whole v k') /\ k = v.
(** the placeholder of one item, and an item that does not contain the marker the code uses itself *)
Definition placeholder (ws1 m ws2 : str) : str := $"{{" ++ ws1 ++ m ++ ws2 ++ $"}}".
Definition no_marker (pre post : str) : Prop := split $"__replace_me__" (pre ++ $"__replace_me__" ++ post) = [pre; post].
