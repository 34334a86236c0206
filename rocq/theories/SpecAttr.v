(** * SpecAttr: what the text of a list of functions means (specification for C120).

    The texts that a template writes between curly brackets or in attributes,
    [name | contains("a", 1) | set(x=[1, 2])], given by a grammar: which words a text
    is made of ([spells]), which value a run of words is ([denotes]), which arguments a
    call supplies ([supplies]).  Nothing here runs: these are rules, read them as the
    rules of the Python reference manual for literals.  Only the types of the words
    ([token]) and of the answer ([attribute]) are taken from the model. *)
From Verif Require Import PyBase Attributes.
Local Open Scope string_scope.
Local Open Scope list_scope.

(** ** words *)
Definition backslash : ascii := chr 92.
Definition blank (c : ascii) : Prop := c = chr 32 \/ c = chr 9 \/ c = chr 12.
Definition a_letter (c : ascii) : Prop := (65 <= code c <= 90)%N \/ (97 <= code c <= 122)%N \/ code c = 95%N.
Definition a_digit (c : ascii) : Prop := (48 <= code c <= 57)%N.
Definition octal_digit (c : ascii) : Prop := (48 <= code c <= 55)%N.
Definition a_quote (c : ascii) : Prop := c = chr 34 \/ c = chr 39.
Definition operator (c : ascii) : Prop := In c (list_ascii_of_string ",=:[]{}()-").
(** the text does not begin with such a character *)
Definition not_next (p : ascii -> Prop) (s : str) : Prop := forall c t, s = c :: t -> ~ p c.

(** backslash and a letter *)
Definition escapes : list (ascii * ascii) :=
  [("n"%char, chr 10); ("t"%char, chr 9); ("r"%char, chr 13); ("a"%char, chr 7); ("b"%char, chr 8); ("f"%char, chr 12); ("v"%char, chr 11);
   (chr 92, chr 92); (chr 39, chr 39); (chr 34, chr 34)].
(** the value of digits to some base *)
Definition number (base : N) (ds : list N) : N := fold_left (fun n d => n * base + d)%N ds 0%N.
Definition digits (ds : str) : list N := map (fun c => code c - 48)%N ds.
Inductive hex_digit : ascii -> N -> Prop :=
| hex_dec c : a_digit c -> hex_digit c (code c - 48)
| hex_low c : (97 <= code c <= 102)%N -> hex_digit c (code c - 97 + 10)
| hex_up c : (65 <= code c <= 70)%N -> hex_digit c (code c - 65 + 10).

(** what stands between the quotes [q] and the text it stands for *)
Inductive text_of (raw : bool) (q : ascii) : str -> str -> Prop :=
| to_end : text_of raw q [] []
| to_char c b v : c <> q -> c <> chr 10 -> c <> backslash -> text_of raw q b v -> text_of raw q (c :: b) (c :: v)
| to_raw e b v : raw = true -> text_of raw q b v -> text_of raw q (backslash :: e :: b) (backslash :: e :: v)
| to_escape e x b v : raw = false -> In (e, x) escapes -> text_of raw q b v -> text_of raw q (backslash :: e :: b) (x :: v)
| to_octal ds b v : raw = false -> 1 <= length ds <= 3 -> Forall octal_digit ds -> (length ds < 3 -> not_next octal_digit b) ->
    (number 8 (digits ds) <= 255)%N -> text_of raw q b v -> text_of raw q (backslash :: ds ++ b) (chr (number 8 (digits ds)) :: v)
| to_hex h1 h2 n1 n2 b v : raw = false -> hex_digit h1 n1 -> hex_digit h2 n2 -> text_of raw q b v ->
    text_of raw q (backslash :: "x"%char :: h1 :: h2 :: b) (chr (number 16 [n1; n2]) :: v)
| to_other e b v : raw = false -> ~ In e (map fst escapes) -> ~ octal_digit e -> ~ In e (list_ascii_of_string "xNuU") -> e <> chr 10 ->
    text_of raw q b v -> text_of raw q (backslash :: e :: b) (backslash :: e :: v).

(** the words of a text.  A text in triple quotes, a number with a point or followed by a letter
    and a prefix other than r and u are not words *)
Inductive spells : str -> list token -> Prop :=
| sp_end : spells [] []
| sp_blank c s ts : blank c -> spells s ts -> spells (c :: s) ts
| sp_op c s ts : operator c -> spells s ts -> spells (c :: s) (TOp c :: ts)
| sp_name c n s ts : a_letter c -> Forall (fun x => a_letter x \/ a_digit x) n -> not_next (fun x => a_letter x \/ a_digit x \/ a_quote x) s ->
    spells s ts -> spells (c :: n ++ s) (TName (c :: n) :: ts)
| sp_int ds s ts : ds <> [] -> Forall a_digit ds -> (hd_error ds = Some "0"%char -> Forall (eq "0"%char) ds) ->
    not_next (fun x => a_letter x \/ a_digit x \/ x = "."%char) s -> spells s ts -> spells (ds ++ s) (TInt (Z.of_N (number 10 (digits ds))) :: ts)
| sp_text p raw q b v s ts : (p, raw) = ([], false) \/ In (p, raw) [(["r"%char], true); (["R"%char], true); (["u"%char], false); (["U"%char], false)] ->
    a_quote q -> text_of raw q b v -> (b = [] -> not_next (eq q) s) -> spells s ts -> spells (p ++ q :: b ++ q :: s) (TStr v :: ts).

(** ** values *)
(** names that Python does not take as names *)
Definition reserved : list string :=
  ["and"; "as"; "assert"; "async"; "await"; "break"; "class"; "continue"; "def"; "del"; "elif"; "else"; "except"; "finally";
   "for"; "from"; "global"; "if"; "import"; "in"; "is"; "lambda"; "nonlocal"; "not"; "or"; "pass"; "raise"; "return"; "try";
   "while"; "with"; "yield"].
(** names that stand for an object of the reading module *)
Definition objects : list string :=
  ["re"; "sys"; "traceback"; "logging"; "log"; "_UndefSubst"; "_get_args_kwargs"; "get_attributes"; "_ttp_";
   "__name__"; "__doc__"; "__package__"; "__loader__"; "__spec__"; "__file__"; "__cached__"; "__builtins__"].
Definition word_in (n : str) (l : list string) : Prop := In n (map list_ascii_of_string l).
Inductive name_means (n : str) : val -> Prop :=
| nm_object i : nth_error (map list_ascii_of_string objects) i = Some n -> name_means n (VObj i)
| nm_false : lower n = list_ascii_of_string "false" -> name_means n (VBool false)
| nm_true : lower n = list_ascii_of_string "true" -> name_means n (VBool true)
| nm_none : lower n = list_ascii_of_string "none" -> name_means n VNone
| nm_text : ~ word_in n objects -> ~ word_in n reserved -> ~ word_in (lower n) ["false"; "true"; "none"] -> name_means n (VStr n).
(** the values that can be keys here *)
Inductive is_key : val -> key -> Prop := ik_str s : is_key (VStr s) (KS s) | ik_int z : is_key (VInt z) (KI z) | ik_none : is_key VNone KNone.
(** later entries replace earlier ones *)
Definition dict_of (l : list (key * val)) : dict := fold_left (fun d e => dset d (fst e) (snd e)) l [].

Inductive denotes : list token -> val -> Prop :=
| de_name n v : name_means n v -> denotes [TName n] v
| de_int z : denotes [TInt z] (VInt z)
| de_minus z : denotes [TOp "-"%char; TInt z] (VInt (- z))
| de_text ss : ss <> [] -> denotes (map TStr ss) (VStr (concat ss))
| de_paren ts v : denotes ts v -> denotes (TOp "("%char :: ts ++ [TOp ")"%char]) v
| de_list ts vs : listed ts vs -> denotes (TOp "["%char :: ts ++ [TOp "]"%char]) (VList vs)
| de_dict ts es : paired ts es -> denotes (TOp "{"%char :: ts ++ [TOp "}"%char]) (VDict (dict_of es))
with listed : list token -> list val -> Prop :=
| li_end : listed [] []
| li_one ts v : denotes ts v -> listed ts [v]
| li_more ts v ts' vs : denotes ts v -> listed ts' vs -> listed (ts ++ TOp ","%char :: ts') (v :: vs)
with paired : list token -> list (key * val) -> Prop :=
| pa_end : paired [] []
| pa_one tk k k' tv v : denotes tk k -> is_key k k' -> denotes tv v -> paired (tk ++ TOp ":"%char :: tv) [(k', v)]
| pa_more tk k k' tv v ts es : denotes tk k -> is_key k k' -> denotes tv v -> paired ts es ->
    paired (tk ++ TOp ":"%char :: tv ++ TOp ","%char :: ts) ((k', v) :: es).

(** the arguments of a call: first the positional, then the named ones *)
Inductive supplies : list token -> list val -> list (str * val) -> Prop :=
| su_end : supplies [] [] []
| su_one ts v : denotes ts v -> supplies ts [v] []
| su_more ts v ts' vs ks : denotes ts v -> supplies ts' vs ks -> supplies (ts ++ TOp ","%char :: ts') (v :: vs) ks
| su_named n ts v : denotes ts v -> supplies (TName n :: TOp "="%char :: ts) [] [(n, v)]
| su_named_more n ts v ts' ks : denotes ts v -> supplies ts' [] ks -> supplies (TName n :: TOp "="%char :: ts ++ TOp ","%char :: ts') [] ((n, v) :: ks).
Definition argument_names (ks : list (str * val)) : Prop :=
  NoDup (map fst ks) /\ Forall (fun n => ~ word_in n reserved /\ ~ word_in n ["True"; "False"; "None"]) (map fst ks).
Definition by_name (ks : list (str * val)) : dict := map (fun e => (KS (fst e), snd e)) ks.
(** the text between the brackets of a call gives these arguments *)
Definition gives (o : str) (args : list val) (kwargs : dict) : Prop :=
  exists ts ks, spells o ts /\ supplies ts args ks /\ argument_names ks /\ kwargs = by_name ks.

(** ** items *)
(** a bracketed text at the end of an item, with at most one space before it *)
Definition brackets (t o : str) : Prop :=
  ~ In (chr 10) o /\ exists sp, (sp = [] \/ exists c, sp = [c] /\ is_space c = true) /\ t = sp ++ "("%char :: o ++ [")"%char].
Definition no_space (n : str) : Prop := Forall (fun c => is_space c = false) n.
(** the item is a name and the brackets after it; the name is as short as can be *)
Definition a_call (i n o : str) : Prop :=
  n <> [] /\ no_space n /\ (exists t, i = n ++ t /\ brackets t o) /\
  forall n' t' o', i = n' ++ t' -> n' <> [] -> brackets t' o' -> length n <= length n'.
Definition not_a_call (i : str) : Prop := forall n t o, i = n ++ t -> n <> [] -> no_space n -> ~ brackets t o.
Inductive item_means (i : str) : attribute -> Prop :=
| im_word : not_a_call i -> i <> [] -> no_space i -> item_means i {| at_name := i; at_args := []; at_kwargs := [] |}
| im_empty n : a_call i n [] -> item_means i {| at_name := n; at_args := []; at_kwargs := [] |}
| im_call n o args kwargs : a_call i n o -> o <> [] -> gives o args kwargs -> item_means i {| at_name := n; at_args := args; at_kwargs := kwargs |}.
(** the items of a line: what stands between bars, without the spaces around it; nothing is no item *)
Definition items_of (line : str) : list str := filter (fun i => negb (str_eqb i [])) (map strip (split ["|"%char] line)).

(** ** writing calls *)
(** the values that have a literal *)
Inductive literal : val -> Prop :=
| lt_none : literal VNone
| lt_bool b : literal (VBool b)
| lt_int z : literal (VInt z)
| lt_str s : literal (VStr s)
| lt_list l : Forall literal l -> literal (VList l)
| lt_dict d : NoDup (map fst d) -> Forall (fun e => literal (snd e)) d -> literal (VDict d).
(** a call as one would write it, with the values as Python prints them *)
Definition written (n : str) (args : list val) (ks : list (str * val)) : str :=
  n ++ list_ascii_of_string "(" ++
  join (list_ascii_of_string ", ") (map py_repr args ++ map (fun e => fst e ++ list_ascii_of_string "=" ++ py_repr (snd e)) ks) ++
  list_ascii_of_string ")".
Definition identifier (n : str) : Prop := exists c t, n = c :: t /\ a_letter c /\ Forall (fun x => a_letter x \/ a_digit x) t.
Definition call_name (n : str) : Prop := n <> [] /\ Forall (fun c => is_space c = false /\ c <> "("%char /\ c <> "|"%char) n.
(** calls with spaces before and after them *)
Definition spaces (s : str) : Prop := Forall (fun c => is_space c = true) s.
Definition padded_call : Type := str * (str * list val * list (str * val)) * str.
Definition padded (c : padded_call) : str := let '(p, (n, args, ks), q) := c in p ++ written n args ks ++ q.
Definition call_ok (c : padded_call) : Prop := let '(p, (n, args, ks), q) := c in
  spaces p /\ spaces q /\ call_name n /\ Forall literal args /\ Forall (fun e => identifier (fst e) /\ literal (snd e)) ks /\ argument_names ks /\
  ~ In "|"%char (written n args ks).
Definition call_of (c : padded_call) : attribute := let '(p, (n, args, ks), q) := c in {| at_name := n; at_args := args; at_kwargs := by_name ks |}.
