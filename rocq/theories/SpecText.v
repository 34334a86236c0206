(** * SpecText: methods of texts, format strings and wildcards (specification for C125). *)
From Verif Require Import PyBase Regex SpecRegex SpecPath Attributes FuncTable SpecVariable.
Local Open Scope string_scope.
Local Open Scope list_scope.

(** ** letters: the Latin-1 characters *)
Definition small : str := t_ "abcdefghijklmnopqrstuvwxyz".
Definition capital : str := t_ "ABCDEFGHIJKLMNOPQRSTUVWXYZ".
(** a small letter and its capital: a to z, and from U+00E0 to U+00FE but for the division sign *)
Definition letter (s c : ascii) : Prop :=
  (exists n, n < 26 /\ nth_error small n = Some s /\ nth_error capital n = Some c) \/
  (code c + 32 = code s /\ 192 <= code c <= 222 /\ code c <> 215)%N.
Inductive upper_of : ascii -> str -> Prop :=
| up_letter s c : letter s c -> upper_of s [c]
| up_sharp c : code c = 223%N -> upper_of c (t_ "SS")
| up_other c : (forall k, ~ letter c k) -> code c <> 223%N -> upper_of c [c].
Inductive lower_of : ascii -> ascii -> Prop :=
| lo_letter s c : letter s c -> lower_of c s
| lo_other c : (forall k, ~ letter k c) -> lower_of c c.
Definition white (c : ascii) : Prop := In (code c) [9; 10; 11; 12; 13; 28; 29; 30; 31; 32; 133; 160]%N.

(** ** cutting texts *)
(** [r] is [s] without the characters [p] on its left and right side, or on one of them *)
Definition stripped (left right : bool) (p : ascii -> Prop) (s r : str) : Prop :=
  exists a b, s = a ++ r ++ b /\ Forall p a /\ Forall p b /\ (left = false -> a = []) /\ (right = false -> b = []) /\
    (left = true -> forall c t, r = c :: t -> ~ p c) /\ (right = true -> forall t c, r = t ++ [c] -> ~ p c).
Inductive words_in : str -> list str -> Prop :=
| wi_none s : Forall white s -> words_in s []
| wi_word g w s l : Forall white g -> w <> [] -> Forall (fun c => ~ white c) w -> (s = [] \/ exists c t, s = c :: t /\ white c) -> words_in s l -> words_in (g ++ w ++ s) (w :: l).
(** cut at every separator, from the left *)
Inductive cut_at (sep : str) : str -> list str -> Prop :=
| ca_last s : (forall a b, s <> a ++ sep ++ b) -> cut_at sep s [s]
| ca_more a s l : (forall a' b', a ++ sep ++ s = a' ++ sep ++ b' -> length a <= length a') -> cut_at sep s l -> cut_at sep (a ++ sep ++ s) (a :: l).

(** ** the methods *)
Definition nothing (args : list val) : Prop := args = [] \/ args = [VNone].
Inductive method_gives : string -> list val -> str -> val -> Prop :=
| mg_upper s l : Forall2 upper_of s l -> method_gives "upper" [] s (VStr (concat l))
| mg_lower s l : Forall2 lower_of s l -> method_gives "lower" [] s (VStr l)
| mg_strip args s r : nothing args -> stripped true true white s r -> method_gives "strip" args s (VStr r)
| mg_strip_of cs s r : stripped true true (fun c => In c cs) s r -> method_gives "strip" [VStr cs] s (VStr r)
| mg_lstrip args s r : nothing args -> stripped true false white s r -> method_gives "lstrip" args s (VStr r)
| mg_lstrip_of cs s r : stripped true false (fun c => In c cs) s r -> method_gives "lstrip" [VStr cs] s (VStr r)
| mg_rstrip args s r : nothing args -> stripped false true white s r -> method_gives "rstrip" args s (VStr r)
| mg_rstrip_of cs s r : stripped false true (fun c => In c cs) s r -> method_gives "rstrip" [VStr cs] s (VStr r)
| mg_split args s l : nothing args -> words_in s l -> method_gives "split" args s (VList (map VStr l))
| mg_split_at sep s l : sep <> [] -> cut_at sep s l -> method_gives "split" [VStr sep] s (VList (map VStr l))
| mg_replace old new s l : old <> [] -> cut_at old s l -> method_gives "replace" [VStr old; VStr new] s (VStr (join new l))
| mg_replace_all new s : method_gives "replace" [VStr []; VStr new] s (VStr (concat (map (fun c => new ++ [c]) s) ++ new))
| mg_startswith p s b : (b = true <-> exists t, s = p ++ t) -> method_gives "startswith" [VStr p] s (VBool b)
| mg_endswith p s b : (b = true <-> exists t, s = t ++ p) -> method_gives "endswith" [VStr p] s (VBool b).
(** all names of methods of texts, but for those that start with two underscores *)
Definition text_methods : list string :=
  ["upper"; "lower"; "strip"; "lstrip"; "rstrip"; "split"; "replace"; "startswith"; "endswith"; "count"; "join"; "isdigit"; "capitalize"; "casefold"; "center"; "encode"; "expandtabs"; "find"; "format"; "format_map"; "index"; "isalpha"; "isalnum"; "isascii";
   "isdecimal"; "isidentifier"; "islower"; "isnumeric"; "isprintable"; "isspace"; "istitle"; "isupper"; "ljust"; "maketrans";
   "partition"; "removeprefix"; "removesuffix"; "rfind"; "rindex"; "rjust"; "rpartition"; "rsplit"; "splitlines"; "swapcase";
   "title"; "translate"; "zfill"].

(** ** format strings: {{ and }} for braces, {} for the next value, {name} for a named one *)
Inductive formats (kws : dict) : list str -> str -> str -> Prop :=
| fm_end pos : formats kws pos [] []
| fm_char pos c s r : c <> "{"%char -> c <> "}"%char -> formats kws pos s r -> formats kws pos (c :: s) (c :: r)
| fm_open pos s r : formats kws pos s r -> formats kws pos (t_ "{{" ++ s) ("{"%char :: r)
| fm_close pos s r : formats kws pos s r -> formats kws pos (t_ "}}" ++ s) ("}"%char :: r)
| fm_next v pos s r : formats kws pos s r -> formats kws (v :: pos) (t_ "{}" ++ s) (v ++ r)
| fm_named pos n v s r : Forall (fun c => is_word c = true) n -> ~ Forall (fun c => is_dec c = true) n -> dget kws (KS n) = Some v ->
    formats kws pos s r -> formats kws pos (t_ "{" ++ n ++ t_ "}" ++ s) (py_str v ++ r).

(** ** wildcards: * is any text, ? any character, the rest itself *)
Inductive like : str -> str -> Prop :=
| lk_end : like [] []
| lk_any p a s : like p s -> like ("*"%char :: p) (a ++ s)
| lk_one p c s : like p s -> like ("?"%char :: p) (c :: s)
| lk_char p c s : c <> "*"%char -> c <> "?"%char -> like p s -> like (c :: p) (c :: s).

(** ** searching: [r] matches the text [a] when [y] follows it *)
Definition matches (r : Regex.re) (a y : str) : Prop := exists c, SpecRegex.rel r (a ++ y) [] y c.
(** somewhere in [s]; with ^ at its beginning, with $ at its end or before the line break that ends it *)
Definition occurs (r : Regex.re) (caret dollar : bool) (s : str) : Prop :=
  exists x a y, s = x ++ a ++ y /\ matches r a y /\ (caret = true -> x = []) /\ (dollar = true -> y = [] \/ y = [chr 10]).
(** a pattern and its anchors: ^ at the beginning, $ at the end but not after a backslash *)
Inductive anchored : str -> bool -> bool -> str -> Prop :=
| an_caret p e q : anchored_end p e q -> anchored ("^"%char :: p) true e q
| an_none p e q : (forall t, p <> "^"%char :: t) -> anchored_end p e q -> anchored p false e q
with anchored_end : str -> bool -> str -> Prop :=
| ae_dollar q : (forall t, q <> t ++ ["\"%char]) -> anchored_end (q ++ ["$"%char]) true q
| ae_escaped q : anchored_end (q ++ t_ "\$") false (q ++ t_ "\$")
| ae_none q : (forall t, q <> t ++ ["$"%char]) -> anchored_end q false q.

(** ** substituting: every match from the left, up to [n] of them, becomes what [out] makes of it; of two matches at one
    place the one that a search prefers counts, after an empty match the one that is preferred among those that are not
    empty ([more]).  With ^ there are matches at the beginning only *)
Definition preferred (more : bool) (r : Regex.re) (s a y : str) : Prop :=
  s = a ++ y /\ exists c, Regex.mt r s [] (fun s' c => if (more && Nat.leb (length s) (length s'))%bool then None else Some (s', c)) = Some (y, c).
Definition no_match (more : bool) (r : Regex.re) (s : str) : Prop := forall a y, s = a ++ y -> (more = true -> a <> []) -> ~ matches r a y.
Inductive replaced (r : Regex.re) (caret : bool) (out : str -> str -> Prop) : bool -> option nat -> str -> str -> Prop :=
| rd_enough more s : replaced r caret out more (Some 0) s s
| rd_match more n s a y k t : n <> Some 0 -> preferred more r s a y -> a <> [] -> out a k -> caret = false -> replaced r caret out false (option_map Nat.pred n) y t -> replaced r caret out more n s (k ++ t)
| rd_only more n s a y k : n <> Some 0 -> preferred more r s a y -> a <> [] -> out a k -> caret = true -> replaced r caret out more n s (k ++ y)
| rd_empty n s k t : n <> Some 0 -> preferred false r s [] s -> out [] k -> replaced r caret out true (option_map Nat.pred n) s t -> replaced r caret out false n s (k ++ t)
| rd_skip more n c s t : no_match more r (c :: s) -> n <> Some 0 -> caret = false -> replaced r caret out false n s t -> replaced r caret out more n (c :: s) (c :: t)
| rd_end more n s : no_match more r s -> n <> Some 0 -> caret = true \/ s = [] -> replaced r caret out more n s s.
