(** * SpecFiles: files, included texts and the loaders of vars and lookup tags (specification for C126). *)
From Verif Require Import PyBase Regex SpecRegex Template Attributes MatchVar Compile FuncTable Loaders Session Files SpecVariable SpecAttr SpecText.
Local Open Scope string_scope.
Local Open Scope list_scope.

(** ** files: a path is a file, a file in the templates directory, a directory, or else the text itself *)
Definition a_file (w : world) (p : str) : Prop := exists x, w_file w p = Some x.
(** [a] and [b] joined: [b] alone if it is absolute or [a] is empty, with one slash between them *)
Inductive joined : str -> str -> str -> Prop :=
| jo_absolute a b : joined a ("/"%char :: b) ("/"%char :: b)
| jo_empty b : joined [] b b
| jo_slash a b : not_next (eq "/"%char) b -> joined (a ++ ["/"%char]) b (a ++ ["/"%char] ++ b)
| jo_between a c b : not_next (eq "/"%char) b -> c <> "/"%char -> joined (a ++ [c]) b (a ++ [c] ++ ["/"%char] ++ b).
(** what is after the last dot, or everything *)
Inductive ends_in : str -> str -> Prop :=
| ei_dot a e : ~ In "."%char e -> ends_in (a ++ "."%char :: e) e
| ei_none f : ~ In "."%char f -> ends_in f f.
(** the wanted names of a directory: files with one of the extensions that every pattern occurs in *)
Definition wanted (w : world) (p : str) (exts filters : list str) (f : str) : Prop :=
  (exists q, joined p f q /\ a_file w q) /\ (exts <> [] -> exists e, ends_in f e /\ In e exts) /\ Forall (fun pat => re_search pat f = Ok true) filters.
Inductive sublist {A} (P : A -> Prop) : list A -> list A -> Prop :=
| sb_nil : sublist P [] []
| sb_keep x l r : P x -> sublist P l r -> sublist P (x :: l) (x :: r)
| sb_drop x l r : ~ P x -> sublist P l r -> sublist P (x :: l) r.
(** the datum for a file: its text or its path *)
Inductive file_datum (w : world) (read : bool) : str -> datum -> Prop :=
| fd_text p x : read = true -> w_file w p = Some x -> file_datum w read p (TextData x)
| fd_path p : read = false -> file_datum w read p (FileName p).
(** the place of a path in the templates directory *)
Definition in_templates (w : world) (p q : str) : Prop := exists d, d <> [] /\ w_tdir w = Some d /\ joined d p q.
Inductive loads (w : world) (exts filters : list str) (read : bool) : val -> list datum -> Prop :=
| ld_file p d : prefixb (t_ "ttp://") p = false -> a_file w (firstn 5000 p) -> file_datum w read p d -> loads w exts filters read (VStr p) [d]
| ld_template p q d : prefixb (t_ "ttp://") p = false -> ~ a_file w (firstn 5000 p) -> in_templates w (firstn 5000 p) q -> a_file w q -> file_datum w read q d -> loads w exts filters read (VStr p) [d]
| ld_directory p l names fs ds : prefixb (t_ "ttp://") p = false -> ~ a_file w (firstn 5000 p) -> (forall q, in_templates w (firstn 5000 p) q -> ~ a_file w q) ->
    w_dir w (firstn 5000 p) = Some l -> w_dir w p = Some names ->
    (forall f, In f names -> (exists q, joined p f q /\ a_file w q) -> (exts <> [] -> exists e, ends_in f e /\ In e exts) ->
       forall pre pat post, filters = pre ++ pat :: post -> Forall (fun pat => re_search pat f = Ok true) pre -> exists b, re_search pat f = Ok b) ->   (* the patterns can be tried *)
    sublist (wanted w p exts filters) names fs -> Forall2 (fun f d => exists q, joined p f q /\ file_datum w read q d) fs ds -> loads w exts filters read (VStr p) ds
| ld_text p : prefixb (t_ "ttp://") p = false -> ~ a_file w (firstn 5000 p) -> (forall q, in_templates w (firstn 5000 p) q -> ~ a_file w q) ->
    w_dir w (firstn 5000 p) = None -> loads w exts filters read (VStr p) [TextData p]
| ld_data v : (forall s, v <> VStr s) -> loads w exts filters read v [StructData v].

(** ** JSON *)
Definition jblank (s : str) : Prop := Forall (fun c => In (code c) [32; 9; 10; 13]%N) s.
Definition jescapes : list (ascii * ascii) :=
  [(chr 34, chr 34); ("\"%char, "\"%char); ("/"%char, "/"%char); ("b"%char, chr 8); ("f"%char, chr 12); ("n"%char, chr 10); ("r"%char, chr 13); ("t"%char, chr 9)].
(** what is between the quotes *)
Inductive jtext : str -> str -> Prop :=
| jt_end : jtext [] []
| jt_char c s v : c <> chr 34 -> c <> "\"%char -> (32 <= code c)%N -> jtext s v -> jtext (c :: s) (c :: v)
| jt_escape e x s v : In (e, x) jescapes -> jtext s v -> jtext ("\"%char :: e :: s) (x :: v)
| jt_code z1 z2 h1 h2 n1 n2 s v : hex_digit z1 0 -> hex_digit z2 0 -> hex_digit h1 n1 -> hex_digit h2 n2 -> jtext s v -> jtext ("\"%char :: "u"%char :: z1 :: z2 :: h1 :: h2 :: s) (chr (n1 * 16 + n2) :: v).
(** numbers without a fraction: no leading zeros *)
Inductive jnatural : str -> N -> Prop :=
| jn_zero : jnatural ["0"%char] 0
| jn_more c ds : a_digit c -> c <> "0"%char -> Forall a_digit ds -> jnatural (c :: ds) (SpecAttr.number 10 (digits (c :: ds))).
Inductive jvalue : str -> val -> Prop :=
| jv_null : jvalue (t_ "null") VNone
| jv_true : jvalue (t_ "true") (VBool true)
| jv_false : jvalue (t_ "false") (VBool false)
| jv_number s n : jnatural s n -> jvalue s (VInt (Z.of_N n))
| jv_negative s n : jnatural s n -> jvalue ("-"%char :: s) (VInt (- Z.of_N n))
| jv_text s v : jtext s v -> jvalue (chr 34 :: s ++ [chr 34]) (VStr v)
| jv_no_items w : jblank w -> jvalue ("["%char :: w ++ ["]"%char]) (VList [])
| jv_items s l : jitems s l -> jvalue ("["%char :: s ++ ["]"%char]) (VList l)
| jv_no_members w : jblank w -> jvalue ("{"%char :: w ++ ["}"%char]) (VDict [])
| jv_members s l : jmembers s l -> jvalue ("{"%char :: s ++ ["}"%char]) (VDict (dict_of (map (fun e => (KS (fst e), snd e)) l)))
with jitems : str -> list val -> Prop :=
| ji_one w1 s w2 v : jblank w1 -> jvalue s v -> jblank w2 -> jitems (w1 ++ s ++ w2) [v]
| ji_more w1 s w2 v t l : jblank w1 -> jvalue s v -> jblank w2 -> jitems t l -> jitems (w1 ++ s ++ w2 ++ ","%char :: t) (v :: l)
with jmembers : str -> list (str * val) -> Prop :=
| jm_one w1 k kv w2 w3 s v w4 : jblank w1 -> jtext k kv -> jblank w2 -> jblank w3 -> jvalue s v -> jblank w4 ->
    jmembers (w1 ++ chr 34 :: k ++ chr 34 :: w2 ++ ":"%char :: w3 ++ s ++ w4) [(kv, v)]
| jm_more w1 k kv w2 w3 s v w4 t l : jblank w1 -> jtext k kv -> jblank w2 -> jblank w3 -> jvalue s v -> jblank w4 -> jmembers t l ->
    jmembers (w1 ++ chr 34 :: k ++ chr 34 :: w2 ++ ":"%char :: w3 ++ s ++ w4 ++ ","%char :: t) ((kv, v) :: l).
(** what JSON has and the model has not: fractions and exponents, infinities and characters by a code *)
Inductive extended : str -> Prop :=
| ex_word a w b : In w ["NaN"; "Infinity"; "\u"] -> extended (a ++ t_ w ++ b)
| ex_fraction a d c b : a_digit d -> In c (t_ ".eE") -> extended (a ++ d :: c :: b).
Definition json_text (s : str) (v : val) : Prop := exists w1 t w2, s = w1 ++ t ++ w2 /\ jblank w1 /\ jvalue t v /\ jblank w2.

(** ** Python *)
(** a literal: names can only be True, False and None *)
Definition constants : list string := ["True"; "False"; "None"].
Definition python_literal (s : str) (v : val) : Prop :=
  exists ts, spells s ts /\ Forall (fun t => forall n, t = TName n -> word_in n constants) ts /\ denotes ts v.
Inductive assigns : str -> str -> val -> Prop :=
| as_one s n ts v : spells s (TName n :: TOp "="%char :: ts) -> ~ word_in n constants -> ~ word_in n reserved ->
    Forall (fun t => forall m, t = TName m -> word_in m constants) ts -> denotes ts v -> assigns s n v.
(** lines that say nothing: empty, white or a comment *)
Definition idle_line (l : str) : Prop := Forall white l \/ exists g t, l = g ++ "#"%char :: t /\ Forall white g.
(** the lines of code and the assignments they make.  A statement begins in the first column and goes on over the
    next lines until it is one: [so_far] is a statement that has begun *)
Inductive statement_from : str -> list str -> str -> list str -> Prop :=   (* begun, lines, the statement, lines after it *)
| sf_done b n v ls : assigns b n v -> statement_from b ls b ls
| sf_idle b l ls s r : (forall n v, ~ assigns b n v) -> idle_line l -> statement_from b ls s r -> statement_from b (l :: ls) s r
| sf_line b l ls s r : (forall n v, ~ assigns b n v) -> ~ idle_line l -> statement_from (b ++ [" "%char] ++ l) ls s r -> statement_from b (l :: ls) s r.
Inductive code_of : list str -> list (str * val) -> Prop :=
| co_end : code_of [] []
| co_idle l ls es : idle_line l -> code_of ls es -> code_of (l :: ls) es
| co_statement c l ls s r n v es : ~ white c -> ~ idle_line (c :: l) -> statement_from (c :: l) ls s r -> assigns s n v -> code_of r es -> code_of ((c :: l) :: ls) ((n, v) :: es).
(** text to lines; a text with assignments gives their dictionary, one without is a literal *)
Definition blank_breaks (s : str) : str := map (fun c => if Ascii.eqb c (chr 10) then " "%char else c) s.
(** the lines of a text; a newline at the end begins no line *)
Definition lines_of (s : str) (ls : list str) : Prop := exists ps, cut_at [chr 10] s ps /\ (ps = ls ++ [[]] \/ (ps = ls /\ last ps [] <> [])).
Definition coded (s : str) (es : list (str * val)) : Prop := exists ls, lines_of s ls /\ code_of ls es.
Inductive python_gives : str -> val -> Prop :=
| pg_nothing s : Forall white s -> python_gives s (VDict [])
| pg_code s es : ~ Forall white s -> es <> [] -> coded s es -> python_gives s (VDict (dict_of (map (fun e => (KS (fst e), snd e)) es)))
| pg_literal s v : ~ Forall white s -> (forall es, es <> [] -> ~ coded s es) -> python_literal (blank_breaks s) v -> python_gives s v.

(** ** the loaders *)
(** the text of a tag with what its include attribute names after it, each on a new line *)
Inductive includes (w : world) : str -> option str -> str -> Prop :=
| ic_none s i : i = None \/ i = Some [] -> includes w s i s
| ic_some s p ds ts : p <> [] -> loads w [] [] true (VStr p) ds -> Forall2 (fun d t => d = TextData t) ds ts -> includes w s (Some p) (s ++ concat (map (fun t => chr 10 :: t) ts)).
Definition attribute_of (attrs : list (str * str)) (n : string) : option str := attr attrs (t_ n).
(** the loader that a tag asks for, in any case *)
Definition loader (attrs : list (str * str)) : str := match attribute_of attrs "load" with Some l => lower l | None => t_ "python" end.
Inductive struct_gives (w : world) (text : str) (attrs : list (str * str)) : option val -> Prop :=
| sg_nothing : text = [] -> attribute_of attrs "include" = None -> struct_gives w text attrs None
| sg_python t v : text <> [] \/ attribute_of attrs "include" <> None -> loader attrs = t_ "python" -> includes w text (attribute_of attrs "include") t -> python_gives t v -> struct_gives w text attrs (Some v)
| sg_csv t d : text <> [] \/ attribute_of attrs "include" <> None -> loader attrs = t_ "csv" -> includes w text (attribute_of attrs "include") t ->
    load_csv (match attribute_of attrs "key" with Some k => k | None => [] end) t = Ok d -> struct_gives w text attrs (Some (VDict d))
| sg_json t v : text <> [] \/ attribute_of attrs "include" <> None -> loader attrs = t_ "json" -> includes w text (attribute_of attrs "include") t -> json_text t v -> struct_gives w text attrs (Some v)
| sg_bad_json t : text <> [] \/ attribute_of attrs "include" <> None -> loader attrs = t_ "json" -> includes w text (attribute_of attrs "include") t -> json_loads t = Raise ValueError -> struct_gives w text attrs None
| sg_text : text <> [] \/ attribute_of attrs "include" <> None -> loader attrs = t_ "text" -> struct_gives w text attrs (Some (VStr text)).
