(** * SpecJson: the text of the json formatter (specification for C129). *)
From Verif Require Import PyBase SpecVariable SpecAttr SpecFiles SpecOutput.
From Coq Require Import Permutation Sorting.Sorted.
Local Open Scope string_scope.
Local Open Scope list_scope.

(** how a character is written: by its escape (a slash needs none), as it is, or by its code in lower case *)
Definition escaped_as (c e : ascii) : Prop := In (e, c) jescapes /\ c <> "/"%char.
Definition lower_hex (h : ascii) (n : N) : Prop := hex_digit h n /\ ~ (65 <= code h <= 70)%N.
Inductive written : ascii -> str -> Prop :=
| wr_escape c e : escaped_as c e -> written c ["\"%char; e]
| wr_self c : (32 <= code c <= 126)%N -> (forall e, ~ escaped_as c e) -> written c [c]
| wr_code c h1 h2 n1 n2 : (code c < 32 \/ 126 < code c)%N -> (forall e, ~ escaped_as c e) ->
    lower_hex h1 n1 -> lower_hex h2 n2 -> code c = (n1 * 16 + n2)%N -> written c (t_ "\u00" ++ [h1; h2]).
Definition quoted (s t : str) : Prop := exists ts, Forall2 written s ts /\ t = chr 34 :: concat ts ++ [chr 34].
Inductive decimal : Z -> str -> Prop :=
| dc_pos n s : jnatural s n -> decimal (Z.of_N n) s
| dc_neg n s : jnatural s n -> n <> 0%N -> decimal (- Z.of_N n) ("-"%char :: s).
(** the text of a key *)
Inductive key_text : key -> str -> Prop :=
| kt_str s : key_text (KS s) s
| kt_int z s : decimal z s -> key_text (KI z) s
| kt_none : key_text KNone (t_ "null").
(** one item per line, four spaces deeper *)
Definition new_line (n : nat) : str := chr 10 :: repeat " "%char (4 * n).
Inductive rows (n : nat) : list str -> str -> Prop :=
| rw_one t : rows n [t] (new_line n ++ t)
| rw_more t ts s : rows n ts s -> rows n (t :: ts) (new_line n ++ t ++ t_ "," ++ s).
Inductive printed : nat -> val -> str -> Prop :=
| pr_none n : printed n VNone (t_ "null")
| pr_true n : printed n (VBool true) (t_ "true")
| pr_false n : printed n (VBool false) (t_ "false")
| pr_int n z s : decimal z s -> printed n (VInt z) s
| pr_str n s t : quoted s t -> printed n (VStr s) t
| pr_empty_list n : printed n (VList []) (t_ "[]")
| pr_list n l ts s : Forall2 (printed (S n)) l ts -> rows (S n) ts s -> printed n (VList l) (t_ "[" ++ s ++ new_line n ++ t_ "]")
| pr_empty_dict n : printed n (VDict []) (t_ "{}")
| pr_dict n d d' ts s : Permutation d d' -> StronglySorted key_before (map fst d') ->
    Forall2 (fun kv t => exists k q x, key_text (fst kv) k /\ quoted k q /\ printed (S n) (snd kv) x /\ t = q ++ t_ ": " ++ x) d' ts ->
    rows (S n) ts s -> printed n (VDict d) (t_ "{" ++ s ++ new_line n ++ t_ "}").
(** what has a text: no objects, and the keys of a dictionary can be sorted *)
Inductive serializable : val -> Prop :=
| sr_none : serializable VNone
| sr_bool b : serializable (VBool b)
| sr_int z : serializable (VInt z)
| sr_str s : serializable (VStr s)
| sr_list l : Forall serializable l -> serializable (VList l)
| sr_dict d : Forall (fun kv => serializable (snd kv)) d ->
    (Forall (fun kv => exists s, fst kv = KS s) d \/ Forall (fun kv => exists z, fst kv = KI z) d \/ length d <= 1) -> serializable (VDict d).
(** what the text means when it is read: the same, but keys are texts *)
Inductive read_back : val -> val -> Prop :=
| rb_same v : (forall l, v <> VList l) -> (forall d, v <> VDict d) -> read_back v v
| rb_list l l' : Forall2 read_back l l' -> read_back (VList l) (VList l')
| rb_dict d d' : length d = length d' ->
    (forall k u, In (k, u) d -> exists s u', key_text k s /\ dget d' (KS s) = Some u' /\ read_back u u') -> read_back (VDict d) (VDict d').
(** dictionaries with text keys only *)
Inductive text_keys : val -> Prop :=
| tk_other v : (forall l, v <> VList l) -> (forall d, v <> VDict d) -> text_keys v
| tk_list l : Forall text_keys l -> text_keys (VList l)
| tk_dict d : Forall (fun kv => (exists s, fst kv = KS s) /\ text_keys (snd kv)) d -> text_keys (VDict d).
