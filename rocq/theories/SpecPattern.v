(** * SpecPattern: the texts the built-in patterns stand for, in plain terms. *)
From Verif Require Import PyBase Regex SpecRegex.
Local Open Scope string_scope.
Local Open Scope list_scope.

(** the expression [r] captures nothing and matches exactly the texts [P], in whatever text it is used *)
Definition denotes (r : re) (P : str -> Prop) : Prop :=
  forall s c s' c', rel r s c s' c' <-> c' = c /\ exists w, s = w ++ s' /\ P w.

(** a word: no white space, not empty *)
Definition word (w : str) : Prop := w <> [] /\ Forall (fun c => is_space c = false) w.
Definition hex (c : ascii) : Prop := (between (code "0") (code "9") c || between (code "a") (code "f") c || between (code "A") (code "F") c)%bool = true.
(** between [lo] and [hi] characters of one kind *)
Definition run_of (Q : ascii -> Prop) (lo hi : nat) (w : str) : Prop := lo <= length w <= hi /\ Forall Q w.
Definition digit (c : ascii) : Prop := is_dec c = true.

Definition p_word : str -> Prop := word.
Definition p_digit (w : str) : Prop := w <> [] /\ Forall digit w.
Definition p_line (w : str) : Prop := w <> [] /\ ~ In nl w.
(** two or more words, one space between them *)
Definition p_phrase (w : str) : Prop := exists ws, 2 <= length ws /\ Forall word ws /\ w = join $" " ws.
(** one or more *)
Definition p_orphrase (w : str) : Prop := exists ws, 1 <= length ws /\ Forall word ws /\ w = join $" " ws.
(** two or more words, any number of spaces between them *)
Inductive p_row : str -> Prop :=
| row_two a n b : word a -> word b -> p_row (a ++ repeat " "%char (S n) ++ b)
| row_more a n w : word a -> p_row w -> p_row (a ++ repeat " "%char (S n) ++ w).
(** four numbers of one to three digits *)
Definition p_ip (w : str) : Prop := exists ws, length ws = 4 /\ Forall (run_of digit 1 3) ws /\ w = join $"." ws.
Definition p_prefix (w : str) : Prop := exists a n, p_ip a /\ run_of digit 1 2 n /\ w = a ++ $"/" ++ n.
(** two to eight fields of up to four hexadecimal digits; "::" at the end may make it nine *)
Definition p_ipv6 (w : str) : Prop := exists ws, Forall (run_of hex 0 4) ws /\ w = join $":" ws /\
  (2 <= length ws <= 8 \/ exists vs, ws = vs ++ [[]; []] /\ length vs = 7).
Definition p_prefixv6 (w : str) : Prop := exists a n, p_ipv6 a /\ run_of digit 1 3 n /\ w = a ++ $"/" ++ n.
Definition mac_sep (c : ascii) : Prop := c = ":"%char \/ c = "."%char \/ c = "-"%char.
(** [n] fields of [k] hexadecimal digits, any of the three separators between them *)
Inductive p_fields (k : nat) : nat -> str -> Prop :=
| f_one w : run_of hex k k w -> p_fields k 1 w
| f_more n w c v : run_of hex k k w -> mac_sep c -> p_fields k n v -> p_fields k (S n) (w ++ c :: v).
Definition p_mac (w : str) : Prop := p_fields 2 6 w \/ p_fields 4 3 w.

(** ** character classes: single characters and ranges *)
Inductive cpart := One (c : ascii) | Range (a b : ascii).
Definition part_text (p : cpart) : str := match p with One c => [c] | Range a b => [a; "-"%char; b] end.
Definition in_part (x : ascii) (p : cpart) : Prop := match p with One c => x = c | Range a b => (code a <= code x <= code b)%N end.
(** characters that mean themselves inside a class *)
Definition class_char (c : ascii) : Prop := c <> "]"%char /\ c <> "["%char /\ c <> "\"%char /\ c <> "-"%char /\ c <> "^"%char.
Definition part_ok (p : cpart) : Prop :=
  match p with One c => class_char c | Range a b => class_char a /\ class_char b /\ (code a <= code b)%N end.
