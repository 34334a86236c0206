(** * SpecKeys: numbers written as keys.  Independent of the code. *)
From Verif Require Import PyBase.

(** a key of digits stands for the number it writes *)
Definition as_number (n : str) : key :=
  if isdigit n then match py_int n with Some z => KI z | None => KS n end else KS n.
Definition renumber_key (k : key) : key := match k with KS n => as_number n | _ => k end.

(** the keys of [v], at any depth, renumbered *)
Fixpoint renumber (v : val) : val :=
  match v with
  | VList l => VList (map renumber l)
  | VDict d => VDict ((fix go (d : list (key * val)) : list (key * val) :=
                         match d with [] => [] | kv :: t => (renumber_key (fst kv), renumber (snd kv)) :: go t end) d)
  | _ => v
  end.

(** a key that is not made of digits, or is the usual way to write a number (no leading zeros) *)
Definition usual (n : str) : Prop := isdigit n = true -> exists z, py_int n = Some z /\ n = str_of_Z z.
Definition usual_key (k : key) : Prop := match k with KS n => usual n | KI _ => False | KNone => True end.
(** all the keys of [v], at any depth, satisfy [K] *)
Fixpoint keys_all (K : key -> Prop) (v : val) : Prop :=
  match v with
  | VList l => (fix go (l : list val) : Prop := match l with [] => True | x :: t => keys_all K x /\ go t end) l
  | VDict d => (fix go (d : list (key * val)) : Prop :=
                  match d with [] => True | kv :: t => (K (fst kv) /\ keys_all K (snd kv)) /\ go t end) d
  | _ => True
  end.
