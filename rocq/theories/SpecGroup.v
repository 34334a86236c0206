(** * SpecGroup: what the group functions should do, in plain terms.
    Independent of GroupFuncs.v. *)
From Verif Require Import PyBase.
Local Open Scope string_scope.
Local Open Scope list_scope.

(** the record has a value for variable [v] *)
Definition present (d : dict) (v : str) : Prop := exists x, dget d (KS v) = Some x.
(** ... and it is not just its default *)
Definition matched (d defaults : dict) (v : str) : Prop :=
  exists x, dget d (KS v) = Some x /\ forall y, dget defaults (KS v) = Some y -> py_eq y x = false.
Definition no_default (defaults : dict) (v : str) : Prop := dget defaults (KS v) = None.

(** a literal, or the template variable of that name *)
Definition resolve (vars : dict) (s : str) : val :=
  match dget vars (KS s) with Some x => x | None => VStr s end.
Definition value_or (d : dict) (k : str) (dflt : val) : val :=
  match dget d (KS k) with Some x => x | None => dflt end.

(** the entries of [d] whose key is not one of [ks] *)
Definition without (d : dict) (ks : list str) : dict :=
  filter (fun kv => negb (existsb (fun k => key_eqb (KS k) (fst kv)) ks)) d.
(** [d] and [d'] have the same value for every key other than [ks] *)
Definition same_but (ks : list key) (d d' : dict) : Prop :=
  forall k, ~ In k ks -> dget d' k = dget d k.

(** two dotted keys of which neither is a prefix (item by item) of the other *)
Definition prefix_of {A} (p q : list A) : Prop := exists r, q = p ++ r.
Definition conflict (k1 k2 : str) : Prop := prefix_of (split $"." k1) (split $"." k2).
Inductive unrelated_keys : list str -> Prop :=
| UNil : unrelated_keys []
| UCons k l : Forall (fun k' => ~ conflict k k' /\ ~ conflict k' k) l -> unrelated_keys l -> unrelated_keys (k :: l).

(** a path item with its asterisks replaced by a single one *)
Definition star_text : ascii := "*".
Definition single_star (p : str) : str := rstrip_p (Ascii.eqb star_text) p ++ [star_text].

(** the values a list of records has for key [k], in order *)
Definition values_of (k : str) (rs : list dict) : list val :=
  flat_map (fun r => match dget r (KS k) with Some v => [v] | None => [] end) rs.

(** [v in x] makes sense: text in text, anything in a list, a possible key in a dictionary *)
Definition searchable (x v : val) : Prop :=
  match x with
  | VStr _ => exists p, v = VStr p
  | VList _ => True
  | VDict _ => (exists k, key_of v = Ok k) \/ exists b, v = VBool b
  | _ => False
  end.

(** every key is a text: what can be given as keyword arguments *)
Definition text_keys (d : dict) : Prop := Forall (fun kv => exists n, fst kv = KS n) d.
