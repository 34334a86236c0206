(** * Tree: addresses inside nested dictionaries and lists.
    Not a model of any ttp function: it is the vocabulary in which a Python
    reference into a nested structure, and a mutation through it, are expressed. *)
From Verif Require Import PyBase.

(** ** Addresses inside a results tree (used to say *where* a Python reference
    obtained by [dict_by_path] points to). *)
Inductive step := SKey (k : key) | SIdx (i : nat).
Notation addr := (list step).

Fixpoint get_at (a : addr) (v : val) : option val :=
  match a with
  | [] => Some v
  | SKey k :: a' => match v with
                    | VDict d => match dget d k with Some x => get_at a' x | None => None end
                    | _ => None end
  | SIdx i :: a' => match v with
                    | VList l => match nth_error l i with Some x => get_at a' x | None => None end
                    | _ => None end
  end.

Fixpoint list_upd {A} (l : list A) (i : nat) (f : A -> A) : list A :=
  match l, i with
  | [], _ => []
  | x :: t, O => f x :: t
  | x :: t, S j => x :: list_upd t j f
  end.

(** mutate, in place, the object found at address [a] *)
Fixpoint upd_at (a : addr) (f : val -> val) (v : val) : val :=
  match a with
  | [] => f v
  | SKey k :: a' => match v with
                    | VDict d => match dget d k with
                                 | Some x => VDict (dset d k (upd_at a' f x))
                                 | None => v end
                    | _ => v end
  | SIdx i :: a' => match v with
                    | VList l => VList (list_upd l i (upd_at a' f))
                    | _ => v end
  end.

