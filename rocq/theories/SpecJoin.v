(** * SpecJoin: what joining several values of one variable gives.  Independent of the code. *)
From Verif Require Import PyBase.

Definition is_str (v : val) : bool := match v with VStr _ => true | _ => false end.
Definition is_lst (v : val) : bool := match v with VList _ => true | _ => false end.
(** the items a value adds to a list *)
Definition adds (v : val) : list val := match v with VList l => l | _ => [v] end.

(** [joined sep vs x]: the values [vs], in this order, are joined into [x] (None: TypeError) *)
Inductive joined (sep : str) : list val -> option val -> Prop :=
| joined_strings ms : ms <> [] -> joined sep (map VStr ms) (Some (VStr (join sep ms)))
| joined_list l vs : joined sep (VList l :: vs) (Some (VList (l ++ concat (map adds vs))))
| joined_single v : is_str v = false -> is_lst v = false -> joined sep [v] (Some v)
| joined_others v w vs : is_str v = false -> is_lst v = false -> joined sep (v :: w :: vs) (Some (VList (v :: w :: concat (map adds vs))))
| joined_fails ms v vs : ms <> [] -> is_str v = false -> joined sep (map VStr ms ++ v :: vs) None.
