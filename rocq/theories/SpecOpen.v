(** * SpecOpen: which groups are open.  Independent of the code.

    The open groups are kept innermost first.  A group that starts under an open
    parent closes everything above that parent; a group that starts without an
    open parent closes everything; a group started by a [_line_] variable closes
    nothing. *)
From Verif Require Import PyBase.
Notation gid := (str * nat)%type.

Inductive opens (isline : bool) (g : gid) (parent : option gid) : list gid -> list gid -> Prop :=
| op_under a q b : parent = Some q -> ~ In q a -> (isline = true -> a = []) -> opens isline g parent (a ++ q :: b) (g :: q :: b)
| op_alone st : (forall q, parent = Some q -> ~ In q st) -> (isline = true -> st = []) -> opens isline g parent st [g]
| op_line t b : isline = true -> parent <> Some t -> opens isline g parent (t :: b) (g :: t :: b).

(** [g] is [h] or a parent of [h], of its parent, ... *)
Inductive ancestor (par : gid -> option gid) (g : gid) : gid -> Prop :=
| anc_self : ancestor par g g
| anc_up h p : par h = Some p -> ancestor par g p -> ancestor par g h.

(** each group is the parent of the one before *)
Fixpoint lineage (par : gid -> option gid) (l : list gid) : Prop :=
  match l with
  | h :: ((p :: _) as t) => par h = Some p /\ lineage par t
  | _ => True
  end.
