(** * SpecChoice: which of several simultaneous matches is used.

    Independent of the code: a candidate has a class (0 best, 3 worst) and,
    inside its class, a level (0 best, 2 worst); among the best candidates of
    level 0 or 1 the first is taken, of level 2 the last. *)
From Verif Require Import PyBase Results.

Section Choice.
Variable F : Type.
Notation gid_of x := (g_id F (r_group F (fst x))).
Notation parent_of x := (g_parent F (r_group F (fst x))).

(** 0: [_start_] line, 1: start line, 2: normal, join or end line, 3: [_line_] line *)
Definition cls (x : item F) : nat :=
  if r_isline F (fst x) then 3
  else match r_action F (fst x) with AStartEmpty => 0 | AStart => 1 | _ => 2 end.

Definition passed (x : item F) : Prop := snd x <> None.
(** [x] belongs to the group of the record being collected *)
Definition is_current (s : rstate F) (x : item F) : Prop := rc_gid F (s_rec F s) = Some (gid_of x).
(** [x]'s group name extends that of the group being collected, or its parent is open *)
Definition is_child (s : rstate F) (x : item F) : Prop :=
  (exists g, rc_gid F (s_rec F s) = Some g /\ startswith (fst (gid_of x)) (fst g) = true) \/
  (exists p, parent_of x = Some p /\ In p (s_started F s)).

Inductive level (s : rstate F) (x : item F) : nat -> Prop :=
| lvl_start_current : cls x < 2 -> passed x -> is_current s x -> level s x 0
| lvl_start_child : cls x < 2 -> passed x -> ~ is_current s x -> is_child s x -> level s x 1
| lvl_start_other : cls x < 2 -> ~ (passed x /\ (is_current s x \/ is_child s x)) -> level s x 2
| lvl_normal_current : cls x = 2 -> is_current s x -> level s x 0
| lvl_normal_open : cls x = 2 -> ~ is_current s x -> In (gid_of x) (s_started F s) -> level s x 1
| lvl_normal_other : cls x = 2 -> ~ is_current s x -> ~ In (gid_of x) (s_started F s) -> level s x 2
| lvl_line_current : cls x = 3 -> is_current s x -> level s x 0
| lvl_line_other : cls x = 3 -> ~ is_current s x -> level s x 2.

(** [x] is the candidate to use among [c] *)
Definition best_choice (s : rstate F) (c : list (item F)) (x : item F) : Prop :=
  (forall y, In y c -> cls x <= cls y) /\
  exists l1 l2 n, c = l1 ++ x :: l2 /\ level s x n /\
    (forall y m, In y c -> cls y = cls x -> level s y m -> n <= m) /\
    (n < 2 -> forall y m, In y l1 -> cls y = cls x -> level s y m -> n < m) /\
    (n = 2 -> forall y, In y l2 -> cls y <> cls x).
End Choice.
