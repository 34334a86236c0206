(** * SpecTree: what it means to follow a results path.

    Independent of the code: [reaches P v a w] says that following the keys [P]
    from [v] - entering the last item whenever a list is met and keys are left -
    one arrives at address [a], where [w] is stored. *)
From Verif Require Import PyBase Tree.

Inductive reaches : list str -> val -> addr -> val -> Prop :=
| reach_here v : reaches [] v [] v
| reach_key n P d x a w :
    dget d (KS n) = Some x -> reaches P x a w ->
    reaches (n :: P) (VDict d) (SKey (KS n) :: a) w
| reach_last n P l x a w :
    reaches (n :: P) x a w ->
    reaches (n :: P) (VList (l ++ [x])) (SIdx (length l) :: a) w.

(** going into the last item of a list, of that item if it is a list, ... *)
Inductive enters : val -> addr -> val -> Prop :=
| enter_here v : enters v [] v
| enter_last l x a w : enters x a w -> enters (VList (l ++ [x])) (SIdx (length l) :: a) w.

(** as [reaches], but possibly continuing into the last item of the list found *)
Definition arrives (P : list str) (v : val) (a : addr) (w : val) : Prop :=
  exists a1 a2 u, reaches P v a1 u /\ enters u a2 w /\ a = a1 ++ a2.

(** no list directly inside a list on the way *)
Fixpoint flat (a : addr) : bool :=
  match a with
  | SIdx _ :: ((SIdx _ :: _) as t) => false
  | _ :: t => flat t
  | [] => true
  end.

Definition scalar (v : val) : bool :=
  match v with VDict _ | VList _ => false | _ => true end.

(** address [a] is at or above [b] *)
Fixpoint above (a b : addr) : Prop :=
  match a, b with
  | [], _ => True
  | x :: a', y :: b' => x = y /\ above a' b'
  | _ :: _, [] => False
  end.
Definition unrelated (a b : addr) : Prop := ~ above a b /\ ~ above b a.

(** the branch created for the missing part of a path: [n*] opens a list, the
    last item holds the record. *)
Fixpoint branch (st : nat) (rest : list (str * nat)) (record : list (key * val)) : val :=
  match rest with
  | [] => if Nat.eqb st 1
          then VList (match record with [] => [] | _ => [VDict record] end)
          else VDict record
  | (n, st') :: rest' =>
      let inner := VDict [(KS n, branch st' rest' record)] in
      if Nat.eqb st 1 then VList [inner] else inner
  end.

(** a path of ordinary keys: no null path item, and (when digits are converted
    to integers) no digit-only key *)
Definition plain (k2i : bool) (P : list (str * nat)) : Prop :=
  Forall (fun p => fst p <> $"_" /\ (k2i = true -> isdigit (fst p) = false)) P.
Definition names (P : list (str * nat)) : list str := map fst P.
Definition stars (P : list (str * nat)) : nat :=
  match opt_last P with Some (_, st) => st | None => 0 end.

(** ** "nothing else changes" *)

(** [w'] is [w], possibly with more keys or items (a scalar is unchanged) *)
Definition shape_le (w w' : val) : Prop :=
  match w with
  | VDict d => match w' with VDict d' => forall k, dmem d k = true -> dmem d' k = true | _ => False end
  | VList l => match w' with VList l' => length l <= length l' | _ => False end
  | _ => w' = w
  end.

(** address [c] is the element that path [P] leads to, or lies below it *)
Definition addressed (P : list (str * nat)) (E : val) (c : addr) : Prop :=
  exists a w, reaches (names P) E a w /\ above a c.

(** everything readable in [E] at an address outside [S] is still readable at the
    same address in [E']: scalars are equal, dictionaries have lost no key, lists
    no item *)
Definition keeps (S : addr -> Prop) (E E' : val) : Prop :=
  forall c w, get_at c E = Some w -> ~ S c -> exists w', get_at c E' = Some w' /\ shape_le w w'.

(** [E'] is [E] except at address [a] and below (and, of course, in the
    containers above [a]): everything else reads the same, present or absent *)
Definition changes_only (a : addr) (E E' : val) : Prop :=
  forall c, unrelated a c -> get_at c E' = get_at c E.

(** no list is directly inside a list, anywhere in [v] *)
Definition is_list (v : val) : bool := match v with VList _ => true | _ => false end.
Fixpoint unnested (v : val) : Prop :=
  match v with
  | VList l => (fix go (l : list val) : Prop := match l with [] => True | x :: t => (unnested x /\ is_list x = false) /\ go t end) l
  | VDict d => (fix go (d : list (key * val)) : Prop := match d with [] => True | kv :: t => unnested (snd kv) /\ go t end) d
  | _ => True
  end.
