(** * SpecRecords: reading a group's match events left to right.

    Independent of the code.  An event is what the parser found at one place in
    the text for one group: an accepted start line with its values, a [_start_]
    line, a start line whose checks failed, a normal line with its values, or an
    end line. *)
From Verif Require Import PyBase.

Inductive ev :=
| EStart (r : dict)
| EStartEmpty
| EReject
| EAdd (r : dict)
| EEnd.

(** add to a record the values of a later line for the keys it does not have yet
    (the later line's keys come first in the dictionary) *)
Definition first_wins_merge (later record : dict) : dict := dupdate later record.

(** The records described by a list of events.  [cur] is the record being
    collected, [on] says whether the group is currently accepting lines. *)
Fixpoint records (evs : list ev) (cur : option dict) (on : bool) : list dict :=
  let close := match cur with Some r => [r] | None => [] end in
  match evs with
  | [] => close
  | EStart r :: t => close ++ records t (Some r) true
  | EStartEmpty :: t => close ++ records t (Some []) true
  | EReject :: t => records t cur false
  | EEnd :: t => records t cur false
  | EAdd r :: t =>
      match on, cur with
      | true, Some c => records t (Some (first_wins_merge r c)) true
      | _, _ => records t cur on
      end
  end.

(** default values fill the missing keys only, after the record's own keys *)
Definition with_defaults (r defaults : dict) : dict :=
  r ++ filter (fun kv => negb (dmem r (fst kv))) defaults.

(** an end line can only be found after a start line of the same group *)
Fixpoint no_early_end (evs : list ev) : bool :=
  match evs with
  | EEnd :: _ => false
  | EAdd _ :: t => no_early_end t
  | _ => true
  end.
