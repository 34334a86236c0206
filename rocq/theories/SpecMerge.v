(** * SpecMerge: one record laid over another.  Independent of the code.

    Every key the new record does not have keeps its value; a key it has gets the
    new value, except that a dictionary is laid over a (non-empty) old value in turn;
    an empty dictionary changes nothing there. *)
From Verif Require Import PyBase.

Definition nested (old : option val) (v : val) : option val :=
  match v, old with
  | VDict _, Some o => if truthy o then Some o else None
  | _, _ => None
  end.
Inductive overlay : val -> val -> val -> Prop :=
| ov_nothing w : overlay w (VDict []) w
| ov_dict d r m :
    (forall k, dget r k = None -> dget m k = dget d k) ->
    (forall k v, dget r k = Some v -> nested (dget d k) v = None -> dget m k = Some v) ->
    (forall k v o, dget r k = Some v -> nested (dget d k) v = Some o -> exists w, dget m k = Some w /\ overlay o v w) ->
    overlay (VDict d) (VDict r) (VDict m).
