(** * SessionHeap: what result() hands out.
    The same operations as Session.v with results lists as mutable objects:
    ttp.py 983-1013 (form_results appends to the list in place, or binds a new
    object), 625-630 (result(structure="list") returns the templates' own
    objects), 696-704 (clear_result empties the object in place).
    Simplification: only the parts that create, share or mutate result objects;
    what is appended is given. *)
From Verif Require Import PyBase.

(** the heap: object number -> contents; a template holds an object number *)
Definition heap := list val.
Definition deref (h : heap) (l : nat) : val := nth l h VNone.
Fixpoint put (h : heap) (l : nat) (v : val) : heap :=
  match h, l with
  | [], _ => []
  | _ :: t, O => v :: t
  | x :: t, S n => x :: put t n v
  end.
Record hsession := { hs_heap : heap; hs_templates : list nat }.

(** form_results, per_input: self.results.append(datum), ttp.py 1011-1013 *)
Definition h_append (s : hsession) (i : nat) (d : val) : res hsession :=
  match nth_error (hs_templates s) i with
  | Some l => match deref (hs_heap s) l with
              | VList x => Ok {| hs_heap := put (hs_heap s) l (VList (x ++ [d])); hs_templates := hs_templates s |}
              | _ => Raise AttributeError end
  | None => Raise IndexError
  end.
(** form_results, per_template: self.results = datum, ttp.py 1008-1009 *)
Definition h_bind (s : hsession) (i : nat) (d : val) : hsession :=
  {| hs_heap := hs_heap s ++ [d];
     hs_templates := firstn i (hs_templates s) ++ length (hs_heap s) :: skipn (S i) (hs_templates s) |}.
(** clear_result: ttp.py 696-704 *)
Definition h_clear (s : hsession) : hsession :=
  {| hs_heap := fold_left (fun h l => match deref h l with VList _ => put h l (VList []) | VDict _ => put h l (VDict []) | _ => h end)
                          (hs_templates s) (hs_heap s);
     hs_templates := hs_templates s |}.
(** result(): the objects themselves, ttp.py 630 *)
Definition h_result (s : hsession) : list nat := hs_templates s.
(** what the caller sees when looking at them *)
Definition h_see (s : hsession) (r : list nat) : list val := map (deref (hs_heap s)) r.

Inductive hop := HParse (news : list (nat * val)) | HClear.
Definition h_exec (s : hsession) (o : hop) : res hsession :=
  match o with
  | HParse news => rfold (fun s x => h_append s (fst x) (snd x)) news s
  | HClear => Ok (h_clear s)
  end.
