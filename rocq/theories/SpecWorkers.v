(** * SpecWorkers: the order in which several workers deliver.  Independent of the code. *)
From Verif Require Import PyBase Session SpecSession.
Local Open Scope list_scope.

(** [m] is a merge of the sequences [ls]: each keeps its own order *)
Inductive merge_of {A} : list (list A) -> list A -> Prop :=
| mo_done ls : Forall (fun l => l = []) ls -> merge_of ls []
| mo_take a x l b m : merge_of (a ++ l :: b) m -> merge_of (a ++ (x :: l) :: b) (x :: m).
(** [js] dealt out to [n] workers, each of which delivers in the order it was given its share *)
Definition delivered {A} (n : nat) (js out : list A) : Prop :=
  exists shares, length shares = n /\ merge_of shares js /\ merge_of shares out.

(** datum [j] of template [t] alone gives the structure [d] *)
Definition alone {Fn G} (prs : nat -> G -> list nat -> Fn -> datum -> val -> res (G * val)) (t : template Fn) (g0 : G) (j : @job Fn) (d : val) : Prop :=
  exists g' v, run_job prs (t_id t) g0 j (VDict []) = Ok (g', v) /\ shaped v d.
