(** * Workers: multiprocess parsing of one template.
    Models ttp/ttp.py 453-496 (__parse_in_multiprocess) and 786-883 (_worker),
    with the documented behaviour of multiprocessing.JoinableQueue and Queue.

    Every process is a state machine; an execution is any interleaving of their
    steps.  Each worker has its own copy [w_g] of the parser's memory.
    - a task is handed to exactly one worker, tasks in the order they were put;
    - [put] on the results queue first fills the worker's own buffer; a feeder
      moves buffered results to the shared queue at any later time;
    - [join] waits until [task_done] was called for every task put;
    - an exception in the parser ends the worker process (its buffer is still
      flushed), before it called [task_done].
    Simplification: starting the processes and loading macros cannot fail. *)
From Verif Require Import PyBase DictFacts Session SpecSession.
Local Open Scope list_scope.

Section W.
Context {Fn G : Type}.
Local Notation job := (@job Fn).
(** set_data and parse of one task from an empty structure: ttp.py 868-876 *)
Variable run : G -> job -> res (G * val).

Inductive phase :=
| Waiting                 (* task_queue.get(), ttp.py 865 *)
| Got (j : job)           (* between get and the end of parse, 867-876 *)
| Parsed (v : val)        (* before task_done, 879 *)
| Acked (v : val)         (* before results_queue.put, 880 *)
| Pill                    (* got None, before task_done, 867-869 *)
| Stopped                 (* after break *)
| Dead (j : job).         (* an exception escaped while parsing [j] *)
Record worker := { w_g : G; w_phase : phase; w_buf : list val }.

Inductive parent :=
| Putting (l : list (option job))    (* tasks.put, ttp.py 481-489 *)
| Joining                            (* tasks.join(), 492 *)
| Collecting (acc : list val).       (* results_queue.get(), 494-496 *)
Record world := {
  parent_ : parent; todo : nat;      (* number of results to collect *)
  tasks : list (option job); unfinished : nat; queue : list val; workers : list worker }.

Inductive label := LParent | LGet (i : nat) | LParse (i : nat) | LAck (i : nat) | LPut (i : nat) | LFlush (i : nat).

Fixpoint upd {A} (l : list A) (i : nat) (x : A) : list A :=
  match l, i with
  | [], _ => []
  | _ :: t, O => x :: t
  | y :: t, S n => y :: upd t n x
  end.
Definition set_worker (s : world) (i : nat) (w : worker) : world :=
  {| parent_ := parent_ s; todo := todo s; tasks := tasks s; unfinished := unfinished s; queue := queue s;
     workers := upd (workers s) i w |}.
Definition with_phase (w : worker) (p : phase) : worker := {| w_g := w_g w; w_phase := p; w_buf := w_buf w |}.
Definition acked (s : world) : world :=
  {| parent_ := parent_ s; todo := todo s; tasks := tasks s; unfinished := unfinished s - 1; queue := queue s; workers := workers s |}.

Definition step_parent (s : world) : option world :=
  match parent_ s with
  | Putting (x :: l) => Some {| parent_ := Putting l; todo := todo s; tasks := tasks s ++ [x];
                                unfinished := S (unfinished s); queue := queue s; workers := workers s |}
  | Putting [] => Some {| parent_ := Joining; todo := todo s; tasks := tasks s;
                          unfinished := unfinished s; queue := queue s; workers := workers s |}
  | Joining => match unfinished s with
               | O => Some {| parent_ := Collecting []; todo := todo s; tasks := tasks s;
                              unfinished := 0; queue := queue s; workers := workers s |}
               | _ => None end
  | Collecting acc =>
      if Nat.ltb (length acc) (todo s) then
        match queue s with
        | v :: q => Some {| parent_ := Collecting (acc ++ [v]); todo := todo s; tasks := tasks s;
                            unfinished := unfinished s; queue := q; workers := workers s |}
        | [] => None
        end
      else None
  end.

Definition step_get (s : world) (i : nat) (w : worker) : option world :=
  match w_phase w, tasks s with
  | Waiting, x :: q =>
      let p := match x with Some j => Got j | None => Pill end in
      Some {| parent_ := parent_ s; todo := todo s; tasks := q; unfinished := unfinished s; queue := queue s;
              workers := upd (workers s) i (with_phase w p) |}
  | _, _ => None
  end.
Definition step_parse (s : world) (i : nat) (w : worker) : option world :=
  match w_phase w with
  | Got j => match run (w_g w) j with
             | Ok (g', v) => Some (set_worker s i {| w_g := g'; w_phase := Parsed v; w_buf := w_buf w |})
             | Raise _ => Some (set_worker s i (with_phase w (Dead j)))
             end
  | _ => None
  end.
Definition step_ack (s : world) (i : nat) (w : worker) : option world :=
  match w_phase w with
  | Parsed v => Some (acked (set_worker s i (with_phase w (Acked v))))
  | Pill => Some (acked (set_worker s i (with_phase w Stopped)))
  | _ => None
  end.
Definition step_put (s : world) (i : nat) (w : worker) : option world :=
  match w_phase w with
  | Acked v => Some (set_worker s i {| w_g := w_g w; w_phase := Waiting; w_buf := w_buf w ++ [v] |})
  | _ => None
  end.
Definition step_flush (s : world) (i : nat) (w : worker) : option world :=
  match w_buf w with
  | v :: b => Some {| parent_ := parent_ s; todo := todo s; tasks := tasks s; unfinished := unfinished s; queue := queue s ++ [v];
                      workers := upd (workers s) i {| w_g := w_g w; w_phase := w_phase w; w_buf := b |} |}
  | [] => None
  end.

Definition on_worker (f : world -> nat -> worker -> option world) (s : world) (i : nat) : option world :=
  match nth_error (workers s) i with Some w => f s i w | None => None end.
Definition step_l (l : label) (s : world) : option world :=
  match l with
  | LParent => step_parent s
  | LGet i => on_worker step_get s i
  | LParse i => on_worker step_parse s i
  | LAck i => on_worker step_ack s i
  | LPut i => on_worker step_put s i
  | LFlush i => on_worker step_flush s i
  end.
Definition step (s s' : world) : Prop := exists l, step_l l s = Some s'.

Inductive steps : world -> world -> Prop :=
| steps_refl s : steps s s
| steps_cons s s1 s2 : step s s1 -> steps s1 s2 -> steps s s2.

(** the start: n workers waiting, the parent about to put every task and n pills:
    ttp.py 461-489 *)
Definition start (n : nat) (g : G) (js : list job) : world :=
  {| parent_ := Putting (map Some js ++ repeat None n); todo := length js; tasks := []; unfinished := 0; queue := [];
     workers := repeat {| w_g := g; w_phase := Waiting; w_buf := [] |} n |}.

(** all results collected *)
Definition finished (s : world) (acc : list val) : Prop := parent_ s = Collecting acc /\ length acc = todo s.
End W.

(** form_results for each collected result: ttp.py 494-496 *)
Definition collect {Fn} (t : template Fn) (vs : list val) : res (template Fn) := rfold form_results vs t.

(** the function tables: ttp.py 766-777 (add_function) and 803-804 (worker).
    [_ttp_] restricted to its function scopes: scope -> name -> function. *)
Definition scopes (F : Type) := list (key * list (key * F)).
Definition add_function {F} (tbl custom : scopes F) (scope name : key) (f : F) : res (scopes F * scopes F) :=
  match dget tbl scope with
  | Some names =>
      let old := match dget custom scope with Some d => d | None => [] end in
      Ok (dset tbl scope (dset names name f), dset custom scope (dset old name f))
  | None => Raise KeyError
  end.
(** _worker.__init__: lazy_import_functions(), then update *)
Definition worker_table {F} (builtin custom : scopes F) : scopes F := dupdate builtin custom.
Definition lookup_fun {F} (tbl : scopes F) (scope name : key) : option F :=
  match dget tbl scope with Some names => dget names name | None => None end.
(** a parser session: add_function called any number of times *)
Fixpoint add_functions {F} (tbl custom : scopes F) (l : list (key * key * F)) : res (scopes F * scopes F) :=
  match l with
  | [] => Ok (tbl, custom)
  | (s, n, f) :: l => do (t, c) <- add_function tbl custom s n f; add_functions t c l
  end.
