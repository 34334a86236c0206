(** * SpecOutput: vocabulary for the outputs.  Independent of the code. *)
From Verif Require Import PyBase.
Local Open Scope string_scope.
Local Open Scope list_scope.

(** following keys through dictionaries *)
Inductive at_path : list str -> val -> val -> Prop :=
| ap_here v : at_path [] v v
| ap_key i p d x w : dget d (KS i) = Some x -> at_path p x w -> at_path (i :: p) (VDict d) w.
(** on the way there is a dictionary without the next key *)
Definition ends_early (path : list str) (v : val) : Prop :=
  exists p i rest d, path = p ++ i :: rest /\ at_path p v (VDict d) /\ dget d (KS i) = None.
(** on the way there is something that is not a dictionary *)
Definition blocked (path : list str) (v : val) : Prop :=
  exists p i rest w, path = p ++ i :: rest /\ at_path p v w /\ (forall d, w <> VDict d).

Definition plain_value (v : val) : Prop := (forall d, v <> VDict d) /\ (forall l, v <> VList l).
(** what a path selects: in a dictionary the value at the path (an empty dictionary if it ends early and
    that is allowed), in a list what it selects in every item; other values are left alone *)
Inductive selects (strict : bool) (path : list str) : val -> val -> Prop :=
| se_found d w : at_path path (VDict d) w -> selects strict path (VDict d) w
| se_early d : strict = false -> ends_early path (VDict d) -> selects strict path (VDict d) (VDict [])
| se_each l r : Forall2 (selects strict path) l r -> selects strict path (VList l) (VList r)
| se_plain v : plain_value v -> selects strict path v v.

Definition value_of (k : key) : val := match k with KS s => VStr s | KI z => VInt z | KNone => VNone end.
(** a dictionary's entry as a record: [key_name] holds its key, everything else is the entry's *)
Definition entry_record (key_name : str) (kv : key * val) (r : val) : Prop :=
  exists vd rd, snd kv = VDict vd /\ r = VDict rd /\ dget rd (KS key_name) = Some (value_of (fst kv)) /\
    forall k, k <> KS key_name -> dget rd k = dget vd k.

(** the dictionary with the key added to the entries before the first one that is not a dictionary *)
Inductive marked (key_name : str) : dict -> dict -> Prop :=
| mk_end : marked key_name [] []
| mk_stop k v d : (forall vd, v <> VDict vd) -> marked key_name ((k, v) :: d) ((k, v) :: d)
| mk_entry k vd r d d' : entry_record key_name (k, VDict vd) r -> marked key_name d d' -> marked key_name ((k, VDict vd) :: d) ((k, r) :: d').
(** in every dictionary of a list (of lists ...) of dictionaries *)
Inductive marks (key_name : str) : val -> val -> Prop :=
| ms_dict d d' : marked key_name d d' -> marks key_name (VDict d) (VDict d')
| ms_list l l' : Forall2 (marks key_name) l l' -> marks key_name (VList l) (VList l')
| ms_other v : (forall l, v <> VList l) -> (forall d, v <> VDict d) -> marks key_name v v.

(** ** order of headers *)
Inductive before : str -> str -> Prop :=
| bf_nil c s : before [] (c :: s)
| bf_head a b x y : (code a < code b)%N -> before (a :: x) (b :: y)
| bf_tail c x y : before x y -> before (c :: x) (c :: y).
Inductive key_before : key -> key -> Prop :=
| kb_str a b : before a b -> key_before (KS a) (KS b)
| kb_int a b : (a < b)%Z -> key_before (KI a) (KI b).

(** ** which records a selected value contributes to a table *)
Inductive records_of (key_name : str) : val -> list val -> Prop :=
| ro_list l : records_of key_name (VList l) l
| ro_empty : records_of key_name (VDict []) []
| ro_dict d : d <> [] -> key_name = [] -> records_of key_name (VDict d) [VDict d]
| ro_entries d rs : d <> [] -> key_name <> [] -> Forall2 (entry_record key_name) d rs -> records_of key_name (VDict d) rs
| ro_plain v : plain_value v -> records_of key_name v [].

(** a row of a table: the record's value in the first column of each header; a column whose header
    came before stays empty *)
Definition row_of (missing : val) (hs : list key) (d : dict) (row : list val) : Prop :=
  length row = length hs /\
  (forall i h, nth_error hs i = Some h -> (forall j, j < i -> nth_error hs j <> Some h) ->
    nth_error row i = Some (match dget d h with Some v => v | None => missing end)) /\
  forall i j h, j < i -> nth_error hs i = Some h -> nth_error hs j = Some h -> nth_error row i = Some missing.

(** some dictionary among the data has something that is not a dictionary in the path's way *)
Inductive obstructed (path : list str) : val -> Prop :=
| ob_here d : blocked path (VDict d) -> obstructed path (VDict d)
| ob_item l x : In x l -> obstructed path x -> obstructed path (VList l).

(** a dictionary with string keys only *)
Definition str_record (it : val) : Prop := exists d, it = VDict d /\ forall k, In k (dkeys d) -> exists s, k = KS s.

(** ** running an output *)
Section InTurn.
Context {F : Type} (runf : F -> val -> val -> res (val * val)).
(** the functions one after the other: each gets what the one before it returned.  The second value is
    what has become of the data the output was given. *)
Inductive in_turn : list F -> val * val -> val * val -> Prop :=
| it_done x : in_turn [] x x
| it_next f fs r d x y : runf f r d = Ok x -> in_turn fs x y -> in_turn (f :: fs) (r, d) y.
End InTurn.

(** ** is_equal: which value is compared *)
Inductive compared : val -> val -> Prop :=
| cm_anon d x : dget d (KS $"_anonymous_") = Some x -> compared (VDict d) x
| cm_dict d : dget d (KS $"_anonymous_") = None -> compared (VDict d) (VDict d)
| cm_list l : ~ In (VStr $"_anonymous_") l -> compared (VList l) (VList l)
| cm_text s : ~ (exists a b, s = a ++ $"_anonymous_" ++ b) -> compared (VStr s) (VStr s).
