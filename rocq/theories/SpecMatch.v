(** * SpecMatch: what the match variable functions should do, in plain terms.
    Independent of MatchFuncs.v. *)
From Verif Require Import PyBase.
Local Open Scope string_scope.
Local Open Scope list_scope.

(** ** unrange: a comma-separated list of plain items and ranges *)
Inductive uitem :=
| Single (s : str)                  (* 8 *)
| Range (a b : str).                (* 10-13, as written *)

Definition utext (rc : ascii) (i : uitem) : str :=
  match i with Single s => s | Range a b => a ++ rc :: b end.
(** the whole field *)
Definition ufield (rc jc : ascii) (l : list uitem) : str := join [jc] (map (utext rc) l).

(** a piece of text that contains neither separator and is not empty *)
Definition piece (rc jc : ascii) (s : str) : Prop := s <> [] /\ ~ In rc s /\ ~ In jc s.
Definition uwf (rc jc : ascii) (i : uitem) : Prop :=
  match i with
  | Single s => piece rc jc s
  | Range a b => piece rc jc a /\ piece rc jc b /\ (exists x, py_int a = Some x) /\ (exists y, py_int b = Some y)
  end.
(** the numbers strictly between [x] and [y] *)
Definition between_z (x y : Z) : list Z :=
  map (fun i => (x + 1 + Z.of_nat i)%Z) (seq 0 (Z.to_nat (y - x - 1))).
Definition uexpand (i : uitem) : list str :=
  match i with
  | Single s => [s]
  | Range a b => match py_int a, py_int b with
                 | Some x, Some y => a :: map str_of_Z (between_z x y) ++ [b]
                 | _, _ => []
                 end
  end.
(** [x, x+1, .., y] *)
Definition upto (x y : Z) : list Z := map (fun i => (x + Z.of_nat i)%Z) (seq 0 (Z.to_nat (y - x + 1))).

(** ** mac: the twelve digits in pairs *)
Definition mac_text (d : str) : option str :=
  match d with
  | [a; b; c; d; e; f; g; h; i; j; k; l] =>
      Some [a; b; ":"; c; d; ":"; e; f; ":"; g; h; ":"; i; j; ":"; k; l]%char
  | _ => None
  end.
(** the digits of some written form of a mac address: separators dropped, lower case *)
Definition mac_digits (t : str) : str :=
  lower (filter (fun c => negb (existsb (Ascii.eqb c) ["."; ":"; "-"]%char)) t).

(** ** netmasks *)
(** byte number [i] (0 = most significant) of the 32 bit mask with [n] leading ones *)
Definition mask_byte (n i : nat) : Z :=
  Z.land (Z.shiftr (2 ^ 32 - 2 ^ (32 - Z.of_nat n)) (8 * (3 - Z.of_nat i))) 255.
Definition mask_text (n : nat) : str := join $"." (map (fun i => str_of_Z (mask_byte n i)) [0; 1; 2; 3]%nat).
(** the number of one bits among the lowest [w] bits *)
Definition ones (w : nat) (z : Z) : nat := length (filter (fun i => Z.testbit z (Z.of_nat i)) (seq 0 w)).

(** ** item: Python position with clamping *)
Definition clamp (len : nat) (i : Z) : nat :=
  if Z.ltb i 0 then Z.to_nat (Z.max 0 (Z.of_nat len + i)) else Nat.min (Z.to_nat i) (len - 1).

(** ** replaceall: the (old, new) pairs an argument stands for *)
Definition old_strings (v : val) : list str :=
  flat_map (fun x => match x with VStr s => [s] | _ => [] end)
           (match v with VList l => l | VStr s => [VStr s] | _ => [] end).
Definition replacements (vars : dict) (new : str) (arg : str) : list (str * str) :=
  match dget vars (KS arg) with
  | None => [(arg, new)]
  | Some (VDict d) => flat_map (fun kv => match fst kv with
                                          | KS k => map (fun o => (o, k)) (old_strings (snd kv))
                                          | _ => [] end) d
  | Some v => map (fun o => (o, new)) (old_strings v)
  end.
(** replacing every occurrence: cut at the old text, glue with the new one *)
Definition substitute (s : str) (p : str * str) : str := join (snd p) (split (fst p) s).

(** ** following a dotted path through dictionaries; [None] when a key is missing *)
Fixpoint follow (path : list str) (v : val) : option val :=
  match path with
  | [] => Some v
  | k :: t => match v with
              | VDict d => match dget d (KS k) with Some x => follow t x | None => None end
              | _ => None
              end
  end.

(** ** unrange on any text: the non-empty pieces around every range character *)
Definition nonempty (s : str) : bool := match s with [] => false | _ => true end.
Definition pieces (rc jc : str) (text : str) : list (list str) :=
  map (fun part => filter nonempty (split jc part)) (split rc text).
(** what comes before the first piece is ignored *)
Fixpoint from_first (cs : list (list str)) : list (list str) :=
  match cs with [] :: t => from_first t | _ => cs end.
(** expanding goes from left to right; it fails at a range that does not start with a number, or
    that nothing follows *)
Inductive range_fails : list (list str) -> exn -> Prop :=
| rf_no_number a s b t : py_int s = None -> range_fails ((a ++ [s]) :: b :: t) ValueError
| rf_no_end a s t x : py_int s = Some x -> range_fails ((a ++ [s]) :: [] :: t) IndexError
| rf_later a s h b t x y e : py_int s = Some x -> py_int h = Some y -> range_fails ((h :: b) :: t) e ->
    range_fails ((a ++ [s]) :: (h :: b) :: t) e.

(** ** mac_eui on any text: twelve digits or more, filled up with zeros, in pairs *)
Fixpoint in_pairs (s : str) : list str :=
  match s with
  | a :: b :: t => [a; b] :: in_pairs t
  | [a] => [[a]]
  | [] => []
  end.
Definition mac_form (d : str) : str := join $":" (in_pairs (d ++ repeat "0"%char (12 - length d))).

(** ** the position a dictionary is asked for by item *)
Definition item_key (len : nat) (i : Z) : Z :=
  if Z.ltb i 0 then if Z.leb (Z.of_nat len) (- i) then 0 else i
  else if Z.ltb i (Z.of_nat len) then i else -1.

(** ** two texts that both look like numbers, but not both are decimal (e.g. a superscript digit) *)
Definition odd_digits (s t : str) : Prop :=
  isdigit (strip s) = true /\ isdigit (strip t) = true /\
  ~ (Forall (fun c => is_dec c = true) (strip s) /\ Forall (fun c => is_dec c = true) (strip t)).
