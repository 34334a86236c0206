(** * PyBase: the fragment of CPython's built-in types that ttp relies on.

    This file is a model of the *host language*, not of ttp: strings, integers,
    ordered dictionaries, lists and exceptions, as far as /repo/ttp uses them.

    Simplifications (stated once, used everywhere):
    - a Python [str] is a [list ascii]; a character is one of the 256 Latin-1
      code points U+0000..U+00FF.  [isspace], [isdigit], [isalnum], [lower] are
      exact on that range (e.g. SUPERSCRIPT TWO, U+00B2, is a digit for
      [str.isdigit] but not for [int]).  Code points above U+00FF are out of
      the model.
    - a Python [dict] is an insertion-ordered association list; keys are
      strings, integers or None (the only key types ttp creates).
    - values are immutable; an in-place mutation is a function returning the
      new value.  Aliasing between two references is modelled only in
      SessionHeap.v.  *)

From Coq Require Export String Ascii ZArith NArith Bool Lia List.
From Coq Require Decimal DecimalN DecimalPos DecimalFacts.
Export ListNotations.
Open Scope list_scope.

Notation str := (list ascii).

(** [$"abc"] is the Python literal "abc". *)
Notation "$ x" := (list_ascii_of_string x%string) (at level 1, format "$ x").

(** ** Exceptions as values *)

Inductive exn :=
| KeyError | IndexError | TypeError | ValueError | AttributeError
| UnboundLocalError | ReError | SystemExit | RuntimeError | FileNotFoundError | ParseError.

Inductive res (A : Type) :=
| Ok (a : A)
| Raise (e : exn).
Arguments Ok {A}. Arguments Raise {A}.

Definition rbind {A B} (m : res A) (f : A -> res B) : res B :=
  match m with Ok a => f a | Raise e => Raise e end.
Notation "'do' x <- m ; k" := (rbind m (fun x => k))
  (at level 200, x pattern, m at level 100, k at level 200).

Fixpoint rmap {A B} (f : A -> res B) (l : list A) : res (list B) :=
  match l with
  | [] => Ok []
  | x :: xs => do y <- f x; do ys <- rmap f xs; Ok (y :: ys)
  end.

Fixpoint rfold {A S} (f : S -> A -> res S) (l : list A) (s : S) : res S :=
  match l with
  | [] => Ok s
  | x :: xs => do s' <- f s x; rfold f xs s'
  end.

(** ** Characters *)

Definition code (c : ascii) : N := N_of_ascii c.
Definition between (a b : N) (c : ascii) : bool := (N.leb a (code c) && N.leb (code c) b)%bool.
Definition chr (n : N) : ascii := ascii_of_N n.

(** [str.isspace] / regex [\s] on Latin-1: \t \n \v \f \r, FS GS RS US, space,
    NEL (U+0085), NBSP (U+00A0). *)
Definition is_space (c : ascii) : bool :=
  (between 9 13 c || between 28 31 c || N.eqb (code c) 32
   || N.eqb (code c) 133 || N.eqb (code c) 160)%bool.

(** decimal digit: accepted by [int] and by regex [\d] on Latin-1. *)
Definition is_dec (c : ascii) : bool := between 48 57 c.

(** [str.isdigit] on Latin-1: also the superscripts U+00B2 U+00B3 U+00B9. *)
Definition is_digitc (c : ascii) : bool :=
  (is_dec c || N.eqb (code c) 178 || N.eqb (code c) 179 || N.eqb (code c) 185)%bool.

(** [str.isalpha] on Latin-1. *)
Definition is_alpha (c : ascii) : bool :=
  (between 65 90 c || between 97 122 c || N.eqb (code c) 170 || N.eqb (code c) 181
   || N.eqb (code c) 186 || between 192 214 c || between 216 246 c || between 248 255 c)%bool.

(** [str.isalnum] on Latin-1: also the vulgar fractions U+00BC..U+00BE (isnumeric). *)
Definition is_alnum (c : ascii) : bool :=
  (is_alpha c || is_digitc c || between 188 190 c)%bool.

(** regex [\w] on Latin-1 *)
Definition is_word (c : ascii) : bool := (is_alnum c || N.eqb (code c) 95)%bool.

(** ASCII letter test used by the re module's template parser *)
Definition is_ascii_letter (c : ascii) : bool := (between 65 90 c || between 97 122 c)%bool.

(** [str.lower] on Latin-1 *)
Definition lower_c (c : ascii) : ascii :=
  if (between 65 90 c || between 192 214 c || between 216 222 c)%bool
  then chr (code c + 32) else c.
Definition lower (s : str) : str := map lower_c s.

Definition nl : ascii := chr 10.
Definition tab : ascii := chr 9.
Definition space : ascii := " "%char.

(** ** Strings *)

Fixpoint str_eqb (a b : str) : bool :=
  match a, b with
  | [], [] => true
  | x :: xs, y :: ys => (Ascii.eqb x y && str_eqb xs ys)%bool
  | _, _ => false
  end.

Fixpoint prefixb (p s : str) : bool :=
  match p, s with
  | [], _ => true
  | x :: xs, y :: ys => (Ascii.eqb x y && prefixb xs ys)%bool
  | _, [] => false
  end.
Definition startswith (s p : str) : bool := prefixb p s.

(** [sub in s] *)
Fixpoint containsb (sub s : str) : bool :=
  (prefixb sub s || match s with [] => false | _ :: t => containsb sub t end)%bool.

Definition in_strs (x : str) (l : list str) : bool := existsb (str_eqb x) l.

Definition all_chars (p : ascii -> bool) (s : str) : bool := forallb p s.

(** [s.isdigit()], [s.isalnum()]: false on the empty string. *)
Definition isdigit (s : str) : bool :=
  match s with [] => false | _ => all_chars is_digitc s end.
Definition isalnum (s : str) : bool :=
  match s with [] => false | _ => all_chars is_alnum s end.

Fixpoint lstrip_p (p : ascii -> bool) (s : str) : str :=
  match s with
  | [] => []
  | c :: t => if p c then lstrip_p p t else s
  end.
Definition rstrip_p (p : ascii -> bool) (s : str) : str := rev (lstrip_p p (rev s)).
Definition lstrip := lstrip_p is_space.
Definition rstrip := rstrip_p is_space.
Definition strip (s : str) : str := lstrip (rstrip s).
Definition is_c (c : ascii) (x : ascii) : bool := Ascii.eqb c x.

(** [s.split(sep)], sep non-empty.  [split_go] carries the current piece
    (reversed); [skip] counts the characters of a separator still to drop. *)
Fixpoint split_go (sep : str) (s : str) (acc : str) (skip : nat) : list str :=
  match s with
  | [] => [rev acc]
  | c :: t =>
      match skip with
      | S k => split_go sep t acc k
      | O => if prefixb sep s
             then rev acc :: split_go sep t [] (List.length sep - 1)
             else split_go sep t (c :: acc) 0
      end
  end.
Definition split (sep s : str) : list str := split_go sep s [] 0.

(** [sep.join(l)] *)
Fixpoint join (sep : str) (l : list str) : str :=
  match l with
  | [] => []
  | [x] => x
  | x :: xs => x ++ sep ++ join sep xs
  end.

(** [s.replace(old, new)], all occurrences, left to right, [old] non-empty.
    (Python's behaviour for an empty [old] inserts [new] between characters;
    it is [replace_all]'s other branch.) *)
Fixpoint replace_go (old new s : str) (skip : nat) : str :=
  match s with
  | [] => []
  | c :: t =>
      match skip with
      | S k => replace_go old new t k
      | O => if prefixb old s
             then new ++ replace_go old new t (List.length old - 1)
             else c :: replace_go old new t 0
      end
  end.
Fixpoint intersperse_all (new s : str) : str :=
  match s with [] => new | c :: t => new ++ c :: intersperse_all new t end.
Definition replace_all (old new s : str) : str :=
  match old with [] => intersperse_all new s | _ => replace_go old new s 0 end.

(** [s.replace(old, new, 1)], [old] non-empty *)
Fixpoint replace_one (old new s : str) : str :=
  if prefixb old s then new ++ skipn (List.length old) s
  else match s with [] => [] | c :: t => c :: replace_one old new t end.

(** [s.find(sub)] as an option *)
Fixpoint find_at (sub s : str) : option nat :=
  if prefixb sub s then Some 0
  else match s with
       | [] => None
       | _ :: t => match find_at sub t with Some n => Some (S n) | None => None end
       end.

(** [s.splitlines()] for '\n' terminated lines, dropping a final empty piece.
    Simplification: only '\n' is a line boundary. *)
Definition splitlines (s : str) : list str :=
  match rev (split [nl] s) with
  | [] :: r => rev r
  | l => rev l
  end.

(** ** Integers <-> text *)

Fixpoint uint_str (d : Decimal.uint) : str :=
  match d with
  | Decimal.Nil => []
  | Decimal.D0 d => "0"%char :: uint_str d | Decimal.D1 d => "1"%char :: uint_str d
  | Decimal.D2 d => "2"%char :: uint_str d | Decimal.D3 d => "3"%char :: uint_str d
  | Decimal.D4 d => "4"%char :: uint_str d | Decimal.D5 d => "5"%char :: uint_str d
  | Decimal.D6 d => "6"%char :: uint_str d | Decimal.D7 d => "7"%char :: uint_str d
  | Decimal.D8 d => "8"%char :: uint_str d | Decimal.D9 d => "9"%char :: uint_str d
  end.

(** [str(n)] for n >= 0 *)
Definition str_of_N (n : N) : str := uint_str (N.to_uint n).
(** [str(z)] *)
Definition str_of_Z (z : Z) : str :=
  match z with
  | Zneg p => "-"%char :: str_of_N (Npos p)
  | _ => str_of_N (Z.to_N z)
  end.

Definition digit_val (c : ascii) : N := code c - 48.

(** value of a run of decimal digits, most significant first *)
Fixpoint digits_val (s : str) (acc : N) : N :=
  match s with
  | [] => acc
  | c :: t => digits_val t (10 * acc + digit_val c)%N
  end.

(** the digit syntax of [int()]: digits with single underscores between them;
    returns the digits without underscores. *)
Fixpoint int_digits (s : str) (prev_digit : bool) : option str :=
  match s with
  | [] => if prev_digit then Some [] else None
  | c :: t =>
      if is_dec c then
        match int_digits t true with Some r => Some (c :: r) | None => None end
      else if (Ascii.eqb c "_" && prev_digit)%bool then
        match t with
        | d :: _ => if is_dec d then int_digits t false else None
        | [] => None
        end
      else None
  end.

(** [int(s)]: [None] stands for ValueError. *)
Definition py_int (s : str) : option Z :=
  match strip s with
  | [] => None
  | c :: t =>
      if Ascii.eqb c "-" then
        match int_digits t false with Some d => Some (- Z.of_N (digits_val d 0))%Z | None => None end
      else if Ascii.eqb c "+" then
        match int_digits t false with Some d => Some (Z.of_N (digits_val d 0)) | None => None end
      else
        match int_digits (c :: t) false with Some d => Some (Z.of_N (digits_val d 0)) | None => None end
  end.

(** ** Values *)

Inductive key :=
| KS (s : str)
| KI (z : Z)
| KNone.

Definition key_eqb (a b : key) : bool :=
  match a, b with
  | KS x, KS y => str_eqb x y
  | KI x, KI y => Z.eqb x y
  | KNone, KNone => true
  | _, _ => false
  end.

Inductive val :=
| VNone
| VBool (b : bool)
| VInt (z : Z)
| VStr (s : str)
| VList (l : list val)
| VDict (d : list (key * val))
| VObj (n : nat).   (* an opaque object: float, ipaddress object, function, ... *)

Notation dict := (list (key * val)).

(** induction principle that sees through lists and dictionaries *)
Section ValInd.
  Variable P : val -> Prop.
  Hypothesis Hnone : P VNone.
  Hypothesis Hbool : forall b, P (VBool b).
  Hypothesis Hint : forall z, P (VInt z).
  Hypothesis Hstr : forall s, P (VStr s).
  Hypothesis Hlist : forall l, Forall P l -> P (VList l).
  Hypothesis Hdict : forall d, Forall (fun kv => P (snd kv)) d -> P (VDict d).
  Hypothesis Hobj : forall n, P (VObj n).
  Fixpoint val_rect' (v : val) : P v :=
    match v with
    | VNone => Hnone | VBool b => Hbool b | VInt z => Hint z | VStr s => Hstr s
    | VList l => Hlist l
        ((fix go (l : list val) : Forall P l :=
            match l with [] => Forall_nil _ | x :: xs => Forall_cons _ (val_rect' x) (go xs) end) l)
    | VDict d => Hdict d
        ((fix go (d : list (key * val)) : Forall (fun kv => P (snd kv)) d :=
            match d with [] => Forall_nil _ | x :: xs => Forall_cons _ (val_rect' (snd x)) (go xs) end) d)
    | VObj n => Hobj n
    end.
End ValInd.

(** ** Ordered dictionaries *)
Section Dict.
  Context {V : Type}.
  Local Notation kdict := (list (key * V)).

  Fixpoint dget (d : kdict) (k : key) : option V :=
    match d with
    | [] => None
    | (k', v) :: t => if key_eqb k k' then Some v else dget t k
    end.
  (** [d[k] = v]: replaces in place, or appends a new key at the end *)
  Fixpoint dset (d : kdict) (k : key) (v : V) : kdict :=
    match d with
    | [] => [(k, v)]
    | (k', v') :: t => if key_eqb k k' then (k', v) :: t else (k', v') :: dset t k v
    end.
  (** [d.pop(k)] (the remaining dict; no-op if absent) *)
  Fixpoint ddel (d : kdict) (k : key) : kdict :=
    match d with
    | [] => []
    | (k', v') :: t => if key_eqb k k' then t else (k', v') :: ddel t k
    end.
  Definition dmem (d : kdict) (k : key) : bool :=
    match dget d k with Some _ => true | None => false end.
  (** [d.update(e)] *)
  Definition dupdate (d e : kdict) : kdict :=
    fold_left (fun acc kv => dset acc (fst kv) (snd kv)) e d.
  (** [d.setdefault(k, v)] (the resulting dict) *)
  Definition dsetdefault (d : kdict) (k : key) (v : V) : kdict :=
    if dmem d k then d else dset d k v.
  Definition dkeys (d : kdict) : list key := map fst d.
  Definition dwf (d : kdict) : Prop := NoDup (dkeys d).
End Dict.

(** Python truthiness *)
Definition truthy (v : val) : bool :=
  match v with
  | VNone => false
  | VBool b => b
  | VInt z => negb (Z.eqb z 0)
  | VStr s => match s with [] => false | _ => true end
  | VList l => match l with [] => false | _ => true end
  | VDict d => match d with [] => false | _ => true end
  | VObj _ => true
  end.

(** Python [==] on values: dictionaries compare as mappings (order does not
    matter), lists pointwise, [True == 1], [False == 0]. *)
Fixpoint py_eq (a b : val) : bool :=
  match a, b with
  | VNone, VNone => true
  | VBool x, VBool y => Bool.eqb x y
  | VBool x, VInt y => Z.eqb (if x then 1 else 0) y
  | VInt x, VBool y => Z.eqb x (if y then 1 else 0)
  | VInt x, VInt y => Z.eqb x y
  | VStr x, VStr y => str_eqb x y
  | VObj x, VObj y => Nat.eqb x y
  | VList x, VList y =>
      (fix go (x : list val) (y : list val) : bool :=
         match x, y with
         | [], [] => true
         | u :: x', v :: y' => (py_eq u v && go x' y')%bool
         | _, _ => false
         end) x y
  | VDict x, VDict y =>
      (Nat.eqb (List.length x) (List.length y) &&
       (fix go (x : list (key * val)) : bool :=
          match x with
          | [] => true
          | (k, u) :: x' =>
              ((fix look (y : list (key * val)) : bool :=
                  match y with
                  | [] => false
                  | (k', v) :: y' => if key_eqb k k' then py_eq u v else look y'
                  end) y && go x')%bool
          end) x)%bool
  | _, _ => false
  end.

(** the key under which a value can be stored: TypeError for unhashable ones.
    Simplification: booleans and opaque objects as keys are not modelled. *)
Definition key_of (v : val) : res key :=
  match v with
  | VStr s => Ok (KS s)
  | VInt z => Ok (KI z)
  | VNone => Ok KNone
  | _ => Raise TypeError
  end.

(** ** str() and repr() of values.
    Simplification: repr of a string escapes backslash, quote, \n, \r, \t and
    other non-printables as \xNN, as CPython does on Latin-1; an opaque object
    prints as "<object>". *)
Definition hexdigit (n : N) : ascii := if N.ltb n 10 then chr (48 + n) else chr (87 + n).
Definition printable (c : ascii) : bool :=
  (between 32 126 c || between 161 172 c || between 174 255 c)%bool.
Definition repr_char (q c : ascii) : str :=
  if (Ascii.eqb c "\" || Ascii.eqb c q)%bool then ["\"%char; c]
  else if Ascii.eqb c nl then $"\n"
  else if Ascii.eqb c tab then $"\t"
  else if N.eqb (code c) 13 then $"\r"
  else if printable c then [c]
  else ["\"%char; "x"%char; hexdigit (N.div (code c) 16); hexdigit (N.modulo (code c) 16)].
Definition squote : ascii := chr 39.
Definition dquote : ascii := chr 34.
Definition repr_str (s : str) : str :=
  let q := if (existsb (Ascii.eqb squote) s && negb (existsb (Ascii.eqb dquote) s))%bool
           then dquote else squote in
  q :: flat_map (repr_char q) s ++ [q].
Definition repr_key (k : key) : str :=
  match k with KS s => repr_str s | KI z => str_of_Z z | KNone => $"None" end.

Fixpoint py_repr (v : val) : str :=
  match v with
  | VNone => $"None"
  | VBool true => $"True"
  | VBool false => $"False"
  | VInt z => str_of_Z z
  | VStr s => repr_str s
  | VList l => $"[" ++ join $", " (map py_repr l) ++ $"]"
  | VDict d => $"{" ++ join $", " (map (fun kv => repr_key (fst kv) ++ $": " ++ py_repr (snd kv)) d) ++ $"}"
  | VObj _ => $"<object>"
  end.
Definition py_str (v : val) : str := match v with VStr s => s | _ => py_repr v end.

(** [x in v] for a string [x] *)
Definition py_in (x : str) (v : val) : res bool :=
  match v with
  | VDict d => Ok (dmem d (KS x))
  | VList l => Ok (existsb (py_eq (VStr x)) l)
  | VStr s => Ok (containsb x s)
  | _ => Raise TypeError
  end.

Definition opt_last {A} (l : list A) : option A :=
  match rev l with [] => None | x :: _ => Some x end.
(** replace the last element *)
Definition set_last {A} (l : list A) (x : A) : list A := removelast l ++ [x].

(** [d.update(v)] for an arbitrary value [v].  Simplification: a list of pairs
    as argument is not modelled (TypeError). *)
Definition update_val (d : list (key * val)) (v : val) : res (list (key * val)) :=
  match v with
  | VDict e => Ok (dupdate d e)
  | VList [] | VStr [] => Ok d
  | _ => Raise TypeError
  end.
