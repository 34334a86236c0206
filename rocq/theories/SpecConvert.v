(** * SpecConvert: the text of a whole number, regular expressions aside; independent of MatchFuncs.v. *)
From Verif Require Import PyBase.
Local Open Scope string_scope.
Local Open Scope list_scope.

Definition blank_text (s : str) : Prop := Forall (fun c => is_space c = true) s.
(** a run of decimal digits *)
Definition digit_run (s : str) : Prop := s <> [] /\ Forall (fun c => is_dec c = true) s.
(** its value *)
Definition run_value (s : str) : Z := fold_left (fun a c => (10 * a + Z.of_N (code c - 48))%Z) s 0%Z.
(** the text of the whole number [z]: blanks, an optional sign, runs of digits separated by single underscores, blanks *)
Definition int_text (s : str) (z : Z) : Prop :=
  exists b1 sign runs b2, s = b1 ++ sign ++ join $"_" runs ++ b2 /\ blank_text b1 /\ blank_text b2 /\
    runs <> [] /\ Forall digit_run runs /\
    ((sign = [] \/ sign = $"+") /\ z = run_value (concat runs) \/ sign = $"-" /\ z = (- run_value (concat runs))%Z).
