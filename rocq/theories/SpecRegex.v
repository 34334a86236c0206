(** * SpecRegex: what it means for a regular expression to match, without saying
    which match a search prefers *)
From Verif Require Import PyBase Regex.

(** [r] can match the beginning of [s], leaving [s'], and turns captures [c] into [c'] *)
Inductive star_rel (R : str -> caps -> str -> caps -> Prop) : str -> caps -> str -> caps -> Prop :=
| sr_stop s c : star_rel R s c s c
| sr_more s c s1 c1 s2 c2 : R s c s1 c1 -> length s1 < length s -> star_rel R s1 c1 s2 c2 -> star_rel R s c s2 c2.
Fixpoint rel (r : re) (s : str) (c : caps) (s' : str) (c' : caps) {struct r} : Prop :=
  match r with
  | REps => s' = s /\ c' = c
  | RSet neg items => exists x, s = x :: s' /\ set_match neg items x = true /\ c' = c
  | RAny => exists x, s = x :: s' /\ x <> nl /\ c' = c
  | RSeq a b => exists s1 c1, rel a s c s1 c1 /\ rel b s1 c1 s' c'
  | RAlt a b => rel a s c s' c' \/ rel b s c s' c'
  | RStar _ r => star_rel (rel r) s c s' c'
  | RGroup n r => exists c1 w, rel r s c s' c1 /\ s = w ++ s' /\ c' = cap_set n w c1
  | RAhead neg r => s' = s /\ if neg then c' = c /\ (forall s1 c1, ~ rel r s c s1 c1) else exists s1, rel r s c s1 c'
  end.
