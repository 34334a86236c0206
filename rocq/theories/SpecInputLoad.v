(** * SpecInputLoad: what get_input_load gives (specification for C139). *)
From Verif Require Import PyBase Regex Template Attributes MatchVar Compile FuncTable Loaders Session SpecSession Files Inputs SpecVariable SpecAttr SpecText SpecCalls SpecFiles SpecInputs.
Local Open Scope string_scope.
Local Open Scope list_scope.

Section W.
Variable w : world.
Definition empty_value (o : option val) : Prop := o = None \/ exists x, o = Some x /\ truthy x = false.
(** [loaded n text data l p p']: reading the attributes [l], of the dictionary [data], one after the other, takes the parameters from [p] to [p'].
    Only load attributes matter: a text that loads a dictionary replaces the parameters, and then the dictionary's own attributes are read,
    which may load an included file again, [n] deep *)
Inductive loaded : nat -> str -> dict -> dict -> dict -> dict -> Prop :=
| ld_end n text data p : loaded n text data [] p p
| ld_other n text data k v l p p' : ~ same_word k "load" -> loaded n text data l p p' -> loaded n text data ((KS k, v) :: l) p p'
| ld_text n text data k s l p p' : same_word k "load" -> stripped true true white s (t_ "text") -> loaded n text data l p p' -> loaded n text data ((KS k, VStr s) :: l) p p'
| ld_nothing n text data k s r as_ o l p p' : same_word k "load" -> stripped true true white s r -> r <> t_ "text" -> text_attributes data as_ -> struct_gives w text as_ o -> empty_value o ->
    loaded n text data l p p' -> loaded n text data ((KS k, VStr s) :: l) p p'
| ld_dict n text data k s r as_ d l p p1 p' : same_word k "load" -> stripped true true white s r -> r <> t_ "text" -> text_attributes data as_ -> struct_gives w text as_ (Some (VDict d)) -> d <> [] ->
    loaded n [] d d d p1 -> loaded (S n) text data l p1 p' -> loaded (S n) text data ((KS k, VStr s) :: l) p p'.
Variable tgs : list tgroup.
(** the name and the parameters of the input that a tag makes; without any load they are {} *)
Definition tag_loads (base : str) (e : elem) (n : str) (p : dict) : Prop :=
  (exists o, tag_gives w tgs base e n o) /\ exists d, tag_has (e_attrs e) d /\ loaded 3 (e_text e) d d [] p.
End W.
(** an attribute that loads nothing *)
Definition no_load (kv : key * val) : Prop := exists k, fst kv = KS k /\ ~ same_word k "load".
(** [(n, x)] is the first of its name *)
Definition first_named {A} (l : list (str * A)) (n : str) (x : A) : Prop := exists l1 l2, l = l1 ++ (n, x) :: l2 /\ ~ In n (map fst l1).
(** the loads of the tags of a template: of two tags with the same name, the first *)
Definition loads_are (nps l : list (str * dict)) : Prop := NoDup (map fst l) /\ forall n p, In (n, p) l <-> first_named nps n p.
(** the load of an input: its tag's, or nothing *)
Definition load_is (ls : list (str * dict)) (n : str) (p : dict) : Prop := In (n, p) ls \/ ~ In n (map fst ls) /\ p = [].
Section G.
Context {Fn : Type}.
(** the dictionary of a template: from the names of its inputs to their loads *)
Definition inputs_dict (t : @template Fn) (ls : list (str * dict)) (v : val) : Prop :=
  exists d, v = VDict d /\ dwf d /\ forall k x, dget d k = Some x <-> exists n p, k = KS n /\ In n (map fst (t_inputs t)) /\ load_is ls n p /\ x = VDict p.
(** the last template of a name *)
Definition last_template (ts : list (@template Fn * list (str * dict))) (n : str) (t : @template Fn) (ls : list (str * dict)) : Prop :=
  exists ts1 ts2, ts = ts1 ++ (t, ls) :: ts2 /\ t_name t = n /\ Forall (fun x => t_name (fst x) <> n) ts2.
End G.
