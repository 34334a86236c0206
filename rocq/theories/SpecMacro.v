(** * SpecMacro: macros in match variables, groups, inputs and outputs (specification for C132). *)
From Verif Require Import PyBase Regex Template Attributes MatchVar MatchFuncs GroupFuncs Compile FuncTable Session Files Inputs OutputTags Load Run
  SpecVariable SpecAttr SpecText SpecCalls SpecInputs SpecOutputTags.
Local Open Scope string_scope.
Local Open Scope list_scope.

Section M.
Variable ms : list (str * macro).
(** a macro of a match variable: True and False decide, None changes nothing, a value with a dictionary adds fields, anything else
    is the new value *)
Inductive match_macro (n : str) (d : val) : val * mflag -> Prop :=
| mm_unknown : ~ In n (map fst ms) -> match_macro n d (d, FNone)
| mm_bool f b : defined ms n f -> f d = Ok (MVal (VBool b)) -> match_macro n d (d, FBool b)
| mm_none f : defined ms n f -> f d = Ok (MVal VNone) -> match_macro n d (d, FNone)
| mm_value f v : defined ms n f -> f d = Ok (MVal v) -> (forall b, v <> VBool b) -> v <> VNone -> match_macro n d (v, FNone)
| mm_fields f v new : defined ms n f -> f d = Ok (MTuple [v; VDict new]) -> match_macro n d (v, FNew new)
| mm_tuple f l : defined ms n f -> f d = Ok (MTuple l) -> (forall v new, l <> [v; VDict new]) -> match_macro n d (VObj 0, FNone).
(** macros of a group, one after the other.  False drops the group's results; what equals True, and None, changes nothing *)
Definition names_given (args names : list str) : Prop := exists pss, Forall2 (cut_at [","%char]) args pss /\ Forall2 (stripped true true white) (concat pss) names.
Definition goes_on (v : val) : Prop := v = VBool true \/ v = VInt 1 \/ v = VNone.
Inductive group_macros : list str -> val -> val -> bool -> Prop :=
| gm_end v : group_macros [] v v true
| gm_unknown n l v v' ok : ~ In n (map fst ms) -> group_macros l v v' ok -> group_macros (n :: l) v v' ok
| gm_drop n f l v : defined ms n f -> f v = Ok (MVal (VBool false)) -> group_macros (n :: l) v v false
| gm_same n f l v r v' ok : defined ms n f -> f v = Ok (MVal r) -> goes_on r -> group_macros l v v' ok -> group_macros (n :: l) v v' ok
| gm_new n f l v r v' ok : defined ms n f -> f v = Ok (MVal r) -> r <> VBool false -> ~ goes_on r -> group_macros l r v' ok -> group_macros (n :: l) v v' ok.
(** a macro of an input: the new text, and whether the input's next functions run *)
Inductive input_macro (n text : str) : str -> bool -> Prop :=
| im_unknown : ~ In n (map fst ms) -> input_macro n text text true
| im_bool f b : defined ms n f -> f (VStr text) = Ok (MVal (VBool b)) -> input_macro n text text b
| im_none f : defined ms n f -> f (VStr text) = Ok (MVal VNone) -> input_macro n text text true
| im_text f s : defined ms n f -> f (VStr text) = Ok (MVal (VStr s)) -> input_macro n text s true.
End M.
(** the functions of an input, one after the other, until one says stop *)
Inductive inputs_run (call : attribute -> str -> str -> bool -> Prop) : list attribute -> str -> str -> Prop :=
| ir_end text : inputs_run call [] text text
| ir_next a l text t t' : call a text t true -> inputs_run call l t t' -> inputs_run call (a :: l) text t'
| ir_stop a l text t : call a text t false -> inputs_run call (a :: l) text t.
Definition macro_call (names : list str) : attribute := {| at_name := t_ "macro"; at_args := map VStr names; at_kwargs := [] |}.
(** the macros that the outputs of a template with the number [i] see: its own; if it has none, those of the nearest template before it
    that has macros and outputs; if there is none, those of the last template *)
Inductive outputs_see (ts : list tpl) (i : nat) : list (str * macro) -> Prop :=
| os_own t : nth_error ts i = Some t -> tp_macros t <> [] -> tp_outputs t <> [] -> outputs_see ts i (tp_macros t)
| os_before t j u : nth_error ts i = Some t -> tp_macros t = [] \/ tp_outputs t = [] -> j < i -> nth_error ts j = Some u -> tp_macros u <> [] -> tp_outputs u <> [] ->
    (forall k v, j < k < i -> nth_error ts k = Some v -> tp_macros v = [] \/ tp_outputs v = []) -> outputs_see ts i (tp_macros u)
| os_last t u : nth_error ts i = Some t -> (forall k v, k <= i -> nth_error ts k = Some v -> tp_macros v = [] \/ tp_outputs v = []) -> nth_error ts (pred (length ts)) = Some u -> outputs_see ts i (tp_macros u).
