(** * C132: macros called by match variables, groups, inputs and outputs. *)
From Verif Require Import PyBase Regex Template Attributes MatchVar MatchFuncs GroupFuncs Parser Compile FuncTable Results Session Files Inputs OutputTags Load Run
  SpecVariable SpecAttr SpecText SpecCalls SpecInputs SpecOutputTags SpecMacro.
From Verif Require Import MacroRun Properties_Loaded.
Local Open Scope string_scope.
Local Open Scope list_scope.

Definition ms132 : list (str * macro) :=
  [(t_ "up", upper_macro); (t_ "yes", fun _ => Ok (MVal (VBool true))); (t_ "no", fun _ => Ok (MVal (VBool false))); (t_ "nothing", fun _ => Ok (MVal VNone));
   (t_ "pair", fun v => Ok (MTuple [v; VDict [(KS (t_ "more"), VInt 1)]])); (t_ "one", fun _ => Ok (MVal (VInt 1))); (t_ "keys", fun v => Ok (MVal (match v with VDict d => VList (map (fun kv => snd kv) d) | _ => VNone end)));
   (t_ "up", fun _ => Ok (MVal (VInt 0)))].

(** in a match variable *)
Theorem C132_match : forall ms d n r, f_macro ms d n = Ok r <-> match_macro ms n d r.
Proof. intros. apply match_macro_iff. Qed.
Print Assumptions C132_match.
Example C132_match_case :
  match_macro ms132 (t_ "up") (VStr (t_ "ab1")) (VStr (t_ "AB1"), FNone) /\ match_macro ms132 (t_ "no") (VInt 3) (VInt 3, FBool false) /\ match_macro ms132 (t_ "nothing") (VInt 3) (VInt 3, FNone) /\
  match_macro ms132 (t_ "pair") (VInt 3) (VInt 3, FNew [(KS (t_ "more"), VInt 1)]) /\ match_macro ms132 (t_ "other") (VInt 3) (VInt 3, FNone).
Proof. repeat split; apply C132_match; vm_compute; reflexivity. Qed.

(** in a group: its arguments are names, and lists of names with commas between them *)
Theorem C132_group : forall ms args st st' ok,
  g_macro (g_macros ms) args st = Ok (st', ok) <-> exists names v, names_given args names /\ group_macros ms names (fs_data st) v ok /\ st' = with_data st v.
Proof. exact group_iff. Qed.
Print Assumptions C132_group.
Example C132_group_case :
  names_given [t_ "up, yes"; t_ "no"] [t_ "up"; t_ "yes"; t_ "no"] /\
  group_macros ms132 [t_ "yes"; t_ "other"; t_ "one"; t_ "keys"; t_ "nothing"] (VDict [(KS (t_ "a"), VInt 5)]) (VList [VInt 5]) true /\
  group_macros ms132 [t_ "keys"; t_ "no"; t_ "up"] (VDict [(KS (t_ "a"), VInt 5)]) (VList [VInt 5]) false.
Proof. split; [apply (proj1 (names_iff _ _)); vm_compute; reflexivity|]. split; apply (proj1 (group_macros_iff _ _ _ _ _)); vm_compute; reflexivity. Qed.

(** in an input: what the macro makes of the text, and whether the input's other functions run *)
Theorem C132_input : forall ms n text t go, input_call ms text (macro_call [n]) = Ok (t, go) <-> input_macro ms n text t go.
Proof. intros. apply input_macro_iff. Qed.
Print Assumptions C132_input.
Example C132_input_case : input_macro ms132 (t_ "up") (t_ "ab") (t_ "AB") true /\ input_macro ms132 (t_ "no") (t_ "ab") (t_ "ab") false /\ forall t go, ~ input_macro ms132 (t_ "one") (t_ "ab") t go.
Proof. repeat split; try (apply C132_input; vm_compute; reflexivity). intros t go K. apply C132_input in K. vm_compute in K. discriminate K. Qed.

(** the functions of an input, until one of them says stop *)
Theorem C132_inputs : forall ms fs text t, input_text ms fs text = Ok t <-> inputs_run (fun a x y go => input_call ms x a = Ok (y, go)) fs text t.
Proof. intros. apply inputs_run_iff. Qed.
Print Assumptions C132_inputs.
Example C132_inputs_case : inputs_run (fun a x y go => input_call ms132 x a = Ok (y, go)) [macro_call [t_ "yes"]; macro_call [t_ "up"]; macro_call [t_ "no"]; macro_call [t_ "one"]] (t_ "ab") (t_ "AB").
Proof. apply C132_inputs. vm_compute. reflexivity. Qed.

(** in the outputs of the templates: the macros that they see *)
Theorem C132_outputs : forall ts i t, nth_error ts i = Some t -> exists ms, outputs_see ts i ms /\ (forall ms', outputs_see ts i ms' -> ms' = ms) /\ nth_error (ss_templates (session_of ts)) i = Some (template_of ms (i, t)).
Proof. exact outputs_macros. Qed.
Print Assumptions C132_outputs.

(** the whole program: match variable, group, input and output macros *)
Definition w132 : world := {| w_file := fun _ => None; w_dir := fun _ => None; w_tdir := None; w_exec := fun _ => Ok (Some ms132) |}.
Definition run132 (s : list string) : res val := ttp_result (fun _ => None) false sort_set w132 [] [] (load131 s) [(VStr (load131 ["port a1 up"; "port b2 down"]), t_ "_all_")] (t_ "list").
Example C132_case :
  run132 ["<macro>"; "text"; "</macro>"; "<group name=""p*"">"; "port {{ n | macro('up') }} {{ s | macro(""pair"") }}"; "</group>"] =
    Ok (VList [VList [VDict [(KS (t_ "p"), VList [VDict [(KS (t_ "n"), VStr (t_ "A1")); (KS (t_ "s"), VStr (t_ "up")); (KS (t_ "more"), VInt 1)]; VDict [(KS (t_ "n"), VStr (t_ "B2")); (KS (t_ "s"), VStr (t_ "down")); (KS (t_ "more"), VInt 1)]])]]]) /\
  run132 ["<macro>"; "text"; "</macro>"; "<group name=""p*"" macro=""yes, keys"">"; "port {{ n }} {{ s }}"; "</group>"] =
    Ok (VList [VList [VDict [(KS (t_ "p"), VList [VList [VStr (t_ "a1"); VStr (t_ "up")]; VList [VStr (t_ "b2"); VStr (t_ "down")]])]]]) /\
  run132 ["<macro>"; "text"; "</macro>"; "<group name=""p*"" macro=""no"">"; "port {{ n }} {{ s }}"; "</group>"] = Ok (VList [VList [VDict []]]) /\
  run132 ["<macro>"; "text"; "</macro>"; "<group name=""p"">"; "port {{ n }} up"; "</group>"; "<output macro=""one""/>"] = Ok (VList [VInt 1]).
Proof. vm_compute. auto. Qed.
(** an output of a template without macros sees the macros of another template *)
Example C132_limits :
  run132 ["<template>"; "<macro>"; "text"; "</macro>"; "<group name=""p"">"; "port {{ n }} up"; "</group>"; "<output macro=""one""/>"; "</template>";
          "<template>"; "<group name=""p"">"; "port {{ n }} down"; "</group>"; "<output macro=""one""/>"; "</template>"] = Ok (VList [VInt 1; VInt 1]) /\
  run132 ["<template>"; "<group name=""p"">"; "port {{ n }} up"; "</group>"; "<output macro=""one""/>"; "</template>"] = Ok (VList [VList [VDict [(KS (t_ "p"), VDict [(KS (t_ "n"), VStr (t_ "a1"))])]]]).
Proof. vm_compute. auto. Qed.
