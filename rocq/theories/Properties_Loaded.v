(** * C131: what loading a template makes of its text. *)
From Verif Require Import PyBase Regex Results Template Attributes FormRegex MatchVar MatchFuncs GroupFuncs Parser Compile FuncTable Loaders Xml Session Files Inputs OutputTags Load
  SpecAttr SpecVariable SpecFiles SpecInputs SpecOutputTags SpecMade SpecJson SpecLoaded.
From Verif Require Import LoadedFacts LoadedFacts2.
Local Open Scope string_scope.
Local Open Scope list_scope.

(** the world of the examples: files to extend with, and one macro *)
Definition upper_macro : macro := fun v => Ok (match v with VStr s => MVal (VStr (map (fun c => if N.leb 97 (code c) && N.leb (code c) 122 then chr (code c - 32) else c)%bool s)) | _ => MVal v end).
Definition w131 : world :=
  {| w_file := fun p => if str_eqb p (t_ "text.txt") then Some (t_ "inside {{ b }}") else if str_eqb p (t_ "tags.txt") then Some (t_ "<group name=""g2"">" ++ [nl] ++ t_ "A {{ a }}" ++ [nl] ++ t_ "</group><vars>x = 1</vars>")
       else if str_eqb p (t_ "bad.txt") then Some (t_ "<group>") else None;
     w_dir := fun _ => None; w_tdir := None;
     w_exec := fun t => if str_eqb t (t_ "def up...") then Ok (Some [(t_ "up", upper_macro)]) else if str_eqb t (t_ "def up(") then Ok None else out_of_model |}.
Definition load131 (s : list string) : str := concat (map (fun x => t_ x ++ [nl]) s).

(** the bytes of a text as Python shows them *)
Theorem C131_bytes : forall s r, bytes_repr s = r <-> bytes_shown s r.
Proof. exact bytes_iff. Qed.
Print Assumptions C131_bytes.
Example C131_bytes_case : bytes_shown (t_ "a'\" ++ [chr 10; chr 7; chr 233]) (t_ "b""a'\\\n\x07\xc3\xa9""") /\ bytes_shown (t_ "'""") (t_ "b'\'""'").
Proof. split; apply C131_bytes; reflexivity. Qed.

(** the tree of a template's text: it is wrapped if need be, its macro tags run, its extend tags are replaced, and it is
    written and read again.  Every other text fails *)
Theorem C131_tree : forall w t e, template_tree w t = Ok e <-> tree_of w t e.
Proof. exact tree_iff. Qed.
Print Assumptions C131_tree.
Example C131_tree_case :
  (* a text without tags is one group *)
  tree_of w131 (t_ "A {{ a }}") (Elem (t_ "template") [] [] [Elem (t_ "group") [(t_ "name", t_ "_anonymous_")] ([nl] ++ t_ "A {{ a }}" ++ [nl]) [] []] []) /\
  (* extend tags of both kinds *)
  tree_of w131 (load131 ["<group name=""g1"">"; "B {{ b }}"; "<extend template=""text.txt""/>"; "</group>"; "<extend template=""tags.txt"" groups=""0""/>"])
    (match template_tree w131 (load131 ["<group name=""g1"">"; "B {{ b }}"; "<extend template=""text.txt""/>"; "</group>"; "<extend template=""tags.txt"" groups=""0""/>"]) with Ok e => e | Raise _ => Elem [] [] [] [] [] end) /\
  match template_tree w131 (load131 ["<group name=""g1"">"; "B {{ b }}"; "<extend template=""text.txt""/>"; "</group>"; "<extend template=""tags.txt"" groups=""0""/>"]) with
  | Ok e => map e_text (e_children e) = [[nl] ++ t_ "B {{ b }}" ++ [nl; nl] ++ t_ "inside {{ b }}" ++ [nl]; [nl] ++ t_ "A {{ a }}" ++ [nl]; t_ "x = 1"]
  | Raise _ => False
  end /\
  (* the macro of an extend tag changes the text that is loaded *)
  match template_tree w131 (load131 ["<macro>def up...</macro>"; "<group name=""g1"">"; "B {{ b }}"; "<extend template=""text.txt"" macro=""up""/>"; "</group>"; "<group name=""g2"">"; "C {{ c }}"; "<extend template=""text.txt"" macro=""other""/>"; "</group>"]) with
  | Ok e => map e_text (e_children e) = [t_ "def up..."; [nl] ++ t_ "B {{ b }}" ++ [nl; nl] ++ t_ "INSIDE {{ B }}" ++ [nl]; [nl] ++ t_ "C {{ c }}" ++ [nl; nl] ++ t_ "inside {{ b }}" ++ [nl]]
  | Raise _ => False
  end /\
  (* a text cannot be added where there is none *)
  (forall e, ~ tree_of w131 (t_ "<template><extend template=""text.txt""/></template>") e) /\
  (* what cannot be loaded or read, and macro tags without a text *)
  (forall e, ~ tree_of w131 (t_ "<extend template=""other.txt""/>") e) /\ (forall e, ~ tree_of w131 (t_ "<extend template=""bad.txt""/>") e) /\ (forall e, ~ tree_of w131 (t_ "<macro/>") e).
Proof.
  split; [apply C131_tree; vm_compute; reflexivity|]. split; [apply C131_tree; vm_compute; reflexivity|]. split; [vm_compute; reflexivity|]. split; [vm_compute; reflexivity|].
  repeat split; intros e K; apply C131_tree in K; vm_compute in K; discriminate K.
Qed.

(** variables tags: one after the other; a name puts the variables into the results *)
Theorem C131_vars : forall w es v p v' p', rfold (parse_vars w) es (v, p) = Ok (v', p') <-> vars_read w es v p v' p'.
Proof. exact vars_iff. Qed.
Print Assumptions C131_vars.
Definition el131 (n : string) (attrs : list (string * string)) (text : str) : elem := Elem (t_ n) (map (fun kv => (t_ (fst kv), t_ (snd kv))) attrs) text [] [].
Example C131_vars_case :
  vars_read w131 [el131 "vars" [("name", "p.q")] (load131 ["a = 1"; "b = 'x'"]); el131 "vars" [] (t_ "c = 'get_time'"); el131 "vars" [] []; el131 "vars" [("name", "p.q")] (load131 ["a = 2"])]
    [(KS (t_ "z"), VNone)] [] [(KS (t_ "z"), VNone); (KS (t_ "a"), VInt 2); (KS (t_ "b"), VStr (t_ "x")); (KS (t_ "c"), VStr (t_ "get_time"))] [(t_ "p.q", [t_ "a"; t_ "b"; t_ "a"])].
Proof. apply C131_vars. vm_compute. reflexivity. Qed.

(** lookup tags *)
Theorem C131_lookups : forall w es d d', rfold (parse_lookup w) es d = Ok d' <-> lookups_read w es d d'.
Proof. exact lookups_iff. Qed.
Print Assumptions C131_lookups.
Example C131_lookups_case :
  lookups_read w131 [el131 "lookup" [("name", "l1"); ("load", "csv")] (load131 ["k,v"; "1,2"]); el131 "lookup" [] (t_ "a = 1"); el131 "lookup" [("name", "l2")] []; el131 "lookup" [("name", "l3")] (t_ "a = 1")]
    [] [(KS (t_ "l1"), VDict [(KS (t_ "1"), VDict [(KS (t_ "v"), VStr (t_ "2"))])]); (KS (t_ "l3"), VDict [(KS (t_ "a"), VInt 1)])].
Proof. apply C131_lookups. vm_compute. reflexivity. Qed.

(** macro tags *)
Theorem C131_macros : forall w cs ms ms', rfold (collect_tag w) cs ms = Ok ms' <-> collects w cs ms ms'.
Proof. exact collects_iff. Qed.
Print Assumptions C131_macros.
Example C131_macros_case :
  collects w131 [el131 "macro" [] (t_ "def up..."); el131 "doc" [] (t_ "text"); el131 "Macro" [] (t_ "def up("); el131 "macros" [] []] [] [(t_ "up", upper_macro)] /\
  (forall ms, ~ collects w131 [el131 "doc" [] []] [] ms) /\ (forall ms, ~ collects w131 [el131 "Macro" [] []] [] ms).
Proof. split; [apply C131_macros; reflexivity|]. split; intros ms K; apply C131_macros in K; vm_compute in K; discriminate K. Qed.

(** a template with what a child template becomes given by any function *)
Theorem C131_template : forall w order base kid ttp_vars name e kids t,
  load_tree w order base kid ttp_vars name e = Ok (kids, t) <-> template_from w order (fun b i c k => kid b i c = Ok k) base ttp_vars name e kids t.
Proof. exact template_iff. Qed.
Print Assumptions C131_template.
Theorem C131_child : forall w order n ttp_vars base i c t, load_child w order n base ttp_vars i c = Ok t <-> child_from w order n ttp_vars base i c t.
Proof. exact child_iff. Qed.
Print Assumptions C131_child.
(** the whole: the text of a template gives these templates, or fails *)
Theorem C131_load : forall w order base ttp_vars text ts, load_template w order base ttp_vars text = Ok ts <-> template_is w order base ttp_vars text ts.
Proof. exact load_iff. Qed.
Print Assumptions C131_load.
Definition text131 : str := load131
  ["<template name=""top"" results=""per_template"" pathchar=""/"">"; "<macro>def up...</macro>"; "<vars name=""v"">"; "a = 1"; "t = 'get_time'"; "</vars>"; "<lookup name=""l"" load=""csv"">"; "k,v"; "1,2"; "</lookup>";
   "<group name=""g1"" output=""o1"">"; "A {{ a | macro(""up"") }}"; "</group>"; "<g name=""g2"">"; "B {{ b }}"; "</g>"; "<output name=""o1"" format=""json""/>"; "<out/>"; "<input load=""text"">"; "A x"; "</input>"; "</template>"].
Example C131_load_case :
  match load_template w131 (fun l => l) (t_ "/base/") [(KS (t_ "z"), VInt 0)] text131 with
  | Ok [t] => tp_name t = t_ "top" /\ tp_method t = t_ "per_template" /\ tp_pathchar t = t_ "/" /\ tp_vars t = [(KS (t_ "z"), VInt 0); (KS (t_ "a"), VInt 1)] /\
      tp_v2r t = [(t_ "v", [t_ "a"; t_ "t"])] /\ tp_vfs t = [(KS (t_ "t"), t_ "get_time")] /\ map fst (tp_lookups t) = [KS (t_ "l")] /\ length (tp_groups t) = 2 /\
      tp_inputs t = [(t_ "Default_Input", {| in_groups := [0; 1]; in_data := [TextData ([nl] ++ t_ "A x" ++ [nl])]; in_funcs := [] |})] /\
      map fst (tp_macros t) = [t_ "up"] /\ length (tp_outputs t) = 1 /\ map (@length _) (tp_gouts t) = [1; 0] /\
      template_is w131 (fun l => l) (t_ "/base/") [(KS (t_ "z"), VInt 0)] text131 [t]
  | _ => False
  end.
Proof.
  destruct (load_template w131 (fun l => l) (t_ "/base/") [(KS (t_ "z"), VInt 0)] text131) as [ts|] eqn:E; [|vm_compute in E; discriminate E].
  assert (T := proj1 (C131_load _ _ _ _ _ _) E). vm_compute in E. injection E as <-. repeat (split; [vm_compute; reflexivity|]). exact T.
Qed.
(** child templates are what counts; they are numbered, and their own child templates are lost *)
Definition text131b : str := load131
  ["<template>"; "<vars>a = 1</vars>"; "<template>"; "<group name=""x"">"; "A {{ a }}"; "</group>"; "</template>"; "<template name=""second"" base_path=""/b/"">"; "<group name=""y"">"; "B {{ b }}"; "</group>";
   "<template>"; "C {{ c }}"; "</template>"; "</template>"; "<TEMPLATE>"; "D é {{ d }}"; "</TEMPLATE>"; "</template>"].
Example C131_children_case :
  match load_template w131 (fun l => l) [] [] text131b with
  | Ok ts => map tp_name ts = [t_ "0"; t_ "second"; t_ "2"] /\ map (fun t => length (tp_groups t)) ts = [1; 1; 1] /\ map tp_vars ts = [[]; []; []]
  | Raise _ => False
  end.
Proof. vm_compute. repeat split. Qed.
