(** * C126: files, JSON, Python and the loaders of vars and lookup tags. *)
From Verif Require Import PyBase Regex SpecRegex Template Attributes MatchVar Compile FuncTable Loaders Session Files SpecVariable SpecAttr SpecText SpecFiles.
From Verif Require Import FileFacts JsonFacts PythonFacts.
Local Open Scope string_scope.
Local Open Scope list_scope.

(** what a path stands for *)
Theorem C126_files : forall w path exts filters read l, load_files w path exts filters read = Ok l <-> loads w exts filters read path l.
Proof. exact loads_iff. Qed.
Print Assumptions C126_files.
Example C126_files_case :
  let w := {| w_file := fun p => if str_eqb p (t_ "data/a.txt") then Some (t_ "A") else if str_eqb p (t_ "data/b.log") then Some (t_ "B") else None;
              w_dir := fun p => if str_eqb p (t_ "data") then Some [t_ "a.txt"; t_ "b.log"; t_ "sub"] else None; w_tdir := None; w_exec := fun _ => out_of_model |} in
  load_files w (VStr (t_ "data")) [] [] true = Ok [TextData (t_ "A"); TextData (t_ "B")] /\
  load_files w (VStr (t_ "data")) [t_ "txt"] [] false = Ok [FileName (t_ "data/a.txt")] /\
  load_files w (VStr (t_ "data")) [] [t_ "b"] true = Ok [TextData (t_ "B")] /\
  load_files w (VStr (t_ "data/a.txt")) [] [] true = Ok [TextData (t_ "A")] /\
  load_files w (VStr (t_ "text")) [] [] true = Ok [TextData (t_ "text")].
Proof. vm_compute. repeat split. Qed.

(** JSON: the texts and their values *)
Theorem C126_json : forall s v, json_loads s = Ok v <-> json_text s v.
Proof. exact json_iff. Qed.
Print Assumptions C126_json.
Theorem C126_json_error : forall s, (forall v, ~ json_text s v) -> ~ extended s -> json_loads s = Raise ValueError.
Proof. exact bad_json. Qed.
Print Assumptions C126_json_error.
Definition q126 (s : string) : str := map (fun c => if Ascii.eqb c "'" then chr 34 else c) (t_ s).
Example C126_json_case :
  json_loads (q126 " {'a': [1, -20, null], 'b': {'c': true}, 'a': 'x\ty\n'} ") = Ok (VDict [(KS (t_ "a"), VStr (t_ "x" ++ [tab] ++ t_ "y" ++ [nl])); (KS (t_ "b"), VDict [(KS (t_ "c"), VBool true)])]) /\
  json_loads (t_ "[1, 2") = Raise ValueError /\ json_loads (t_ "012") = Raise ValueError /\ json_loads (t_ "-0") = Ok (VInt 0).
Proof. vm_compute. repeat split. Qed.
Example C126_json_error_case : (forall v, ~ json_text (t_ "[1 2]") v) /\ ~ extended (t_ "[1 2]").
Proof.
  split.
  - intros v K. apply C126_json in K. vm_compute in K. discriminate.
  - intros K. remember (t_ "[1 2]") as s eqn:E. destruct K as [a w b I|a d c b D I].
    + cbn in I. destruct I as [<-|[<-|[<-|[]]]]; do 6 (destruct a as [|? a]; [discriminate E|injection E as _ E || discriminate E]).
    + do 6 (destruct a as [|? a]; [first [discriminate E | injection E as -> -> ->; cbn in I; intuition discriminate]|first [discriminate E | injection E as _ E]]).
Qed.

(** Python: assignments of literals to names or one literal *)
Theorem C126_python : forall s v, load_python s = Ok v <-> python_gives s v.
Proof. exact python_iff. Qed.
Print Assumptions C126_python.
Example C126_python_case :
  load_python (t_ "a = 1" ++ [nl] ++ t_ "# note" ++ [nl] ++ t_ "b = [" ++ [nl] ++ t_ "  'x'," ++ [nl; nl] ++ t_ "  None]" ++ [nl]) = Ok (VDict [(KS (t_ "a"), VInt 1); (KS (t_ "b"), VList [VStr (t_ "x"); VNone])]) /\
  load_python (t_ "{'k':" ++ [nl] ++ t_ "(2)}") = Ok (VDict [(KS (t_ "k"), VInt 2)]) /\ load_python [nl; space] = Ok (VDict []).
Proof. vm_compute. repeat split. Qed.

(** the loaders *)
Theorem C126_load : forall w text attrs o, load_struct w text attrs = Ok o <-> struct_gives w text attrs o.
Proof. exact struct_iff. Qed.
Print Assumptions C126_load.
Theorem C126_unknown : forall w text attrs, text <> [] \/ attribute_of attrs "include" <> None ->
  ~ word_in (loader attrs) ["python"; "csv"; "json"; "text"; "ini"; "yaml"] -> load_struct w text attrs = Raise KeyError.
Proof. exact no_loader. Qed.
Print Assumptions C126_unknown.
Example C126_load_case :
  let w := {| w_file := fun p => if str_eqb p (t_ "f.py") then Some (t_ "b = 2") else None; w_dir := fun _ => None; w_tdir := None; w_exec := fun _ => out_of_model |} in
  load_struct w (t_ "a = 1") [(t_ "include", t_ "f.py")] = Ok (Some (VDict [(KS (t_ "a"), VInt 1); (KS (t_ "b"), VInt 2)])) /\
  load_struct w (t_ "a = 1") [(t_ "load", t_ "TEXT")] = Ok (Some (VStr (t_ "a = 1"))) /\
  load_struct w (t_ "[1]") [(t_ "load", t_ "Json")] = Ok (Some (VList [VInt 1])) /\
  load_struct w (t_ "x") [(t_ "load", t_ "xml")] = Raise KeyError /\ load_struct w [] [] = Ok None.
Proof. vm_compute. repeat split. Qed.
