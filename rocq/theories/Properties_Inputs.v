(** * C127: input tags. *)
From Verif Require Import PyBase Regex Template Attributes MatchVar Compile FuncTable Loaders Session SpecSession Files Inputs SpecVariable SpecAttr SpecText SpecCalls SpecFiles SpecInputs.
From Verif Require Import InputFacts.
Local Open Scope string_scope.
Local Open Scope list_scope.

(** an input tag gives the input that its attributes and its text say, and nothing else *)
Theorem C127_tag : forall w tgs base e n o, tag_input w tgs base e = Ok (n, o) <-> tag_gives w tgs base e n o.
Proof. exact tag_iff. Qed.
Print Assumptions C127_tag.
Definition w127 : world :=
  {| w_file := fun p => if str_eqb p (t_ "/d/a.txt") then Some (t_ "A") else if str_eqb p (t_ "/d/b.log") then Some (t_ "B") else if str_eqb p (t_ "inc.json") then Some (t_ "{}") else None;
     w_dir := fun p => if str_eqb p (t_ "/d") then Some [t_ "a.txt"; t_ "b.log"] else None; w_tdir := None; w_exec := fun _ => out_of_model |}.
Definition groups127 : list tgroup :=
  [{| tg_index := 0; tg_name := t_ "interfaces"; tg_inputs := [] |}; {| tg_index := 1; tg_name := t_ "vlans"; tg_inputs := [t_ "routers"] |};
   {| tg_index := 2; tg_name := t_ "arp"; tg_inputs := [] |}].
Definition tag127 (attrs : list (string * string)) (text : str) : elem := Elem (t_ "input") (map (fun kv => (t_ (fst kv), t_ (snd kv))) attrs) text [] [].
Definition made127 (gs : list nat) (ds : list datum) (fs : list attribute) (urls exts : list str) : iobj :=
  {| io_ext := exts; io_filters := []; io_urls := urls; io_input := {| in_groups := gs; in_data := ds; in_funcs := fs |} |}.
Definition commands127 (l : list str) : attribute := {| at_name := t_ "extract_commands"; at_args := map VStr l; at_kwargs := [] |}.
Example C127_tag_case :
  (* a text; by default all groups that name no input *)
  tag_input w127 groups127 [] (tag127 [("load", "text")] (t_ "hello")) = Ok (t_ "Default_Input", made127 [0; 2] [TextData (t_ "hello")] [] [] []) /\
  (* group 1 names the input "routers": it alone is used *)
  tag_input w127 groups127 [] (tag127 [("name", " routers "); ("groups", "arp, interfaces"); ("load", "text"); ("extract_commands", "show run, ,show ver")] (t_ "x"))
    = Ok (t_ "routers", made127 [1] [TextData (t_ "x")] [commands127 [t_ "show run"; t_ "show ver"]] [] []) /\
  (* attributes in the text: the files of a directory *)
  tag_input w127 groups127 (t_ "/") (tag127 [("name", "dir")] (t_ "url = 'd'" ++ [nl] ++ t_ "extensions = ['txt']" ++ [nl] ++ t_ "groups = ['arp']"))
    = Ok (t_ "dir", made127 [2] [FileName (t_ "/d/a.txt")] [] [t_ "d"] [t_ "txt"]) /\
  (* the text's attributes are read where the load attribute stands *)
  tag_input w127 groups127 (t_ "/") (tag127 [("name", "dir"); ("groups", "vlans,arp, interfaces")] (t_ "url = ['d/a.txt', 'd/b.log']"))
    = Ok (t_ "dir", made127 [0; 2] [FileName (t_ "/d/a.txt"); FileName (t_ "/d/b.log")] [] [t_ "d/a.txt"; t_ "d/b.log"] []).
Proof. vm_compute. repeat split. Qed.

(** what the attributes of a tag do, one after the other *)
Theorem C127_attributes : forall w tgs n text data l st st', read_attrs w tgs (S n) text data l st = Ok st' <-> tag_reads w tgs n text data l st st'.
Proof. exact reads_iff. Qed.
Print Assumptions C127_attributes.
Example C127_attributes_case :
  read_attrs w127 groups127 1 [] [] [(KS (t_ "Name"), VStr (t_ " a ")); (KS (t_ "filters"), VStr (t_ "x.*")); (KS (t_ "other"), VNone); (KS (t_ "Groups"), VStr (t_ "arp ,vlans"))] (new_input (t_ "q"))
    = Ok {| i_name := t_ "a"; i_load := t_ "python"; i_ext := []; i_filters := [t_ "x.*"]; i_urls := []; i_groups := [2]; i_funcs := [] |} /\
  read_attrs w127 groups127 1 [] [] [(KS (t_ "functions"), VStr (t_ "extract_commands('show ip') | strip | test"))] (new_input (t_ "q"))
    = Ok {| i_name := t_ "q"; i_load := t_ "python"; i_ext := []; i_filters := []; i_urls := []; i_groups := [];
            i_funcs := [commands127 [t_ "show ip"]; {| at_name := t_ "test"; at_args := []; at_kwargs := [] |}] |}.
Proof. vm_compute. repeat split. Qed.

(** two tags of the same name are one input *)
Theorem C127_same_name : forall w order base l n o l', put_input w order base l n o = Ok l' <-> puts w order base l n o l'.
Proof. exact puts_iff. Qed.
Print Assumptions C127_same_name.
(** all inputs of a template: the tags', then those that only groups name, which are paths *)
Theorem C127_inputs : forall w tgs order base tags l, template_inputs w order tgs base tags = Ok l <-> inputs_are w tgs order base tags l.
Proof. exact inputs_iff. Qed.
Print Assumptions C127_inputs.
Definition once127 (l : list nat) : list nat := nodup PeanoNat.Nat.eq_dec l.
Example C127_inputs_case :
  let routers := {| tg_index := 3; tg_name := t_ "x"; tg_inputs := [t_ "/d"; t_ "b"] |} in
  template_inputs w127 once127 (groups127 ++ [routers]) []
    [tag127 [("name", "a"); ("groups", "arp"); ("load", "text")] (t_ "one"); tag127 [("name", "b"); ("load", "text")] (t_ "two"); tag127 [("load", "text"); ("name", "a"); ("groups", "arp,vlans")] (t_ "three");
     tag127 [("load", "text"); ("name", "a")] (t_ "one")]
  = Ok [(t_ "a", made127 [0; 2] [TextData (t_ "one"); TextData (t_ "three")] [] [] []); (t_ "b", made127 [3] [TextData (t_ "two")] [] [] []);
        (t_ "routers", made127 [1] [] [] [] []); (t_ "/d", made127 [3] [FileName (t_ "/d/a.txt"); FileName (t_ "/d/b.log")] [] [] [])].
Proof. vm_compute. repeat split. Qed.
