(** * Inputs: input tags, and what a parser does with a datum before it parses.
    Models _input_class (ttp/ttp.py 1425-1619), update_input for an element and for a group's input attribute (1028-1072),
    set_data's text (2363-2400), ttp/input/*.py and ttp/variable/gethostname.py, getfilename.py.

    Simplifications: an attribute value that is neither a string nor a list of strings where the code needs one is
    outside of the model (RuntimeError), and so is structured data. *)
From Verif Require Import PyBase Regex Results Template Attributes FormRegex MatchVar MatchFuncs GroupFuncs Parser Compile FuncTable Loaders Session Files.
Local Open Scope string_scope.
Local Open Scope list_scope.

Notation inp := (@input (list attribute)).
(** the object while its attributes are read *)
Record istate := {
  i_name : str; i_load : str; i_ext : list str; i_filters : list str; i_urls : list str; i_groups : list nat; i_funcs : list attribute }.
(** the keys of _ttp_["input"]; test.py's function is not loaded by its own name only *)
Definition input_names : list str := [$"extract_commands"; $"macro"; $"test"].

Section I.
Variable w : world.
Variable order : list nat -> list nat.   (* [list(set(l))]: Python leaves the order unspecified *)
Variable tgs : list tgroup.              (* the template's top groups *)
Definition str_list (v : val) : res (list str) :=
  match v with
  | VStr s => Ok [s]
  | VList l => rmap s_arg l
  | _ => out_of_model
  end.
(** extract_groups: ttp.py 1482-1510 *)
Definition group_list (v : val) : res (list str) :=
  match v with
  | VList l => rmap s_arg l
  | VStr s => Ok (comma_list s)
  | _ => Raise AttributeError
  end.
Definition strs_of_dict (d : dict) : list (str * str) :=
  flat_map (fun kv => match fst kv, snd kv with KS k, VStr v => [(k, v)] | _, _ => [] end) d.
(** extract_functions: ttp.py 1530-1554 *)
Definition input_func (fs : list attribute) (a : attribute) : res (list attribute) :=
  if str_eqb (at_name a) $"functions" then Raise AttributeError    (* get_attributes is called with a dictionary *)
  else Ok (if in_strs (at_name a) input_names then fs ++ [a] else fs).
(** get_attributes: ttp.py 1466-1595.  A key that is no string has no [lower].  [depth]: extract_load reads the
    attributes given in the element's text; those are read without a text *)
Fixpoint read_attrs (depth : nat) (text : str) (data : dict) (l : dict) (st : istate) {struct depth} : res istate :=
  match depth with
  | O => out_of_model
  | S depth =>
      rfold (fun st kv =>
        match fst kv with
        | KS k =>
            let n := lower k in let v := snd kv in
            let up name load ext fil urls gs fs :=
              {| i_name := name; i_load := load; i_ext := ext; i_filters := fil; i_urls := urls; i_groups := gs; i_funcs := fs |} in
            let '(nm, ld, ex, fi, ur, gs, fs) := (i_name st, i_load st, i_ext st, i_filters st, i_urls st, i_groups st, i_funcs st) in
            if str_eqb n $"name" then
              match v with VStr s => Ok (up (strip s) ld ex fi ur gs fs) | _ => Raise AttributeError end
            else if str_eqb n $"load" then
              match v with
              | VStr s =>
                  let st1 := up nm (strip s) ex fi ur gs fs in
                  if str_eqb (strip s) $"text" then Ok st1
                  else do o <- load_struct w text (strs_of_dict data);
                       match o with
                       | None => Ok st1
                       | Some x => if truthy x then
                                     match x with VDict d => read_attrs depth [] d d st1 | _ => Raise AttributeError end
                                   else Ok st1
                       end
              | _ => Raise AttributeError
              end
            else if str_eqb n $"groups" then
              do gl <- group_list v; Ok (up nm ld ex fi ur (extract_groups tgs nm gl) fs)
            else if str_eqb n $"extensions" then do l <- str_list v; Ok (up nm ld l fi ur gs fs)
            else if str_eqb n $"filters" then do l <- str_list v; Ok (up nm ld ex l ur gs fs)
            else if str_eqb n $"url" then do l <- str_list v; Ok (up nm ld ex fi l gs fs)
            else if str_eqb n $"functions" then
              do s <- s_arg v; do l <- get_attributes s; do fs <- rfold input_func l fs; Ok (up nm ld ex fi ur gs fs)
            else if str_eqb n $"extract_commands" then
              match v with
              | VStr s => Ok (up nm ld ex fi ur gs
                   (fs ++ [{| at_name := $"extract_commands"; at_args := map VStr (filter (fun i => negb (is_nil i)) (comma_list s)); at_kwargs := [] |}]))
              | VDict _ => out_of_model
              | _ => Ok st
              end
            else if in_strs k input_names then
              do s <- s_arg v; do l <- get_attributes (k ++ $"(" ++ s ++ $")");
              match l with a :: _ => Ok (up nm ld ex fi ur gs (fs ++ [a])) | [] => Raise IndexError end
            else Ok st
        | _ => Raise AttributeError
        end) l st
  end.
(** an input tag: ttp.py 1443-1464, 1597-1619.  [groups] and [load] are added after the other attributes *)
Definition with_default (n : str) (v : val) (d : dict) : dict := if dmem d (KS n) then d else d ++ [(KS n, v)].
Definition tag_attrs (e : elem) : dict :=
  with_default $"load" (VStr $"python") (with_default $"groups" (VList [VStr $"all"]) (map (fun kv => (KS (fst kv), VStr (snd kv))) (e_attrs e))).
(** an input object with what load_data needs to read its files *)
Record iobj := { io_ext : list str; io_filters : list str; io_urls : list str; io_input : inp }.
Definition url_data (base : str) (urls ext fil : list str) : res (list datum) :=
  do ls <- rmap (fun u => load_files w (VStr (base ++ u)) ext fil false) urls; Ok (concat ls).
Definition tag_input (base : str) (e : elem) : res (str * iobj) :=
  let nm := strip (match attr (e_attrs e) $"name" with Some n => n | None => $"Default_Input" end) in
  do st <- read_attrs 4 (e_text e) (tag_attrs e) (tag_attrs e)
             {| i_name := nm; i_load := $"python"; i_ext := []; i_filters := []; i_urls := []; i_groups := []; i_funcs := [] |};
  do data <- (if (str_eqb (i_load st) $"text" && negb (is_nil (e_text e)))%bool then Ok [TextData (e_text e)]
              else url_data base (i_urls st) (i_ext st) (i_filters st));
  Ok (i_name st, {| io_ext := i_ext st; io_filters := i_filters st; io_urls := i_urls st;
                    io_input := {| in_groups := i_groups st; in_data := data; in_funcs := i_funcs st |} |}).
(** update_input: ttp.py 1028-1055.  When an input of a name that is there comes without data, load_data reads the urls of
    the object that is there once more.  *)
Definition put_input (base : str) (l : list (str * iobj)) (n : str) (o : iobj) : res (list (str * iobj)) :=
  match aget l n with
  | None => Ok (aset l n o)
  | Some old =>
      let i := io_input old in
      do data <- (match in_data (io_input o) with
                  | [] => do more <- url_data base (io_urls old) (io_ext old) (io_filters old); Ok (in_data i ++ more)
                  | new => Ok (load_data (in_data i) new)
                  end);
      Ok (aset l n {| io_ext := io_ext old; io_filters := io_filters old; io_urls := io_urls old;
                      io_input := {| in_groups := order (in_groups i ++ in_groups (io_input o)); in_data := data; in_funcs := in_funcs i |} |})
  end.
Definition add_tag (base : str) (l : list (str * iobj)) (e : elem) : res (list (str * iobj)) :=
  do (n, o) <- tag_input base e; put_input base l n o.
(** update_inputs_with_groups: ttp.py 1057-1072 *)
Definition is_text (d : datum) : bool := match d with TextData _ => true | _ => false end.
Definition add_group_input (base : str) (l : list (str * iobj)) (n : str) : res (list (str * iobj)) :=
  match aget l n with
  | Some _ => Ok l
  | None =>
      do items <- load_files w (VStr (base ++ n)) [] [] false;
      Ok (aset l n {| io_ext := []; io_filters := []; io_urls := [];
                      io_input := {| in_groups := extract_groups tgs n [$"all"]; in_data := load_data [] (filter (fun d => negb (is_text d)) items);
                                     in_funcs := [] |} |})
  end.
(** the inputs of a template *)
Definition template_inputs (base : str) (tags : list elem) : res (list (str * iobj)) :=
  do l <- rfold (add_tag base) tags [];
  rfold (add_group_input base) (flat_map tg_inputs tgs) l.
End I.

(** ** variable functions *)
Definition hostname_res : list str :=
  [$"\n\S{1,2}:(?P<h>\S+?)[>#].*(?=\n)"; $"\n\S+:(?P<h>\S+)#.*(?=\n)"; $"\n(?P<h>\S+)#.*(?=\n)"; $"\n\S*@(?P<h>\S+)>.*(?=\n)";
   $"\n<(?P<h>\S+)>.*(?=\n)"; $"\n(?P<h>\S+)>.*(?=\n)"; $"\n(?P<h>\S+ \(\S+\)) #.*(?=\n)"].
(** the byte order marks; U+FEFF is no Latin-1 character *)
Definition boms : list str := [[chr 239; chr 187; chr 191]; [chr 254; chr 255]; [chr 255; chr 254]].
Definition strip_boms (s : str) : str := fold_left (fun s b => lstrip_p (in_chars b) s) boms s.
(** gethostname.py 9-49; [None] is False *)
Fixpoint first_host (res : list str) (text : str) : option str :=
  match res with
  | [] => None
  | p :: t =>
      match re_compile p with
      | Some r => match finditer r text with
                  | m :: _ => match cap $"h" (m_caps m) with Some h => Some (strip_boms h) | None => first_host t text end
                  | [] => first_host t text
                  end
      | None => first_host t text
      end
  end.
Definition gethostname (text : str) : option str := first_host hostname_res text.
(** [clock]: what the time functions give; [dataname]: the path of the file, or "text_data" *)
Definition var_function (clock : str -> option val) (dataname f text : str) : option val :=
  if str_eqb f $"gethostname" then option_map VStr (gethostname text)
  else if str_eqb f $"getfilename" then Some (VStr dataname)
  else clock f.

(** ** set_data *)
(** the text of a datum and its name: ttp.py 2371-2383 *)
Definition text_of (w : world) (d : datum) : res (str * str) :=
  match d with
  | TextData x => Ok (x, $"text_data")
  | FileName p =>
      do l <- load_files w (VStr p) [] [] true;
      match l with TextData x :: _ => Ok (x, p) | _ => Raise IndexError end
  | StructData _ => out_of_model
  end.
(** commands.py *)
Definition command_re (host cmd : str) : str :=
  host ++ $"[#>] *" ++ cmd ++ $" *\n([\S\s]+?)(?=" ++ host ++ $"[#>]|$)".
Fixpoint extract_commands (host : str) (cmds : list str) (text : str) : res str :=
  match cmds with
  | [] => Ok []
  | c :: t =>
      match re_compile (command_re host c) with
      | None => out_of_model
      | Some r => do rest <- extract_commands host t text;
                  Ok (match finditer r text with m :: _ => [nl] ++ m_text m ++ [nl] | [] => [] end ++ rest)
      end
  end.
(** one input function: the text it gives, and whether the next one runs.  What a macro gives: macro.py 1-12 of ttp/input;
    a text that becomes something else than a text is outside *)
Definition macro_text (ms : list (str * macro)) (text : str) (a : attribute) : res (str * bool) :=
  do b <- bind (sig [req $"macro_name"]) (at_args a) (at_kwargs a);
  do n <- s_arg (p1 b);
  match find (fun m => str_eqb (fst m) n) ms with
  | None => Ok (text, true)
  | Some m => do r <- snd m (VStr text);
              match r with
              | MVal (VBool b) => Ok (text, b)
              | MVal VNone => Ok (text, true)
              | MVal (VStr s) => Ok (s, true)
              | _ => out_of_model
              end
  end.
Definition input_call (ms : list (str * macro)) (text : str) (a : attribute) : res (str * bool) :=
  if str_eqb (at_name a) $"extract_commands" then
    do cmds <- rmap (fun v => Ok (py_str v)) (at_args a);
    match at_kwargs a, gethostname text with
    | _ :: _, _ => Raise TypeError
    | [], Some ((_ :: _) as h) => do r <- extract_commands h cmds text; Ok (match r with [] => text | _ => r end, true)
    | [], _ => Ok (text, true)
    end
  else if str_eqb (at_name a) $"test" then
    match at_args a, at_kwargs a with [], [] => Ok (text, true) | _, _ => Raise TypeError end
  else if str_eqb (at_name a) $"macro" then macro_text ms text a
  else out_of_model.
(** the input functions, one after the other: ttp.py 2378-2400 *)
Fixpoint input_text (ms : list (str * macro)) (fs : list attribute) (text : str) : res str :=
  match fs with
  | [] => Ok text
  | a :: t => do (x, go) <- input_call ms text a; if go then input_text ms t x else Ok x
  end.
