(** * Files: the file system, load_files and the loaders of structured text.
    Models ttp/utils/loaders.py 1-300 and ttp/utils/load_python_exec_py3.py.

    Simplifications.  The file system is a constant [world]; a file's content is its text after decoding and newline
    translation.  Outside of the model (RuntimeError): ttp:// paths, the ini and yaml loaders, floating point numbers and
    characters above U+00FF in JSON.  Python code is a list of assignments of literals to names, or one literal; its
    triple quoted strings, computed values and comments after a statement are outside too. *)
From Verif Require Import PyBase Regex Results Template Attributes FormRegex MatchVar MatchFuncs GroupFuncs Parser Compile FuncTable Loaders Session.
Local Open Scope string_scope.
Local Open Scope list_scope.

(** ** files *)
(** the content of a file and the names in a directory ([None]: there is none at that path); TTP_TEMPLATES_DIR *)
(** [w_exec]: what running a text as Python code defines, functions by name (load_python_exec_py3.py, with builtins);
    None for a SyntaxError *)
Definition macro := val -> res mret.
Record world := { w_file : str -> option str; w_dir : str -> option (list str); w_tdir : option str; w_exec : str -> res (option (list (str * macro))) }.
Definition no_files : world := {| w_file := fun _ => None; w_dir := fun _ => None; w_tdir := None; w_exec := fun _ => out_of_model |}.
(** [os.path.join] *)
Definition path_join (a b : str) : str :=
  if prefixb $"/" b then b
  else match a with [] => b | _ => if suffixb $"/" a then a ++ b else a ++ $"/" ++ b end.
Definition is_file (w : world) (p : str) : bool := match w_file w p with Some _ => true | None => false end.
(** _load_template_file: loaders.py 7-24 *)
Definition load_file (w : world) (p : str) (read : bool) : res (list datum) :=
  if read then match w_file w p with Some x => Ok [TextData x] | None => Raise FileNotFoundError end
  else Ok [FileName p].
Definition extension (f : str) : str := last (split $"." f) [].
Fixpoint rfilter {A} (p : A -> res bool) (l : list A) : res (list A) :=
  match l with [] => Ok [] | x :: t => do b <- p x; do r <- rfilter p t; Ok (if b then x :: r else r) end.
(** load_files: loaders.py 27-100 *)
Definition load_files (w : world) (path : val) (extensions filters : list str) (read : bool) : res (list datum) :=
  match path with
  | VStr p =>
      let p5 := firstn 5000 p in
      let tdir := match w_tdir w with Some ((_ :: _) as d) => Some (path_join d p5) | _ => None end in
      if prefixb $"ttp://" p then out_of_model
      else if is_file w p5 then load_file w p read
      else if match tdir with Some q => is_file w q | None => false end
           then match tdir with Some q => load_file w q read | None => Ok [] end
      else match w_dir w p5 with
           | Some _ =>
               match w_dir w p with
               | None => Raise FileNotFoundError
               | Some names =>
                   let files := filter (fun f => is_file w (path_join p f)) names in
                   let files := match extensions with [] => files | _ => filter (fun f => in_strs (extension f) extensions) files end in
                   do files <- rfold (fun fs pat => rfilter (re_search pat) fs) filters files;
                   if read then rmap (fun f => match w_file w (path_join p f) with Some x => Ok (TextData x) | None => Raise FileNotFoundError end) files
                   else Ok (map (fun f => FileName (path_join p f)) files)
               end
           | None => Ok [TextData p]
           end
  | v => Ok [StructData v]
  end.

(** ** values in vars and lookup tags *)
Definition literal_token (t : token) : bool := match t with TName n => in_strs n [$"True"; $"False"; $"None"] | _ => true end.
(** a literal, with nothing after it *)
Definition literal (ts : list token) : option val :=
  if forallb literal_token ts then match expr (S (4 * length ts)) ts with Some (v, []) => Some v | _ => None end else None.
Definition lexed (s : str) : option (list token) := lex (S (length s)) s.
(** [name = literal] *)
Definition assignment (s : str) : option (str * val) :=
  match lexed s with
  | Some (TName n :: TOp "="%char :: ts) =>
      if in_strs n ([$"True"; $"False"; $"None"] ++ keywords) then None
      else match literal ts with Some v => Some (n, v) | None => None end
  | _ => None
  end.
Definition blank_line (l : str) : bool := match lstrip l with [] => true | c :: _ => Ascii.eqb c "#" end.
(** the statements of the code; [buf]: the lines of the statement so far.  A statement begins in the first column *)
Fixpoint statements (ls : list str) (buf : str) (d : dict) : option dict :=
  match ls with
  | [] => match buf with [] => Some d | _ => None end
  | l :: t =>
      if blank_line l then statements t buf d
      else match buf, l with
           | [], c :: _ =>
               if is_space c then None
               else match assignment l with Some (n, v) => statements t [] (dset d (KS n) v) | None => statements t l d end
           | _, _ => let b := buf ++ [space] ++ l in
                     match assignment b with Some (n, v) => statements t [] (dset d (KS n) v) | None => statements t b d end
           end
  end.
(** load_python_exec_py3.py and loaders.py load_python *)
Definition load_python (text : str) : res val :=
  match strip text with
  | [] => Ok (VDict [])
  | _ => match statements (splitlines text) [] [] with
         | Some ((_ :: _) as d) => Ok (VDict d)
         | _ => match lexed (flat_map (fun c => if Ascii.eqb c nl then [space] else [c]) text) with
                | Some ts => match literal ts with Some v => Ok v | None => out_of_model end
                | None => out_of_model
                end
         end
  end.

(** ** JSON: [json.loads]; ValueError is a text that is no JSON *)
Definition json_space (c : ascii) : bool := existsb (Ascii.eqb c) [space; tab; nl; chr 13].
Definition json_skip (s : str) : str := snd (span_of json_space s).
Definition json_escape (c : ascii) : option ascii :=
  if Ascii.eqb c dquote then Some dquote else if Ascii.eqb c "\" then Some "\"%char else if Ascii.eqb c "/" then Some "/"%char
  else if Ascii.eqb c "b" then Some (chr 8) else if Ascii.eqb c "f" then Some (chr 12) else if Ascii.eqb c "n" then Some nl
  else if Ascii.eqb c "r" then Some (chr 13) else if Ascii.eqb c "t" then Some tab else None.
(** after the opening quote *)
Fixpoint json_string (fuel : nat) (s : str) : res (str * str) :=
  match fuel with
  | O => Raise ValueError
  | S f =>
      match s with
      | [] => Raise ValueError
      | c :: t =>
          if Ascii.eqb c dquote then Ok ([], t)
          else if N.ltb (code c) 32 then Raise ValueError
          else if Ascii.eqb c "\" then
            match t with
            | [] => Raise ValueError
            | e :: r =>
                if Ascii.eqb e "u" then
                  match r with
                  | a :: b :: x :: y :: r' =>
                      match hexval a, hexval b, hexval x, hexval y with
                      | Some a, Some b, Some x, Some y =>
                          if (N.eqb a 0 && N.eqb b 0)%bool then do (v, q) <- json_string f r'; Ok (chr (x * 16 + y) :: v, q) else out_of_model
                      | _, _, _, _ => Raise ValueError
                      end
                  | _ => Raise ValueError
                  end
                else match json_escape e with Some x => do (v, q) <- json_string f r; Ok (x :: v, q) | None => Raise ValueError end
            end
          else do (v, q) <- json_string f t; Ok (c :: v, q)
      end
  end.
Definition json_int (s : str) : res (Z * str) :=
  let '(neg, r) := match s with c :: t => if Ascii.eqb c "-" then (true, t) else (false, s) | [] => (false, s) end in
  let '(ds, r) := match r with
                  | c :: t => if Ascii.eqb c "0" then ([c], t) else span_of is_dec r
                  | [] => ([], r)
                  end in
  match ds with
  | [] => if prefixb $"Infinity" r then out_of_model else Raise ValueError
  | _ => match r with
         | c :: _ => if in_chars $".eE" c then out_of_model
                     else match py_int ds with Some z => Ok (if neg then (- z)%Z else z, r) | None => Raise ValueError end
         | [] => match py_int ds with Some z => Ok (if neg then (- z)%Z else z, r) | None => Raise ValueError end
         end
  end.
Definition cut (p s : str) : option str := if prefixb p s then Some (skipn (length p) s) else None.
Fixpoint json_value (fuel : nat) (s : str) : res (val * str) :=
  match fuel with
  | O => Raise ValueError
  | S f =>
      match s with
      | [] => Raise ValueError
      | c :: t =>
          if Ascii.eqb c dquote then do (v, r) <- json_string (S (length t)) t; Ok (VStr v, r)
          else if Ascii.eqb c "[" then
            match json_skip t with
            | "]"%char :: r => Ok (VList [], r)
            | r => do (l, q) <- json_items f r; Ok (VList l, q)
            end
          else if Ascii.eqb c "{" then
            match json_skip t with
            | "}"%char :: r => Ok (VDict [], r)
            | r => do (d, q) <- json_members f r []; Ok (VDict d, q)
            end
          else match cut $"null" s with Some r => Ok (VNone, r) | None =>
               match cut $"true" s with Some r => Ok (VBool true, r) | None =>
               match cut $"false" s with Some r => Ok (VBool false, r) | None =>
               if (prefixb $"NaN" s || prefixb $"Infinity" s)%bool then out_of_model
               else do (z, r) <- json_int s; Ok (VInt z, r)
               end end end
      end
  end
with json_items (fuel : nat) (s : str) : res (list val * str) :=
  match fuel with
  | O => Raise ValueError
  | S f =>
      do (v, r) <- json_value f s;
      match json_skip r with
      | ","%char :: q => do (l, q) <- json_items f (json_skip q); Ok (v :: l, q)
      | "]"%char :: q => Ok ([v], q)
      | _ => Raise ValueError
      end
  end
with json_members (fuel : nat) (s : str) (d : dict) : res (dict * str) :=
  match fuel with
  | O => Raise ValueError
  | S f =>
      match s with
      | c :: t =>
          if Ascii.eqb c dquote then
            do (k, r) <- json_string (S (length t)) t;
            match json_skip r with
            | ":"%char :: r =>
                do (v, r) <- json_value f (json_skip r);
                match json_skip r with
                | ","%char :: q => json_members f (json_skip q) (dset d (KS k) v)
                | "}"%char :: q => Ok (dset d (KS k) v, q)
                | _ => Raise ValueError
                end
            | _ => Raise ValueError
            end
          else Raise ValueError
      | [] => Raise ValueError
      end
  end.
Definition json_loads (s : str) : res val :=
  do (v, r) <- json_value (S (S (2 * length s))) (json_skip s);
  match json_skip r with [] => Ok v | _ => Raise ValueError end.

(** ** load_struct: loaders.py 102-131; [None] is None *)
Section W.
Variable w : world.
(** _get_include_data: loaders.py 138-142 *)
Definition include_data (text : str) (include : option str) : res str :=
  match include with
  | Some ((_ :: _) as p) =>
      do l <- load_files w (VStr p) [] [] true;
      rfold (fun t d => match d with TextData x => Ok (t ++ [nl] ++ x) | _ => out_of_model end) l text
  | _ => Ok text
  end.
Definition load_struct (text : str) (attrs : list (str * str)) : res (option val) :=
  let include := attr attrs $"include" in
  match text, include with
  | [], None => Ok None
  | _, _ =>
      let l := lower (match attr attrs $"load" with Some x => x | None => $"python" end) in
      if str_eqb l $"python" then do t <- include_data text include; do v <- load_python t; Ok (Some v)
      else if str_eqb l $"csv" then
        do t <- include_data text include;
        do d <- load_csv (match attr attrs $"key" with Some k => k | None => [] end) t; Ok (Some (VDict d))
      else if str_eqb l $"json" then
        do t <- include_data text include;
        match json_loads t with
        | Ok v => Ok (Some v)
        | Raise ValueError => Ok None
        | Raise e => Raise e
        end
      else if str_eqb l $"text" then Ok (Some (VStr text))
      else if in_strs l [$"ini"; $"yaml"] then out_of_model else Raise KeyError
  end.
End W.
