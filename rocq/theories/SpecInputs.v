(** * SpecInputs: input tags (specification for C127). *)
From Coq Require Import Sorting.Sorted.
From Verif Require Import PyBase Regex Template Attributes MatchVar Compile FuncTable Loaders Session SpecSession Files Inputs SpecVariable SpecAttr SpecText SpecCalls SpecFiles.
Local Open Scope string_scope.
Local Open Scope list_scope.

(** the texts between commas, without the spaces around them *)
Definition commas (s : str) (l : list str) : Prop := exists ps, cut_at [","%char] s ps /\ Forall2 (stripped true true white) ps l.
Inductive one_or_list : val -> list str -> Prop :=
| ol_one s : one_or_list (VStr s) [s]
| ol_list vs l : texts vs l -> one_or_list (VList vs) l.
Inductive names_groups : val -> list str -> Prop :=
| ng_text s l : commas s l -> names_groups (VStr s) l
| ng_list vs l : texts vs l -> names_groups (VList vs) l.
(** the groups of an input: a sorted list of group numbers *)
Definition groups_for (tgs : list tgroup) (name : str) (names : list str) (gs : list nat) : Prop :=
  StronglySorted lt gs /\ forall n, In n gs <-> belongs tgs name names n.
Definition same_word (k : str) (x : string) : Prop := lower k = t_ x.
Definition tag_words : list string := ["name"; "load"; "groups"; "extensions"; "filters"; "url"; "functions"; "extract_commands"].
Definition function_words : list string := ["extract_commands"; "macro"; "test"].
Definition is_function (a : attribute) : Prop := word_in (at_name a) function_words.
(** the tag's text attributes *)
Definition text_attributes (d : dict) (l : list (str * str)) : Prop :=
  exists ls, Forall2 (fun e (x : list (str * str)) => match e with (KS k, VStr v) => x = [(k, v)] | _ => x = [] end) d ls /\ l = concat ls.

(** what one attribute does to the input *)
Definition set_name x st := {| i_name := x; i_load := i_load st; i_ext := i_ext st; i_filters := i_filters st; i_urls := i_urls st; i_groups := i_groups st; i_funcs := i_funcs st |}.
Definition set_load x st := {| i_name := i_name st; i_load := x; i_ext := i_ext st; i_filters := i_filters st; i_urls := i_urls st; i_groups := i_groups st; i_funcs := i_funcs st |}.
Definition set_ext x st := {| i_name := i_name st; i_load := i_load st; i_ext := x; i_filters := i_filters st; i_urls := i_urls st; i_groups := i_groups st; i_funcs := i_funcs st |}.
Definition set_filters x st := {| i_name := i_name st; i_load := i_load st; i_ext := i_ext st; i_filters := x; i_urls := i_urls st; i_groups := i_groups st; i_funcs := i_funcs st |}.
Definition set_urls x st := {| i_name := i_name st; i_load := i_load st; i_ext := i_ext st; i_filters := i_filters st; i_urls := x; i_groups := i_groups st; i_funcs := i_funcs st |}.
Definition set_groups x st := {| i_name := i_name st; i_load := i_load st; i_ext := i_ext st; i_filters := i_filters st; i_urls := i_urls st; i_groups := x; i_funcs := i_funcs st |}.
Definition add_funcs l st := {| i_name := i_name st; i_load := i_load st; i_ext := i_ext st; i_filters := i_filters st; i_urls := i_urls st; i_groups := i_groups st; i_funcs := i_funcs st ++ l |}.
Section W.
Variable w : world.
Variable tgs : list tgroup.
(** [tag_reads n text data l]: what the attributes [l] do one after the other.  The load attribute tag_reads the attributes that the
    tag's text gives, which may read included files again, [n] deep; [data] is the dictionary [l] comes from *)
Inductive tag_reads : nat -> str -> dict -> dict -> istate -> istate -> Prop :=
| rd_end n text data st : tag_reads n text data [] st st
| rd_more n text data k v l st st1 st2 : says n text data k v st st1 -> tag_reads n text data l st1 st2 -> tag_reads n text data ((KS k, v) :: l) st st2
with says : nat -> str -> dict -> str -> val -> istate -> istate -> Prop :=
| sy_name n text data k s r st : same_word k "name" -> stripped true true white s r -> says n text data k (VStr s) st (set_name r st)
| sy_text n text data k s st : same_word k "load" -> stripped true true white s (t_ "text") -> says n text data k (VStr s) st (set_load (t_ "text") st)
| sy_nothing n text data k s r l o st : same_word k "load" -> stripped true true white s r -> r <> t_ "text" -> text_attributes data l -> struct_gives w text l o ->
    (o = None \/ exists x, o = Some x /\ truthy x = false) -> says n text data k (VStr s) st (set_load r st)
| sy_load n text data k s r l d st st' : same_word k "load" -> stripped true true white s r -> r <> t_ "text" -> text_attributes data l -> struct_gives w text l (Some (VDict d)) ->
    d <> [] -> tag_reads n [] d d (set_load r st) st' -> says (S n) text data k (VStr s) st st'
| sy_groups n text data k v names gs st : same_word k "groups" -> names_groups v names -> groups_for tgs (i_name st) names gs -> says n text data k v st (set_groups gs st)
| sy_ext n text data k v l st : same_word k "extensions" -> one_or_list v l -> says n text data k v st (set_ext l st)
| sy_filters n text data k v l st : same_word k "filters" -> one_or_list v l -> says n text data k v st (set_filters l st)
| sy_url n text data k v l st : same_word k "url" -> one_or_list v l -> says n text data k v st (set_urls l st)
| sy_functions n text data k s l fs st : same_word k "functions" -> Forall2 item_means (items_of s) l -> Forall (fun a => at_name a <> t_ "functions") l ->
    sublist is_function l fs -> says n text data k (VStr s) st (add_funcs fs st)
| sy_commands n text data k s l cs st : same_word k "extract_commands" -> commas s l -> sublist (fun c => c <> []) l cs ->
    says n text data k (VStr s) st (add_funcs [{| at_name := t_ "extract_commands"; at_args := map VStr cs; at_kwargs := [] |}] st)
| sy_no_commands n text data k v st : same_word k "extract_commands" -> (forall s, v <> VStr s) -> (forall d, v <> VDict d) -> says n text data k v st st
| sy_function n text data k s a l st : Forall (fun x => ~ same_word k x) tag_words -> word_in k function_words -> Forall2 item_means (items_of (k ++ t_ "(" ++ s ++ t_ ")")) (a :: l) ->
    says n text data k (VStr s) st (add_funcs [a] st)
| sy_other n text data k v st : Forall (fun x => ~ same_word k x) tag_words -> ~ word_in k function_words -> says n text data k v st st.

(** ** the tag *)
Definition default_attribute (n : string) (v : val) (d d' : dict) : Prop :=
  (In (KS (t_ n)) (map fst d) /\ d' = d) \/ (~ In (KS (t_ n)) (map fst d) /\ d' = d ++ [(KS (t_ n), v)]).
(** the tag's attributes; groups and load have values if not given *)
Definition tag_has (attrs : list (str * str)) (d : dict) : Prop :=
  exists d1, default_attribute "groups" (VList [VStr (t_ "all")]) (map (fun kv => (KS (fst kv), VStr (snd kv))) attrs) d1 /\ default_attribute "load" (VStr (t_ "python")) d1 d.
(** the files of the urls, in order *)
Definition files_of (base : str) (urls exts filters : list str) (ds : list datum) : Prop :=
  exists ls, Forall2 (fun u l => loads w exts filters false (VStr (base ++ u)) l) urls ls /\ ds = concat ls.
Inductive tag_data (base : str) (text : str) (st : istate) : list datum -> Prop :=
| td_text : i_load st = t_ "text" -> text <> [] -> tag_data base text st [TextData text]
| td_files ds : i_load st <> t_ "text" \/ text = [] -> files_of base (i_urls st) (i_ext st) (i_filters st) ds -> tag_data base text st ds.
Definition new_input (name : str) : istate := {| i_name := name; i_load := t_ "python"; i_ext := []; i_filters := []; i_urls := []; i_groups := []; i_funcs := [] |}.
Inductive tag_gives (base : str) (e : elem) : str -> iobj -> Prop :=
| tg_made n d st ds : stripped true true white (match attribute_of (e_attrs e) "name" with Some n => n | None => t_ "Default_Input" end) n ->
    tag_has (e_attrs e) d -> tag_reads 3 (e_text e) d d (new_input n) st -> tag_data base (e_text e) st ds ->
    tag_gives base e (i_name st) {| io_ext := i_ext st; io_filters := i_filters st; io_urls := i_urls st;
                                    io_input := {| in_groups := i_groups st; in_data := ds; in_funcs := i_funcs st |} |}.

(** ** the inputs of a template, by name *)
Definition no_input (l : list (str * iobj)) (n : str) : Prop := ~ In n (map fst l).
(** a tag of a name that is there adds its groups and its data to that input; without data, the files are read again *)
Definition more_data (base : str) (old : iobj) (new ds : list datum) : Prop :=
  (new <> [] /\ exists l, kept (in_data (io_input old)) new l /\ ds = in_data (io_input old) ++ l) \/
  (new = [] /\ exists l, files_of base (io_urls old) (io_ext old) (io_filters old) l /\ ds = in_data (io_input old) ++ l).
Inductive puts (order : list nat -> list nat) (base : str) : list (str * iobj) -> str -> iobj -> list (str * iobj) -> Prop :=
| pu_new l n o : no_input l n -> puts order base l n o (l ++ [(n, o)])
| pu_old l1 n old l2 o ds : no_input l1 n -> more_data base old (in_data (io_input o)) ds ->
    puts order base (l1 ++ (n, old) :: l2) n o
      (l1 ++ (n, {| io_ext := io_ext old; io_filters := io_filters old; io_urls := io_urls old;
                    io_input := {| in_groups := order (in_groups (io_input old) ++ in_groups (io_input o)); in_data := ds; in_funcs := in_funcs (io_input old) |} |}) :: l2).
Inductive tags_give (order : list nat -> list nat) (base : str) : list elem -> list (str * iobj) -> list (str * iobj) -> Prop :=
| ts_end l : tags_give order base [] l l
| ts_more e es l n o l1 l2 : tag_gives base e n o -> puts order base l n o l1 -> tags_give order base es l1 l2 -> tags_give order base (e :: es) l l2.
(** the inputs that groups name: a name that is no input yet is a path *)
Definition is_data (d : datum) : Prop := forall x, d <> TextData x.
Inductive groups_give (base : str) : list str -> list (str * iobj) -> list (str * iobj) -> Prop :=
| gg_end l : groups_give base [] l l
| gg_there n ns l l' : In n (map fst l) -> groups_give base ns l l' -> groups_give base (n :: ns) l l'
| gg_path n ns l all ds ds' gs l' : no_input l n -> loads w [] [] false (VStr (base ++ n)) all -> sublist is_data all ds -> kept [] ds ds' -> groups_for tgs n [t_ "all"] gs ->
    groups_give base ns (l ++ [(n, {| io_ext := []; io_filters := []; io_urls := []; io_input := {| in_groups := gs; in_data := ds'; in_funcs := [] |} |})]) l' -> groups_give base (n :: ns) l l'.
Definition inputs_are (order : list nat -> list nat) (base : str) (tags : list elem) (l : list (str * iobj)) : Prop :=
  exists l1, tags_give order base tags [] l1 /\ groups_give base (concat (map tg_inputs tgs)) l1 l.
End W.
