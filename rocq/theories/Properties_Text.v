(** * Properties_Text: C125. *)
From Verif Require Import PyBase DictFacts StrFacts Regex SpecRegex SpecPath Results Template FormRegex Attributes MatchFuncs GroupFuncs FuncTable SpecVariable SpecText TextFacts TextFacts2 TextFacts3.
Local Open Scope string_scope.
Local Open Scope list_scope.

(** A method of a text, tried for a name that is no match function, gives what the method's definition says, and nothing for other values. *)
Theorem C125_methods a d v : data_method a d = Ok v <-> exists s name, d = VStr s /\ at_kwargs a = [] /\ t_ name = at_name a /\ method_gives name (at_args a) s v.
Proof. exact (data_method_iff a d v). Qed.
Print Assumptions C125_methods.
(** A name that is no method is an AttributeError. *)
Theorem C125_no_method a s : at_kwargs a = [] -> ~ In (at_name a) (map t_ text_methods) -> prefixb (t_ "__") (at_name a) = false -> data_method a (VStr s) = Raise AttributeError.
Proof. exact (no_method a s). Qed.
Print Assumptions C125_no_method.
(** A format string becomes its text with every field replaced; it succeeds exactly when every field has a value. *)
Theorem C125_format pos s kws r : format_str pos s kws = Ok r <-> formats kws pos s r.
Proof. exact (format_iff pos s kws r). Qed.
Print Assumptions C125_format.
(** Wildcards. *)
Theorem C125_wildcard s p : fnmatch s p = true <-> like p s.
Proof. exact (fnmatch_iff s p). Qed.
Print Assumptions C125_wildcard.
(** A search says yes exactly when the pattern occurs; with ^ at the beginning, with $ at the end. *)
Theorem C125_search p s b : re_search p s = Ok b <->
  exists caret dollar q r, anchored p caret dollar q /\ re_compile q = Some r /\ (caret = true \/ dollar = true -> top_alts q = false) /\ (b = true <-> occurs r caret dollar s).
Proof. exact (search_iff p s b). Qed.
Print Assumptions C125_search.
(** A substitution replaces the matches from the left, as many as it is told, each by what the replacement text makes of it.
    After an empty match the next one at the same place is not empty; with ^ only what begins the text is replaced, with $
    only what ends it. *)
Theorem C125_substitute p template s count t : re_subn p template s count = Ok t <->
  exists caret dollar q r, anchored p caret dollar q /\ re_compile q = Some r /\ (caret = true \/ dollar = true -> top_alts q = false) /\
    (exists k, writes [] template k) /\
    replaced (if dollar then RSeq r before_end else r) caret (fun a k => writes a template k) false (match count with 0 => None | _ => Some count end) s t.
Proof. exact (subn_str_iff p template s count t). Qed.
Print Assumptions C125_substitute.

Example C125_ex_split : data_method {| at_name := t_ "split"; at_args := [VStr (t_ "aa")]; at_kwargs := [] |} (VStr (t_ "aaab")) = Ok (VList [VStr []; VStr (t_ "ab")]).
Proof. vm_compute. reflexivity. Qed.
Example C125_ex_cut : cut_at (t_ "aa") (t_ "aaab") [[]; t_ "ab"].
Proof. apply cut_iff; [discriminate|]. vm_compute. reflexivity. Qed.
Example C125_ex_words : words_in (t_ " a  bc ") [t_ "a"; t_ "bc"].
Proof. apply words_iff. vm_compute. reflexivity. Qed.
Example C125_ex_format : formats [(KS (t_ "x"), VInt 7)] [t_ "ab"] (t_ "{{{}-{x}}}") (t_ "{ab-7}").
Proof. apply format_iff. vm_compute. reflexivity. Qed.
Example C125_ex_like : like (t_ "a*c?") (t_ "abbcd").
Proof. apply fnmatch_iff. vm_compute. reflexivity. Qed.
Example C125_ex_search : re_search (t_ "^a+$") (t_ "aab") = Ok false /\ re_search (t_ "a+b$") (t_ "xaab") = Ok true.
Proof. vm_compute. auto. Qed.
Example C125_ex_sub : re_subn (t_ "a+") (t_ "<\g<0>>") (t_ "xaabab") 0 = Ok (t_ "x<aa>b<a>b").
Proof. vm_compute. reflexivity. Qed.
Example C125_ex_sub_empty : re_subn (t_ "a*") (t_ "-") (t_ "xaab") 0 = Ok (t_ "-x--b-") /\ re_subn (t_ "a*?") (t_ "-") (t_ "ab") 0 = Ok (t_ "---b-") /\
  re_subn (t_ "^a") (t_ "-") (t_ "aab") 0 = Ok (t_ "-ab") /\ re_subn (t_ "b$") (t_ "-") (t_ "bab") 1 = Ok (t_ "ba-").
Proof. vm_compute. auto. Qed.
Example C125_ex_no_method : data_method {| at_name := t_ "lowercase"; at_args := []; at_kwargs := [] |} (VStr []) = Raise AttributeError.
Proof. apply C125_no_method; [reflexivity| |reflexivity]. intros K. cbn [map text_methods] in K. repeat (destruct K as [K|K]; [discriminate K|]). exact K. Qed.
