(** * Properties C137: any sequence of calls on one ttp object. *)
From Verif Require Import PyBase DictFacts Results Template Attributes FormRegex Compile FuncTable Session Files Inputs Load Run SpecSession SpecVariable SpecFiles SpecLoaded RunSeen SpecSeen Api SpecApi ApiFacts ApiFacts2 ApiFacts3.
From Verif Require Import Properties_Save Properties_Loaded Properties_Seen.
Local Open Scope string_scope.
Local Open Scope list_scope.

(** ** the templates are those of the texts given, in the order of the calls; each was read with the variables given before it and then told
    the variables and tables given after it; the object's templates (numbers, names, methods, groups) go with them *)
Theorem C137_history : forall clock k2i order w base h v0 o, Api.run clock k2i order w base h v0 = Ok o ->
  history w order base v0 h (o_tpls o) (o_vars o) /\ in_step o.
Proof.
  intros clock k2i order w base h v0 o H. split; [exact (run_history clock k2i order w base h v0 o H)|].
  apply (run_step clock k2i order w base h (created v0) o H). constructor.
Qed.
Print Assumptions C137_history.

(** add_template goes through exactly if every text that the path leads to is a template *)
Theorem C137_accepted : forall clock k2i order w base o p,
  (exists o', do_call clock k2i order w base o (AddTemplate p) = Ok o') <-> exists ds tss, loads w [] [] true p ds /\ Forall2 (text_is w order base (o_vars o)) ds tss.
Proof.
  intros. split.
  - intros (o' & H). apply add_template_iff in H as (tss & (ds & L & F) & _). eauto.
  - intros (ds & tss & L & F). eexists. apply add_template_iff. exists tss. split; [exists ds; split; eassumption|reflexivity].
Qed.
Print Assumptions C137_accepted.

(** ** a variable has the value that the last add_vars with its name gave it: in the object since the beginning, in a template since it was
    loaded.  Nothing else in a template changes *)
Theorem C137_vars : forall clock k2i order w base h v0 o k, Api.run clock k2i order w base h v0 = Ok o -> real_dicts h ->
  (forall x, given k h x -> dget (o_vars o) k = Some x) /\ (never_given k h -> dget (o_vars o) k = dget v0 k).
Proof.
  intros clock k2i order w base h v0 o k H R. apply run_history in H. apply history_vars in H as ->. now apply vars_value.
Qed.
Print Assumptions C137_vars.
Theorem C137_template_vars : forall w h t t', told_all w h t t' -> real_dicts h ->
  same_code t t' /\ forall k, (forall x, given k h x -> dget (tp_vars t') k = Some x) /\ (never_given k h -> dget (tp_vars t') k = dget (tp_vars t) k).
Proof. intros w h t t' H R. apply (told_vars (fun _ => None) w []) in H as [-> S]. split; [exact S|]. intros k. now apply vars_value. Qed.
Print Assumptions C137_template_vars.
(** one of the two is always so *)
Theorem C137_given : forall k h, (exists x, given k h x) \/ never_given k h.
Proof. exact given_or_never. Qed.
Print Assumptions C137_given.
(** ** a lookup table is that of the last add_lookup with its name since the template was loaded, or the template's own *)
Theorem C137_lookups : forall w h n t t', told_all w h t t' ->
  ((forall c, In c h -> ~ looks n c) /\ dget (tp_lookups t') (KS n) = dget (tp_lookups t) (KS n)) \/
  exists h1 c h2 y, h = h1 ++ c :: h2 /\ lookup_given w c n y /\ (forall c', In c' h2 -> ~ looks n c') /\ dget (tp_lookups t') (KS n) = Some y.
Proof. intros w h n t t'. now apply told_lookups. Qed.
Print Assumptions C137_lookups.

(** ** add_vars and add_lookup change nothing that was parsed or is to be parsed; inputs change no results; add_template leaves all other
    templates alone and comes with no results *)
Theorem C137_frame : forall clock k2i order w base o c o', do_call clock k2i order w base o c = Ok o' ->
  match c with
  | AddVars _ | AddLookup _ _ _ _ _ => o_session o' = o_session o
  | AddTemplate _ => exists new, ss_templates (o_session o') = ss_templates (o_session o) ++ new /\ ss_global (o_session o') = ss_global (o_session o) /\
                       exists ts, o_tpls o' = o_tpls o ++ ts /\ Forall2 unparsed ts new
  | AddInput _ _ _ _ | SetInput _ _ _ _ | ClearInput _ => results_of o' = results_of o /\ ss_global (o_session o') = ss_global (o_session o)
  | ParseOne | ClearResult _ => True
  end.
Proof. exact call_frame. Qed.
Print Assumptions C137_frame.

(** ** parsing, whatever was called before: with the variables, tables and inputs of the moment, the results of before still there,
    and the outputs with the variables and macros of the moment *)
Theorem C137_parse : forall clock k2i order w base h v0 o o', Api.run clock k2i order w base h v0 = Ok o ->
  files_exist (file_size w) (o_session o) -> Forall documented_method (ss_templates (o_session o)) ->
  (do_call clock k2i order w base o ParseOne = Ok o' <->
   exists ready, Forall2 (outputs_are (o_tpls o)) (ss_templates (o_session o)) (ss_templates ready) /\
     ss_global ready = ss_global (o_session o) /\ ss_threshold ready = ss_threshold (o_session o) /\
     all_parsed (parser_seen clock k2i w (o_tpls o)) ready (o_session o') /\ o_vars o' = o_vars o /\ o_tpls o' = o_tpls o).
Proof.
  intros clock k2i order w base h v0 o o' H Hf Hd. assert (St : in_step o) by (apply (run_step clock k2i order w base h (created v0) o H); constructor).
  cbn [do_call]. split.
  - intros K. apply SeenRefine.rbind_ok in K as (s & K & E). injection E as <-. apply (parse_now_iff clock k2i w _ _ _ St Hf Hd) in K as (r & F & G & T & A).
    exists r. split; [exact F|]. split; [exact G|]. split; [exact T|]. split; [exact A|]. split; reflexivity.
  - intros (r & F & G & T & A & V & P). assert (K : parse_now clock k2i w (o_tpls o) (o_session o) = Ok (o_session o')) by (apply (parse_now_iff clock k2i w _ _ _ St Hf Hd); eauto 8).
    rewrite K. cbn [rbind]. destruct o' as [v l s]. cbn in *. unfold with_session. now subst.
Qed.
Print Assumptions C137_parse.

(** ** a path is its texts, one call each; and one text, inputs and one parse are the program of C135 *)
Theorem C137_path : forall clock k2i order w base o path texts, template_texts w path = Ok texts -> Forall (fun x => template_texts w (VStr x) = Ok [x]) texts ->
  do_call clock k2i order w base o (AddTemplate path) = rfold (do_call clock k2i order w base) (map (fun x => AddTemplate (VStr x)) texts) o.
Proof. exact path_texts. Qed.
Print Assumptions C137_path.
Theorem C137_one_parse : forall clock k2i order w base vars text texts structure, template_texts w (VStr text) = Ok [text] ->
  ttp_calls clock k2i order w base (AddTemplate (VStr text) :: map (fun x => AddInput (fst x) $"Default_Input" (snd x) []) texts ++ [ParseOne]) vars [] structure =
  ttp_seen clock k2i order w base vars text texts structure.
Proof. exact calls_seen. Qed.
Print Assumptions C137_one_parse.

(** ** examples *)
Local Notation k_ s := (KS $s).
Definition calls137 (h : list call) (vars : dict) : res val := ttp_calls clock135 false sort_set no_files [] h vars [] $"list".
Definition site137 : list string := ["<group name='ports'>"; "port {{ name }} up"; "{{ site | set(place) }}"; "</group>"].
Definition place137 (s : string) : call := AddVars (VDict [(KS $"place", VStr $s)]).
Definition text137 (l : list string) : call := AddTemplate (VStr (load131 l)).
Definition input137 (l : list string) : call := AddInput (VStr (load131 l)) $"Default_Input" $"_all_" [].
Definition port137 (n p : string) : val := VDict [(k_ "ports", VDict [(k_ "name", VStr $n); (k_ "site", VStr $p)])].
(** the variables of the moment, and the results of before stay *)
Example C137_example_vars : calls137 [place137 "A"; text137 site137; input137 ["port Te up"]; ParseOne; place137 "B"; ParseOne] [] =
  Ok (VList [VList [port137 "Te" "A"; port137 "Te" "B"]]).
Proof. vm_compute. reflexivity. Qed.
(** the hypotheses are met *)
Example C137_example_met : exists o, Api.run clock135 false sort_set no_files [] [place137 "A"; text137 site137; input137 ["port Te up"]; ParseOne; place137 "B"] [] = Ok o /\
  given (k_ "place") [place137 "A"; text137 site137; input137 ["port Te up"]; ParseOne; place137 "B"] (VStr $"B") /\
  files_exist (file_size no_files) (o_session o) /\ Forall documented_method (ss_templates (o_session o)).
Proof.
  eexists. split; [vm_compute; reflexivity|]. split; [|split].
  - exists [place137 "A"; text137 site137; input137 ["port Te up"]; ParseOne], (place137 "B"), []. split; [reflexivity|]. split; [exists [(k_ "place", VStr $"B")]; split; reflexivity|]. intros c y [].
  - intros p I. vm_compute in I. destruct I as [I|[]]. discriminate.
  - constructor; [|constructor]. left. split; [vm_compute; reflexivity|]. vm_compute. eexists. reflexivity.
Qed.
(** a template added later sees the earlier one's results of the same parse, and the earlier one is parsed again *)
Example C137_example_two : calls137 [text137 names135; AddInput (VStr (load131 ["alias Te is Ten"])) $"Default_Input" $"names" []; ParseOne; text137 ports135;
    AddInput (VStr (load131 ["port Te up"])) $"Default_Input" $"ports" []; ClearResult []; ParseOne] [] =
  Ok (VList [VList [VDict [(k_ "short", VDict [(k_ "Te", VDict [(k_ "long", VStr $"Ten")])])]]; VList [VDict [(k_ "ports", VDict [(k_ "name", VDict [(k_ "long", VStr $"Ten")])])]]]).
Proof. vm_compute. reflexivity. Qed.
(** a table that comes after the template *)
Definition asks137 : list string := ["<group name='ports'>"; "port {{ name | lookup('names') }} up"; "</group>"].
Example C137_example_lookup : calls137 [text137 asks137; AddLookup $"names" $"{'Te': 'Ten'}" None $"python" None; input137 ["port Te up"]; ParseOne;
    AddLookup $"names" $"{'Te': 'Tenth'}" None $"python" None; ClearResult []; ParseOne] [] =
  Ok (VList [VList [VDict [(k_ "ports", VDict [(k_ "name", VStr $"Tenth")])]]]).
Proof. vm_compute. reflexivity. Qed.
(** a table is not known to templates that are added later *)
Example C137_example_lookup_before : calls137 [AddLookup $"names" $"{'Te': 'Ten'}" None $"python" None; text137 asks137; input137 ["port Te up"]; ParseOne] [] =
  Ok (VList [VList [VDict [(k_ "ports", VDict [(k_ "name", VStr $"Te")])]]]).
Proof. vm_compute. reflexivity. Qed.
(** inputs are kept between parses and can be replaced *)
Example C137_example_inputs : calls137 [place137 "A"; text137 site137; input137 ["port Te up"]; ParseOne; SetInput (VStr (load131 ["port Fa up"])) $"Default_Input" $"_all_" []; ParseOne] [] =
  Ok (VList [VList [port137 "Te" "A"; port137 "Fa" "A"]]).
Proof. vm_compute. reflexivity. Qed.
