(** * Properties_Vars: C117. *)
From Coq Require Import Sorting.Sorted Sorting.Permutation.
From Verif Require Import PyBase Tree Results Template Attributes MatchFuncs Parser Compile FuncTable Session Files Load Run SpecTree SessionInputs SpecProgram SpecVars VarsFacts Properties_Program Properties_Isolation.
Local Open Scope string_scope.
Local Open Scope list_scope.

(** C117: when some group matched, the variables with a path are saved first, path by path in ascending order, like records of a group with that path *)
Theorem C117_vars_first : forall (F : Type) (runf : F -> fstate -> res (fstate * bool)) k2i e paths raw main sorted,
  raw <> [] -> Forall (fun pn => fst pn <> [] -> static (fst pn)) paths -> NoDup (map fst paths) -> ascending paths sorted ->
  make_results F runf k2i e paths raw main =
  do E <- rfold (fun E pn => save_cur k2i false E (map split_stars (map strip (split $"." (fst pn)))) (VDict (values_of (e_vars e) (snd pn)))) sorted main;
  make_results F runf k2i e [] raw E.
Proof. exact vars_first. Qed.
Print Assumptions C117_vars_first.
(** there is exactly one ascending order *)
Theorem C117_one_order : forall paths, NoDup (map fst paths) -> exists sorted, ascending paths sorted /\ forall s, ascending paths s -> s = sorted.
Proof. intros paths H. eexists. split; [exact (ascending_sort paths H)|]. intros s Hs. exact (ascending_unique _ _ _ Hs (ascending_sort paths H)). Qed.
Print Assumptions C117_one_order.
(** with paths of one key each that the results do not have: the keys are added in ascending order with the variables as dictionaries, then the groups are saved *)
Theorem C117_keys : forall (F : Type) (runf : F -> fstate -> res (fstate * bool)) k2i e paths raw d sorted,
  raw <> [] -> Forall (fun pn => group_name (fst pn)) paths -> NoDup (map fst paths) -> ascending paths sorted -> (forall p, In p (map fst paths) -> dget d (KS p) = None) ->
  make_results F runf k2i e paths raw (VDict d) =
  make_results F runf k2i e [] raw (VDict (d ++ map (fun pn => (KS (fst pn), VDict (values_of (e_vars e) (snd pn)))) sorted)).
Proof. exact vars_first_keys. Qed.
Print Assumptions C117_keys.
(** when no group matched anything they are not saved, and the results stay as they are *)
Theorem C117_no_match : forall (F : Type) (runf : F -> fstate -> res (fstate * bool)) k2i text Gs paths env0 main env1 found,
  run_all F text (map (fun x => (fst x, match snd x with Some _ => true | None => false end)) Gs) env0 = Ok (env1, found) -> Forall (fun x => fst x = []) found ->
  Parser.parse F runf k2i text Gs paths env0 main = Ok (env1, ({| e_vars := m_vars env1; e_gvars := m_gvars env1 |}, main)).
Proof. exact no_match_no_vars. Qed.
Print Assumptions C117_no_match.
(** which variables a path has: those of all vars tags that name it, in the order of the tags; a tag without a name saves none.
    The template's variables are those of all tags, later ones replacing earlier ones *)
Theorem C117_tags : forall w eds vars, Forall (fun ed => tag_vars w (fst ed) (snd ed)) eds -> exists paths,
  rfold (parse_vars w) (map fst eds) (vars, []) = Ok (fold_left (fun vs ed => dupdate vs (map (fun nv => (KS (fst nv), snd nv)) (snd ed))) eds vars, paths) /\
  NoDup (map fst paths) /\ (forall p, In p (map fst paths) <-> named_keys p eds <> []) /\ forall p, In p (map fst paths) -> aget paths p = Some (named_keys p eds).
Proof.
  intros w eds vars H. destruct (vars_tags w eds H vars [] (NoDup_nil _)) as (paths & E & H1 & H2 & H3). exists paths. split; [exact E|]. split; [exact H1|]. split; [intros p; rewrite H2; cbn [map In]; tauto|].
  intros p Hp. specialize (H3 p). unfold keys_at in H3. cbn [aget app] in H3. destruct (aget paths p) as [ks|] eqn:Ea; [now subst|]. exfalso. clear - Hp Ea. induction paths as [|[q ks] l IH]; [destruct Hp|]. cbn [aget] in Ea. destruct (str_eqb p q) eqn:Eq; [discriminate|]. destruct Hp as [Hp|Hp]; [cbn [fst] in Hp; subst; now rewrite DictFacts.str_eqb_refl in Eq|now apply IH].
Qed.
Print Assumptions C117_tags.

(** a template with three vars tags, two of them for one path; a text that matches and one that does not *)
Definition x117t : str := x115_lines ["<template><vars name=""z"">a = ""1""</vars><vars>b = ""2""</vars><vars name=""info.site"">c = ""3""</vars><vars name=""z"">"; "d = ""4"""; "a = ""5"""; "</vars><group name=""hosts"">";"host {{ x }}";"</group></template>"]%string.
Example C117_ex :
  ttp_result (fun _ => None) false sort_set no_files [] [] x117t [(VStr $"host r1", $"_all_"); (VStr $"none", $"_all_")] $"list" =
  Ok (VList [VList [VDict [(KS $"info", VDict [(KS $"site", VDict [(KS $"c", VStr $"3")])]); (KS $"z", VDict [(KS $"a", VStr $"5"); (KS $"d", VStr $"4")]); (KS $"hosts", VDict [(KS $"x", VStr $"r1")])]; VDict []]]) /\
  match load_template no_files sort_set [] [] x117t with
  | Ok [t] => tp_v2r t = [($"z", [$"a"; $"d"; $"a"]); ($"info.site", [$"c"])]
  | _ => False end /\
  Forall (fun pn => fst pn <> [] -> static (fst pn)) [($"z", [$"a"; $"d"; $"a"]); ($"info.site", [$"c"])] /\ group_name $"z".
Proof.
  split; [vm_compute; reflexivity|]. split; [vm_compute; reflexivity|]. split.
  - apply Forall_cons; [intros _; repeat (apply Forall_cons; [reflexivity|]); constructor|]. apply Forall_cons; [intros _; repeat (apply Forall_cons; [reflexivity|]); constructor|]. constructor.
  - split; [discriminate|]. split; [exists "z"%char, []; split; reflexivity|repeat constructor].
Qed.
(** a tag that loads *)
Example C117_tag_ex : tag_vars no_files (Elem $"vars" [($"name", $"z")] ($"a = ""1""" ++ [nl] ++ $"d = [1]") [] []) [($"a", VStr $"1"); ($"d", VList [VInt 1])].
Proof. vm_compute. reflexivity. Qed.
