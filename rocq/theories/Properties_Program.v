(** * Properties_Program: the complete program, from the template's text and the data to the results. *)
From Verif Require Import PyBase DictFacts StrFacts Regex Results Template Attributes FormRegex SpecLine MatchVar MatchFuncs GroupFuncs Parser SpecRecords Compile FuncTable Session Files Inputs Load Run SpecForm SpecProgram PlainLine PlainProgram PlainTop.
Local Open Scope string_scope.
Local Open Scope list_scope.

(** ** C114: a template of plain lines *)
Theorem C114_plain_program : forall clock k2i order w base vars first others dns,
  is_set order -> tline_ok first -> Forall tline_ok others -> containsb $"]]>" (template_text (first :: others)) = false -> Forall (for_template w) dns ->
  exists vs, Forall2 (text_result first others) (firsts (map fst dns)) vs /\
  let run := ttp_result clock k2i order w base vars (template_text (first :: others)) (map (fun dn => (VStr (fst dn), snd dn)) dns) in
  run $"list" = Ok (VList [VList vs]) /\ run $"dictionary" = Ok (VDict [(KS $"_root_template_", VList vs)]) /\ run $"flat_list" = Ok (VList (flattened vs)).
Proof.
  intros clock k2i order w base vars first others dns Ho Hf Hs Hc Hd. apply (program_result clock k2i order w Ho base vars _ $"_anonymous_" [] first others dns); try assumption.
  - split; [discriminate|]. split; [exists "_"%char, $"anonymous_"; split; reflexivity|]. repeat constructor.
  - apply (plain_tree w (first :: others)); [discriminate|now constructor|exact Hc].
Qed.
Print Assumptions C114_plain_program.
(** the same lines in a group with a name *)
Theorem C114_named_program : forall clock k2i order w base vars n first others dns,
  is_set order -> group_name n -> n <> $"_anonymous_" -> Forall (fun c => (code c < 128)%N) n ->
  tline_ok first -> Forall tline_ok others -> containsb $"]]>" (template_text (first :: others)) = false -> Forall (for_template w) dns ->
  exists vs, Forall2 (named_result n first others) (firsts (map fst dns)) vs /\
  let run := ttp_result clock k2i order w base vars (group_text n (template_text (first :: others))) (map (fun dn => (VStr (fst dn), snd dn)) dns) in
  run $"list" = Ok (VList [VList vs]) /\ run $"dictionary" = Ok (VDict [(KS $"_root_template_", VList vs)]) /\ run $"flat_list" = Ok (VList (flattened vs)).
Proof.
  intros clock k2i order w base vars n first others dns Ho Hn Ha Hascii Hf Hs Hc Hd.
  pose proof (program_result clock k2i order w Ho base vars (group_text n (template_text (first :: others))) n [] first others dns Hn Hf Hs) as P.
  assert (En : str_eqb n $"_anonymous_" = false) by now apply str_eqb_neq. rewrite En in P. apply P; [|exact Hd]. apply named_tree; [discriminate|now constructor|exact Hc|].
  destruct Hn as (_ & _ & Hw). rewrite Forall_forall in *. auto.
Qed.
Print Assumptions C114_named_program.
(** the results are determined, and every text has one *)
Theorem C114_determined : forall first others d v v', tline_ok first -> Forall tline_ok others -> text_result first others d v -> text_result first others d v' -> v = v'.
Proof. exact text_result_unique. Qed.
Print Assumptions C114_determined.
Definition x114a : tline := {| tl_indent := []; tl_lit := $"interface "; tl_vars := [($"name", [])] |}.
Definition x114b : tline := {| tl_indent := $" "; tl_lit := $"mtu "; tl_vars := [($"mtu", $" on vlan "); ($"vlan", [])] |}.
Example C114_lines_ok : tline_ok x114a /\ tline_ok x114b /\ template_text [x114a; x114b] = $"interface {{ name }}" ++ [nl] ++ $" mtu {{ mtu }} on vlan {{ vlan }}".
Proof.
  assert (L : forall s, forallb (fun c => (negb (is_space c) || blank c) && negb (existsb (Ascii.eqb c) $"<&{") && N.leb 32 (code c))%bool s = true -> Forall lit_char s).
  { intros s H. rewrite forallb_forall in H. apply Forall_forall. intros c Hc. apply H in Hc. rewrite !Bool.andb_true_iff, Bool.orb_true_iff, !Bool.negb_true_iff in Hc. destruct Hc as [[H1 H2] H3]. left. split; [intros E; destruct H1 as [H1|H1]; congruence|]. split; [|now apply N.leb_le].
    intros K. assert (existsb (Ascii.eqb c) $"<&{" = true) by (apply existsb_exists; exists c; split; [exact K|apply Ascii.eqb_refl]). congruence. }
  assert (N : forall n, match n with c :: _ => negb (is_dec c) | [] => false end = true -> forallb is_word n = true -> in_strs n reserved = false -> SpecProgram.name_ok n).
  { intros n H1 H2 H3. split; [destruct n as [|c n]; [discriminate|]; exists c, n; split; [reflexivity|now apply Bool.negb_true_iff]|]. split; [apply Forall_forall; now apply forallb_forall|]. intros K. apply SessionFacts.in_strs_In in K. congruence. }
  split; [|split; [|reflexivity]]; (split; [discriminate|]; split; [repeat (apply Forall_cons; [apply N; reflexivity|]); constructor|]; split; [repeat constructor; cbn; intuition discriminate|]; split; [repeat constructor|]; split; [repeat (apply Forall_cons; [apply L; reflexivity|]); constructor|]).
  - split; [|split; [|split; reflexivity]].
    + cbn. split; [now left|]. split; [right; exists $"interface", space; split; reflexivity|]. now left.
    + intros (c & s & E & Hc). injection E as <- <-. discriminate.
  - split; [|split; [|split; reflexivity]].
    + cbn. split; [now left|]. split; [right; exists $"mtu", space; split; reflexivity|]. split; [right; exists space, $"on vlan "; split; reflexivity|]. split; [right; exists $" on vlan", space; split; reflexivity|]. now left.
    + intros (c & s & E & Hc). injection E as <- <-. discriminate.
Qed.
Definition x114d : str := $"interface Gi1" ++ [nl] ++ $" mtu  1500 on vlan 10" ++ [nl] ++ $"!" ++ [nl] ++ $"interface Gi2 ".
Example C114_ex : for_template no_files (x114d, $"_all_") /\ is_set (nodup Nat.eq_dec) /\
  ttp_result (fun _ => None) false (nodup Nat.eq_dec) no_files [] [] (template_text [x114a; x114b]) [(VStr x114d, $"_all_"); (VStr $"none", $"_root_template_"); (VStr x114d, $"_all_")] $"list" =
  Ok (VList [VList [VList [VDict [(KS $"mtu", VStr $"1500"); (KS $"vlan", VStr $"10"); (KS $"name", VStr $"Gi1")]; VDict [(KS $"name", VStr $"Gi2")]]; VDict []]]).
Proof.
  split; [split; [split; [reflexivity|split; [reflexivity|split; [reflexivity|intros ? E; discriminate]]]|now left]|]. split; [|vm_compute; reflexivity].
  intros l. split; [apply NoDup_nodup|]. intros x. apply nodup_In.
Qed.
Example C114_named_ex : group_name $"ports" /\
  ttp_result (fun _ => None) false (nodup Nat.eq_dec) no_files [] [] (group_text $"ports" (template_text [x114a; x114b])) [(VStr x114d, $"_all_"); (VStr $"none", $"_all_")] $"list" =
  Ok (VList [VList [VDict [(KS $"ports", VList [VDict [(KS $"mtu", VStr $"1500"); (KS $"vlan", VStr $"10"); (KS $"name", VStr $"Gi1")]; VDict [(KS $"name", VStr $"Gi2")]])]; VDict []]]).
Proof. split; [split; [discriminate|]; split; [exists "p"%char, $"orts"; split; reflexivity|repeat constructor]|vm_compute; reflexivity]. Qed.
