(** * GroupAttrs: the attributes of a group, exactly; the regexes of its lines. *)
From Verif Require SessionFacts XmlFacts.
From Verif Require Import PyBase DictFacts Regex Results Template Attributes FormRegex MatchVar Compile SpecTemplate TemplateFacts SpecGroups GroupRefine CompileFacts.
Local Open Scope string_scope.
Local Open Scope list_scope.

Definition last_or {A} (l : list A) (d : A) : A := match opt_last l with Some x => x | None => d end.
Lemma opt_last_cons {A} (x : A) l : opt_last (x :: l) = Some (last_or l x).
Proof. unfold last_or, opt_last. cbn [rev]. destruct (rev l) as [|y r]; reflexivity. Qed.
Lemma last_or_cons {A} (x : A) l d : last_or (x :: l) d = last_or l x.
Proof. unfold last_or at 1. now rewrite opt_last_cons. Qed.
Section A.
Variables (pc : str) (top : bool) (idx : nat).
Definition after (a : gattrs) (l : list (str * str)) : gattrs :=
  let p := fold_left (extract_name pc) (given l $"name") (ga_path a) in
  {| ga_path := p; ga_name := match given l $"name" with [] => ga_name a | _ => join $"." p end; ga_id := match given l $"name" with [] => ga_id a | _ => Some (join $"." p, idx) end;
     ga_method := last_or (map (fun o => strip (lower o)) (given l $"method")) (ga_method a);
     ga_in := if top then last_or (map items (given l $"input")) (ga_in a) else ga_in a; ga_out := if top then last_or (map items (given l $"output")) (ga_out a) else ga_out a |}.
Lemma given_cons kv l n : given (kv :: l) n = (if str_eqb (lower (fst kv)) n then [snd kv] else []) ++ given l n.
Proof. unfold given. cbn [filter]. now destruct (str_eqb _ n). Qed.
Lemma attrs_after l : forall a, fold_left (one_attr pc top idx) l a = after a l.
Proof.
  induction l as [|kv l IH]; intros a; [unfold after; cbn; destruct a, top; reflexivity|]. cbn [fold_left]. rewrite IH. clear IH. unfold after. rewrite !given_cons. unfold one_attr.
  destruct (str_eqb (lower (fst kv)) $"method") eqn:E1.
  { apply str_eqb_eq in E1. rewrite E1. change (str_eqb $"method" $"name") with false. change (str_eqb $"method" $"input") with false. change (str_eqb $"method" $"output") with false. cbn [app ga_path ga_name ga_id ga_method ga_in ga_out map]. now rewrite last_or_cons. }
  destruct (str_eqb (lower (fst kv)) $"input") eqn:E2.
  { apply str_eqb_eq in E2. rewrite E2. change (str_eqb $"input" $"name") with false. change (str_eqb $"input" $"output") with false. cbn [app map]. destruct top; cbn [ga_path ga_name ga_id ga_method ga_in ga_out]; [now rewrite last_or_cons|reflexivity]. }
  destruct (str_eqb (lower (fst kv)) $"output") eqn:E3.
  { apply str_eqb_eq in E3. rewrite E3. change (str_eqb $"output" $"name") with false. cbn [app map]. destruct top; cbn [ga_path ga_name ga_id ga_method ga_in ga_out]; [now rewrite last_or_cons|reflexivity]. }
  destruct (str_eqb (lower (fst kv)) $"name") eqn:E4; cbn [app map]; [|reflexivity].
  cbv zeta. cbn [ga_path ga_name ga_id ga_method ga_in ga_out fold_left]. destruct (given l $"name"); reflexivity.
Qed.
Lemma name_path path n : extract_name pc path n = path_of_name pc path n.
Proof.
  unfold extract_name, path_of_name. destruct n as [|c n]; [reflexivity|]. change $"/" with ["/"%char]. cbn [prefixb]. destruct (Ascii.eqb_spec "/" c) as [<-|H]; [destruct n; reflexivity|]. cbn [andb].
  destruct c as [[] [] [] [] [] [] [] []]; try reflexivity. exfalso. now apply H.
Qed.
Theorem attributes_none path l : given l $"name" = [] ->
  attributes pc top path idx l =
  let p := if top then [$"_anonymous_*"] else path in
  {| ga_path := p; ga_name := join $"." p; ga_id := Some (join $"." p ++ $"._anonymous_", idx);
     ga_method := match last_given l $"method" with Some o => strip (lower o) | None => $"group" end;
     ga_in := if top then match last_given l $"input" with Some o => items o | None => [] end else [];
     ga_out := if top then match last_given l $"output" with Some o => items o | None => [] end else [] |}.
Proof.
  intros H. unfold attributes. rewrite attrs_after. unfold after. rewrite H. cbn [ga_path ga_name ga_id ga_method ga_in ga_out fold_left]. unfold anonymous_path. cbn [ga_path ga_name ga_id ga_method ga_in ga_out]. cbv zeta.
  assert (G : forall {B} (f : str -> B) m d, last_or (map f m) d = match opt_last m with Some o => f o | None => d end).
  { intros B f m d. unfold last_or. induction m as [|x m IH]; [reflexivity|]. cbn [map]. rewrite !opt_last_cons. f_equal. clear IH. revert x. induction m as [|y m IH]; intros x; [reflexivity|]. cbn [map]. rewrite !last_or_cons. apply IH. }
  unfold last_given. rewrite !G. destruct top; reflexivity.
Qed.
Theorem attributes_name path l n : given l $"name" = [n] -> join $"." (path_of_name pc path n) <> [] ->
  attributes pc top path idx l =
  let p := path_of_name pc path n in
  {| ga_path := p; ga_name := join $"." p; ga_id := Some (join $"." p, idx);
     ga_method := match last_given l $"method" with Some o => strip (lower o) | None => $"group" end;
     ga_in := if top then match last_given l $"input" with Some o => items o | None => [] end else [];
     ga_out := if top then match last_given l $"output" with Some o => items o | None => [] end else [] |}.
Proof.
  intros H Hn. unfold attributes. rewrite attrs_after. unfold after. rewrite H. cbn [ga_path ga_name ga_id ga_method ga_in ga_out fold_left]. rewrite name_path. unfold anonymous_path. cbn [ga_path ga_name ga_id ga_method ga_in ga_out]. cbv zeta.
  assert (G : forall {B} (f : str -> B) m d, last_or (map f m) d = match opt_last m with Some o => f o | None => d end).
  { intros B f m d. unfold last_or. induction m as [|x m IH]; [reflexivity|]. cbn [map]. rewrite !opt_last_cons. f_equal. clear IH. revert x. induction m as [|y m IH]; intros x; [reflexivity|]. cbn [map]. rewrite !last_or_cons. apply IH. }
  unfold last_given. rewrite !G. destruct (join $"." (path_of_name pc path n)); [now destruct Hn|]. destruct top; reflexivity.
Qed.
End A.
(** ** functions *)
Section F.
Variables (vars : dict) (gnames : list str) (top : bool).
Definition chain_ok (a : attribute) : Prop := ~ In (at_name a) [$"method"; $"name"; $"default"; $"chain"; $"functions"] /\ (top = true -> ~ In (at_name a) [$"input"; $"output"]).
Definition counts (a : attribute) : bool := (in_strs (at_name a) gnames && negb (in_strs (at_name a) [$"input"; $"output"]))%bool.
Lemma notin n l : in_strs n l = false <-> ~ In n l.
Proof. split; [intros H K; apply SessionFacts.in_strs_In in K; congruence|]. intros H. destruct (in_strs n l) eqn:E; [|reflexivity]. exfalso. apply H. now apply SessionFacts.in_strs_In. Qed.
Lemma chain_step fs a fs' : chain_func gnames top fs a = Ok fs' <-> chain_ok a /\ fs' = fs ++ (if counts a then [a] else []).
Proof.
  unfold chain_func, chain_ok, counts. cbv zeta. destruct (in_strs (at_name a) [$"method"; $"name"]) eqn:E1.
  { split; [discriminate|]. intros [[K _] _]. exfalso. apply K. apply SessionFacts.in_strs_In in E1. cbn in E1 |- *. tauto. }
  destruct (in_strs (at_name a) [$"input"; $"output"]) eqn:E2.
  { pose proof E2 as E2'. apply SessionFacts.in_strs_In in E2'. rewrite Bool.andb_false_r, app_nil_r. destruct top.
    - split; [discriminate|]. intros [[_ K] _]. exfalso. now apply K.
    - split; [intros [= <-]; split; [|reflexivity]|intros [_ ->]; reflexivity]. split; [|discriminate]. cbn in E2'. intros K. cbn in K. clear - E2' K. destruct E2' as [E|[E|[]]]; rewrite <- E in K; repeat (destruct K as [K|K]; [discriminate K|]); destruct K. }
  destruct (in_strs (at_name a) [$"default"; $"chain"; $"functions"]) eqn:E3.
  { split; [discriminate|]. intros [[K _] _]. exfalso. apply K. apply SessionFacts.in_strs_In in E3. cbn in E3 |- *. tauto. }
  cbn [negb]. rewrite Bool.andb_true_r. apply notin in E1, E2, E3.
  assert (Hok : ~ In (at_name a) [$"method"; $"name"; $"default"; $"chain"; $"functions"] /\ (top = true -> ~ In (at_name a) [$"input"; $"output"])).
  { split; [|intros _; exact E2]. cbn in E1, E3 |- *. tauto. }
  destruct (in_strs (at_name a) gnames); (split; [intros [= <-]; split; [exact Hok|]|intros [_ ->]]); try reflexivity; now rewrite app_nil_r.
Qed.
Lemma chain_all l : forall fs fs', rfold (chain_func gnames top) l fs = Ok fs' <-> Forall chain_ok l /\ fs' = fs ++ filter counts l.
Proof.
  induction l as [|a l IH]; intros fs fs'; cbn [rfold filter].
  - rewrite app_nil_r. split; [intros [= <-]; split; [constructor|reflexivity]|intros [_ ->]; reflexivity].
  - split.
    + intros E. destruct (chain_func gnames top fs a) as [f1|] eqn:E1; [|discriminate]. cbn [rbind] in E. apply (proj1 (chain_step _ _ _)) in E1 as [Ha ->]. apply (proj1 (IH _ _)) in E as [Hl ->]. split; [now constructor|]. rewrite <- app_assoc. now destruct (counts a).
    + intros [H ->]. inversion H as [|? ? Ha Hl]; subst. rewrite (proj2 (chain_step fs a _) (conj Ha eq_refl)). cbn [rbind]. apply (proj2 (IH _ _)). split; [exact Hl|]. rewrite <- app_assoc. now destruct (counts a).
Qed.
Lemma one_step fa kv fa' : one_fattr vars gnames top fa kv = Ok fa' <->
  exists fs, adds vars gnames top kv fs /\ fa' = {| fa_default := if str_eqb (lower (fst kv)) $"default" then Some (variable_or_text vars (snd kv)) else fa_default fa; fa_funcs := fa_funcs fa ++ fs |}.
Proof.
  unfold one_fattr, adds. cbv zeta. set (n := lower (fst kv)). destruct (in_strs n [$"method"; $"input"; $"output"; $"name"]) eqn:E1.
  { assert (Ec : in_strs n [$"chain"; $"functions"] = false /\ in_strs n own_attributes = true /\ str_eqb n $"default" = false).
    { apply SessionFacts.in_strs_In in E1. cbn in E1. destruct E1 as [<-|[<-|[<-|[<-|[]]]]]; repeat split. }
    destruct Ec as (-> & -> & ->). split; [intros [= <-]; exists []; split; [reflexivity|rewrite app_nil_r; now destruct fa]|]. intros (fs & -> & ->). rewrite app_nil_r. now destruct fa. }
  destruct (str_eqb n $"default") eqn:E2.
  { apply str_eqb_eq in E2. rewrite E2. change (in_strs $"default" [$"chain"; $"functions"]) with false. change (in_strs $"default" own_attributes) with true. cbv iota. unfold variable_or_text.
    split; [intros [= <-]; exists []; split; [reflexivity|now rewrite app_nil_r]|]. intros (fs & -> & ->). now rewrite app_nil_r. }
  destruct (in_strs n [$"chain"; $"functions"]) eqn:E3.
  { unfold variable_or_text. destruct (chain_texts _) as [l|] eqn:El; cbn [rbind].
    - split.
      + intros E. destruct (rfold _ l (fa_funcs fa)) as [fs|] eqn:Ef; [|discriminate]. cbn [rbind] in E. injection E as <-. apply (proj1 (chain_all _ _ _)) in Ef as [Hl ->]. eexists. split; [exists l; split; [reflexivity|]; split; [exact Hl|reflexivity]|reflexivity].
      + intros (fs & (l' & E' & Hl & ->) & ->). injection E' as <-. rewrite (proj2 (chain_all l (fa_funcs fa) _) (conj Hl eq_refl)). reflexivity.
    - split; [discriminate|]. intros (fs & (l' & E' & _) & _). discriminate. }
  assert (Eo : in_strs n own_attributes = false). { apply notin. apply notin in E1, E3. apply str_eqb_neq in E2. intros K. cbn in E1, E3, K. destruct K as [K|[K|[K|[K|[K|[K|[K|[]]]]]]]]; try tauto. apply E2. now symmetry. }
  rewrite Eo. destruct (get_attributes _) as [[|x l]|]; cbn [rbind].
  - split; [discriminate|]. intros (fs & (x & m & E & _) & _). discriminate.
  - split; [intros [= <-]; exists [x]; split; [exists x, l; now split|reflexivity]|]. intros (fs & (y & m & E & ->) & ->). injection E as <- <-. reflexivity.
  - split; [discriminate|]. intros (fs & (x & m & E & _) & _). discriminate.
Qed.
Theorem functions_exact l : forall fa fa', rfold (one_fattr vars gnames top) l fa = Ok fa' <->
  exists fss, Forall2 (adds vars gnames top) l fss /\
    fa' = {| fa_default := match last_given l $"default" with Some o => Some (variable_or_text vars o) | None => fa_default fa end; fa_funcs := fa_funcs fa ++ concat fss |}.
Proof.
  induction l as [|kv l IH]; intros fa fa'; cbn [rfold].
  - split; [intros [= <-]; exists []; split; [constructor|]; cbn; rewrite app_nil_r; now destruct fa|]. intros (fss & H & ->). inversion H; subst. cbn. rewrite app_nil_r. now destruct fa.
  - assert (D : forall d, match last_given l $"default" with Some o => Some (variable_or_text vars o) | None => if str_eqb (lower (fst kv)) $"default" then Some (variable_or_text vars (snd kv)) else d end = match last_given (kv :: l) $"default" with Some o => Some (variable_or_text vars o) | None => d end).
    { intros d. unfold last_given. rewrite given_cons. destruct (str_eqb (lower (fst kv)) $"default"); [|reflexivity]. cbn [app]. rewrite opt_last_cons. unfold last_or. now destruct (opt_last (given l $"default")). }
    split.
    + intros E. destruct (one_fattr vars gnames top fa kv) as [f1|] eqn:E1; [|discriminate]. cbn [rbind] in E. apply (proj1 (one_step _ _ _)) in E1 as (fs & Hf & ->). apply (proj1 (IH _ _)) in E as (fss & Hs & ->). exists (fs :: fss). split; [now constructor|]. cbn [concat fa_default fa_funcs]. rewrite <- app_assoc. now rewrite D.
    + intros (fss & H & ->). inversion H as [|? fs ? fss' Hf Hs]; subst. rewrite (proj2 (one_step fa kv _) (ex_intro _ fs (conj Hf eq_refl))). cbn [rbind]. apply (proj2 (IH _ _)). exists fss'. split; [exact Hs|]. cbn [concat fa_default fa_funcs]. rewrite <- app_assoc. now rewrite D.
Qed.
End F.
(** ** a group: its attributes, its functions, its lines, its children *)
Section G.
Variables (vars : dict) (gnames : list str) (pc : str).
Theorem group_made top path idx par e id par' p a funcs s kids : compile_group vars gnames pc top path idx par e = Ok (CG id par' p a funcs s kids) ->
  par' = par /\ a = attributes pc top path idx (e_attrs e) /\ p = ga_path a /\ ga_id a = Some id /\
  (exists fss, Forall2 (adds vars gnames top) (e_attrs e) fss /\ funcs = concat fss) /\
  Forall2 (fun ic k => compile_group vars gnames pc false p (fst ic) (Some id) (snd ic) = Ok k) (combine (seq 0 (length (e_children e))) (e_children e)) kids.
Proof.
  intros E. destruct e as [tag attrs text cs tail]. cbn [compile_group e_attrs e_children] in *. destruct (func_attributes vars gnames top attrs) as [fa|] eqn:Ef; [|discriminate]. cbn [rbind] in E. set (b := attributes pc top path idx attrs) in *.
  match type of E with (do s0 <- ?m; _) = _ => destruct m as [s0|] eqn:E0; [|discriminate] end. cbn [rbind] in E.
  match type of E with (do (_, _) <- ?m; _) = _ => destruct m as [[ks s2]|] eqn:Ek; [|discriminate] end. cbn [rbind] in E. injection E as <- <- <- <- <- <- <-.
  split; [reflexivity|]. split; [reflexivity|]. split; [reflexivity|].
  assert (Hid : exists i, ga_id b = Some i).
  { unfold b, attributes, anonymous_path. rewrite attrs_after. unfold after. cbn [ga_path ga_name ga_id ga_method ga_in ga_out]. destruct (given attrs $"name"); [eexists; reflexivity|]. destruct (join _ _); eexists; reflexivity. }
  destruct Hid as [i Hi]. rewrite Hi in *. split; [reflexivity|]. split.
  - unfold func_attributes in Ef. apply (proj1 (functions_exact _ _ _ _ _ _)) in Ef as (fss & H & ->). exists fss. split; [exact H|reflexivity].
  - clear - Ek. revert Ek. generalize 0 as k. revert ks s0 s2. induction cs as [|c cs IH]; intros ks s0 s2 k Ek; [injection Ek as <- <-; constructor|].
    destruct (compile_group _ _ _ _ _ _ _ c) as [g|] eqn:Ec; [|discriminate]. cbn [rbind] in Ek.
    match type of Ek with (do s1 <- ?m; _) = _ => destruct m as [s1|] eqn:E1; [|discriminate] end. cbn [rbind] in Ek.
    match type of Ek with (do (_, _) <- ?m; _) = _ => destruct m as [[ks' s3]|] eqn:E2; [|discriminate] end. cbn [rbind] in Ek. injection Ek as <- <-.
    cbn [length seq combine]. constructor; [exact Ec|]. now apply (IH _ _ _ _ E2).
Qed.
End G.
