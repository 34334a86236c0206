(** * PythonFacts: load_python and load_struct give exactly what SpecFiles says. *)
From Coq Require Import Lia.
From Verif Require Import PyBase Regex SpecRegex Template Attributes MatchVar Compile FuncTable Loaders Session Files SpecVariable SpecAttr SpecText SpecFiles.
From Verif Require Import StrFacts DictFacts SessionFacts MadeFacts CallFacts TextFacts LexFacts LexFacts2 GrammarFacts GrammarFacts2 FileFacts JsonFacts.
Local Open Scope string_scope.
Local Open Scope list_scope.

Lemma constants_iff n : in_strs n [$"True"; $"False"; $"None"] = true <-> word_in n constants.
Proof. rewrite in_strs_b. reflexivity. Qed.
Definition plain_tokens (ts : list token) : Prop := Forall (fun t => forall n, t = TName n -> word_in n constants) ts.
Lemma literal_tokens ts : forallb literal_token ts = true <-> plain_tokens ts.
Proof.
  unfold plain_tokens. rewrite forallb_forall, Forall_forall. split; intros H t I.
  - intros n ->. apply constants_iff. exact (H _ I).
  - specialize (H t I). destruct t; try reflexivity. cbn [literal_token]. apply constants_iff. now apply H.
Qed.
Lemma literal_iff ts v : Files.literal ts = Some v <-> plain_tokens ts /\ denotes ts v.
Proof.
  unfold Files.literal. destruct (forallb literal_token ts) eqn:F.
  - apply literal_tokens in F. split.
    + intros K. destruct (expr _ ts) as [[x [|y r]]|] eqn:E; try discriminate. injection K as <-. apply expr_sound in E. destruct E as (p & E & D). rewrite app_nil_r in E. subst p. now split.
    + intros [_ D]. rewrite <- (app_nil_r ts) at 2. rewrite (expr_complete ts v [] _ D); [reflexivity|lia|]. try exact I; try (now intros); try easy.
  - split; [discriminate|]. intros [P _]. apply literal_tokens in P. congruence.
Qed.
Lemma free_names n : in_strs n ([$"True"; $"False"; $"None"] ++ keywords) = false <-> ~ word_in n constants /\ ~ word_in n reserved.
Proof. pose proof (free_iff n) as H. unfold in_strs. rewrite H. unfold name_free. tauto. Qed.
Lemma assigns_iff s n v : assignment s = Some (n, v) <-> assigns s n v.
Proof.
  unfold assignment, lexed. split.
  - intros K. destruct (lex (S (length s)) s) as [ts|] eqn:E; [|discriminate]. apply lex_iff in E. destruct ts as [|[m| | |] ts]; try discriminate. destruct ts as [|[| | |c] ts]; try discriminate.
    assert (C : c = "="%char). { destruct c as [[] [] [] [] [] [] [] []]; try discriminate; reflexivity. } subst c.
    destruct (in_strs m _) eqn:F; [discriminate|]. apply free_names in F. destruct F as [F1 F2]. destruct (Files.literal ts) as [x|] eqn:L; [|discriminate]. injection K as <- <-. apply literal_iff in L. destruct L. now apply (as_one s m ts x).
  - intros [s' m ts x S N1 N2 P D]. apply lex_iff in S. rewrite S. rewrite (proj2 (free_names m) (conj N1 N2)). now rewrite (proj2 (literal_iff ts x) (conj P D)).
Qed.
Lemma assigns_none s : assignment s = None <-> forall n v, ~ assigns s n v.
Proof.
  split; [intros E n v K; apply assigns_iff in K; congruence|]. intros H. destruct (assignment s) as [[n v]|] eqn:E; [|reflexivity]. elim (H n v). now apply assigns_iff.
Qed.
Lemma idle_iff l : blank_line l = true <-> idle_line l.
Proof.
  unfold blank_line, idle_line. destruct (lstrip_is is_space white white_iff l) as (a & E & A & N). change (lstrip_p is_space l) with (lstrip l) in *. split.
  - destruct (lstrip l) as [|c t]; [left; rewrite E, app_nil_r; exact A|]. intros K. apply Ascii.eqb_eq in K. subst c. right. now exists a, t.
  - intros H. destruct (lstrip l) as [|c t] eqn:L; [reflexivity|]. specialize (N c t eq_refl). destruct H as [H|(g & u & G & W)].
    + elim N. rewrite Forall_forall in H. apply H. rewrite E. apply in_or_app. right. now left.
    + assert (X : lstrip l = "#"%char :: u). { rewrite G. apply (lstrip_drop is_space white white_iff); [exact W|]. intros x y K. injection K as <- <-. apply not_white. reflexivity. }
      rewrite L in X. injection X as -> _. reflexivity.
Qed.
Lemma idle_f l : blank_line l = false <-> ~ idle_line l. Proof. apply bool_f. apply idle_iff. Qed.
Lemma idle_nil : idle_line []. Proof. left. constructor. Qed.
Lemma done_inv b ls s r n v : assigns b n v -> statement_from b ls s r -> s = b /\ r = ls.
Proof. intros A S. inversion S; subst; [now split| |]; exfalso; now apply (H n v). Qed.
Lemma statements_iff ls : forall d d',
  (statements ls [] d = Some d' <-> exists es, code_of ls es /\ d' = sets d es) /\
  (forall buf, buf <> [] -> assignment buf = None -> (statements ls buf d = Some d' <-> exists s r n v es, statement_from buf ls s r /\ assigns s n v /\ code_of r es /\ d' = sets d ((n, v) :: es))).
Proof.
  induction ls as [|l ls IH]; intros d d'.
  - split.
    + cbn [statements]. split; [intros K; injection K as ->; exists []; split; [exact co_end|reflexivity]|]. intros (es & C & ->). inversion C. reflexivity.
    + intros buf N A. cbn [statements]. destruct buf; [congruence|]. split; [discriminate|]. intros (s & r & n & v & es & S & B & _). apply assigns_none with (n := n) (v := v) in A. inversion S; subst; contradiction.
  - split.
    + cbn [statements]. destruct (blank_line l) eqn:B.
      * apply idle_iff in B. rewrite (proj1 (IH d d')). split; intros (es & C & ->); exists es; (split; [|reflexivity]); [now constructor|]. inversion C; subst; [assumption|contradiction].
      * apply idle_f in B. destruct l as [|c l]; [elim B; apply idle_nil|]. destruct (is_space c) eqn:W.
        { apply white_iff in W. split; [discriminate|]. intros (es & C & _). inversion C; subst; contradiction. }
        apply not_white in W. destruct (assignment (c :: l)) as [[n v]|] eqn:A.
        -- apply assigns_iff in A. rewrite (proj1 (IH _ d')). split.
           ++ intros (es & C & ->). exists ((n, v) :: es). split; [|reflexivity]. apply (co_statement c l ls (c :: l) ls n v es); try assumption. now apply (sf_done _ n v).
           ++ intros (es & C & ->). inversion C as [|? ? ? X|? ? ? s r m u es' _ _ S A' C']; subst; [contradiction|]. apply (done_inv _ _ _ _ n v A) in S. destruct S as [-> ->]. apply assigns_iff in A, A'. assert (X : (m, u) = (n, v)) by congruence. injection X as -> ->. now exists es'.
        -- rewrite (proj2 (IH d d') (c :: l)) by (discriminate || assumption). split.
           ++ intros (s & r & n & v & es & S & A' & C & ->). exists ((n, v) :: es). split; [|reflexivity]. now apply (co_statement c l ls s r n v es).
           ++ intros (es & C & ->). inversion C as [|? ? ? X|? ? ? s r m u es' _ _ S A' C']; subst; [contradiction|]. now exists s, r, m, u, es'.
    + intros buf N A. pose proof A as A0. pose proof (proj1 (assigns_none buf) A) as A1.
      cbn [statements]. destruct (blank_line l) eqn:B.
      * apply idle_iff in B. rewrite (proj2 (IH d d') buf N A0). split; intros (s & r & n & v & es & S & X & C & ->); exists s, r, n, v, es; repeat split; try assumption; [now apply sf_idle|].
        inversion S; subst; [elim (A1 n0 v0); assumption|assumption|contradiction].
      * apply idle_f in B. destruct buf as [|c b]; [congruence|]. change (c :: b) with (c :: b) in *. set (buf := c :: b) in *. cbv zeta iota beta.
        assert (U : (match l with [] => Some d' | _ => Some d' end) = Some d') by now destruct l. clear U.
        destruct (assignment (buf ++ [space] ++ l)) as [[n v]|] eqn:Q.
        -- apply assigns_iff in Q. rewrite (proj1 (IH _ d')). split.
           ++ intros (es & C & ->). exists (buf ++ [space] ++ l), ls, n, v, es. repeat split; try assumption. apply sf_line; try assumption. now apply (sf_done _ n v).
           ++ intros (s & r & m & u & es & S & X & C & ->). inversion S as [? n0 v0 ? Z|? ? ? ? ? Z1 Z2 Z3|? ? ? ? ? Z1 Z2 Z3]; subst; [elim (A1 n0 v0); assumption|contradiction|]. apply (done_inv _ _ _ _ n v Q) in Z3. destruct Z3 as [-> ->]. apply assigns_iff in Q, X. assert (Y : (m, u) = (n, v)) by congruence. injection Y as -> ->. now exists es.
        -- rewrite (proj2 (IH d d') (buf ++ [space] ++ l)) by (discriminate || assumption). split; intros (s & r & m & u & es & S & X & C & ->); exists s, r, m, u, es; repeat split; try assumption; [now apply sf_line|].
           inversion S; subst; [elim (A1 n v); assumption|contradiction|assumption].
Qed.

(** ** load_python *)
Lemma breaks_eq s : flat_map (fun c => if Ascii.eqb c nl then [space] else [c]) s = blank_breaks s.
Proof. unfold blank_breaks. induction s as [|c s IH]; [reflexivity|]. cbn [flat_map map]. rewrite IH. change nl with (chr 10). now destruct (Ascii.eqb c (chr 10)). Qed.
Lemma all_white s : strip s = [] <-> Forall white s.
Proof.
  assert (H : stripped true true white s [] <-> strip s = []) by (rewrite (both_stripped is_space white white_iff s []); unfold strip; split; intros E; symmetry; exact E).
  rewrite <- H. split.
  - intros (a & b & -> & A & B & _). now apply Forall_app.
  - intros W. exists s, []. rewrite app_nil_r. repeat split; try assumption; try constructor; try discriminate. intros _ t c E. now destruct t.
Qed.
Lemma lines_iff s ls : lines_of s ls <-> splitlines s = ls.
Proof.
  unfold lines_of, splitlines. change [nl] with [chr 10]. split.
  - intros (ps & C & H). apply cut_iff in C; [|discriminate]. rewrite C. destruct H as [->|[-> L]].
    + rewrite rev_app_distr. cbn [rev app]. apply rev_involutive.
    + destruct ls as [|x ls] using rev_ind; [now elim L|]. rewrite last_last in L. rewrite rev_app_distr. cbn [rev app]. destruct x; [congruence|]. cbn [rev]. now rewrite rev_involutive.
  - intros <-. exists (split [chr 10] s). split; [apply cut_iff; [discriminate|reflexivity]|].
    assert (N : split [chr 10] s <> []) by apply split_ne. destruct (split [chr 10] s) as [|x ps _] using rev_ind; [congruence|]. rewrite rev_app_distr. cbn [rev app]. rewrite last_last. destruct x as [|c x].
    + left. now rewrite rev_involutive.
    + right. split; [|discriminate]. cbn [rev]. now rewrite rev_involutive.
Qed.
Lemma sets_nil d es : sets d es = [] -> es = [] /\ d = [].
Proof.
  unfold sets. revert d. induction es as [|[n v] es IH]; intros d; cbn [map fold_left]; [now split|]. intros E. apply IH in E. destruct E as [_ E]. exfalso. cbn [fst snd] in E. destruct d as [|[k x] d]; [discriminate|]. cbn [dset] in E. destruct (key_eqb (KS n) k); discriminate.
Qed.
Lemma coded_iff s d : statements (splitlines s) [] [] = Some d <-> exists es, coded s es /\ d = sets [] es.
Proof.
  rewrite (proj1 (statements_iff (splitlines s) [] d)). split.
  - intros (es & C & ->). exists es. split; [|reflexivity]. exists (splitlines s). split; [now apply lines_iff|exact C].
  - intros (es & (ls & L & C) & ->). apply lines_iff in L. subst ls. now exists es.
Qed.
Lemma code_fun s es es' : coded s es -> coded s es' -> sets [] es = sets [] es'.
Proof. intros A B. assert (X : statements (splitlines s) [] [] = Some (sets [] es)) by (apply coded_iff; eauto). assert (Y : statements (splitlines s) [] [] = Some (sets [] es')) by (apply coded_iff; eauto). congruence. Qed.
Lemma python_literal_iff s v : match lexed s with Some ts => match Files.literal ts with Some v => Ok v | None => out_of_model end | None => out_of_model end = Ok v <-> python_literal s v.
Proof.
  unfold lexed, python_literal. split.
  - intros K. destruct (lex _ s) as [ts|] eqn:E; [|discriminate]. apply lex_iff in E. destruct (Files.literal ts) as [x|] eqn:L; [|discriminate]. injection K as <-. apply literal_iff in L. exists ts. tauto.
  - intros (ts & S & P & D). apply lex_iff in S. rewrite S. now rewrite (proj2 (literal_iff ts v) (conj P D)).
Qed.
Theorem python_iff s v : load_python s = Ok v <-> python_gives s v.
Proof.
  unfold load_python. rewrite breaks_eq. pose proof (all_white s) as W. destruct (strip s) as [|c t].
  { assert (A : Forall white s) by now apply W. split; [intros K; injection K as <-; now constructor|]. intros K. inversion K; subst; contradiction || reflexivity. }
  assert (A : ~ Forall white s) by (intros K; apply W in K; discriminate). clear W.
  destruct (statements (splitlines s) [] []) as [[|e d]|] eqn:E.
  - rewrite python_literal_iff. assert (NC : forall es, es <> [] -> ~ coded s es). { intros es N C. assert (X : statements (splitlines s) [] [] = Some (sets [] es)) by (apply coded_iff; eauto). rewrite E in X. assert (Y : sets [] es = []) by congruence. apply sets_nil in Y. tauto. }
    split; [intros K; now apply pg_literal|]. intros K. inversion K as [? Z|? es Z1 Z2 Z3|? ? Z1 Z2 Z3]; subst; [contradiction| |exact Z3]. now elim (NC es).
  - apply coded_iff in E. destruct E as (es & C & E). assert (N : es <> []) by (intros ->; discriminate). split.
    + intros K. assert (X : v = VDict (sets [] es)) by congruence. rewrite X. now apply pg_code.
    + intros K. inversion K as [? Z|? es' Z1 Z2 Z3|? ? Z1 Z2 Z3]; subst; [contradiction| |now elim (Z2 es)]. rewrite E. f_equal. f_equal. now apply (code_fun s).
  - rewrite python_literal_iff. assert (NC : forall es, es <> [] -> ~ coded s es). { intros es N C. assert (X : statements (splitlines s) [] [] = Some (sets [] es)) by (apply coded_iff; eauto). congruence. }
    split; [intros K; now apply pg_literal|]. intros K. inversion K as [? Z|? es Z1 Z2 Z3|? ? Z1 Z2 Z3]; subst; [contradiction| |exact Z3]. now elim (NC es).
Qed.

(** ** load_struct *)
Lemma texts_fold (l : list datum) : forall (s r : str), rfold (fun t d => match d with TextData x => Ok (t ++ [nl] ++ x) | _ => out_of_model end) l s = Ok r <->
  exists ts, Forall2 (fun d t => d = TextData t) l ts /\ r = s ++ concat (map (fun t => chr 10 :: t) ts).
Proof.
  induction l as [|d l IH]; intros s r; cbn [rfold].
  - split; [intros K; exists []; split; [constructor|]; cbn [map concat]; rewrite app_nil_r; congruence|]. intros (ts & F & ->). inversion F. cbn [map concat]. now rewrite app_nil_r.
  - split.
    + intros K. destruct d as [x|x|x]; cbn [rbind] in K; try discriminate. apply IH in K. destruct K as (ts & F & ->). exists (x :: ts). split; [now constructor|]. cbn [map concat]. now rewrite <- !app_assoc.
    + intros (ts & F & ->). inversion F as [|? t ? ts' -> F']; subst. cbn [rbind]. apply IH. exists ts'. split; [exact F'|]. cbn [map concat]. now rewrite <- !app_assoc.
Qed.
Lemma includes_iff w s i t : include_data w s i = Ok t <-> includes w s i t.
Proof.
  unfold include_data. destruct i as [[|c p]|].
  - split; [intros K; injection K as <-; constructor; now right|]. intros K. inversion K; subst; [reflexivity|congruence].
  - split.
    + intros K. destruct (load_files w (VStr (c :: p)) [] [] true) as [l|] eqn:E; [|discriminate]. cbn [rbind] in K. apply loads_iff in E. apply texts_fold in K. destruct K as (ts & F & ->). now apply (ic_some w s (c :: p) l ts).
    + intros K. inversion K as [? ? X|? ? ds ts N L F]; subst; [destruct X; discriminate|]. apply loads_iff in L. rewrite L. cbn [rbind]. apply texts_fold. now exists ts.
  - split; [intros K; injection K as <-; constructor; now left|]. intros K. inversion K; subst; reflexivity.
Qed.
(** what goes wrong *)
Lemma attr_of attrs n : attribute_of attrs n = attr attrs (t_ n). Proof. reflexivity. Qed.
Lemma some_tag (text : str) (i : option str) : {text = [] /\ i = None} + {text <> [] \/ i <> None}.
Proof. destruct text; [destruct i; [right; right; discriminate|now left]|right; left; discriminate]. Qed.
Definition struct_body (w : world) (text : str) (attrs : list (str * str)) : res (option val) :=
      let include := attr attrs $"include" in
      let l := lower (match attr attrs $"load" with Some x => x | None => $"python" end) in
      if str_eqb l $"python" then do t <- include_data w text include; do v <- load_python t; Ok (Some v)
      else if str_eqb l $"csv" then
        do t <- include_data w text include;
        do d <- load_csv (match attr attrs $"key" with Some k => k | None => [] end) t; Ok (Some (VDict d))
      else if str_eqb l $"json" then
        do t <- include_data w text include;
        match json_loads t with
        | Ok v => Ok (Some v)
        | Raise ValueError => Ok None
        | Raise e => Raise e
        end
      else if str_eqb l $"text" then Ok (Some (VStr text))
      else if in_strs l [$"ini"; $"yaml"] then out_of_model else Raise KeyError.
Lemma struct_some w text attrs : text <> [] \/ attribute_of attrs "include" <> None -> load_struct w text attrs = struct_body w text attrs.
Proof.
  rewrite attr_of. change (t_ "include") with $"include". unfold load_struct, struct_body. intros H. destruct text; [|reflexivity]. destruct (attr attrs $"include"); [reflexivity|]. destruct H; congruence.
Qed.
Lemma loader_eq attrs : lower (match attr attrs $"load" with Some x => x | None => $"python" end) = loader attrs.
Proof. unfold loader. rewrite attr_of. change (t_ "load") with $"load". now destruct (attr attrs $"load"). Qed.
Ltac sg_inv K L := inversion K as [Z1 Z2|t0 v0 Z1 Z2 Z3 Z4|t0 d0 Z1 Z2 Z3 Z4|t0 v0 Z1 Z2 Z3 Z4|t0 Z1 Z2 Z3 Z4|Z1 Z2]; try (exfalso; match goal with H : _ <> _ \/ _ <> _ |- _ => clear - H Z1 Z2; destruct H; congruence end); try (rewrite Z2 in L; discriminate).
Theorem struct_iff w text attrs o : load_struct w text attrs = Ok o <-> struct_gives w text attrs o.
Proof.
  destruct (some_tag text (attribute_of attrs "include")) as [[-> E]|H].
  - unfold load_struct. change (attr attrs $"include") with (attribute_of attrs "include"). rewrite E. split; [intros K; injection K as <-; now constructor|]. intros K. inversion K; subst; try reflexivity; destruct H; congruence.
  - rewrite (struct_some w text attrs H). unfold struct_body. cbv zeta. rewrite loader_eq. change (attr attrs $"include") with (attribute_of attrs "include"). change (attr attrs $"key") with (attribute_of attrs "key").
    assert (D : forall (x : string) (P : Prop), str_eqb (loader attrs) $x = false -> loader attrs = t_ x -> P) by (intros x P E1 E2; rewrite E2 in E1; change (t_ x) with $x in E1; rewrite str_eqb_refl in E1; discriminate).
    destruct (str_eqb (loader attrs) $"python") eqn:L1.
    { apply str_eqb_eq in L1. split.
      - intros K. destruct (include_data w text _) as [t|] eqn:I; [|discriminate]. cbn [rbind] in K. destruct (load_python t) as [v|] eqn:P; [|discriminate]. cbn [rbind] in K. injection K as <-. apply includes_iff in I. apply python_iff in P. now apply (sg_python w text attrs t v).
      - intros K. sg_inv K L1. apply includes_iff in Z3. apply python_iff in Z4. rewrite Z3. cbn [rbind]. now rewrite Z4. }
    destruct (str_eqb (loader attrs) $"csv") eqn:L2.
    { apply str_eqb_eq in L2. split.
      - intros K. destruct (include_data w text _) as [t|] eqn:I; [|discriminate]. cbn [rbind] in K. destruct (load_csv _ t) as [d|] eqn:P; [|discriminate]. cbn [rbind] in K. injection K as <-. apply includes_iff in I. now apply (sg_csv w text attrs t d).
      - intros K. sg_inv K L2. apply includes_iff in Z3. rewrite Z3. cbn [rbind]. now rewrite Z4. }
    destruct (str_eqb (loader attrs) $"json") eqn:L3.
    { apply str_eqb_eq in L3. split.
      - intros K. destruct (include_data w text _) as [t|] eqn:I; [|discriminate]. cbn [rbind] in K. apply includes_iff in I. destruct (json_loads t) as [v|e] eqn:P.
        + injection K as <-. apply json_iff in P. now apply (sg_json w text attrs t v).
        + destruct e; try discriminate. injection K as <-. now apply (sg_bad_json w text attrs t).
      - intros K. sg_inv K L3; apply includes_iff in Z3; rewrite Z3; cbn [rbind]; [apply json_iff in Z4|]; now rewrite Z4. }
    destruct (str_eqb (loader attrs) $"text") eqn:L4.
    { apply str_eqb_eq in L4. split; [intros K; injection K as <-; now apply sg_text|]. intros K. sg_inv K L4. reflexivity. }
    split.
    + destruct (in_strs _ _); discriminate.
    + intros K. sg_inv K L1; first [exact (D "python" _ L1 Z2) | exact (D "csv" _ L2 Z2) | exact (D "json" _ L3 Z2) | exact (D "text" _ L4 Z2)].
Qed.
Theorem no_loader w text attrs : text <> [] \/ attribute_of attrs "include" <> None -> ~ word_in (loader attrs) ["python"; "csv"; "json"; "text"; "ini"; "yaml"] -> load_struct w text attrs = Raise KeyError.
Proof.
  intros H N. rewrite (struct_some w text attrs H). unfold struct_body. cbv zeta. rewrite loader_eq.
  assert (D : forall x, In x ["python"; "csv"; "json"; "text"; "ini"; "yaml"] -> str_eqb (loader attrs) $x = false).
  { intros x I. destruct (str_eqb (loader attrs) $x) eqn:E; [|reflexivity]. apply str_eqb_eq in E. elim N. rewrite E. unfold word_in. change $x with (list_ascii_of_string x). now apply in_map. }
  rewrite (D "python"), (D "csv"), (D "json"), (D "text") by (cbn; tauto). unfold in_strs. cbn [existsb]. rewrite (D "ini"), (D "yaml") by (cbn; tauto). reflexivity.
Qed.
Lemma extended_app a s : extended s -> extended (a ++ s).
Proof. intros [p w q I|p d c q D I]; rewrite app_assoc; now constructor. Qed.
Lemma extended_skip s : extended (json_skip s) -> extended s.
Proof. destruct (jskip_is s) as (w & E & _). intros H. rewrite E. now apply extended_app. Qed.
Lemma extended_cons c s : extended s -> extended (c :: s). Proof. apply (extended_app [c]). Qed.
Definition fault (s : str) (e : exn) : Prop := e = ValueError \/ extended s.
Lemma fault_app a s e : fault s e -> fault (a ++ s) e. Proof. intros [H|H]; [now left|right; now apply extended_app]. Qed.
Lemma fault_cons c s e : fault s e -> fault (c :: s) e. Proof. apply (fault_app [c]). Qed.
Lemma fault_skip s e : fault (json_skip s) e -> fault s e. Proof. intros [H|H]; [now left|right; now apply extended_skip]. Qed.
Lemma string_fault : forall f s e, json_string f s = Raise e -> fault s e.
Proof.
  induction f as [|f IH]; intros s e K; [injection K as <-; now left|]. cbn [json_string] in K. destruct s as [|c t]; [injection K as <-; now left|].
  destruct (Ascii.eqb c dquote); [discriminate|]. destruct (N.ltb (code c) 32); [injection K as <-; now left|].
  destruct (Ascii.eqb_spec c "\"%char) as [->|].
  - destruct t as [|x t]; [injection K as <-; now left|]. destruct (Ascii.eqb_spec x "u"%char) as [->|].
    + right. apply (ex_word [] "\u" t). cbn. tauto.
    + destruct (json_escape x); [|injection K as <-; now left]. destruct (json_string f t) as [[v q]|e'] eqn:E; [discriminate|]. cbn [rbind] in K. injection K as <-. apply IH in E. now apply fault_cons, fault_cons.
  - destruct (json_string f t) as [[v q]|e'] eqn:E; [discriminate|]. cbn [rbind] in K. injection K as <-. apply IH in E. now apply fault_cons.
Qed.
Lemma int_end_fault neg s ds r e : digits_at s = (ds, r) -> int_end neg (ds, r) = Raise e -> fault s e.
Proof.
  intros E K. destruct ds as [|c ds].
  - assert (X : s = r). { unfold digits_at in E. destruct s as [|c t]; [congruence|]. destruct (Ascii.eqb c "0"); [discriminate|]. apply span_spec in E. now destruct E. } subst r.
    unfold int_end in K. destruct (prefixb $"Infinity" s) eqn:P; [|injection K as <-; now left]. apply prefix_iff in P. destruct P as [r ->]. right. apply (ex_word [] "Infinity" r). cbn. tauto.
  - apply digits_at_sound in E; [|discriminate]. destruct E as (-> & n & J). destruct (jnatural_py _ _ J) as [_ P]. unfold int_end in K. rewrite P in K. destruct r as [|x r]; [discriminate|]. destruct (in_chars $".eE" x) eqn:I; [|discriminate]. apply in_chars_iff in I.
    right. destruct (exists_last (l := c :: ds) ltac:(discriminate)) as (a & d & E). rewrite E, <- app_assoc. apply (ex_fraction a d x r); [|exact I].
    assert (F : Forall a_digit (c :: ds)) by (inversion J; subst; [constructor; [unfold a_digit; cbn; lia|constructor]|now constructor]). rewrite E in F. apply Forall_app in F. destruct F as [_ F]. now inversion F.
Qed.
Lemma int_fault s e : json_int s = Raise e -> fault s e.
Proof.
  rewrite json_int_eq. destruct s as [|c t]; [intros K; injection K as <-; now left|]. destruct (Ascii.eqb c "-").
  - destruct (digits_at t) as [ds r] eqn:E. intros K. apply fault_cons. now apply (int_end_fault true t ds r).
  - destruct (digits_at (c :: t)) as [ds r] eqn:E. now apply (int_end_fault false (c :: t) ds r).
Qed.
Lemma json_fault n :
  (forall s e, json_value n s = Raise e -> fault s e) /\ (forall s e, json_items n s = Raise e -> fault s e) /\ (forall s d e, json_members n s d = Raise e -> fault s e).
Proof.
  induction n as [|n (IV & II & IM)]; [repeat split; intros s; intros; match goal with H : _ = Raise _ |- _ => injection H as <- end; now left|]. repeat split.
  - intros s e K. rewrite json_value_eq in K. destruct s as [|c t]; [injection K as <-; now left|].
    destruct (Ascii.eqb c dquote). { destruct (json_string _ t) as [[x q]|e'] eqn:E; [discriminate|]. cbn [rbind] in K. injection K as <-. apply string_fault in E. now apply fault_cons. }
    destruct (Ascii.eqb c "["). { destruct (starts "]" (json_skip t)); [discriminate|]. destruct (json_items n (json_skip t)) as [[l q]|e'] eqn:E; [discriminate|]. cbn [rbind] in K. injection K as <-. apply II in E. now apply fault_cons, fault_skip. }
    destruct (Ascii.eqb c "{"). { destruct (starts "}" (json_skip t)); [discriminate|]. destruct (json_members n (json_skip t) []) as [[l q]|e'] eqn:E; [discriminate|]. cbn [rbind] in K. injection K as <-. apply IM in E. now apply fault_cons, fault_skip. }
    destruct (cut $"null" _); [discriminate|]. destruct (cut $"true" _); [discriminate|]. destruct (cut $"false" _); [discriminate|].
    destruct (prefixb $"NaN" (c :: t)) eqn:P1. { apply prefix_iff in P1. destruct P1 as [r ->]. right. apply (ex_word [] "NaN" r). cbn. tauto. }
    destruct (prefixb $"Infinity" (c :: t)) eqn:P2. { apply prefix_iff in P2. destruct P2 as [r ->]. right. apply (ex_word [] "Infinity" r). cbn. tauto. }
    cbn [orb] in K. destruct (json_int (c :: t)) as [[z q]|e'] eqn:E; [discriminate|]. cbn [rbind] in K. injection K as <-. now apply int_fault.
  - intros s e K. rewrite json_items_eq in K. destruct (json_value n s) as [[v q]|e'] eqn:E; [|cbn [rbind] in K; injection K as <-; now apply IV]. cbn [rbind] in K. apply (proj1 (json_sound n)) in E. destruct E as (t & -> & _).
    rewrite case_2q in K. destruct (jskip_is q) as (w & E & _). destruct (starts "," (json_skip q)) as [q2|] eqn:S.
    + apply starts_iff in S. rewrite S in E. subst q. destruct (json_items n (json_skip q2)) as [[l' r']|e'] eqn:F; [discriminate|]. cbn [rbind] in K. injection K as <-. apply II in F. now apply fault_app, fault_app, fault_cons, fault_skip.
    + destruct (starts "]" _); [discriminate|]. injection K as <-. now left.
  - intros s d e K. rewrite json_members_eq in K. destruct s as [|c t]; [injection K as <-; now left|]. destruct (Ascii.eqb_spec c dquote) as [->|]; [|injection K as <-; now left].
    destruct (json_string (S (length t)) t) as [[k q]|e'] eqn:E; [|cbn [rbind] in K; injection K as <-; apply string_fault in E; now apply fault_cons]. cbn [rbind] in K. apply jstring_sound in E. destruct E as (b & -> & B). apply fault_cons, fault_app, fault_cons.
    rewrite case_co in K. destruct (jskip_is q) as (w2 & E & W2 & _). destruct (starts ":" (json_skip q)) as [q2|] eqn:S; [|injection K as <-; now left]. apply starts_iff in S. rewrite S in E. subst q. apply fault_app, fault_cons, fault_skip.
    destruct (json_value n (json_skip q2)) as [[v q3]|e'] eqn:F; [|cbn [rbind] in K; injection K as <-; now apply IV]. cbn [rbind] in K. apply (proj1 (json_sound n)) in F. destruct F as (u & F & _). rewrite F. apply fault_app.
    rewrite case_2c in K. destruct (starts "," (json_skip q3)) as [q4|] eqn:S4.
    + apply starts_iff in S4. apply fault_skip. rewrite S4. apply fault_cons, fault_skip. now apply IM in K.
    + destruct (starts "}" _); [discriminate|]. injection K as <-. now left.
Qed.
Theorem bad_json s : (forall v, ~ json_text s v) -> ~ extended s -> json_loads s = Raise ValueError.
Proof.
  intros N X. destruct (json_loads s) as [v|e] eqn:E; [elim (N v); now apply json_iff|]. assert (F : fault s e); [|destruct F; congruence].
  unfold json_loads in E. destruct (json_value _ (json_skip s)) as [[v r]|e'] eqn:V.
  - cbn [rbind] in E. destruct (json_skip r); [discriminate|]. injection E as <-. now left.
  - cbn [rbind] in E. injection E as <-. apply (proj1 (json_fault _)) in V. now apply fault_skip.
Qed.
