(** * TextFacts2: proofs for C125, methods and format strings. *)
From Coq Require Import Lia.
From Verif Require Import PyBase DictFacts StrFacts Regex Results Template Attributes EscapeFacts XmlFacts LineFacts FuncTable SessionFacts SpecVariable SpecText TextFacts.
Local Open Scope string_scope.
Local Open Scope list_scope.

Ltac lits := repeat match goal with |- context [str_eqb (t_ ?a) ?b] => let x := eval vm_compute in (str_eqb (t_ a) b) in change (str_eqb (t_ a) b) with x end; cbv iota.
Lemma method_iff n args s v : str_method n args s = Ok v <-> exists name, t_ name = n /\ method_gives name args s v.
Proof.
  split.
  - unfold str_method. intros H.
    destruct (str_eqb n $"upper") eqn:E; [exists "upper"; apply str_eqb_eq in E as ->; split; [reflexivity|]; destruct args; [|discriminate H]; assert (v = VStr (upper s)) by congruence; subst v; rewrite upper_concat; constructor; now apply uppers|clear E].
    destruct (str_eqb n $"lower") eqn:E; [exists "lower"; apply str_eqb_eq in E as ->; split; [reflexivity|]; destruct args; [|discriminate H]; assert (v = VStr (lower s)) by congruence; subst v; constructor; now apply lowers|clear E].
    destruct (str_eqb n $"strip") eqn:E; [exists "strip"; apply str_eqb_eq in E as ->; split; [reflexivity|]|clear E].
    { destruct args as [|[|b|z|cs|l|l|l] [|x y]]; try discriminate H; injection H as <-; try (apply mg_strip; [try (now left); now right|]; now apply (both_stripped is_space white white_iff)). apply mg_strip_of. now apply (both_stripped (in_chars cs) _ (in_chars_iff cs)). }
    destruct (str_eqb n $"lstrip") eqn:E; [exists "lstrip"; apply str_eqb_eq in E as ->; split; [reflexivity|]|clear E].
    { destruct args as [|[|b|z|cs|l|l|l] [|x y]]; try discriminate H; injection H as <-; try (apply mg_lstrip; [try (now left); now right|]; now apply (lstripped is_space white white_iff)). apply mg_lstrip_of. now apply (lstripped (in_chars cs) _ (in_chars_iff cs)). }
    destruct (str_eqb n $"rstrip") eqn:E; [exists "rstrip"; apply str_eqb_eq in E as ->; split; [reflexivity|]|clear E].
    { destruct args as [|[|b|z|cs|l|l|l] [|x y]]; try discriminate H; injection H as <-; try (apply mg_rstrip; [try (now left); now right|]; now apply (rstripped is_space white white_iff)). apply mg_rstrip_of. now apply (rstripped (in_chars cs) _ (in_chars_iff cs)). }
    destruct (str_eqb n $"split") eqn:E; [exists "split"; apply str_eqb_eq in E as ->; split; [reflexivity|]|clear E].
    { destruct args as [|[|b|z|cs|l|l|l] [|x y]]; try discriminate H; try (destruct cs; discriminate H).
      - assert (v = VList (map VStr (words s))) by congruence. subst v. apply mg_split; [now left|]. now apply words_iff.
      - assert (v = VList (map VStr (words s))) by congruence. subst v. apply mg_split; [now right|]. now apply words_iff.
      - destruct cs as [|c cs]; [discriminate H|]. assert (v = VList (map VStr (split (c :: cs) s))) by congruence. subst v. apply mg_split_at; [discriminate|]. apply cut_iff; [discriminate|reflexivity]. }
    destruct (str_eqb n $"replace") eqn:E; [exists "replace"; apply str_eqb_eq in E as ->; split; [reflexivity|]|clear E].
    { destruct args as [|[|b|z|old|l|l|l] [|[|b'|z'|new|l'|l'|l'] [|x [|y u]]]]; try discriminate H. assert (v = VStr (replace_all old new s)) by congruence. subst v. destruct old as [|c old].
      - cbn [replace_all]. rewrite intersperse. constructor.
      - rewrite replace_split by discriminate. apply mg_replace; [discriminate|]. apply cut_iff; [discriminate|reflexivity]. }
    destruct (str_eqb n $"startswith") eqn:E; [exists "startswith"; apply str_eqb_eq in E as ->; split; [reflexivity|]|clear E].
    { destruct args as [|[|b|z|p|l|l|l] [|x y]]; try discriminate H. injection H as <-. constructor. apply prefixb_app. }
    destruct (str_eqb n $"endswith") eqn:E; [exists "endswith"; apply str_eqb_eq in E as ->; split; [reflexivity|]|clear E].
    { destruct args as [|[|b|z|p|l|l|l] [|x y]]; try discriminate H. injection H as <-. constructor. apply suffix_iff. }
    destruct (in_strs n str_methods); [discriminate H|]. destruct (prefixb _ _); discriminate H.
  - intros (name & <- & H). unfold str_method. destruct H as [s l H|s l H|args s r [->| ->] H|cs s r H|args s r [->| ->] H|cs s r H|args s r [->| ->] H|cs s r H|args s l [->| ->] H|sep s l Hs H|old new s l Hs H|new s|p s b H|p s b H]; lits.
    + apply uppers in H as ->. now rewrite upper_concat.
    + apply lowers in H as ->. reflexivity.
    + apply (both_stripped is_space white white_iff) in H as ->. reflexivity.
    + apply (both_stripped is_space white white_iff) in H as ->. reflexivity.
    + apply (both_stripped (in_chars cs) _ (in_chars_iff cs)) in H as ->. reflexivity.
    + apply (lstripped is_space white white_iff) in H as ->. reflexivity.
    + apply (lstripped is_space white white_iff) in H as ->. reflexivity.
    + apply (lstripped (in_chars cs) _ (in_chars_iff cs)) in H as ->. reflexivity.
    + apply (rstripped is_space white white_iff) in H as ->. reflexivity.
    + apply (rstripped is_space white white_iff) in H as ->. reflexivity.
    + apply (rstripped (in_chars cs) _ (in_chars_iff cs)) in H as ->. reflexivity.
    + apply words_iff in H as <-. reflexivity.
    + apply words_iff in H as <-. reflexivity.
    + apply cut_iff in H as <-; [|exact Hs]. destruct sep; [congruence|reflexivity].
    + apply cut_iff in H as <-; [|exact Hs]. now rewrite replace_split.
    + cbn [replace_all]. now rewrite intersperse.
    + f_equal. f_equal. apply Bool.eq_iff_eq_true. rewrite H. apply prefixb_app.
    + f_equal. f_equal. apply Bool.eq_iff_eq_true. rewrite H. apply suffix_iff.
Qed.
Theorem data_method_iff a d v : data_method a d = Ok v <-> exists s name, d = VStr s /\ at_kwargs a = [] /\ t_ name = at_name a /\ method_gives name (at_args a) s v.
Proof.
  unfold data_method. split.
  - destruct d as [|b|z|s|l|l|l]; try (destruct (_ || _)%bool; discriminate); try (destruct (prefixb _ _); discriminate). destruct (at_kwargs a); [|discriminate]. intros H. apply method_iff in H as (name & Hn & H). exists s, name. auto.
  - intros (s & name & -> & -> & Hn & H). apply method_iff. exists name. auto.
Qed.
Theorem no_method a s : at_kwargs a = [] -> ~ In (at_name a) (map t_ text_methods) -> prefixb (t_ "__") (at_name a) = false -> data_method a (VStr s) = Raise AttributeError.
Proof.
  intros Hk Hn Hu. unfold data_method. rewrite Hk. unfold str_method. change (t_ "__") with $"__" in Hu. rewrite Hu.
  assert (N : forall x, In x text_methods -> str_eqb (at_name a) (t_ x) = false) by (intros x Hx; apply str_eqb_neq; intros K; apply Hn; rewrite K; now apply in_map).
  assert (M : in_strs (at_name a) str_methods = false). { destruct (in_strs (at_name a) str_methods) eqn:E; [|reflexivity]. apply in_strs_In in E. elim Hn. unfold text_methods. do 12 (apply in_cons). exact E. }
  rewrite M. repeat match goal with |- context [str_eqb (at_name a) ?b] => let x := eval vm_compute in (string_of_list_ascii b) in change b with (t_ x); rewrite (N x) by (unfold text_methods; repeat (first [apply in_eq|apply in_cons])) end. reflexivity.
Qed.

(** format strings *)
Lemma format_fuel kws : forall n pos s r, length s < n -> format_go n pos kws s = Ok r <-> formats kws pos s r.
Proof.
  induction n as [|n IH]; intros pos s r Hn; [lia|]. cbn [format_go]. destruct s as [|c t].
  { split; [intros H; assert (r = []) by congruence; subst; constructor|]. intros H. inversion H; subst; try reflexivity; discriminate. }
  cbn [length] in Hn. destruct (Ascii.eqb c "{") eqn:Ec; [apply Ascii.eqb_eq in Ec; subst c|]. 2: destruct (Ascii.eqb c "}") eqn:Ec2; [apply Ascii.eqb_eq in Ec2; subst c|].
  - destruct t as [|d t1]. { split; [discriminate|]. intros H. exfalso. inversion H; subst; try congruence; try discriminate. destruct n0; discriminate. }
    cbn [length] in Hn. destruct (Ascii.eqb d "{") eqn:Ed; [apply Ascii.eqb_eq in Ed; subst d|].
    + split.
      * destruct (format_go n pos kws t1) as [r1|] eqn:E; [|discriminate]. cbn [rbind]. intros H. assert (r = "{"%char :: r1) by congruence. subst r. apply IH in E; [|lia]. exact (fm_open kws pos t1 r1 E).
      * intros H. inversion H as [|? ? ? ? Hc|pos' s' r' H' E1 E2|? ? ? ? E1|v pos' s' r' H' E0 E1|pos' nm v s' r' Hw Hd Hg H' E0 E1]; subst; [congruence|apply IH in H'; [|lia]; now rewrite H'|].
        exfalso. destruct nm as [|x nm]; [now elim Hd|]. cbn [app t_ list_ascii_of_string] in E1. assert (x = "{"%char) by congruence. subst x. inversion Hw as [|? ? Hx]. vm_compute in Hx. discriminate Hx.
    + destruct (span_of _ (d :: t1)) as [name rest] eqn:Es. apply span_of_spec in Es as (Et & Hnm & Hrest).
      assert (Lr : length rest <= S (length t1)) by (change (S (length t1)) with (length (d :: t1)); rewrite Et, app_length; lia).
      split.
      * destruct rest as [|e r']; [discriminate|]. destruct (Ascii.eqb e "{") eqn:Ee; [discriminate|]. apply negb_false_iff in Hrest. rewrite ?Ee, orb_false_r in Hrest. apply Ascii.eqb_eq in Hrest. subst e. destruct name as [|x name].
        { destruct pos as [|v pos']; [discriminate|]. destruct (format_go n pos' kws r') as [r1|] eqn:E; [|discriminate]. cbn [rbind]. intros H. assert (r = v ++ r1) by congruence. subst r. cbn [app] in Et. assert (d = "}"%char) by congruence. assert (t1 = r') by congruence. subst d t1. apply IH in E; [|lia]. exact (fm_next kws v pos' r' r1 E). }
        destruct (forallb is_word (x :: name) && negb (forallb is_dec (x :: name)))%bool eqn:Ew; [|discriminate]. apply andb_true_iff in Ew as [Hw Hd]. apply negb_true_iff in Hd. rewrite forallb_forall in Hw.
        destruct (dget kws (KS (x :: name))) as [v|] eqn:Eg; [|discriminate]. destruct (format_go n pos kws r') as [r1|] eqn:E; [|discriminate]. cbn [rbind]. intros H. assert (r = py_str v ++ r1) by congruence. subst r.
        apply IH in E; [|cbn [length] in Lr; lia]. rewrite Et. change ("{"%char :: (x :: name) ++ "}"%char :: r') with (t_ "{" ++ (x :: name) ++ t_ "}" ++ r'). apply fm_named; [now apply Forall_forall| |exact Eg|exact E].
        intros K. rewrite <- not_true_iff_false in Hd. apply Hd. apply forallb_forall. now apply Forall_forall.
      * intros H. inversion H as [|? ? ? ? Hc|pos' s' r' H' E1 E2|? ? ? ? E1|v pos' s' r' H' E0 E1|pos' nm v s' r' Hw Hd Hg H' E0 E1]; subst; [congruence|now rewrite Ascii.eqb_refl in Ed| |].
        { destruct name as [|x name]; [|exfalso; cbn [app] in Et; assert (x = "}"%char) by congruence; subst x; inversion Hnm as [|? ? Hx]; vm_compute in Hx; discriminate Hx].
          cbn [app] in Et. subst rest. cbn [Ascii.eqb]. apply IH in H'; [|lia]. change (Ascii.eqb "}" "{") with false. cbv iota. now rewrite H'. }
        assert (S1 : span_of (fun x => negb (Ascii.eqb x "}" || Ascii.eqb x "{")) (nm ++ "}"%char :: s') = (nm, "}"%char :: s')).
        { apply span_of_app; [|reflexivity]. eapply Forall_impl; [|exact Hw]. cbn beta. intros x Hx. destruct (Ascii.eqb_spec x "}") as [->|_]; [vm_compute in Hx; discriminate Hx|]. destruct (Ascii.eqb_spec x "{") as [->|_]; [vm_compute in Hx; discriminate Hx|]. reflexivity. }
        assert (S2 : span_of (fun x => negb (Ascii.eqb x "}" || Ascii.eqb x "{")) (name ++ rest) = (name, rest)) by (apply span_of_app; assumption).
        change (t_ "}" ++ s') with ("}"%char :: s') in E1. rewrite E1 in S1. rewrite <- Et in S2. rewrite S1 in S2. assert (nm = name) by congruence. assert (rest = "}"%char :: s') by congruence. subst nm rest.
        change (Ascii.eqb "}" "{") with false. cbv iota. destruct name as [|x name]; [now elim Hd|].
        rewrite (proj2 (forallb_forall _ _)) by (now apply Forall_forall). replace (forallb is_dec (x :: name)) with false by (symmetry; apply not_true_iff_false; intros K; apply Hd, Forall_forall, forallb_forall, K). cbn [andb negb]. rewrite Hg.
        apply IH in H'; [|cbn [length] in Lr; lia]. now rewrite H'.
  - destruct t as [|d t1]. { split; [discriminate|]. intros H. exfalso. inversion H; subst; try congruence; try discriminate. }
    cbn [length] in Hn. destruct (Ascii.eqb d "}") eqn:Ed; [apply Ascii.eqb_eq in Ed; subst d|].
    + split.
      * destruct (format_go n pos kws t1) as [r1|] eqn:E; [|discriminate]. cbn [rbind]. intros H. assert (r = "}"%char :: r1) by congruence. subst r. apply IH in E; [|lia]. exact (fm_close kws pos t1 r1 E).
      * intros H. inversion H as [|? ? ? ? Hc Hc2|? ? ? ? E1|pos' s' r' H' E1 E2|v pos' s' r' H' E0 E1|pos' nm v s' r' Hw Hd Hg H' E0 E1]; subst; try congruence. apply IH in H'; [|lia]. now rewrite H'.
    + split; [discriminate|]. intros H. exfalso. inversion H; subst; try congruence; try discriminate.
  - split.
    + destruct (format_go n pos kws t) as [r1|] eqn:E; [|discriminate]. cbn [rbind]. intros H. assert (r = c :: r1) by congruence. subst r. apply IH in E; [|lia]. apply fm_char; [now apply Ascii.eqb_neq|now apply Ascii.eqb_neq|exact E].
    + intros H. inversion H as [|pos' c' s' r' Hc Hc2 H' E0 E1|x1 x2 x3 x4 E1|x1 x2 x3 x4 E1|x1 x2 x3 x4 x5 x6 E1|pos' nm v s' r' Hw Hd Hg H' E0 E1]; subst; try (now rewrite Ascii.eqb_refl in Ec); try (now rewrite Ascii.eqb_refl in Ec2). apply IH in H'; [|lia]. now rewrite H'.
Qed.
Theorem format_iff pos s kws r : format_str pos s kws = Ok r <-> formats kws pos s r.
Proof. apply format_fuel. lia. Qed.
