(** * LexFacts2: the words of a whole text (for C120). *)
From Coq Require Import Lia.
From Verif Require Import PyBase DictFacts StrFacts CharFacts EscapeFacts Attributes SpecAttr LexFacts.
Local Open Scope string_scope.
Local Open Scope list_scope.

Lemma name_start_iff c : name_start c = true <-> a_letter c.
Proof.
  unfold name_start, is_ascii_letter, a_letter. rewrite !Bool.orb_true_iff, !btw, Ascii.eqb_eq. split.
  - intros [[H|H]| ->]; [tauto|tauto|]. right. right. reflexivity.
  - intros [H|[H|H]]; [tauto|tauto|]. right. rewrite <- (ascii_N_embedding c). unfold code in H. rewrite H. reflexivity.
Qed.
Lemma is_dec_iff c : is_dec c = true <-> a_digit c.
Proof. apply btw. Qed.
Lemma name_char_iff c : name_char c = true <-> a_letter c \/ a_digit c.
Proof. unfold name_char. rewrite Bool.orb_true_iff, name_start_iff, is_dec_iff. tauto. Qed.
Lemma quote_iff c : Attributes.quote c = true <-> a_quote c.
Proof. unfold Attributes.quote, a_quote. rewrite Bool.orb_true_iff, !Ascii.eqb_eq. tauto. Qed.
Lemma blank_iff c : (Ascii.eqb c space || Ascii.eqb c tab || Ascii.eqb c (chr 12))%bool = true <-> blank c.
Proof. unfold blank. rewrite !Bool.orb_true_iff, !Ascii.eqb_eq. tauto. Qed.
Lemma op_iff c : existsb (Ascii.eqb c) $",=:[]{}()-" = true <-> operator c.
Proof. unfold operator. rewrite existsb_exists. split; [intros (x & H & E); apply Ascii.eqb_eq in E; now subst|intros H; exists c; split; [exact H|apply Ascii.eqb_refl]]. Qed.
Lemma bool_f (b : bool) (P : Prop) : (b = true <-> P) -> (b = false <-> ~ P).
Proof. intros H. destruct b; split; intros; [discriminate|exfalso; apply H0; now apply H|intros K; apply H in K; discriminate|reflexivity]. Qed.

(** ** the longest run *)
Lemma span_spec p s a b : span_of p s = (a, b) <-> s = a ++ b /\ Forall (fun c => p c = true) a /\ not_next (fun c => p c = true) b.
Proof.
  revert a b. induction s as [|c s IH]; intros a b; cbn [span_of].
  - split.
    + intros H. injection H as <- <-. repeat split; [constructor|]. intros c t K. discriminate.
    + intros (E & _ & _). symmetry in E. apply app_eq_nil in E. destruct E as [-> ->]. reflexivity.
  - destruct (p c) eqn:Ep.
    + destruct (span_of p s) as [a' b'] eqn:E. specialize (IH a' b'). destruct (proj1 IH eq_refl) as (Es & Ha & Hb). split.
      * intros H. injection H as <- <-. split; [now rewrite Es|]. split; [now constructor|exact Hb].
      * intros (E1 & H1 & H2). destruct a as [|x a]; [cbn [app] in E1; subst b; exfalso; now apply (H2 c s eq_refl)|].
        cbn [app] in E1. injection E1 as -> E1. inversion H1 as [|? ? Hx H1']; subst.
        assert (K : (a', b') = (a, b)) by (rewrite <- E; clear IH; revert E E1 H1' H2; clear; intros; 
          assert (G : forall a s b, s = a ++ b -> Forall (fun c => p c = true) a -> not_next (fun c => p c = true) b -> span_of p s = (a, b));
          [clear; induction a as [|y a IHa]; intros s b E Ha Hb; subst s; cbn [app span_of];
             [destruct b as [|y b]; [reflexivity|]; cbn [span_of]; destruct (p y) eqn:Ey; [exfalso; now apply (Hb y b eq_refl)|reflexivity]
             |inversion Ha as [|? ? Hy Ha']; subst; rewrite Hy, (IHa (a ++ b) b eq_refl Ha' Hb); reflexivity]
          |apply G; assumption]).
        injection K as -> ->. reflexivity.
    + split.
      * intros H. injection H as <- <-. repeat split; [constructor|]. intros x t K. injection K as <- <-. congruence.
      * intros (E1 & H1 & H2). destruct a as [|x a]; [cbn [app] in E1; now subst b|]. cbn [app] in E1. injection E1 as -> _. inversion H1; congruence.
Qed.

(** ** numbers *)
Lemma number_digits ds : forall acc, digits_val ds acc = fold_left (fun n d => n * 10 + d)%N (digits ds) acc.
Proof. induction ds as [|c ds IH]; intros acc; [reflexivity|]. cbn [digits_val digits map fold_left]. rewrite IH. f_equal. unfold digit_val. lia. Qed.
Lemma int_token_iff ds s z : ds <> [] -> (int_token ds s = Some z <->
  (hd_error ds = Some "0"%char -> Forall (eq "0"%char) ds) /\ not_next (fun x => a_letter x \/ x = "."%char) s /\ z = Z.of_N (number 10 (digits ds))).
Proof.
  intros Hne. unfold int_token. cbv zeta.
  set (ok := match ds with d :: _ :: _ => if Ascii.eqb d "0" then forallb (fun c => Ascii.eqb c "0") ds else true | _ => true end).
  set (sep := match s with c :: _ => negb (name_start c || Ascii.eqb c ".")%bool | [] => true end).
  assert (Hok : ok = true <-> (hd_error ds = Some "0"%char -> Forall (eq "0"%char) ds)).
  { unfold ok. destruct ds as [|d [|d' ds]]; [congruence| |]; cbn [hd_error].
    - split; [intros _ H; injection H as ->; repeat constructor|reflexivity].
    - destruct (Ascii.eqb_spec d "0") as [->|Hd].
      + rewrite forallb_forall, <- Forall_forall. split.
        * intros H _. eapply Forall_impl; [|exact H]. cbn beta. intros c K. symmetry. now apply Ascii.eqb_eq.
        * intros H. specialize (H eq_refl). eapply Forall_impl; [|exact H]. cbn beta. intros c <-. apply Ascii.eqb_refl.
      + split; [intros _ H; congruence|reflexivity]. }
  assert (Hsep : sep = true <-> not_next (fun x => a_letter x \/ x = "."%char) s).
  { unfold sep, not_next. destruct s as [|c t]; [split; [discriminate|reflexivity]|].
    rewrite Bool.negb_true_iff, Bool.orb_false_iff. rewrite (bool_f _ _ (name_start_iff c)), (bool_f _ _ (Ascii.eqb_eq c ".")). split.
    - intros [H1 H2] x u E. injection E as -> ->. tauto.
    - intros H. specialize (H c t eq_refl). tauto. }
  rewrite <- Hok, <- Hsep. unfold number. rewrite <- number_digits. destruct ok, sep; cbn [andb]; split; intros H; try discriminate; try (destruct H as (? & ? & ?); discriminate).
  - injection H as <-. auto.
  - now destruct H as (_ & _ & ->).
Qed.

(** ** words *)
Lemma lex_eq f s : lex (S f) s =
    match s with
    | [] => Some []
    | c :: t =>
        if (Ascii.eqb c space || Ascii.eqb c tab || Ascii.eqb c (chr 12))%bool then lex f t
        else if existsb (Ascii.eqb c) $",=:[]{}()-" then option_map (cons (TOp c)) (lex f t)
        else if Attributes.quote c then match open_string false c t with Some (v, r) => option_map (cons (TStr v)) (lex f r) | None => None end
        else if name_start c then
          let '(n, r) := span_of name_char s in
          match r with
          | q :: r' =>
              if Attributes.quote q then
                if existsb (str_eqb n) [$"r"; $"R"] then match open_string true q r' with Some (v, r2) => option_map (cons (TStr v)) (lex f r2) | None => None end
                else if existsb (str_eqb n) [$"u"; $"U"] then match open_string false q r' with Some (v, r2) => option_map (cons (TStr v)) (lex f r2) | None => None end
                else None
              else option_map (cons (TName n)) (lex f r)
          | [] => option_map (cons (TName n)) (lex f r)
          end
        else if is_dec c then
          let '(ds, r) := span_of is_dec s in
          match int_token ds r with Some z => option_map (cons (TInt z)) (lex f r) | None => None end
        else None
    end.
Proof. reflexivity. Qed.
Lemma omap_some {A B} (g : A -> B) o b : option_map g o = Some b <-> exists a, o = Some a /\ b = g a.
Proof. destruct o; cbn; split; intros H; try discriminate; [injection H as <-; eauto|destruct H as (a' & H & ->); now injection H as ->|destruct H as (? & ? & _); discriminate]. Qed.

Lemma lex_sound : forall f s ts, lex f s = Some ts -> spells s ts.
Proof.
  induction f as [|f IH]; [discriminate|]. intros s ts H. rewrite lex_eq in H. destruct s as [|c t]; [injection H as <-; constructor|].
  destruct (_ || _ || _)%bool eqn:Eb.
  { apply blank_iff in Eb. apply sp_blank; [exact Eb|now apply IH]. }
  destruct (existsb (Ascii.eqb c) $",=:[]{}()-") eqn:Eo.
  { apply op_iff in Eo. apply omap_some in H. destruct H as (l & Hl & ->). apply sp_op; [exact Eo|now apply IH]. }
  destruct (Attributes.quote c) eqn:Eq.
  { apply quote_iff in Eq. destruct (open_string false c t) as [[v r]|] eqn:Es; [|discriminate]. apply (open_iff false c t v r Eq) in Es. destruct Es as (b & -> & Hb & Hn).
    apply omap_some in H. destruct H as (l & Hl & ->). apply (sp_text [] false c b v r l); [now left|exact Eq|exact Hb|exact Hn|now apply IH]. }
  destruct (name_start c) eqn:En.
  { destruct (span_of name_char (c :: t)) as [n r] eqn:Es. apply span_spec in Es. destruct Es as (E & Hn & Hr).
    destruct n as [|c' n]; [cbn [app] in E; subst r; exfalso; apply (Hr c t eq_refl); unfold name_char; now rewrite En|].
    cbn [app] in E. injection E as <- ->. apply name_start_iff in En.
    assert (Hn' : Forall (fun x => a_letter x \/ a_digit x) n) by (inversion Hn as [|? ? _ K]; subst; eapply Forall_impl; [|exact K]; intros x; apply name_char_iff).
    assert (Hname : not_next a_quote r -> option_map (cons (TName (c :: n))) (lex f r) = Some ts -> spells (c :: n ++ r) ts).
    { intros Hq K. apply omap_some in K. destruct K as (l & Hl & ->). apply sp_name; [exact En|exact Hn'| |now apply IH].
      intros x u -> [K|[K|K]]; [apply (Hr x u eq_refl); apply name_char_iff; now left|apply (Hr x u eq_refl); apply name_char_iff; now right|now apply (Hq x u eq_refl)]. }
    destruct r as [|q r]; [apply Hname; [intros x u K; discriminate|exact H]|].
    destruct (Attributes.quote q) eqn:Eq'.
    - apply quote_iff in Eq'.
      destruct (existsb (str_eqb (c :: n)) [$"r"; $"R"]) eqn:E1.
      + destruct (open_string true q r) as [[v r2]|] eqn:Es; [|discriminate]. apply (open_iff true q r v r2 Eq') in Es. destruct Es as (b & -> & Hb & Hb0).
        apply omap_some in H. destruct H as (l & Hl & ->). apply (sp_text (c :: n) true q b v r2 l); [right|exact Eq'|exact Hb|exact Hb0|now apply IH].
        apply existsb_exists in E1. destruct E1 as (x & Hx & E1). apply str_eqb_eq in E1. rewrite E1. cbn in Hx. destruct Hx as [<-|[<-|[]]]; cbn; tauto.
      + destruct (existsb (str_eqb (c :: n)) [$"u"; $"U"]) eqn:E2; [|discriminate].
        destruct (open_string false q r) as [[v r2]|] eqn:Es; [|discriminate]. apply (open_iff false q r v r2 Eq') in Es. destruct Es as (b & -> & Hb & Hb0).
        apply omap_some in H. destruct H as (l & Hl & ->). apply (sp_text (c :: n) false q b v r2 l); [right|exact Eq'|exact Hb|exact Hb0|now apply IH].
        apply existsb_exists in E2. destruct E2 as (x & Hx & E2). apply str_eqb_eq in E2. rewrite E2. cbn in Hx. destruct Hx as [<-|[<-|[]]]; cbn; tauto.
    - apply Hname; [|exact H]. intros x u K. injection K as -> ->. intros K. apply quote_iff in K. congruence. }
  destruct (is_dec c) eqn:Ed; [|discriminate].
  destruct (span_of is_dec (c :: t)) as [ds r] eqn:Es. apply span_spec in Es. destruct Es as (E & Hd & Hr). rewrite E.
  destruct ds as [|c' ds]; [cbn [app] in E; subst r; exfalso; now apply (Hr c t eq_refl)|].
  destruct (int_token (c' :: ds) r) as [z|] eqn:Ez; [|discriminate]. apply int_token_iff in Ez; [|discriminate]. destruct Ez as (H1 & H2 & ->).
  apply omap_some in H. destruct H as (l & Hl & ->).
  apply sp_int; [discriminate| |exact H1| |now apply IH].
  - eapply Forall_impl; [|exact Hd]. intros x. apply is_dec_iff.
  - intros x u -> [K|[K|K]]; [apply (H2 x u eq_refl); now left|apply (Hr x u eq_refl); now apply is_dec_iff|apply (H2 x u eq_refl); now right].
Qed.

(** the first character decides *)
Lemma letter_not_blank c : a_letter c -> ~ blank c.
Proof. intros H [->|[->| ->]]; unfold a_letter in H; cbn in H; lia. Qed.
Lemma letter_not_op c : a_letter c -> ~ operator c.
Proof. intros H K. unfold a_letter in H. cbn in K. repeat (destruct K as [K|K]; [subst c; cbn in H; lia|]). exact K. Qed.
Lemma letter_not_quote c : a_letter c -> ~ a_quote c.
Proof. intros H [->| ->]; unfold a_letter in H; cbn in H; lia. Qed.
Lemma digit_not_blank c : a_digit c -> ~ blank c.
Proof. intros H [->|[->| ->]]; unfold a_digit in H; cbn in H; lia. Qed.
Lemma digit_not_op c : a_digit c -> ~ operator c.
Proof. intros H K. unfold a_digit in H. cbn in K. repeat (destruct K as [K|K]; [subst c; cbn in H; lia|]). exact K. Qed.
Lemma digit_not_quote c : a_digit c -> ~ a_quote c.
Proof. intros H [->| ->]; unfold a_digit in H; cbn in H; lia. Qed.
Lemma digit_not_letter c : a_digit c -> ~ a_letter c.
Proof. unfold a_digit, a_letter. lia. Qed.
Lemma quote_not_blank c : a_quote c -> ~ blank c.
Proof. intros [->| ->] [K|[K|K]]; discriminate. Qed.
Lemma quote_not_op c : a_quote c -> ~ operator c.
Proof. intros [->| ->] K; cbn in K; repeat (destruct K as [K|K]; [discriminate|]); exact K. Qed.
Lemma op_not_blank c : operator c -> ~ blank c.
Proof. intros K [->|[->| ->]]; cbn in K; repeat (destruct K as [K|K]; [discriminate|]); exact K. Qed.

Lemma name_span c n s : a_letter c -> Forall (fun x => a_letter x \/ a_digit x) n -> not_next (fun x => a_letter x \/ a_digit x) s -> span_of name_char (c :: n ++ s) = (c :: n, s).
Proof.
  intros Hc Hn Hs. apply span_spec. split; [reflexivity|]. split.
  - constructor; [apply name_char_iff; now left|]. eapply Forall_impl; [|exact Hn]. intros x. apply name_char_iff.
  - intros x u E K. apply (Hs x u E). now apply name_char_iff.
Qed.

Lemma lex_complete s ts : spells s ts -> forall f, length s < f -> lex f s = Some ts.
Proof.
  intros H. induction H as [|c s ts Hc H IH|c s ts Hc H IH|c n s ts Hc Hn Hs H IH|ds s ts Hne Hd H0 Hs H IH|p raw q b v s ts Hp Hq Hb Hn H IH];
    intros f Hf; (destruct f as [|f]; [lia|]); rewrite lex_eq; cbn [length] in *.
  - reflexivity.
  - rewrite (proj2 (blank_iff c) Hc). apply IH. lia.
  - rewrite (proj2 (bool_f _ _ (blank_iff c)) (op_not_blank c Hc)), (proj2 (op_iff c) Hc). rewrite IH by lia. reflexivity.
  - rewrite (proj2 (bool_f _ _ (blank_iff c)) (letter_not_blank c Hc)), (proj2 (bool_f _ _ (op_iff c)) (letter_not_op c Hc)), (proj2 (bool_f _ _ (quote_iff c)) (letter_not_quote c Hc)), (proj2 (name_start_iff c) Hc).
    rewrite name_span; [|exact Hc|exact Hn|intros x u E K; apply (Hs x u E); tauto].
    rewrite app_length in Hf. specialize (IH f ltac:(lia)). destruct s as [|x s]; [now rewrite IH|].
    rewrite (proj2 (bool_f _ _ (quote_iff x))) by (intros K; apply (Hs x s eq_refl); tauto). now rewrite IH.
  - destruct ds as [|c ds]; [congruence|]. cbn [app]. assert (Hc : a_digit c) by now inversion Hd.
    rewrite (proj2 (bool_f _ _ (blank_iff c)) (digit_not_blank c Hc)), (proj2 (bool_f _ _ (op_iff c)) (digit_not_op c Hc)), (proj2 (bool_f _ _ (quote_iff c)) (digit_not_quote c Hc)), (proj2 (bool_f _ _ (name_start_iff c)) (digit_not_letter c Hc)), (proj2 (is_dec_iff c) Hc).
    assert (Es : span_of is_dec (c :: ds ++ s) = (c :: ds, s)).
    { apply span_spec. split; [reflexivity|]. split; [eapply Forall_impl; [|exact Hd]; intros x; apply is_dec_iff|]. intros x u E K. apply (Hs x u E). right. left. now apply is_dec_iff. }
    rewrite Es. assert (Ez : int_token (c :: ds) s = Some (Z.of_N (number 10 (digits (c :: ds))))).
    { apply int_token_iff; [discriminate|]. split; [exact H0|]. split; [|reflexivity]. intros x u E K. apply (Hs x u E). tauto. }
    rewrite Ez. rewrite IH; [reflexivity|]. cbn [app length] in Hf. rewrite app_length in Hf. lia.
  - assert (Ho : open_string raw q (b ++ q :: s) = Some (v, s)) by (apply (open_iff raw q _ v s Hq); exists b; auto).
    assert (Hl : length s < f) by (rewrite !app_length in Hf; cbn [length] in Hf; rewrite app_length in Hf; cbn [length] in Hf; lia).
    specialize (IH f Hl).
    assert (Hnq : not_next (fun x => a_letter x \/ a_digit x) (q :: b ++ q :: s)).
    { intros x u E. injection E as <- _. intros [K|K]; [now apply (letter_not_quote q)|now apply (digit_not_quote q)]. }
    destruct Hp as [Hp|Hp].
    + injection Hp as -> ->. cbn [app].
      rewrite (proj2 (bool_f _ _ (blank_iff q)) (quote_not_blank q Hq)), (proj2 (bool_f _ _ (op_iff q)) (quote_not_op q Hq)), (proj2 (quote_iff q) Hq), Ho, IH. reflexivity.
    + assert (Hx : exists x, p = [x] /\ a_letter x).
      { cbn in Hp. repeat (destruct Hp as [Hp|Hp]; [injection Hp as <- <-; eexists; split; [reflexivity|unfold a_letter; cbn; lia]|]). destruct Hp. }
      destruct Hx as (x & -> & Hx). cbn [app].
      rewrite (proj2 (bool_f _ _ (blank_iff x)) (letter_not_blank x Hx)), (proj2 (bool_f _ _ (op_iff x)) (letter_not_op x Hx)), (proj2 (bool_f _ _ (quote_iff x)) (letter_not_quote x Hx)), (proj2 (name_start_iff x) Hx).
      pose proof (name_span x [] (q :: b ++ q :: s) Hx (Forall_nil _) Hnq) as Es. cbn [app] in Es. rewrite Es.
      rewrite (proj2 (quote_iff q) Hq). cbn in Hp.
      destruct Hp as [Hp|[Hp|[Hp|[Hp|[]]]]]; injection Hp as <- <-.
      * change (existsb (str_eqb ["r"%char]) [$"r"; $"R"]) with true. rewrite Ho, IH. reflexivity.
      * change (existsb (str_eqb ["R"%char]) [$"r"; $"R"]) with true. rewrite Ho, IH. reflexivity.
      * change (existsb (str_eqb ["u"%char]) [$"r"; $"R"]) with false. change (existsb (str_eqb ["u"%char]) [$"u"; $"U"]) with true. rewrite Ho, IH. reflexivity.
      * change (existsb (str_eqb ["U"%char]) [$"r"; $"R"]) with false. change (existsb (str_eqb ["U"%char]) [$"u"; $"U"]) with true. rewrite Ho, IH. reflexivity.
Qed.
Theorem lex_iff s ts : lex (S (length s)) s = Some ts <-> spells s ts.
Proof. split; [apply lex_sound|intros H; apply (lex_complete s ts H); lia]. Qed.
Theorem spells_fun s ts ts' : spells s ts -> spells s ts' -> ts = ts'.
Proof. intros H H'. apply lex_iff in H, H'. congruence. Qed.
