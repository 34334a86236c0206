(** * VariableFacts3: names, chains without an end, and the variable in the line's expression (for C121). *)
From Coq Require Import Lia.
From Verif Require Import PyBase DictFacts ResultsFacts StrFacts OutputFacts SessionFacts FormRegex Results Template Attributes MatchVar SpecVariable VariableFacts VariableFacts2.
Local Open Scope string_scope.
Local Open Scope list_scope.

(** ** names *)
Lemma squash_word w s : word_text w -> squash (w ++ s) false = w ++ squash s false.
Proof. intros H. induction H as [|c w Hc H IH]; [reflexivity|]. cbn [app squash]. now rewrite Hc, IH. Qed.
Lemma squash_gap g s : Forall (fun c => is_word c = false) g -> squash (g ++ s) true = squash s true.
Proof. intros H. induction H as [|c g Hc H IH]; [reflexivity|]. cbn [app squash]. now rewrite Hc, IH. Qed.
Lemma squash_start s : match s with c :: _ => is_word c = true | [] => True end -> squash s true = squash s false.
Proof. destruct s as [|c s]; [reflexivity|]. intros H. cbn [squash]. now rewrite H. Qed.
Lemma cleaned_squash s r : cleaned s r -> r = squash s false.
Proof.
  induction 1 as [w Hw|w g s r Hw Hg Fg Hs H IH].
  - rewrite <- (app_nil_r w) at 2. now rewrite squash_word, app_nil_r.
  - rewrite squash_word by exact Hw. destruct g as [|c g]; [congruence|]. inversion Fg as [|c' g' Hc Fg']; subst. cbn [app squash]. rewrite Hc, squash_gap by exact Fg'. now rewrite squash_start.
Qed.
Lemma run_split (f : ascii -> bool) s : exists a b, s = a ++ b /\ Forall (fun c => f c = true) a /\ match b with c :: _ => f c = false | [] => True end.
Proof.
  induction s as [|c s (a & b & -> & Ha & Hb)]; [exists [], []; repeat split; constructor|]. destruct (f c) eqn:E; [exists (c :: a), b|exists [], (c :: a ++ b)]; repeat split; auto.
Qed.
Lemma squash_cleaned s : cleaned s (squash s false).
Proof.
  remember (length s) as n eqn:En. assert (L : length s <= n) by lia. clear En. revert s L. induction n as [|n IH]; intros s L.
  - destruct s; [|cbn in L; lia]. apply cl_end. constructor.
  - destruct (run_split is_word s) as (w & t & -> & Hw & Ht). destruct t as [|c t]; [rewrite app_nil_r; rewrite <- (app_nil_r w) at 2; rewrite squash_word, app_nil_r by exact Hw; now apply cl_end|].
    destruct (run_split (fun c => negb (is_word c)) (c :: t)) as (g & u & E & Hg & Hu). 
    assert (Fg : Forall (fun c => is_word c = false) g) by (eapply Forall_impl; [|exact Hg]; cbn beta; intros x; destruct (is_word x); [discriminate|reflexivity]).
    assert (Su : match u with c :: _ => is_word c = true | [] => True end) by (destruct u as [|x u]; [exact I|]; destruct (is_word x); [reflexivity|discriminate]).
    destruct g as [|y g]; [cbn [app] in E; subst u; rewrite Ht in Su; discriminate|].
    rewrite E. assert (Lu : length u <= n) by (rewrite E in L; cbn in L; rewrite !app_length in L; cbn in L; rewrite app_length in L; lia).
    pose proof (cl_gap w (y :: g) u _ Hw ltac:(discriminate) Fg Su (IH u Lu)) as K.
    rewrite squash_word by exact Hw. cbn [app squash]. inversion Fg as [|y' g' Hy Fg']; subst. rewrite Hy, squash_gap by exact Fg'. now rewrite squash_start.
Qed.
Theorem name_iff s r : sanitize s = r <-> name_for s r.
Proof.
  split.
  - intros <-. unfold sanitize. destruct s as [|c s]; [apply nf_other; [intros []|apply squash_cleaned]|]. destruct (is_dec c) eqn:E; [apply nf_digit|apply nf_other]; try apply squash_cleaned; cbn; congruence.
  - unfold sanitize. intros [r' Hd H|r' Hd H]; apply cleaned_squash in H; subst r'; destruct s as [|c s]; cbn in Hd; try contradiction; try reflexivity; [now rewrite Hd|]. destruct (is_dec c); [congruence|reflexivity].
Qed.
(** a name that is a word and does not start with a digit stays; any other one becomes such a name *)
Lemma squash_words s b : word_text (squash s b).
Proof. revert b. induction s as [|c s IH]; intros b; [constructor|]. cbn [squash]. destruct (is_word c) eqn:E; [constructor; auto; apply IH|]. destruct b; [apply IH|constructor; [reflexivity|apply IH]]. Qed.
Lemma word_cases c : is_dec c = true -> is_word c = true.
Proof. intros H. unfold is_dec in H. unfold is_word. apply andb_prop in H. destruct H as [H1 H2]. rewrite ?H1, ?H2. destruct c as [[] [] [] [] [] [] [] []]; vm_compute in H1, H2 |- *; congruence. Qed.
Theorem name_good s r : name_for s r -> s <> [] -> word_text r /\ r <> [] /\ ~ starts_with_digit r.
Proof.
  intros H Hs. apply name_iff in H. subst r. unfold sanitize. destruct s as [|c s]; [congruence|]. destruct (is_dec c) eqn:E.
  - split; [constructor; [reflexivity|apply squash_words]|]. split; [discriminate|]. cbn. discriminate.
  - split; [apply squash_words|]. cbn [squash]. destruct (is_word c); (split; [discriminate|cbn]); congruence.
Qed.
Theorem name_kept s : word_text s -> ~ starts_with_digit s -> name_for s s.
Proof. intros Hw Hd. apply nf_other; [exact Hd|now apply cl_end]. Qed.

(** ** chains without an end *)
Section Cycle.
Variable vars : dict.
Definition leads (S : key -> Prop) (fs : list called) : Prop := exists a v args k, In (t_ "chain", a) fs /\ at_args a = v :: args /\ key_for v = Some k /\ S k.
Definition endless (S : key -> Prop) : Prop := forall k, S k -> exists x, dget vars k = Some x /\ x <> VNone /\ forall fs, chained x fs -> leads S (map by_own_name fs).
Theorem endless_no S l es : endless S -> leads S l -> expands vars l es -> False.
Proof.
  intros He Hl H. induction H as [|k a l r Hk H IH|k a v args l r o Hk Ha Hv Ho H IH|k a v args x fs es l r Hk Ha Hv Hx Hf Hes IHes H IH].
  - destruct Hl as (a & v & args & k & [] & _).
  - destruct Hl as (a' & v & args & k' & [E|Hi] & Hr); [congruence|]. apply IH. exists a', v, args, k'. auto.
  - destruct Hl as (a' & v' & args' & k' & [E|Hi] & Hr); [|apply IH; exists a', v', args', k'; auto]. assert (a' = a) by congruence. subst a'. destruct Hr as (Ha' & Hk' & HS). assert (v' = v) by congruence. subst v'.
    destruct (He k' HS) as (x & Hx & Hn & _). inversion Hv as [v0 k0 Hk0|]; subst; [|discriminate]. rewrite Hk' in Hk0. injection Hk0 as <-. rewrite Hx in Ho. destruct Ho; congruence.
  - destruct Hl as (a' & v' & args' & k' & [E|Hi] & Hr); [|apply IH; exists a', v', args', k'; auto]. assert (a' = a) by congruence. subst a'. destruct Hr as (Ha' & Hk' & HS). assert (v' = v) by congruence. subst v'.
    destruct (He k' HS) as (x' & Hx' & Hn & Hall). inversion Hv as [v0 k0 Hk0 E0|]; subst. rewrite Hk' in Hk0. injection Hk0 as <-. assert (x' = x) by congruence. subst x'. apply IHes. now apply Hall.
Qed.
End Cycle.

(** ** the variable in the line's expression *)
Lemma texts_iff l rs : re_texts l = Ok rs <-> l = map VStr rs.
Proof.
  unfold re_texts. split.
  - revert rs. induction l as [|v l IH]; intros rs H; cbn [rmap] in H; [injection H as <-; reflexivity|]. destruct v; try discriminate. cbn [rbind] in H. destruct (rmap _ l) as [ys|]; [|discriminate]. cbn [rbind] in H. injection H as <-. cbn [map]. now rewrite (IH ys).
  - intros ->. induction rs as [|r rs IH]; cbn [map rmap rbind]; [reflexivity|]. now rewrite IH.
Qed.
Lemma set_iff l : existsb is_set l = true <-> exists a : attribute, In a l /\ at_name a = t_ "set".
Proof. rewrite existsb_exists. split; intros (a & Ha & H); exists a; (split; [exact Ha|]); [now apply str_eqb_eq in H|unfold is_set; rewrite H; apply str_eqb_refl]. Qed.
Lemma info_iff vars v i : info_of vars v = Ok i <-> describes vars v i.
Proof.
  unfold info_of, describes. split.
  - intros H. destruct (re_texts (v_res (vo_st v))) as [rs|] eqn:Er; [|discriminate]. cbn [rbind] in H. apply texts_iff in Er.
    destruct (str_eqb (vo_name v) $"ignore") eqn:En.
    + apply str_eqb_eq in En. destruct (at_args (vo_dict v)) as [|x [|y l]] eqn:Ea; cbn [rbind] in H.
      * injection H as <-. cbn [vi_name vi_res vi_set vi_ignore]. split; [reflexivity|]. split; [exact Er|]. split; [apply set_iff|]. right. split; [right; discriminate|reflexivity].
      * destruct (resolve_re vars x) as [p|] eqn:Ep; [|discriminate]. cbn [rbind] in H. destruct p as [| | |s| | |]; try discriminate. cbn [rbind] in H. injection H as <-. cbn [vi_name vi_res vi_set vi_ignore].
        split; [reflexivity|]. split; [exact Er|]. split; [apply set_iff|]. left. exists x, s. apply resolve_iff in Ep. auto.
      * injection H as <-. cbn [vi_name vi_res vi_set vi_ignore]. split; [reflexivity|]. split; [exact Er|]. split; [apply set_iff|]. right. split; [right; discriminate|reflexivity].
    + cbn [rbind] in H. injection H as <-. cbn [vi_name vi_res vi_set vi_ignore]. split; [reflexivity|]. split; [exact Er|]. split; [apply set_iff|]. right. split; [|reflexivity]. left. intros K. rewrite K in En. rewrite str_eqb_refl in En. discriminate.
  - intros (H1 & H2 & H3 & H4). apply texts_iff in H2. rewrite H2. cbn [rbind].
    assert (E3 : existsb is_set (v_funcs (vo_st v)) = vi_set i).
    { destruct (existsb is_set (v_funcs (vo_st v))) eqn:E; destruct (vi_set i) eqn:E'; try reflexivity; [apply set_iff, H3 in E; congruence|]. assert (K : existsb is_set (v_funcs (vo_st v)) = true) by (apply set_iff, H3; reflexivity). congruence. }
    rewrite E3. destruct H4 as [(x & s & Hn & Ha & He & Hi)|(Hc & Hi)].
    + rewrite Hn. rewrite str_eqb_refl, Ha. apply resolve_iff in He. rewrite He. cbn [rbind]. rewrite <- Hn, <- H1, <- Hi. now destruct i.
    + destruct (str_eqb (vo_name v) $"ignore") eqn:En.
      * apply str_eqb_eq in En. destruct Hc as [Hc|Hc]; [exfalso; apply Hc; exact En|]. destruct (at_args (vo_dict v)) as [|x [|y l]]; [|cbn in Hc; lia|]; cbn [rbind]; rewrite <- H1, <- Hi; now destruct i.
      * cbn [rbind]. rewrite <- H1, <- Hi. now destruct i.
Qed.
Theorem source_iff vars gdefault v line regex d r subs d' : vo_name v <> t_ "_headers_" ->
  variable_regex vars gdefault v line regex d = Ok (r, subs, d') <->
  subs = [] /\ d' = d /\ exists i, describes vars v i /\
    ((left_alone v /\ r = match regex with [] => base_regex line | _ => regex end) \/ (~ left_alone v /\ r = form_regex i (vo_text v) line regex)).
Proof.
  intros Hn. unfold variable_regex. destruct (str_eqb (vo_name v) $"_headers_") eqn:E; [apply str_eqb_eq in E; contradiction|]. clear E.
  assert (L : ignore_many v = true <-> left_alone v).
  { unfold ignore_many, left_alone. rewrite Bool.andb_true_iff. rewrite str_eqb_eq. destruct (at_args (vo_dict v)) as [|x [|y l]]; cbn [length]; split; intros [H1 H2]; split; auto; try discriminate; lia. }
  split.
  - destruct (info_of vars v) as [i|] eqn:Ei; [|discriminate]. cbn [rbind]. intros H. apply info_iff in Ei. destruct (ignore_many v); injection H as <- <- <-; (split; [reflexivity|]); (split; [reflexivity|]); exists i; (split; [exact Ei|]); [left|right]; (split; [|reflexivity]); [now apply L|intros K; apply L in K; discriminate].
  - intros (-> & -> & i & Hi & H). apply info_iff in Hi. rewrite Hi. cbn [rbind]. destruct H as [(Hl & ->)|(Hl & ->)].
    + apply L in Hl. now rewrite Hl.
    + destruct (ignore_many v); [exfalso; apply Hl, L; reflexivity|reflexivity].
Qed.
