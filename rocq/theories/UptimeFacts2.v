(** * UptimeFacts2: what uptimeparse gives, and that a time is written in one way *)
From Verif Require Import PyBase Regex SpecRegex RegexFacts SpecLine StrFacts DictFacts LitFacts CharFacts Parser Attributes MatchFuncs SpecOutcome Uptime SpecUptime UptimeFacts.
Local Open Scope string_scope.
Local Open Scope list_scope.

(** a blank text has no counts *)
Lemma blank_strip s : strip s = [] <-> blanks s.
Proof.
  unfold strip, lstrip, rstrip, rstrip_p, blanks. rewrite Forall_forall.
  assert (L : forall t, lstrip_p is_space t = [] <-> forall c, In c t -> is_space c = true).
  { induction t as [|c t IH]; cbn [lstrip_p]; [split; [intros _ c []|reflexivity]|]. destruct (is_space c) eqn:E.
    - rewrite IH. split; [intros H x [<-|Hx]; auto|intros H x Hx; apply H; now right].
    - split; [discriminate|]. intros H. rewrite (H c) in E by now left. discriminate. }
  split.
  - intros H. pose proof (proj1 (L _) H) as H0. clear H. rename H0 into H. assert (R : lstrip_p is_space (rev s) = []).
    { destruct (lstrip_p is_space (rev s)) as [|c t] eqn:E; [reflexivity|]. exfalso.
      assert (Hc : is_space c = false).
      { clear H. generalize dependent t. generalize (rev s) as r. induction r as [|x r IH]; cbn [lstrip_p]; [discriminate|]. destruct (is_space x) eqn:Ex; [exact IH|]. intros t E. injection E as -> _. exact Ex. }
      rewrite H in Hc; [discriminate|]. apply in_rev. rewrite rev_involutive. now left. }
    intros c Hc. apply (proj1 (L (rev s)) R). now apply in_rev in Hc.
  - intros H. apply (proj2 (L _)). intros c Hc. apply in_rev in Hc.
    assert (R : lstrip_p is_space (rev s) = []) by (apply (proj2 (L _)); intros x Hx; apply H; now apply in_rev in Hx). rewrite R in Hc. destruct Hc.
Qed.
Lemma not_space c : is_dec c = true \/ c = "."%char -> is_space c = false.
Proof.
  intros H. assert (K : forallb (fun c => implb (is_dec c || Ascii.eqb c ".") (negb (is_space c))) all_chars256 = true) by (vm_compute; reflexivity).
  rewrite forallb_forall in K. specialize (K c (all_chars_in c)). destruct (is_space c); [|reflexivity]. destruct H as [H| ->]; [rewrite H in K|]; discriminate.
Qed.
Lemma count_char u n c : count u n -> In c n -> is_dec c = true \/ c = "."%char.
Proof. intros [_ H] Hc. rewrite Forall_forall in H. apply H in Hc as [K|(K & _)]; auto. Qed.
Lemma writes_blank us s l : writes us s l -> blanks s <-> l = [].
Proof.
  induction 1 as [us b Hb|u us s l H IH|u us b1 n b2 w b3 sep s l H1 H2 H3 H4 H5 H6 H7 IH]; [tauto|exact IH|]. split; [|discriminate].
  intros K. exfalso. destruct n as [|c n]; [now destruct H2|]. unfold blanks in K. rewrite Forall_forall in K.
  specialize (K c ltac:(rewrite in_app_iff; right; now left)). rewrite (not_space c) in K; [discriminate|]. eapply count_char; [exact H2|now left].
Qed.
Lemma strip_empty s l : time s l -> str_eqb (strip s) [] = match l with [] => true | _ => false end.
Proof.
  intros H. pose proof (writes_blank _ _ _ H) as K. destruct (str_eqb (strip s) []) eqn:E.
  - apply str_eqb_eq in E. apply blank_strip, K in E. now rewrite E.
  - destruct l; [|reflexivity]. exfalso. assert (S : strip s = []) by now apply blank_strip, K. rewrite S in E. discriminate.
Qed.
Lemma integers l : forallb (fun kv : str * str => forallb is_dec (snd kv)) (named l) = true <-> forall u n, In (u, n) l -> integer n.
Proof.
  unfold named. rewrite forallb_forall. unfold integer. split.
  - intros H u n Hi. specialize (H (unit_name u, n)). rewrite Forall_forall. intros c Hc. cbn in H. rewrite forallb_forall in H. apply H; [|exact Hc].
    apply (in_map (fun x => (unit_name (fst x), snd x))) in Hi. exact Hi.
  - intros H x Hx. apply in_map_iff in Hx as ((u & n) & <- & Hi). cbn [fst snd]. apply H in Hi. rewrite Forall_forall in Hi. now rewrite forallb_forall.
Qed.
Lemma multiplier_of u : multiplier (unit_name u) multipliers = seconds_of u.
Proof. destruct u; vm_compute; reflexivity. Qed.
Lemma key_of_name u : key_of u = unit_name u.
Proof. destruct u; reflexivity. Qed.
Lemma total_named l : fold_right Z.add 0%Z (map (fun kv : str * str => multiplier (fst kv) multipliers * Z.of_N (digits_val (snd kv) 0))%Z (named l)) = total l.
Proof.
  unfold total, named. rewrite map_map. f_equal. apply map_ext. intros (u & n). cbn [fst snd]. now rewrite multiplier_of.
Qed.
Lemma py_eq_text v s : py_eq v (VStr s) = true <-> v = VStr s.
Proof.
  destruct v as [|b|z|t|l|d|o]; try (split; discriminate).
  change (py_eq (VStr t) (VStr s)) with (str_eqb t s). rewrite str_eqb_eq. split; [now intros ->|]. intros K. now injection K.
Qed.
(** what the function makes of what the expression found *)
Lemma found_gives s format l : time s l -> l <> [] ->
  exists v, time_gives s format l v /\ forall c, c = named l ->
   (if (negb (str_eqb (strip s) []) && forallb (fun kv => forallb is_dec (snd kv)) c)%bool then
            if py_eq format (VStr $"seconds")
            then Ok (VInt (fold_right Z.add 0%Z (map (fun kv => multiplier (fst kv) multipliers * Z.of_N (digits_val (snd kv) 0))%Z c)), FNone)
            else if py_eq format (VStr $"dict") then Ok (VDict (map (fun kv => (KS (fst kv), VStr (snd kv))) c), FNone)
            else Ok (VStr s, FNone)
          else Ok (VStr s, FNone)) = becomes v.
Proof.
  intros Ht Hl. rewrite (strip_empty s l Ht). destruct l as [|x l']; [contradiction|]. set (l := x :: l') in *. clearbody l. cbn [negb andb].
  destruct (forallb (fun kv => forallb is_dec (snd kv)) (named l)) eqn:Ei.
  - pose proof (proj1 (integers l) Ei) as Hi. destruct (py_eq format (VStr $"seconds")) eqn:E1.
    + exists (VInt (total l)). split; [apply tg_seconds; [exact Hi|now apply py_eq_text]|]. intros c ->. rewrite Ei, total_named. reflexivity.
    + assert (N1 : format <> VStr $"seconds") by (intros K; pose proof (proj2 (py_eq_text _ _) K); congruence).
      destruct (py_eq format (VStr $"dict")) eqn:E2.
      * exists (VDict (map (fun x => (KS (key_of (fst x)), VStr (snd x))) l)). split; [apply tg_dict; [exact Hi|now apply py_eq_text]|]. intros c ->. rewrite Ei.
        unfold becomes, named. rewrite map_map. reflexivity.
      * assert (N2 : format <> VStr $"dict") by (intros K; pose proof (proj2 (py_eq_text _ _) K); congruence).
        exists (VStr s). split; [now apply tg_other|]. intros c ->. rewrite Ei. reflexivity.
  - assert (H : exists u n, In (u, n) l /\ ~ integer n).
    { clear - Ei. induction l as [|(u & n) l IH]; [discriminate|]. cbn [named map forallb fst snd] in Ei. destruct (forallb is_dec n) eqn:E.
      - destruct (IH Ei) as (v & m & Hi & Hn). exists v, m. split; [now right|exact Hn].
      - exists u, n. split; [now left|]. intros K. unfold integer in K. rewrite Forall_forall in K. apply Bool.not_true_iff_false in E. apply E. now apply forallb_forall. }
    destruct H as (u & n & Hi & Hn). exists (VStr s). split; [now apply (tg_fraction s format l u n)|]. intros c ->. rewrite Ei. reflexivity.
Qed.
Lemma uptime_spec s format : exists v, f_uptimeparse (VStr s) format = becomes v /\
  ((v = VStr s /\ forall l, time s l -> l = []) \/ exists l, l <> [] /\ time s l /\ time_gives s format l v).
Proof.
  unfold f_uptimeparse. destruct (rmatch uptime_re s) as [[s' c]|] eqn:E.
  - apply rmatch_sound, uptime_rel in E as (-> & l & Hl & ->). assert (D : l = [] \/ l <> []) by (destruct l; [now left|right; discriminate]). destruct D as [-> | Hn].
    + exists (VStr s). rewrite (strip_empty s [] Hl). split; [reflexivity|]. left. split; [reflexivity|]. intros l2 Hl2.
      apply (writes_blank _ _ _ Hl2), (writes_blank _ _ _ Hl). reflexivity.
    + destruct (found_gives s format l Hl Hn) as (v & Hv & K). exists v. split; [exact (K _ eq_refl)|]. right. now exists l.
  - exists (VStr s). split; [reflexivity|]. left. split; [reflexivity|]. intros l Hl. exfalso. apply rmatch_none with (s' := []) (c := named l) in E. apply E, uptime_rel. split; [reflexivity|]. now exists l.
Qed.
Lemma time_gives_fun s format l v v' : time_gives s format l v -> time_gives s format l v' -> v = v'.
Proof.
  intros H H'. inversion H; inversion H'; subst; try reflexivity; try congruence.
  all: exfalso; match goal with
    | Hn : ~ integer ?n, Hi : In (?u, ?n) _, Ha : forall u n, In (u, n) _ -> integer n |- _ => apply Hn; exact (Ha _ _ Hi)
    | E : VStr _ = VStr _ |- _ => vm_compute in E; discriminate E
    end.
Qed.
