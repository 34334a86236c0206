(** * UptimeFacts: the expression of uptimeparse matches what [time] describes *)
From Verif Require Import PyBase Regex SpecRegex RegexFacts FormRegex SpecLine StrFacts ReadFacts DictFacts LitFacts CharFacts Parser Attributes MatchFuncs Uptime SpecUptime.
Local Open Scope string_scope.
Local Open Scope list_scope.

(** the texts an expression takes, whatever follows and whatever is captured *)
Definition takes (r : re) (L : str -> Prop) : Prop :=
  forall s c s' c', rel r s c s' c' <-> c' = c /\ exists w, s = w ++ s' /\ L w.
Lemma takes_same r L L' : takes r L -> (forall w, L w <-> L' w) -> takes r L'.
Proof. intros H E s c s' c'. rewrite (H s c s' c'). split; intros (-> & w & -> & K); (split; [reflexivity|]); exists w; (split; [reflexivity|]); now apply E. Qed.
Lemma takes_seq a b A B : takes a A -> takes b B -> takes (RSeq a b) (fun w => exists x y, w = x ++ y /\ A x /\ B y).
Proof.
  intros Ha Hb s c s' c'. cbn [rel]. split.
  - intros (s1 & c1 & H1 & H2). apply Ha in H1 as (-> & x & -> & Hx). apply Hb in H2 as (-> & y & -> & Hy). split; [reflexivity|].
    exists (x ++ y). split; [now rewrite app_assoc|]. now exists x, y.
  - intros (-> & w & -> & x & y & -> & Hx & Hy). exists (y ++ s'), c. split.
    + apply Ha. split; [reflexivity|]. exists x. split; [now rewrite app_assoc|exact Hx].
    + apply Hb. split; [reflexivity|]. now exists y.
Qed.
Lemma takes_alt a b A B : takes a A -> takes b B -> takes (RAlt a b) (fun w => A w \/ B w).
Proof.
  intros Ha Hb s c s' c'. cbn [rel]. rewrite (Ha s c s' c'), (Hb s c s' c'). split.
  - intros [(-> & w & -> & K)|(-> & w & -> & K)]; (split; [reflexivity|]); exists w; auto.
  - intros (-> & w & -> & [K|K]); [left|right]; (split; [reflexivity|]); now exists w.
Qed.
Lemma takes_eps : takes REps (fun w => w = []).
Proof. intros s c s' c'. cbn [rel]. split; [intros [-> ->]; split; [reflexivity|]; now exists []|intros (-> & w & -> & ->); now split]. Qed.
Lemma takes_opt a A : takes a A -> takes (ropt a) (fun w => A w \/ w = []).
Proof. intros H. apply takes_alt; [exact H|apply takes_eps]. Qed.
Lemma takes_any : takes RAny (fun w => exists c, w = [c] /\ c <> nl).
Proof.
  intros s c s' c'. cbn [rel]. split.
  - intros (x & -> & Hx & ->). split; [reflexivity|]. exists [x]. split; [reflexivity|]. now exists x.
  - intros (-> & w & -> & x & -> & Hx). now exists x.
Qed.
Lemma takes_set items : takes (RSet false items) (fun w => exists c, w = [c] /\ set_match false items c = true).
Proof.
  intros s c s' c'. cbn [rel]. split.
  - intros (x & -> & Hx & ->). split; [reflexivity|]. exists [x]. split; [reflexivity|]. now exists x.
  - intros (-> & w & -> & x & -> & Hx). now exists x.
Qed.
Lemma takes_star items : takes (RStar true (RSet false items)) (Forall (fun c => set_match false items c = true)).
Proof. intros s c s' c'. change (star_rel (rel (RSet false items)) s c s' c' <-> c' = c /\ exists w, s = w ++ s' /\ Forall (fun c => set_match false items c = true) w). apply star_set. Qed.
Lemma space_set c : set_match false [CSpaceC] c = is_space c.
Proof. unfold set_match. cbn [existsb citem_match]. rewrite Bool.orb_false_r. now destruct (is_space c). Qed.
Lemma takes_blanks : takes (RStar true rs) blanks.
Proof.
  eapply takes_same; [apply takes_star|]. intros w. unfold blanks. rewrite !Forall_forall.
  split; intros H c K; specialize (H c K); [rewrite <- (space_set c)|rewrite (space_set c)]; exact H.
Qed.
Lemma takes_plus items : takes (rplus (RSet false items)) (fun w => w <> [] /\ Forall (fun c => set_match false items c = true) w).
Proof.
  intros s c s' c'. rewrite rel_plus_set. split; intros (-> & w & H); (split; [reflexivity|]); exists w; tauto.
Qed.

(** letters in both cases *)
Definition letter (c : ascii) : bool := between 97 122 c.
Lemma letter_takes c x : letter c = true -> set_match false [CChar c; CChar (upper_letter c)] x = true <-> lower_c x = c.
Proof.
  intros Hc.
  assert (K : forallb (fun c => implb (letter c) (forallb (fun x => Bool.eqb (set_match false [CChar c; CChar (upper_letter c)] x) (Ascii.eqb (lower_c x) c)) all_chars256)) all_chars256 = true) by (vm_compute; reflexivity).
  rewrite forallb_forall in K. specialize (K c (all_chars_in c)). rewrite Hc in K. cbn [implb] in K. rewrite forallb_forall in K. specialize (K x (all_chars_in x)).
  apply Bool.eqb_prop in K. rewrite K. split; [apply Ascii.eqb_eq|]. intros ->. apply Ascii.eqb_refl.
Qed.
Lemma takes_ilit l : forallb letter l = true -> takes (ilit l) (fun w => lower w = l).
Proof.
  induction l as [|c l IH]; cbn [ilit forallb]; intros H.
  - eapply takes_same; [apply takes_eps|]. intros [|x w]; cbn; split; congruence.
  - apply Bool.andb_true_iff in H as [Hc Hl]. eapply takes_same; [apply takes_seq; [apply takes_set|exact (IH Hl)]|]. intros w. split.
    + intros (x & y & -> & (a & -> & Ha) & Hy). cbn [app lower map]. apply (letter_takes c a Hc) in Ha. rewrite Ha. f_equal. exact Hy.
    + destruct w as [|a w]; cbn [lower map]; intros E; [discriminate|]. injection E as Ea Ew. exists [a], w. split; [reflexivity|]. split; [|exact Ew].
      exists a. split; [reflexivity|]. now apply (letter_takes c a Hc).
Qed.
Lemma lower_app a b : lower (a ++ b) = lower a ++ lower b.
Proof. apply map_app. Qed.
Lemma lower_snoc w l c : lower w = l ++ [c] -> exists a x, w = a ++ [x] /\ lower a = l /\ lower_c x = c.
Proof.
  intros H. destruct (exists_last (l := w)) as (a & x & ->); [intros ->; destruct l; discriminate|]. rewrite lower_app in H. cbn in H.
  apply app_inj_tail in H as [H1 H2]. now exists a, x.
Qed.
Lemma takes_iplural s : forallb letter $s = true -> takes (iplural s) (fun w => lower w = $s \/ lower w = $s ++ $"s").
Proof.
  intros H. unfold iplural. eapply takes_same; [apply takes_seq; [apply takes_ilit, H|apply takes_opt, takes_set]|]. intros w. split.
  - intros (x & y & -> & Hx & [(c & -> & Hc)| ->]).
    + apply (letter_takes "s" c eq_refl) in Hc. right. rewrite lower_app, Hx. cbn. now rewrite Hc.
    + left. now rewrite app_nil_r.
  - intros [E|E].
    + exists w, []. split; [now rewrite app_nil_r|]. split; [exact E|now right].
    + apply lower_snoc in E as (a & x & -> & Ha & Hx). exists a, [x]. split; [reflexivity|]. split; [exact Ha|]. left. exists x. split; [reflexivity|].
      now apply (letter_takes "s" x eq_refl).
Qed.
(** an abbreviation and what can follow it *)
Lemma takes_abbreviation s : forallb letter $s = true -> takes (RSeq (iplural s) (ropt RAny))
  (fun w => (lower w = $s \/ lower w = $s ++ $"s") \/ exists v c, w = v ++ [c] /\ (lower v = $s \/ lower v = $s ++ $"s") /\ c <> nl).
Proof.
  intros H. eapply takes_same; [apply takes_seq; [apply takes_iplural, H|apply takes_opt, takes_any]|]. intros w. split.
  - intros (x & y & -> & Hx & [(c & -> & Hc)| ->]); [right; now exists x, c|left; now rewrite app_nil_r].
  - intros [E|(v & c & -> & E & Hc)]; [exists w, []; split; [now rewrite app_nil_r|auto]|]. exists v, [c]. split; [reflexivity|]. split; [exact E|]. left. now exists c.
Qed.
Lemma says_cons x l w : says (x :: l) w <-> lower w = $x \/ says l w.
Proof.
  unfold says. split.
  - intros (y & [->|Hy] & E); [now left|right; now exists y].
  - intros [E|(y & Hy & E)]; [exists x; split; [now left|exact E]|exists y; split; [now right|exact E]].
Qed.
Lemma says_nil w : says [] w <-> False.
Proof. unfold says. split; [intros (y & [] & _)|contradiction]. Qed.
Lemma no_abbreviation l w : (forall v, ~ says l v) -> (exists v c, w = v ++ [c] /\ says l v /\ c <> nl) <-> False.
Proof. intros H. split; [|contradiction]. intros (v & c & _ & K & _). now apply H in K. Qed.
Lemma with_abbreviation (A B : str -> Prop) w : (forall v, A v <-> B v) ->
  (exists v c, w = v ++ [c] /\ A v /\ c <> nl) <-> (exists v c, w = v ++ [c] /\ B v /\ c <> nl).
Proof. intros H. split; intros (v & c & E & K & N); exists v, c; (split; [exact E|]); (split; [now apply H|exact N]). Qed.
Lemma either_abbreviation (A B : str -> Prop) w :
  (exists v c, w = v ++ [c] /\ (A v \/ B v) /\ c <> nl) <-> (exists v c, w = v ++ [c] /\ A v /\ c <> nl) \/ (exists v c, w = v ++ [c] /\ B v /\ c <> nl).
Proof.
  split.
  - intros (v & c & E & [K|K] & N); [left|right]; now exists v, c.
  - intros [(v & c & E & K & N)|(v & c & E & K & N)]; exists v, c; auto.
Qed.
Lemma says_two x y v : says [x; y] v <-> lower v = $x \/ lower v = $y.
Proof. rewrite !says_cons, says_nil. tauto. Qed.
Lemma says_four x y z t v : says [x; y; z; t] v <-> (lower v = $x \/ lower v = $y) \/ (lower v = $z \/ lower v = $t).
Proof. rewrite !says_cons, says_nil. tauto. Qed.
Lemma takes_words u : takes (unit_words u) (names_unit u).
Proof.
  assert (N0 : forall v, ~ says [] v) by (intros v K; now apply says_nil in K).
  destruct u; unfold unit_words; (eapply takes_same; [repeat first [apply takes_abbreviation; reflexivity|apply takes_iplural; reflexivity|apply takes_ilit; reflexivity|apply takes_alt]|]);
    intros w; unfold names_unit; cbn [words abbreviations]; rewrite !says_cons, says_nil; cbn [app].
  all: repeat match goal with |- context [$?a ++ $"s"] => let x := eval vm_compute in (String.append a "s") in change ($a ++ $"s") with ($x) end.
  1: { rewrite (with_abbreviation (says ["yr"; "yrs"]) _ w (says_two "yr" "yrs")). tauto. }
  1: { rewrite (with_abbreviation (says ["mo"; "mos"; "mth"; "mths"]) _ w (says_four "mo" "mos" "mth" "mths")), !either_abbreviation. tauto. }
  all: rewrite (no_abbreviation [] w N0); tauto.
Qed.
Lemma set_in items c : set_match false items c = existsb (fun i => citem_match i c) items.
Proof. unfold set_match. now destruct (existsb _ items). Qed.
(** counts *)
Lemma takes_count u : takes (rplus (RSet false (unit_chars u))) (count u).
Proof.
  eapply takes_same; [apply takes_plus|]. intros w. unfold count.
  assert (E : forall c, set_match false (unit_chars u) c = true <-> is_dec c = true \/ c = "."%char /\ u <> Years /\ u <> Months).
  { intros c. rewrite set_in. destruct u; cbn [unit_chars existsb citem_match]; rewrite ?Bool.orb_false_r, ?Bool.orb_true_iff, ?Ascii.eqb_eq.
    1, 2: split; [now left|intros [H|(H & H1 & H2)]; [exact H|now contradiction]].
    all: split; [intros [H|H]; [now left|right; split; [now symmetry|split; discriminate]]|intros [H|(H & _)]; [now left|right; now symmetry]]. }
  split; intros [H1 H2]; (split; [exact H1|]); eapply Forall_impl; try exact H2; intros c K; now apply E.
Qed.
Lemma takes_separator : takes (ropt (RSeq (RSet false [CChar ","; CChar "/"]) (RStar true rs)))
  (fun w => w = [] \/ exists b, (w = $"," ++ b \/ w = $"/" ++ b) /\ blanks b).
Proof.
  eapply takes_same; [apply takes_opt, takes_seq; [apply takes_set|apply takes_blanks]|]. intros w.
  assert (E : forall c, set_match false [CChar ","; CChar "/"] c = true <-> c = ","%char \/ c = "/"%char).
  { intros c. rewrite set_in. cbn [existsb citem_match]. rewrite Bool.orb_false_r, Bool.orb_true_iff, !Ascii.eqb_eq. split; intros [H|H]; auto. }
  split.
  - intros [(x & y & -> & (c & -> & Hc) & Hy)| ->]; [|now left]. right. exists y. split; [|exact Hy]. apply E in Hc as [-> | ->]; [now left|now right].
  - intros [->|(b & [->| ->] & Hb)]; [now right| |]; left; [exists $",", b|exists $"/", b]; (split; [reflexivity|]); (split; [|exact Hb]); eexists; split; try reflexivity; now apply E; auto.
Qed.

(** the captures of a time *)
Definition named (l : list (unit_ * str)) : caps := map (fun x => (unit_name (fst x), snd x)) l.
Lemma cap_set_new n v c : ~ In n (map fst c) -> cap_set n v c = c ++ [(n, v)].
Proof.
  induction c as [|[m w] c IH]; intros H; [reflexivity|]. cbn [cap_set map fst] in *. destruct (str_eqb n m) eqn:E.
  - apply str_eqb_eq in E. subst m. exfalso. apply H. now left.
  - cbn [app]. rewrite IH; [reflexivity|]. intros K. apply H. now right.
Qed.
Definition fresh (us : list unit_) (c : caps) : Prop := forall u, In u us -> ~ In (unit_name u) (map fst c).
Lemma writes_blanks us s l b : blanks b -> writes us s l -> writes us (b ++ s) l.
Proof.
  intros Hb. induction 1 as [us b' Hb'|u us s l H IH|u us b1 n b2 w b3 sep s l H1 H2 H3 H4 H5 H6 H7 IH].
  - constructor. now apply Forall_app.
  - now apply wr_absent.
  - rewrite app_assoc. apply wr_count; try assumption. now apply Forall_app.
Qed.
Lemma at_end_rel s c s' c' : rel at_end s c s' c' <-> s = [] /\ s' = [] /\ c' = c.
Proof.
  unfold at_end. cbn [rel]. split.
  - intros (-> & -> & H). destruct s as [|x t]; [auto|]. exfalso. apply (H t c). exists x. repeat split.
  - intros (-> & -> & ->). split; [reflexivity|]. split; [reflexivity|]. intros s1 c1 (x & E & _). discriminate.
Qed.
Lemma format_rel us : NoDup (map unit_name us) -> forall s c s' c', fresh us c ->
  rel (RSeq (RStar true rs) (format_re us)) s c s' c' <-> s' = [] /\ exists l, writes us s l /\ c' = c ++ named l.
Proof.
  induction us as [|u us IH]; intros Hn s c s' c' Hc; cbn [format_re].
  - change (rel (RSeq ?a ?b) s c s' c') with (exists s1 c1, rel a s c s1 c1 /\ rel b s1 c1 s' c'). split.
    + intros (s1 & c1 & H1 & H2). apply takes_blanks in H1 as (-> & b & -> & Hb). apply at_end_rel in H2 as (-> & -> & ->). split; [reflexivity|].
      exists []. split; [rewrite app_nil_r; now constructor|]. symmetry. apply app_nil_r.
    + intros (-> & l & H & ->). inversion H; subst. exists [], c. cbn. rewrite app_nil_r. split; [|now apply at_end_rel].
      apply takes_blanks. split; [reflexivity|]. exists s. split; [symmetry; apply app_nil_r|assumption].
  - assert (Hn2 : NoDup (map unit_name us)) by (inversion Hn; assumption).
    assert (Hu : ~ In (unit_name u) (map unit_name us)) by (inversion Hn; assumption).
    assert (Hc2 : fresh us c) by (intros v Hv; apply Hc; now right).
    change (rel (RSeq ?a (RSeq ?b ?d)) s c s' c') with (exists s1 c1, rel a s c s1 c1 /\ exists s2 c2, rel b s1 c1 s2 c2 /\ rel d s2 c2 s' c').
    split.
    + intros (s0 & c0 & H0 & s1 & c1 & H1 & H2). apply takes_blanks in H0 as (-> & b1 & -> & Hb1).
      unfold part_re, ropt in H1. change (rel (RAlt ?a ?b) s0 c s1 c1) with (rel a s0 c s1 c1 \/ rel b s0 c s1 c1) in H1.
      destruct H1 as [H1|[-> ->]].
      * change (rel (RSeq ?a ?b) s0 c s1 c1) with (exists s2 c2, rel a s0 c s2 c2 /\ rel b s2 c2 s1 c1) in H1. destruct H1 as (s4 & c4 & H1 & H3).
        unfold field_re in H1. change (rel (RSeq (RGroup ?n ?a) (RSeq ?b ?d)) s0 c s4 c4) with
          (exists s2 c2, (exists c5 w, rel a s0 c s2 c5 /\ s0 = w ++ s2 /\ c2 = cap_set n w c5) /\ exists s6 c6, rel b s2 c2 s6 c6 /\ rel d s6 c6 s4 c4) in H1.
        destruct H1 as (s2 & c2 & (c5 & v & K1 & K2 & K3) & s6 & c6 & K4 & K5).
        apply takes_count in K1 as (-> & v' & K6 & Kv). rewrite K2 in K6. apply app_inv_tail in K6. subst v' s0.
        apply takes_blanks in K4 as (-> & b2 & -> & Hb2). apply takes_words in K5 as (-> & w & -> & Hw). subst c2.
        rewrite cap_set_new in * by (apply Hc; now left).
        assert (Hc3 : fresh us (c ++ [(unit_name u, v)])).
        { intros x Hx. rewrite map_app, in_app_iff. intros [K|[K|[]]]; [now apply (Hc2 x Hx)|]. cbn in K. apply Hu. rewrite K. now apply in_map. }
        assert (E : exists b3 sep rest, s4 = b3 ++ sep ++ rest /\ blanks b3 /\ separator u sep /\ rel (RSeq (RStar true rs) (format_re us)) rest (c ++ [(unit_name u, v)]) s' c').
        { assert (G : u = Secs \/ exists b3 w3, s4 = b3 ++ w3 ++ s1 /\ blanks b3 /\ u <> Secs /\ c1 = c ++ [(unit_name u, v)] /\
            (w3 = [] \/ exists b, (w3 = $"," ++ b \/ w3 = $"/" ++ b) /\ blanks b)).
          { destruct u; try (right; change (rel (RSeq ?a ?b) s4 ?c s1 c1) with (exists s2 c2, rel a s4 c s2 c2 /\ rel b s2 c2 s1 c1) in H3;
              destruct H3 as (s7 & c7 & H3 & H4); apply takes_blanks in H3 as (-> & b3 & -> & Hb3); apply takes_separator in H4 as (-> & w3 & -> & Hw3);
              exists b3, w3; repeat (split; [first [reflexivity|assumption|discriminate]|]); exact Hw3). now left. }
          destruct G as [->|(b3 & w3 & -> & Hb3 & Hs & -> & Hw3)].
          - destruct H3 as [-> ->]. exists [], [], s4. split; [reflexivity|]. split; [constructor|]. split; [now left|exact H2].
          - destruct Hw3 as [->|(b & Hw3 & Hb)].
            + exists b3, [], s1. split; [reflexivity|]. split; [exact Hb3|]. split; [now left|exact H2].
            + assert (R : rel (RSeq (RStar true rs) (format_re us)) (b ++ s1) (c ++ [(unit_name u, v)]) s' c').
              { apply (IH Hn2 (b ++ s1) _ s' c' Hc3). apply (IH Hn2 s1 _ s' c' Hc3) in H2 as (-> & l & Hl & ->). split; [reflexivity|]. exists l. split; [now apply writes_blanks|reflexivity]. }
              destruct Hw3 as [-> | ->]; [exists b3, $",", (b ++ s1)|exists b3, $"/", (b ++ s1)];
                (split; [now rewrite !app_assoc|]); (split; [exact Hb3|]); (split; [right; split; [exact Hs|tauto]|exact R]). }
        destruct E as (b3 & sep & rest & -> & Hb3 & Hsep & R). apply (IH Hn2 _ _ _ _ Hc3) in R as (-> & l & Hl & ->). split; [reflexivity|].
        exists ((u, v) :: l). split; [now apply wr_count|]. cbn [named map fst snd]. now rewrite <- app_assoc.
      * assert (R : rel (RSeq (RStar true rs) (format_re us)) s0 c s' c') by exact H2.
        apply (IH Hn2 _ _ _ _ Hc2) in R as (-> & l & Hl & ->). split; [reflexivity|]. exists l. split; [|reflexivity]. apply wr_absent. now apply writes_blanks.
    + intros (-> & l & Hw & ->). inversion Hw as [us' b Hb|u' us' s3 l' H'|u' us' b1 n b2 w b3 sep s3 l' H1 H2 H3 H4 H5 H6 H7]; subst.
      * exists s, c. split; [apply takes_blanks; split; [reflexivity|]; exists []; split; [reflexivity|constructor]|].
        assert (R : rel (RSeq (RStar true rs) (format_re us)) s c [] (c ++ named [])) by (apply (IH Hn2 _ _ _ _ Hc2); split; [reflexivity|]; exists []; split; [now constructor|reflexivity]).
        exists s, c. split; [|exact R]. right. split; reflexivity.
      * exists s, c. split; [apply takes_blanks; split; [reflexivity|]; exists []; split; [reflexivity|constructor]|].
        assert (R : rel (RSeq (RStar true rs) (format_re us)) s c [] (c ++ named l)) by (apply (IH Hn2 _ _ _ _ Hc2); split; [reflexivity|]; exists l; split; [assumption|reflexivity]).
        exists s, c. split; [|exact R]. right. split; reflexivity.
      * assert (Hc3 : fresh us (c ++ [(unit_name u, n)])).
        { intros x Hx. rewrite map_app, in_app_iff. intros [K|[K|[]]]; [now apply (Hc2 x Hx)|]. cbn in K. apply Hu. rewrite K. now apply in_map. }
        exists (n ++ b2 ++ w ++ b3 ++ sep ++ s3), c. split; [apply takes_blanks; split; [reflexivity|]; now exists b1|].
        assert (R : rel (RSeq (RStar true rs) (format_re us)) s3 (c ++ [(unit_name u, n)]) [] (c ++ named ((u, n) :: l'))).
        { apply (IH Hn2 _ _ _ _ Hc3). split; [reflexivity|]. exists l'. split; [assumption|]. cbn [named map fst snd]. now rewrite <- app_assoc. }
        assert (P : rel (field_re u) (n ++ b2 ++ w ++ b3 ++ sep ++ s3) c (b3 ++ sep ++ s3) (c ++ [(unit_name u, n)])).
        { unfold field_re. exists (b2 ++ w ++ b3 ++ sep ++ s3), (c ++ [(unit_name u, n)]). split.
          - exists c, n. split; [apply takes_count; split; [reflexivity|]; now exists n|]. split; [reflexivity|]. symmetry. apply cap_set_new, Hc. now left.
          - exists (w ++ b3 ++ sep ++ s3), (c ++ [(unit_name u, n)]). split; [apply takes_blanks; split; [reflexivity|]; now exists b2|]. apply takes_words. split; [reflexivity|]. now exists w. }
        destruct H6 as [->|(Hs & Hsep)].
        -- assert (Hd : u = Secs \/ u <> Secs) by (destruct u; auto; right; discriminate). destruct Hd as [->|Hs].
           ++ exists (b3 ++ s3), (c ++ [(unit_name Secs, n)]). split.
              ** left. eexists. eexists. split; [exact P|]. split; reflexivity.
              ** assert (R' : rel (RSeq (RStar true rs) (format_re us)) (b3 ++ s3) (c ++ [(unit_name Secs, n)]) [] (c ++ named ((Secs, n) :: l'))).
                 { apply (IH Hn2 _ _ _ _ Hc3). split; [reflexivity|]. exists l'. split; [now apply writes_blanks|]. cbn [named map fst snd]. now rewrite <- app_assoc. }
                 exact R'.
           ++ exists s3, (c ++ [(unit_name u, n)]). split; [|exact R]. left. eexists. eexists. split; [exact P|].
              destruct u; try contradiction; (eexists; eexists; split; [apply takes_blanks; split; [reflexivity|]; exists b3; split; [reflexivity|assumption]|right; split; reflexivity]).
        -- exists s3, (c ++ [(unit_name u, n)]). split; [|exact R]. left. eexists. eexists. split; [exact P|].
           destruct u; try contradiction; (eexists; eexists; split; [apply takes_blanks; split; [reflexivity|]; exists b3; split; [reflexivity|assumption]|]);
             (apply takes_separator; split; [reflexivity|]; exists sep; split; [reflexivity|]; right; exists []; rewrite app_nil_r; split; [exact Hsep|constructor]).
Qed.
Lemma uptime_rel s s' c : rel uptime_re s [] s' c <-> s' = [] /\ exists l, time s l /\ c = named l.
Proof.
  unfold uptime_re. rewrite (format_rel all_units); [reflexivity| |intros u _ []].
  vm_compute. repeat constructor; cbn; intros H; repeat (destruct H as [H|H]; [discriminate|]); exact H.
Qed.
