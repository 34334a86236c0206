(** * LitFacts: the expression generated for literal text, and what it matches *)
From Verif Require Import PyBase DictFacts Regex SpecRegex RegexFacts FormRegex SpecLine StrFacts ReadFacts.
Local Open Scope string_scope.
Local Open Scope list_scope.

(** ** runs of one character class *)
Lemma star_set items : forall s c s' c',
  star_rel (rel (RSet false items)) s c s' c' <-> c' = c /\ exists w, s = w ++ s' /\ Forall (fun x => set_match false items x = true) w.
Proof.
  intros s c s' c'. split.
  - induction 1 as [s c|s c s1 c1 s2 c2 H1 Hl _ (-> & w & -> & Hw)].
    + split; [reflexivity|]. exists []. now split.
    + destruct H1 as (x & -> & Hx & ->). split; [reflexivity|]. exists (x :: w). split; [reflexivity|]. now constructor.
  - intros (-> & w & -> & Hw). induction Hw as [|x w Hx Hw IH]; [apply sr_stop|].
    apply (sr_more _ _ c (w ++ s') c); [exists x; split; [reflexivity|]; split; [exact Hx|reflexivity]| |exact IH]. cbn [app length]. lia.
Qed.
Lemma rel_plus_set items s c s' c' : rel (rplus (RSet false items)) s c s' c' <->
  c' = c /\ exists w, w <> [] /\ s = w ++ s' /\ Forall (fun x => set_match false items x = true) w.
Proof.
  unfold rplus. cbn [rel]. split.
  - intros (s1 & c1 & (x & -> & Hx & ->) & H). apply star_set in H as (-> & w & -> & Hw). split; [reflexivity|].
    exists (x :: w). split; [discriminate|]. split; [reflexivity|]. now constructor.
  - intros (-> & w & Hne & -> & Hw). destruct w as [|x w]; [congruence|]. inversion Hw; subst. exists (w ++ s'), c.
    split; [exists x; now auto|]. apply star_set. split; [reflexivity|]. now exists w.
Qed.

Lemma mt_seq a b s c k : mt (RSeq a b) s c k = mt a s c (fun s' c' => mt b s' c' k).
Proof. reflexivity. Qed.
Lemma mt_set neg items s c k : mt (RSet neg items) s c k = match s with x :: t => if set_match neg items x then k t c else None | [] => None end.
Proof. reflexivity. Qed.
(** greedy matching of a class takes the maximal run *)
Lemma star_greedy items k : forall n s c, length s <= n -> (forall s c, k s c <> None) ->
  star_mt (RSet false items) true k n s c = k (lstrip_p (set_match false items) s) c.
Proof.
  induction n as [|n IH]; intros s c Hl Hk.
  - destruct s; [|cbn in Hl; lia]. reflexivity.
  - cbn [star_mt mt]. destruct s as [|x s]; [reflexivity|]. cbn [lstrip_p]. destruct (set_match false items x) eqn:E; [|reflexivity].
    assert (L : Nat.ltb (length s) (length (x :: s)) = true) by (apply Nat.ltb_lt; cbn; lia). rewrite L.
    rewrite IH by (cbn in Hl; lia || exact Hk). destruct (k _ c) eqn:Ek; [reflexivity|]. now apply Hk in Ek.
Qed.
Lemma rmatch_plus_set items s : rmatch (rplus (RSet false items)) s =
  match s with x :: t => if set_match false items x then Some (lstrip_p (set_match false items) t, []) else None | [] => None end.
Proof.
  unfold rmatch, rplus. rewrite mt_seq, mt_set. destruct s as [|x t]; [reflexivity|]. destruct (set_match false items x); [|reflexivity].
  rewrite mt_star. now rewrite star_greedy by (lia || discriminate).
Qed.

(** every maximal run of [p] replaced by [r] *)
Fixpoint squeeze (p : ascii -> bool) (r s : str) : str :=
  match s with
  | [] => []
  | c :: t => if p c then match t with d :: _ => if p d then squeeze p r t else r ++ squeeze p r t | [] => r end
              else c :: squeeze p r t
  end.
Lemma squeeze_run p r c t : p c = true -> squeeze p r (c :: t) = r ++ squeeze p r (lstrip_p p t).
Proof.
  revert c. induction t as [|d t IH]; intros c Hc; cbn [squeeze]; rewrite Hc; [now rewrite app_nil_r|].
  cbn [lstrip_p]. destruct (p d) eqn:Ed; [|cbn [squeeze]; now rewrite Ed]. specialize (IH d Ed). cbn [squeeze] in IH. rewrite Ed in IH. exact IH.
Qed.
Lemma lstrip_len p s : length (lstrip_p p s) <= length s.
Proof. induction s as [|c s IH]; [reflexivity|]. cbn [lstrip_p]. destruct (p c); cbn; lia. Qed.
Lemma re_sub_set items r s : re_sub_lit (rplus (RSet false items)) r s = squeeze (set_match false items) r s.
Proof.
  unfold re_sub_lit. assert (H : forall n s, length s < n -> sub_go n (rplus (RSet false items)) r s = squeeze (set_match false items) r s).
  { clear s. induction n as [|n IH]; intros s Hl; [lia|]. cbn [sub_go]. rewrite rmatch_plus_set. destruct s as [|x t]; [reflexivity|].
    cbn in Hl. destruct (set_match false items x) eqn:E.
    - rewrite squeeze_run by exact E. pose proof (lstrip_len (set_match false items) t).
      destruct (length (x :: t) - length (lstrip_p (set_match false items) t)) eqn:El; [cbn [length] in El; lia|]. now rewrite IH by lia.
    - cbn [squeeze]. rewrite E. now rewrite IH by lia. }
  apply H. lia.
Qed.

(** ** blanks in escaped text *)
Lemma mt_lit_prefix' p s c k : mt (rlit p) s c k = if prefixb p s then k (skipn (length p) s) c else None.
Proof.
  revert s. induction p as [|x p IH]; intros s; [reflexivity|]. cbn [rlit]. rewrite mt_seq. destruct s as [|y s]; [reflexivity|].
  cbn [prefixb skipn length]. unfold rchar. rewrite mt_set. unfold set_match. cbn [existsb citem_match xorb]. rewrite Bool.orb_false_r.
  destruct (Ascii.eqb x y); [apply IH|reflexivity].
Qed.
Definition blank2 : re := RAlt (rlit [bs; space]) (rlit [bs; tab]).
Lemma esc_blank c : blank c = true -> esc_c c = [bs; c].
Proof. unfold blank. intros H. apply Bool.orb_true_iff in H as [H|H]; apply Ascii.eqb_eq in H; subst; reflexivity. Qed.
Lemma mt_blank2_head c t cs k : (forall s c, k s c <> None) ->
  mt blank2 (bs :: c :: t) cs k = if blank c then k t cs else None.
Proof.
  intros Hk. unfold blank2. cbn [mt]. rewrite !mt_lit_prefix'. cbn [prefixb skipn length]. rewrite (Ascii.eqb_refl bs). cbn [andb]. rewrite !Bool.andb_true_r.
  unfold blank. rewrite (Ascii.eqb_sym c space), (Ascii.eqb_sym c tab). destruct (Ascii.eqb space c); cbn [orb].
  - destruct (k t cs) eqn:E; [reflexivity|]. now apply Hk in E.
  - reflexivity.
Qed.
Lemma mt_blank2_no s cs k : (match s with b :: c :: _ => Ascii.eqb bs b = true -> blank c = false | _ => True end) ->
  mt blank2 s cs k = None.
Proof.
  intros H. unfold blank2. cbn [mt]. rewrite !mt_lit_prefix'. destruct s as [|b [|c s]]; [reflexivity|cbn [prefixb]; rewrite !Bool.andb_false_r; reflexivity|].
  cbn [prefixb]. destruct (Ascii.eqb bs b); [|reflexivity]. cbn [andb]. rewrite !Bool.andb_true_r. specialize (H eq_refl).
  unfold blank in H. rewrite (Ascii.eqb_sym c space), (Ascii.eqb_sym c tab) in H. apply Bool.orb_false_iff in H as [-> ->]. reflexivity.
Qed.
Lemma special_bs : special bs = true.
Proof. reflexivity. Qed.
Lemma special_blank c : blank c = true -> special c = true.
Proof. unfold blank. intros H. apply Bool.orb_true_iff in H as [H|H]; apply Ascii.eqb_eq in H; subst; reflexivity. Qed.
(** escaped text never starts with a bare blank, and starts with a backslash only before a special character *)
Lemma esc_head s : match re_escape s with c :: _ => blank c = false | [] => True end.
Proof.
  destruct s as [|c s]; [exact I|]. cbn [re_escape flat_map]. unfold esc_c. destruct (special c) eqn:E; [reflexivity|]. cbn [app].
  apply Bool.not_true_is_false. intros H. apply special_blank in H. congruence.
Qed.
Lemma esc_head2 s : (match s with c :: _ => blank c = false | [] => True end) ->
  match re_escape s with b :: c :: _ => Ascii.eqb bs b = true -> blank c = false | _ => True end.
Proof.
  destruct s as [|c s]; [intros _; exact I|]. intros Hb. cbn [re_escape flat_map]. unfold esc_c. destruct (special c) eqn:E; cbn [app].
  - intros _. exact Hb.
  - destruct (flat_map _ s); [exact I|]. intros K. apply Ascii.eqb_eq in K. subst c. rewrite special_bs in E. discriminate.
Qed.
Lemma star_blank2 k : (forall s c, k s c <> None) -> forall s n cs, length (re_escape s) <= n ->
  star_mt blank2 true k n (re_escape s) cs = k (re_escape (lstrip_p blank s)) cs.
Proof.
  intros Hk. induction s as [|c s IH]; intros n cs Hl.
  - destruct n; reflexivity.
  - cbn [lstrip_p]. destruct (blank c) eqn:Eb.
    + cbn [re_escape flat_map] in *. rewrite (esc_blank c Eb) in *. cbn [app] in *. destruct n as [|n]; [cbn in Hl; lia|]. cbn [star_mt].
      assert (E : mt blank2 (bs :: c :: flat_map esc_c s) cs
         (fun s' c' => if Nat.ltb (length s') (length (bs :: c :: flat_map esc_c s)) then star_mt blank2 true k n s' c' else None) =
         k (re_escape (lstrip_p blank s)) cs).
      { unfold blank2. cbn [mt]. rewrite !mt_lit_prefix'. cbn [prefixb skipn length]. rewrite (Ascii.eqb_refl bs). cbn [andb]. rewrite !Bool.andb_true_r.
        assert (L : Nat.ltb (length (flat_map esc_c s)) (S (S (length (flat_map esc_c s)))) = true) by (apply Nat.ltb_lt; lia).
        rewrite L. fold blank2. fold (re_escape s). rewrite (IH n cs) by (cbn in Hl; unfold re_escape; lia).
        unfold blank in Eb. rewrite (Ascii.eqb_sym c space), (Ascii.eqb_sym c tab) in Eb. destruct (Ascii.eqb space c); cbn [orb] in Eb.
        - destruct (k _ cs) eqn:E; [reflexivity|]. now apply Hk in E.
        - rewrite Eb. reflexivity. }
      rewrite E. destruct (k _ cs) eqn:Ek; [reflexivity|]. now apply Hk in Ek.
    + assert (E : forall k', mt blank2 (re_escape (c :: s)) cs k' = None).
      { intros k'. apply mt_blank2_no. apply (esc_head2 (c :: s)). exact Eb. }
      destruct n as [|n]; cbn [star_mt]; [reflexivity|]. now rewrite E.
Qed.
Lemma rmatch_esc_blank s : rmatch esc_blank_re (re_escape s) =
  match s with x :: t => if blank x then Some (re_escape (lstrip_p blank t), []) else None | [] => None end.
Proof.
  unfold rmatch, esc_blank_re, rplus. fold blank2. rewrite mt_seq. destruct s as [|x t]; [reflexivity|]. destruct (blank x) eqn:Eb.
  - cbn [re_escape flat_map]. rewrite (esc_blank x Eb). cbn [app]. fold (re_escape t).
    rewrite mt_blank2_head.
    + rewrite Eb, mt_star. now rewrite star_blank2 by (lia || discriminate).
    + intros s c. rewrite mt_star.
      generalize (length s) as n. intros n. destruct n; cbn [star_mt]; [discriminate|]. destruct (mt blank2 _ _ _); discriminate.
  - apply mt_blank2_no. apply (esc_head2 (x :: t)). exact Eb.
Qed.

(** ** the source of literal text *)
Definition blank_tok (c : ascii) : str := if Ascii.eqb c space then blank_src else esc_c c.
Definition tok_src (xs xd : bool) (c : ascii) : str :=
  if (negb xs && Ascii.eqb c space)%bool then blank_src else if (negb xd && is_dec c)%bool then digit_src else esc_c c.
Lemma re_escape_app a b : re_escape (a ++ b) = re_escape a ++ re_escape b.
Proof. apply flat_map_app. Qed.
Lemma re_escape_lstrip p s : length (re_escape (lstrip_p p s)) <= length (re_escape s).
Proof. induction s as [|c s IH]; [reflexivity|]. cbn [lstrip_p]. destruct (p c); [|lia]. cbn [re_escape flat_map]. fold (re_escape s). rewrite app_length. lia. Qed.
Lemma blank_not_space c : blank c = false -> Ascii.eqb c space = false.
Proof. unfold blank. intros H. now apply Bool.orb_false_iff in H. Qed.
Lemma rmatch_esc_mid_none c t : rmatch esc_blank_re (c :: re_escape t) = None.
Proof.
  unfold rmatch, esc_blank_re, rplus. fold blank2. rewrite mt_seq. apply mt_blank2_no. pose proof (esc_head t) as H.
  destruct (re_escape t); [exact I|]. intros _. exact H.
Qed.
Lemma sub_blank s : re_sub_lit esc_blank_re blank_src (re_escape s) = flat_map blank_tok (squeeze blank [space] s).
Proof.
  unfold re_sub_lit.
  assert (H : forall m s n, length s <= m -> length (re_escape s) < n -> sub_go n esc_blank_re blank_src (re_escape s) = flat_map blank_tok (squeeze blank [space] s)).
  { clear s. induction m as [|m IH]; intros s n Hm Hn; destruct n as [|n]; try lia.
    - destruct s; [reflexivity|cbn in Hm; lia].
    - destruct s as [|c t]; [reflexivity|]. cbn [sub_go]. rewrite rmatch_esc_blank. destruct (blank c) eqn:Eb.
      + rewrite squeeze_run by exact Eb. cbn [app flat_map]. unfold blank_tok at 1. change (Ascii.eqb space space) with true. cbn iota.
        pose proof (lstrip_len blank t). pose proof (re_escape_lstrip blank t).
        cbn [re_escape flat_map] in *. rewrite (esc_blank c Eb) in *. cbn [app length] in *. fold (re_escape t) in *.
        destruct (S (S (length (re_escape t))) - length (re_escape (lstrip_p blank t))) eqn:El; [lia|].
        rewrite IH; [reflexivity|lia|lia].
      + cbn [squeeze]. rewrite Eb. cbn [flat_map]. unfold blank_tok at 1. rewrite (blank_not_space c Eb).
        cbn [re_escape flat_map] in *. fold (re_escape t) in *. unfold esc_c in *. destruct (special c).
        * cbn [app length] in *. destruct n as [|n]; [lia|]. cbn [sub_go]. rewrite rmatch_esc_mid_none. rewrite IH; [reflexivity|lia|lia].
        * cbn [app length] in *. rewrite IH; [reflexivity|lia|lia]. }
  apply (H (length s)); lia.
Qed.
Lemma squeeze_app_no p r a s : forallb (fun c => negb (p c)) a = true -> squeeze p r (a ++ s) = a ++ squeeze p r s.
Proof.
  induction a as [|c a IH]; intros H; [reflexivity|]. cbn [forallb] in H. apply Bool.andb_true_iff in H as [Hc H]. cbn [app squeeze].
  destruct (p c); [discriminate|]. now rewrite IH.
Qed.
Lemma dec_plain c : is_dec c = true -> special c = false.
Proof.
  intros H. assert (K : (negb (is_dec c) || negb (special c))%bool = true).
  { revert c H. intros c _. revert c. apply all_ascii. intros [] [] [] [] [] [] [] []; vm_compute; reflexivity. }
  rewrite H in K. now destruct (special c).
Qed.
Lemma esc_nodec c : is_dec c = false -> forallb (fun c => negb (is_dec c)) (esc_c c) = true.
Proof. intros H. unfold esc_c. destruct (special c); cbn [forallb]; rewrite H; reflexivity. Qed.
Lemma esc_dec c : is_dec c = true -> esc_c c = [c].
Proof. intros H. unfold esc_c. now rewrite (dec_plain c H). Qed.
Lemma lstrip_flat (f : ascii -> str) s : (forall c, is_dec c = true -> f c = [c]) -> (forall c, is_dec c = false -> f c <> [] /\ forallb (fun c => negb (is_dec c)) (f c) = true) ->
  lstrip_p is_dec (flat_map f s) = flat_map f (lstrip_p is_dec s).
Proof.
  intros H1 H2. induction s as [|c s IH]; [reflexivity|]. cbn [flat_map lstrip_p]. destruct (is_dec c) eqn:E.
  - rewrite (H1 c E). cbn [app lstrip_p]. now rewrite E.
  - destruct (H2 c E) as [K1 K2]. cbn [flat_map]. destruct (f c) as [|x l]; [congruence|]. cbn [app lstrip_p]. cbn [forallb] in K2.
    apply Bool.andb_true_iff in K2 as [K2 _]. now destruct (is_dec x).
Qed.
Lemma sub_digits (f : ascii -> str) s : (forall c, is_dec c = true -> f c = [c]) -> (forall c, is_dec c = false -> f c <> [] /\ forallb (fun c => negb (is_dec c)) (f c) = true) ->
  squeeze is_dec digit_src (flat_map f s) = flat_map (fun c => if is_dec c then digit_src else f c) (squeeze is_dec ["0"%char] s).
Proof.
  intros H1 H2. assert (H : forall n s, length s <= n -> squeeze is_dec digit_src (flat_map f s) = flat_map (fun c => if is_dec c then digit_src else f c) (squeeze is_dec ["0"%char] s)).
  { clear s. induction n as [|n IH]; intros s Hl; (destruct s as [|c t]; [reflexivity|]); [cbn in Hl; lia|]. cbn [length] in Hl. destruct (is_dec c) eqn:E.
    - cbn [flat_map]. rewrite (H1 c E). cbn [app]. rewrite !squeeze_run by exact E. cbn [app flat_map].
      change (is_dec "0") with true. cbn iota. rewrite (lstrip_flat f t H1 H2). rewrite IH; [reflexivity|]. pose proof (lstrip_len is_dec t). lia.
    - cbn [flat_map]. rewrite squeeze_app_no by apply (H2 c E). cbn [squeeze]. rewrite E. cbn [flat_map]. rewrite E. rewrite IH by lia. reflexivity. }
  now apply (H (length s)).
Qed.
Lemma set_digit s r : re_sub_lit digits_re r s = squeeze is_dec r s.
Proof.
  unfold digits_re. rewrite re_sub_set. assert (E : forall c, set_match false [CDigitC] c = is_dec c). { intros c. unfold set_match. cbn [existsb citem_match xorb]. rewrite Bool.orb_false_r. now destruct (is_dec c). }
  induction s as [|c s IH]; [reflexivity|]. cbn [squeeze]. rewrite E. destruct s as [|d s]; [cbn; reflexivity|]. rewrite E. now rewrite IH.
Qed.

(** ** [norm] by runs *)
Lemma norm_run xs xd c t r : run_of xs xd c = Some r ->
  norm xs xd (c :: t) = r :: norm xs xd (lstrip_p (fun d => same_run (Some r) (run_of xs xd d)) t).
Proof.
  revert c. induction t as [|d t IH]; intros c Hc; cbn [norm]; rewrite Hc; [reflexivity|]. cbn [lstrip_p].
  destruct (same_run (Some r) (run_of xs xd d)) eqn:E; [|reflexivity].
  assert (Hd : run_of xs xd d = Some r). { unfold same_run in E. destruct (run_of xs xd d) as [x|]; [|discriminate]. apply Ascii.eqb_eq in E. now subst. }
  specialize (IH d Hd). cbn [norm] in IH. exact IH.
Qed.
Lemma norm_plain xs xd c t : run_of xs xd c = None -> norm xs xd (c :: t) = c :: norm xs xd t.
Proof. intros H. cbn [norm]. now rewrite H. Qed.
Lemma lstrip_ext p q s : (forall c, p c = q c) -> lstrip_p p s = lstrip_p q s.
Proof. intros H. induction s as [|c s IH]; [reflexivity|]. cbn [lstrip_p]. now rewrite H, IH. Qed.
Lemma same_blank xd c : same_run (Some space) (run_of false xd c) = blank c.
Proof. unfold run_of. cbn [negb andb]. destruct (blank c); [reflexivity|]. destruct (negb xd && is_dec c)%bool; reflexivity. Qed.
Lemma blank_not_dec c : blank c = true -> is_dec c = false.
Proof. unfold blank. intros H. apply Bool.orb_true_iff in H as [H|H]; apply Ascii.eqb_eq in H; subst; reflexivity. Qed.
Lemma same_dec xs c : same_run (Some "0"%char) (run_of xs false c) = is_dec c.
Proof.
  unfold run_of. destruct (negb xs && blank c)%bool eqn:E.
  - apply Bool.andb_true_iff in E as [_ E]. now rewrite (blank_not_dec c E).
  - cbn [negb andb]. now destruct (is_dec c).
Qed.
Lemma lstrip_squeeze s : lstrip_p is_dec (squeeze blank [space] s) = squeeze blank [space] (lstrip_p is_dec s).
Proof.
  induction s as [|c s IH]; [reflexivity|]. cbn [lstrip_p]. destruct (is_dec c) eqn:E.
  - assert (Eb : blank c = false). { apply Bool.not_true_is_false. intros K. apply blank_not_dec in K. congruence. }
    cbn [squeeze]. rewrite Eb. cbn [lstrip_p]. now rewrite E.
  - destruct (blank c) eqn:Eb.
    + rewrite squeeze_run by exact Eb. reflexivity.
    + cbn [squeeze]. rewrite Eb. cbn [lstrip_p]. now rewrite E.
Qed.
Lemma norm_squeeze xs xd s : norm xs xd s =
  (if xd then fun x => x else squeeze is_dec ["0"%char]) ((if xs then fun x => x else squeeze blank [space]) s).
Proof.
  assert (H : forall n s, length s <= n -> norm xs xd s =
    (if xd then fun x => x else squeeze is_dec ["0"%char]) ((if xs then fun x => x else squeeze blank [space]) s)).
  { clear s. induction n as [|n IH]; intros s Hl; (destruct s as [|c t]; [now destruct xs, xd|]); [cbn in Hl; lia|]. cbn [length] in Hl.
    destruct (blank c) eqn:Eb; [destruct xs|destruct (is_dec c) eqn:Ed; [destruct xd|]].
    - rewrite norm_plain. 2:{ unfold run_of. rewrite (blank_not_dec c Eb), Bool.andb_false_r. reflexivity. }
      rewrite IH by lia. destruct xd; [reflexivity|]. cbn [squeeze]. now rewrite (blank_not_dec c Eb).
    - rewrite (norm_run false xd c t space). 2:{ unfold run_of. now rewrite Eb. }
      rewrite (lstrip_ext _ blank) by apply same_blank. rewrite squeeze_run by exact Eb. pose proof (lstrip_len blank t). rewrite IH by lia. now destruct xd.
    - rewrite norm_plain. 2:{ unfold run_of. now rewrite Eb, Bool.andb_false_r. } rewrite IH by lia. destruct xs; [reflexivity|]. cbn [squeeze]. now rewrite Eb.
    - rewrite (norm_run xs false c t "0"%char). 2:{ unfold run_of. now rewrite Eb, Bool.andb_false_r, Ed. }
      rewrite (lstrip_ext _ is_dec) by apply same_dec. pose proof (lstrip_len is_dec t). rewrite IH by lia. destruct xs.
      + now rewrite squeeze_run.
      + cbn [squeeze]. rewrite Eb. rewrite squeeze_run by exact Ed. now rewrite lstrip_squeeze.
    - rewrite norm_plain. 2:{ unfold run_of. now rewrite Eb, Bool.andb_false_r, Ed, Bool.andb_false_r. }
      rewrite IH by lia. destruct xs, xd; cbn [squeeze]; rewrite ?Eb, ?Ed; cbn [squeeze]; rewrite ?Ed; reflexivity. }
  now apply (H (length s)).
Qed.
Lemma blank_tok_dec c : is_dec c = true -> blank_tok c = [c].
Proof.
  intros H. unfold blank_tok. destruct (Ascii.eqb c space) eqn:E; [apply Ascii.eqb_eq in E; subst; discriminate|]. now apply esc_dec.
Qed.
Lemma blank_tok_nodec c : is_dec c = false -> blank_tok c <> [] /\ forallb (fun c => negb (is_dec c)) (blank_tok c) = true.
Proof.
  intros H. unfold blank_tok. destruct (Ascii.eqb c space); [split; [discriminate|reflexivity]|]. split; [|now apply esc_nodec].
  unfold esc_c. destruct (special c); discriminate.
Qed.
Lemma lit_source_norm xs xd s : lit_source xs xd s = flat_map (tok_src xs xd) (norm xs xd s).
Proof.
  unfold lit_source. rewrite norm_squeeze. destruct xs.
  - destruct xd; [reflexivity|]. rewrite set_digit. unfold re_escape. rewrite sub_digits.
    + apply flat_map_ext. intros c. unfold tok_src. cbn [negb andb]. reflexivity.
    + intros c. apply esc_dec.
    + intros c H. split; [unfold esc_c; destruct (special c); discriminate|now apply esc_nodec].
  - rewrite sub_blank. destruct xd.
    + apply flat_map_ext. intros c. unfold tok_src, blank_tok. cbn [negb andb]. reflexivity.
    + rewrite set_digit, sub_digits; [|intros c; apply blank_tok_dec|intros c; apply blank_tok_nodec].
      apply flat_map_ext. intros c. unfold tok_src, blank_tok. cbn [negb andb]. destruct (Ascii.eqb c space) eqn:E; [|reflexivity].
      apply Ascii.eqb_eq in E. subst. reflexivity.
Qed.

(** ** what the source of literal text matches *)
Definition tok_re (xs xd : bool) (c : ascii) : re :=
  if (negb xs && Ascii.eqb c space)%bool then blanks_re else if (negb xd && is_dec c)%bool then digs_re else rchar c.
Lemma emits_tok xs xd c : emits (tok_src xs xd c) [] [tok_re xs xd c].
Proof.
  unfold tok_src, tok_re. destruct (negb xs && Ascii.eqb c space)%bool; [apply emits_blank|].
  destruct (negb xd && is_dec c)%bool; [apply emits_digit|apply emits_esc].
Qed.
Definition lit_res (xs xd : bool) (l : str) : list re := map (tok_re xs xd) (norm xs xd l).
Lemma emits_lit xs xd l : emits (lit_source xs xd l) [] (lit_res xs xd l).
Proof.
  rewrite lit_source_norm. unfold lit_res. induction (norm xs xd l) as [|c n IH]; [apply emits_nil|]. cbn [flat_map map].
  apply (emits_app0 _ _ [_] _ (emits_tok xs xd c) IH).
Qed.
Notation rels ps := (rel (fold_right RSeq REps ps)).
Lemma rels_app ps qs : forall s c s' c', rels (ps ++ qs) s c s' c' <-> exists s1 c1, rels ps s c s1 c1 /\ rels qs s1 c1 s' c'.
Proof.
  induction ps as [|p ps IH]; intros s c s' c'; cbn [app fold_right].
  - cbn [rel]. split; [intros H; now exists s, c|intros (s1 & c1 & [-> ->] & H); exact H].
  - cbn [rel]. split.
    + intros (s1 & c1 & H1 & H2). apply IH in H2 as (s2 & c2 & H2 & H3). exists s2, c2. split; [|exact H3]. now exists s1, c1.
    + intros (s2 & c2 & (s1 & c1 & H1 & H2) & H3). exists s1, c1. split; [exact H1|]. apply IH. now exists s2, c2.
Qed.
Lemma rel_char x s c s' c' : rel (rchar x) s c s' c' <-> s = x :: s' /\ c' = c.
Proof.
  unfold rchar. cbn [rel]. unfold set_match. cbn [existsb citem_match xorb]. split.
  - intros (y & -> & H & ->). rewrite Bool.orb_false_r in H. destruct (Ascii.eqb x y) eqn:E; [|discriminate]. apply Ascii.eqb_eq in E. now subst.
  - intros (-> & ->). exists x. rewrite Bool.orb_false_r, Ascii.eqb_refl. auto.
Qed.
Lemma run_rep xs xd c r : run_of xs xd c = Some r -> run_of xs xd r = Some r.
Proof.
  unfold run_of. destruct (negb xs && blank c)%bool eqn:E1.
  - intros H. injection H as <-. apply Bool.andb_true_iff in E1 as [-> _]. reflexivity.
  - destruct (negb xd && is_dec c)%bool eqn:E2; [|discriminate]. intros H. injection H as <-. apply Bool.andb_true_iff in E2 as [-> _].
    cbn. rewrite Bool.andb_false_r. reflexivity.
Qed.
Lemma tok_run xs xd c r : run_of xs xd c = Some r ->
  exists items, tok_re xs xd r = rplus (RSet false items) /\ forall x, set_match false items x = same_run (Some r) (run_of xs xd x).
Proof.
  unfold run_of at 1. destruct (negb xs && blank c)%bool eqn:E1.
  - intros H. injection H as <-. apply Bool.andb_true_iff in E1 as [Hx _]. exists [CChar space; CChar tab]. split.
    + unfold tok_re. now rewrite Hx.
    + intros x. destruct xs; [discriminate|]. rewrite same_blank. unfold set_match, blank. cbn [existsb citem_match xorb].
      rewrite Bool.orb_false_r, (Ascii.eqb_sym x space), (Ascii.eqb_sym x tab). now destruct (_ || _)%bool.
  - destruct (negb xd && is_dec c)%bool eqn:E2; [|discriminate]. intros H. injection H as <-. apply Bool.andb_true_iff in E2 as [Hx _].
    exists [CDigitC]. split.
    + unfold tok_re. rewrite Hx. change (Ascii.eqb "0" space) with false. rewrite Bool.andb_false_r. reflexivity.
    + intros x. destruct xd; [discriminate|]. rewrite same_dec. unfold set_match. cbn [existsb citem_match xorb]. rewrite Bool.orb_false_r. now destruct (is_dec x).
Qed.
Lemma tok_plain xs xd c : run_of xs xd c = None -> tok_re xs xd c = rchar c.
Proof.
  unfold run_of, tok_re. destruct (negb xs && blank c)%bool eqn:E1; [discriminate|]. destruct (negb xd && is_dec c)%bool eqn:E2; [discriminate|].
  intros _. destruct xs; [reflexivity|]. cbn [negb andb] in *. now rewrite (blank_not_space c E1).
Qed.
(** the run of the first character survives normalisation *)
Definition head_run (xs xd : bool) (s : str) : option (option ascii) := match s with [] => None | c :: _ => Some (run_of xs xd c) end.
Lemma norm_head xs xd s : head_run xs xd (norm xs xd s) = head_run xs xd s.
Proof.
  destruct s as [|c t]; [reflexivity|]. destruct (run_of xs xd c) as [r|] eqn:E.
  - rewrite (norm_run xs xd c t r E). cbn [head_run]. now rewrite (run_rep xs xd c r E), E.
  - rewrite (norm_plain xs xd c t E). cbn [head_run]. now rewrite E.
Qed.
Lemma same_run_eq r x : same_run (Some r) x = true <-> x = Some r.
Proof. destruct x as [y|]; cbn; [|split; discriminate]. rewrite Ascii.eqb_eq. split; [intros ->; reflexivity|intros H; now injection H]. Qed.
Lemma lstrip_split p s : exists w, s = w ++ lstrip_p p s /\ Forall (fun x => p x = true) w.
Proof.
  induction s as [|c s (w & E & H)]; [now exists []|]. cbn [lstrip_p]. destruct (p c) eqn:Ec; [|now exists []].
  exists (c :: w). cbn [app]. rewrite <- E. split; [reflexivity|]. now constructor.
Qed.
Lemma lstrip_app p w s : Forall (fun x => p x = true) w -> lstrip_p p (w ++ s) = lstrip_p p s.
Proof. induction 1 as [|c w Hc _ IH]; [reflexivity|]. cbn [app lstrip_p]. now rewrite Hc. Qed.
Lemma lstrip_head p s : match lstrip_p p s with [] => True | c :: _ => p c = false end.
Proof. induction s as [|c s IH]; [exact I|]. cbn [lstrip_p]. destruct (p c) eqn:E; [exact IH|exact E]. Qed.
Lemma norm_nil xs xd s : norm xs xd s = [] -> s = [].
Proof.
  destruct s as [|c t]; [reflexivity|]. destruct (run_of xs xd c) as [r|] eqn:E; [rewrite (norm_run xs xd c t r E)|rewrite (norm_plain xs xd c t E)]; discriminate.
Qed.
Lemma rel_lit xs xd l s c s' c' : rels (lit_res xs xd l) s c s' c' <-> c' = c /\ exists t, s = t ++ s' /\ same_text xs xd l t.
Proof.
  unfold lit_res, same_text. revert s c s' c'.
  assert (H : forall n l, length l <= n -> forall s c s' c', rels (map (tok_re xs xd) (norm xs xd l)) s c s' c' <-> c' = c /\ exists t, s = t ++ s' /\ norm xs xd t = norm xs xd l).
  { clear l. induction n as [|n IH]; intros l Hl s c s' c'; (destruct l as [|x l]; [|]).
    1,3: (cbn [norm map fold_right rel]; split; [intros [-> ->]; split; [reflexivity|]; exists []; now split|
          intros (-> & t & -> & Ht); apply norm_nil in Ht; subst; now split]).
    1: (cbn in Hl; lia). cbn [length] in Hl.
    destruct (run_of xs xd x) as [r|] eqn:Er.
    - rewrite (norm_run xs xd x l r Er). set (p := fun d => same_run (Some r) (run_of xs xd d)). set (l' := lstrip_p p l).
      assert (Hl' : length l' <= n) by (pose proof (lstrip_len p l); unfold l'; lia).
      assert (Hh : match l' with [] => True | d :: _ => p d = false end) by apply lstrip_head.
      destruct (tok_run xs xd x r Er) as (items & Et & Hi).
      cbn [map fold_right]. rewrite Et. cbn [rel].
      change (exists s1 c1, rel (rplus (RSet false items)) s c s1 c1 /\ rels (map (tok_re xs xd) (norm xs xd l')) s1 c1 s' c') with
        (exists s1 c1, rel (rplus (RSet false items)) s c s1 c1 /\ rels (map (tok_re xs xd) (norm xs xd l')) s1 c1 s' c').
      split.
      + intros (s1 & c1 & H1 & H2). apply rel_plus_set in H1 as (-> & w & Hw & -> & Hr). apply (IH l' Hl') in H2 as (-> & t & -> & Ht).
        split; [reflexivity|]. exists (w ++ t). split; [now rewrite app_assoc|].
        assert (Hp : Forall (fun x => p x = true) w). { eapply Forall_impl; [|exact Hr]. intros a Ha. unfold p. now rewrite <- Hi. }
        destruct w as [|a w]; [congruence|]. inversion Hp as [|? ? Ha Hw']; subst. apply same_run_eq in Ha. cbn [app].
        rewrite (norm_run xs xd a (w ++ t) r Ha). fold p. rewrite (lstrip_app p w t Hw').
        replace (lstrip_p p t) with t; [now rewrite Ht|]. symmetry. apply lstrip_id.
        pose proof (norm_head xs xd t) as K1. pose proof (norm_head xs xd l') as K2. rewrite Ht, K2 in K1.
        destruct t as [|b t]; [exact I|]. destruct l' as [|d l']; [discriminate|]. cbn [head_run] in K1. injection K1 as K1. unfold p in *. now rewrite <- K1.
      + intros (-> & t & -> & Ht). destruct t as [|b t]; [discriminate|].
        pose proof (norm_head xs xd (b :: t)) as K1. rewrite Ht in K1. cbn [head_run] in K1. rewrite (run_rep xs xd x r Er) in K1. injection K1 as K1. symmetry in K1.
        rewrite (norm_run xs xd b t r K1) in Ht. fold p in Ht. injection Ht as Ht. destruct (lstrip_split p t) as (w & Ew & Hw).
        exists (lstrip_p p t ++ s'), c. split.
        * apply rel_plus_set. split; [reflexivity|]. exists (b :: w). split; [discriminate|]. split.
          -- cbn [app]. rewrite app_assoc. now rewrite <- Ew.
          -- constructor; [rewrite Hi, K1; cbn; apply Ascii.eqb_refl|]. eapply Forall_impl; [|exact Hw]. intros a Ha. rewrite Hi. exact Ha.
        * apply (IH l' Hl'). split; [reflexivity|]. now exists (lstrip_p p t).
    - rewrite (norm_plain xs xd x l Er). cbn [map fold_right]. rewrite (tok_plain xs xd x Er). cbn [rel].
      split.
      + intros (s1 & c1 & H1 & H2). apply rel_char in H1 as [-> ->]. apply (IH l ltac:(lia)) in H2 as (-> & t & -> & Ht). split; [reflexivity|].
        exists (x :: t). split; [reflexivity|]. rewrite (norm_plain xs xd x t Er). now rewrite Ht.
      + intros (-> & t & -> & Ht). destruct t as [|b t]; [discriminate|].
        pose proof (norm_head xs xd (b :: t)) as K1. rewrite Ht in K1. cbn [head_run] in K1. rewrite Er in K1. injection K1 as K1. symmetry in K1.
        rewrite (norm_plain xs xd b t K1) in Ht. injection Ht as -> Ht. exists (t ++ s'), c. split; [now apply rel_char|].
        apply (IH l ltac:(lia)). split; [reflexivity|]. now exists t. }
  apply (H (length l)). lia.
Qed.
